(** * Lemmas for the ratio and T/S diagrams: examples/rayleigh-diag.py, fanno-diag.py, massflow-diag.py *)
From Coq Require Import List Lia.
From Coquelicot Require Import Coquelicot.
From Verif Require Import L_Num Spec NumSpec RamjetSpec DiagramSpec M_Isentropic M_MassFlow M_Fanno M_Rayleigh M_Polar M_Ramjet M_Diagrams L_Isentropic L_MassFlow L_Fanno L_Rayleigh L_Polar L_Ramjet L_Diagrams.
Open Scope R_scope.

Lemma column (f f' : num -> num) a b n i x y : (1 <= n)%nat -> (i <= n)%nat -> f (Some (sample a b n i)) = Some x -> f' (Some (sample a b n i)) = Some y ->
  on_curve (curve (map f (mach_axis n (Some a) (Some b))) (map f' (mach_axis n (Some a) (Some b)))) i x y.
Proof.
  intros Hn Hi E E'. unfold on_curve, curve, mach_axis. cbn [d_x d_y]. unfold sample in *.
  split; rewrite nth_error_map, alpha_nth by assumption; cbn [option_map]; now rewrite ?E, ?E'.
Qed.
Lemma column1 (f' : num -> num) a b n i y : (1 <= n)%nat -> (i <= n)%nat -> f' (Some (sample a b n i)) = Some y ->
  on_curve (curve (mach_axis n (Some a) (Some b)) (map f' (mach_axis n (Some a) (Some b)))) i (sample a b n i) y.
Proof. intros Hn Hi E. rewrite <- (map_id (mach_axis n (Some a) (Some b))) at 1. now apply (column (fun x => x) f'). Qed.
Lemma column2 (f' : num -> num) a b n i x y : (1 <= n)%nat -> (i <= n)%nat -> sample a b n i = x -> f' (Some x) = Some y ->
  on_curve (curve (mach_axis n (Some a) (Some b)) (map f' (mach_axis n (Some a) (Some b)))) i x y.
Proof. intros Hn Hi <- E. now apply column1. Qed.
Lemma sample_pos a b n i : 0 < a -> a <= b -> (1 <= n)%nat -> (i <= n)%nat -> 0 < sample a b n i.
Proof. intros H1 H2 H3 H4. pose proof (alpha_between a b n i H3 H4 H2). unfold sample. lra. Qed.
Lemma static_one g M pi : static_p g M pi = pi / Rpower (tt g M) (g / (g - 1)).
Proof. unfold static_p. now rewrite tfun_tt. Qed.
(*@P C104_rayleigh: For every gamma > 1, Mach range 0 < a <= b and number n >= 1 of intervals, the two figures of rayleigh-diag.py have n + 1 finite points per curve, and at the i-th Mach number M (equally spaced from a to b) the five plotted ratios and the entropy describe one flow: multiplying the total temperature by 1/Ti leads, by mass and impulse conservation, from Mach M and total pressure Pi to the sonic state of total pressure 1; Ps, Ts and V are the static pressure, static temperature and velocity of that flow over the sonic ones; S = ln Ts - (gamma-1)/gamma ln Ps; and the T/S curve shows the same Ts against S. *)
Lemma rayleigh_figures : forall g a b n, 1 < g -> 0 < a -> a <= b -> (1 <= n)%nat ->
  exists cTi cTs cPi cPs cV, rayleigh_ratios n (Some g) (Some a) (Some b) = cTi :: cTs :: cPi :: cPs :: cV :: nil /\
  (forall d, In d (rayleigh_TS n (Some g) (Some a) (Some b) :: rayleigh_ratios n (Some g) (Some a) (Some b)) -> points_of d n (fun _ _ _ => True)) /\
  forall i, (i <= n)%nat -> let M := sample a b n i in exists Ti Ts Pi Ps V S,
    on_curve cTi i M Ti /\ on_curve cTs i M Ts /\ on_curve cPi i M Pi /\ on_curve cPs i M Ps /\ on_curve cV i M V /\
    on_curve (rayleigh_TS n (Some g) (Some a) (Some b)) i S Ts /\
    0 < Ti /\ 0 < Pi /\ duct_flow g (1 / Ti) M Pi 1 1 /\
    Ps = static_p g M Pi / static_p g 1 1 /\ Ts = Ti * (tfun g 1 / tfun g M) /\ V = M * sqrt Ts /\ S = ln Ts - (g - 1) / g * ln Ps.
Proof.
  intros g a b n Hg Ha Hab Hn. do 5 eexists. split; [reflexivity|].
  assert (K : forall i, (i <= n)%nat -> let M := sample a b n i in exists Ti Ts Pi Ps V S,
    Ra_Ti_Ticri (Some M) (Some g) = Some Ti /\ Ra_Ts_Tscri (Some M) (Some g) = Some Ts /\ Ra_Pi_Picri (Some M) (Some g) = Some Pi /\ Ra_Ps_Pscri (Some M) (Some g) = Some Ps /\
    Ra_V_Vcri (Some M) (Some g) = Some V /\ Ra_NormdS (Some M) (Some g) = Some S /\
    0 < Ti /\ 0 < Pi /\ duct_flow g (1 / Ti) M Pi 1 1 /\
    Ps = static_p g M Pi / static_p g 1 1 /\ Ts = Ti * (tfun g 1 / tfun g M) /\ V = M * sqrt Ts /\ S = ln Ts - (g - 1) / g * ln Ps).
  { intros i Hi M. assert (HM : 0 < M) by now apply sample_pos.
    destruct (rayleigh_consistent g M Hg HM) as (p & T & rho & V & Ti & Pi & dS & t & t1 & q & q1 & E1 & E2 & E3 & E4 & E5 & E6 & E7 & F1 & F2 & F3 & F4 & P1 & P2 & P3 & P4 & Q1 & Q2 & Q3 & Q4 & Q5 & Q6 & Q7 & _).
    exists Ti, T, Pi, p, V, dS. do 6 (split; [assumption|]).
    pose proof E5 as E5'. rewrite RaTi_eval in E5' by exact Hg. injection E5' as E5'. assert (PT : 0 < Ti) by (rewrite <- E5'; now apply ti_pos).
    pose proof E6 as E6'. destruct (pi_ratio_heat g M Hg) as (b1 & Hb1 & Eb1). rewrite Eb1 in E6'. injection E6' as E6'. assert (PP : 0 < Pi) by lra.
    split; [exact PT|]. split; [exact PP|].
    assert (T0 := tt_pos g M Hg). assert (T1 := tt_pos g 1 Hg). rewrite PtPs_eval in F3, F4 by (assumption || lra). injection F3 as F3. injection F4 as F4.
    assert (t = tt g M) by (change (Some (tt g M) = Some t) in F1; congruence). assert (t1 = tt g 1) by (change (Some (tt g 1) = Some t1) in F2; congruence). subst t t1.
    split.
    { apply (duct_rayleigh g (1 / Ti) M Pi 1 1 Ti Pi 1 1); try assumption; try lra; [apply Rdiv_lt_0_compat; lra| | | |].
      - rewrite RaTi_eval by exact Hg. f_equal. apply ti_one, Hg.
      - field. lra.
      - rewrite RaPi_eval by exact Hg. f_equal. rewrite fq_1 by exact Hg. rewrite Rpower_one_base || (unfold Rpower; rewrite ln_1, Rmult_0_r, exp_0). unfold rd. field. lra.
      - field. lra. }
    split. { rewrite !static_one. rewrite F3, F4. assert (0 < q) by (rewrite <- F3; apply Rpower_pos). assert (0 < q1) by (rewrite <- F4; apply Rpower_pos).
      replace p with (Pi * q1 / q) by (rewrite Q6; field; lra). field. lra. }
    split. { rewrite !tfun_tt. replace (Ti * (tt g 1 / tt g M)) with (Ti * tt g 1 / tt g M) by (field; lra). rewrite Q5. field. lra. }
    split; [exact Q4|exact Q7]. }
  split.
  - intros d Hd. split; [|split].
    1,2: cbn [In rayleigh_ratios rayleigh_TS] in Hd; cbv zeta in Hd; unfold rayleigh_TS, rayleigh_ratios, curve, mach_axis, logspace in Hd; cbn [In] in Hd; decompose [or] Hd; try contradiction; subst d; cbn [d_x d_y]; now rewrite ?map_length, linspace_length.
    intros i Hi. destruct (K i Hi) as (Ti & Ts & Pi & Ps & V & S & E1 & E2 & E3 & E4 & E5 & E6 & _).
    assert (W : exists x y, on_curve d i x y).
    { unfold rayleigh_TS, rayleigh_ratios in Hd. cbv zeta in Hd. cbn [In] in Hd. decompose [or] Hd; try contradiction; subst d;
        do 2 eexists; [eapply column|eapply column1|eapply column1|eapply column1|eapply column1|eapply column1]; eassumption. }
    destruct W as (x & y & A & B). exists x, y. auto.
  - intros i Hi M. destruct (K i Hi) as (Ti & Ts & Pi & Ps & V & S & E1 & E2 & E3 & E4 & E5 & E6 & R). exists Ti, Ts, Pi, Ps, V, S.
    split; [now apply column1|]. split; [now apply column1|]. split; [now apply column1|]. split; [now apply column1|]. split; [now apply column1|].
    split; [|exact R]. now apply column.
Qed.
Lemma ray_s_incr g x y : 1 < g -> 0 < x -> x < y -> y <= 1 -> ray_s g x < ray_s g y.
Proof.
  intros Hg Hx Hxy Hy. apply (strict_incr (ray_s g) _ x y Hxy (fun z Hz => ray_s_derive g z Hg ltac:(lra))).
  intros z Hz. pose proof (rd_pos g z Hg). assert (z ^ 2 < 1) by nra. pos.
Qed.
Lemma ray_s_decr g x y : 1 < g -> 1 <= x -> x < y -> ray_s g y < ray_s g x.
Proof.
  intros Hg Hx Hxy. apply (strict_decr (ray_s g) _ x y Hxy (fun z Hz => ray_s_derive g z Hg ltac:(lra))).
  intros z Hz. pose proof (rd_pos g z Hg). assert (1 < z ^ 2) by nra. assert (0 < z * rd g z) by pos.
  apply Ropp_lt_cancel. rewrite Ropp_0. replace (- (2 * (1 - z ^ 2) / (z * rd g z))) with (2 * (z ^ 2 - 1) / (z * rd g z)) by (field; lra). pos.
Qed.
Definition ray_t (g M : R) : R := M ^ 2 * ((g + 1) / rd g M) ^ 2.
Lemma rayleigh_TS_point g a b n i S T : 1 < g -> 0 < a -> a <= b -> (1 <= n)%nat -> (i <= n)%nat ->
  on_curve (rayleigh_TS n (Some g) (Some a) (Some b)) i S T -> S = ray_s g (sample a b n i) /\ T = ray_t g (sample a b n i).
Proof.
  intros Hg Ha Hab Hn Hi H. assert (HM := sample_pos a b n i Ha Hab Hn Hi).
  assert (C : on_curve (rayleigh_TS n (Some g) (Some a) (Some b)) i (ray_s g (sample a b n i)) (ray_t g (sample a b n i))) by (apply column; [assumption|assumption|now apply RaS_eval|now apply RaTs_eval]).
  exact (on_curve_inj _ _ _ _ _ _ H C).
Qed.
(*@P C104_rayleigh_TS: On the Rayleigh T/S curve, for every gamma > 1, Mach range and number of points: the entropy strictly increases from point to point up to Mach 1 and strictly decreases beyond, it is negative everywhere but at Mach 1; no temperature exceeds (gamma+1)^2/(4 gamma), which is reached exactly at M^2 = 1/gamma, so that in between heating cools the gas; and the two branches do not cross: of two points of equal entropy the one of smaller Mach number is the hotter. *)
Lemma rayleigh_TS_shape : forall g a b n, 1 < g -> 0 < a -> a < b -> (1 <= n)%nat ->
  forall i j S T S' T', (i <= n)%nat -> (j <= n)%nat -> let M := sample a b n i in let M' := sample a b n j in
  on_curve (rayleigh_TS n (Some g) (Some a) (Some b)) i S T -> on_curve (rayleigh_TS n (Some g) (Some a) (Some b)) j S' T' ->
  (M < M' <= 1 -> S < S') /\ (1 <= M < M' -> S' < S) /\ (M <> 1 -> S < 0) /\ (M = 1 -> S = 0 /\ T = 1) /\
  T <= (g + 1) ^ 2 / (4 * g) /\ (T = (g + 1) ^ 2 / (4 * g) <-> M ^ 2 = 1 / g) /\ (M < M' -> 1 / g <= M ^ 2 -> T' < T) /\
  (S = S' -> M < M' -> T' < T).
Proof.
  intros g a b n Hg Ha Hab Hn i j S T S' T' Hi Hj M M' A B.
  destruct (rayleigh_TS_point g a b n i S T Hg Ha ltac:(lra) Hn Hi A) as [-> ->]. destruct (rayleigh_TS_point g a b n j S' T' Hg Ha ltac:(lra) Hn Hj B) as [-> ->].
  fold M M'. assert (HM : 0 < M) by (apply sample_pos; (assumption || lra)). assert (HM' : 0 < M') by (apply sample_pos; (assumption || lra)).
  pose proof (rd_pos g M Hg) as D. pose proof (rd_pos g M' Hg) as D'. clearbody M M'. clear - Hg HM HM' D D'.
  assert (G : (g + 1) ^ 2 / (4 * g) - ray_t g M = ((g + 1) * (1 - g * M ^ 2) / rd g M) ^ 2 / (4 * g)) by (unfold ray_t, rd in *; field; lra).
  split; [intros [H1 H2]; now apply ray_s_incr|]. split; [intros [H1 H2]; now apply ray_s_decr|]. split; [intros H; now apply ray_s_neg|].
  split; [intros ->; split; [now apply ray_s_1|unfold ray_t, rd; field; lra]|].
  set (u := (g + 1) * (1 - g * M ^ 2) / rd g M) in *. assert (0 <= u ^ 2 / (4 * g)) by (apply Rdiv_le_0_compat; [apply pow2_ge_0|lra]).
  split; [lra|]. split.
  - split; intros H1.
    + assert (Z : u ^ 2 / (4 * g) * (4 * g) = 0) by (rewrite <- G, H1; ring). replace (u ^ 2 / (4 * g) * (4 * g)) with (u ^ 2) in Z by (field; lra).
      assert (u = 0) by nra. assert (Z2 : u * rd g M = 0) by (rewrite H0; ring). unfold u in Z2. replace ((g + 1) * (1 - g * M ^ 2) / rd g M * rd g M) with ((g + 1) * (1 - g * M ^ 2)) in Z2 by (field; lra).
      assert (1 - g * M ^ 2 = 0) by (apply Rmult_integral in Z2; lra). apply Rmult_eq_reg_l with g; [|lra]. replace (g * (1 / g)) with 1 by (field; lra). lra.
    + assert (u = 0). { unfold u. rewrite H1. field. lra. } rewrite H0 in G. replace (0 ^ 2 / (4 * g)) with 0 in G by (field; lra). lra.
  - split.
    + intros L Hq. assert (1 <= g * M ^ 2) by (apply (Rmult_le_compat_l g) in Hq; [|lra]; replace (g * (1 / g)) with 1 in Hq by (field; lra); exact Hq).
      assert (E : ray_t g M - ray_t g M' = (g + 1) ^ 2 * ((M' - M) * (M' + M)) * (g * M * (g * M * M' ^ 2) - 1) / (rd g M ^ 2 * rd g M' ^ 2)) by (unfold ray_t, rd in *; field; lra).
      assert (1 < g * M * (g * M * M' ^ 2)). { replace (g * M * (g * M * M' ^ 2)) with ((g * M ^ 2) * (g * M' ^ 2)) by ring. assert (M ^ 2 < M' ^ 2) by nra. assert (1 < g * M' ^ 2) by nra. nra. }
      assert (0 < (g + 1) ^ 2 * ((M' - M) * (M' + M)) * (g * M * (g * M * M' ^ 2) - 1) / (rd g M ^ 2 * rd g M' ^ 2)) by pos. lra.
    + intros E L. assert (Pp : forall x, 0 < x -> 0 < rd g x -> ray_s g x = ln (ray_t g x) - (g - 1) / g * ln ((g + 1) / rd g x)).
      { intros x Hx Hd. assert (0 < (g + 1) / rd g x) by pos. unfold ray_s, ray_t. rewrite ln_mult by pos. replace (x ^ 2) with (x * x) by ring. replace (((g + 1) / rd g x) ^ 2) with ((g + 1) / rd g x * ((g + 1) / rd g x)) by ring.
        rewrite !ln_mult by assumption. rewrite ln_div by lra. field. lra. }
      rewrite (Pp M), (Pp M') in E by assumption.
      assert (rd g M < rd g M') by (assert (M ^ 2 < M' ^ 2) by (clear - HM L; nra); unfold rd; apply Rplus_lt_compat_l, Rmult_lt_compat_l; [lra|assumption]).
      assert (Lp : ln ((g + 1) / rd g M') < ln ((g + 1) / rd g M)). { apply ln_increasing; [pos|]. apply Rmult_lt_compat_l; [lra|]. apply Rinv_lt_contravar; [pos|assumption]. }
      assert (0 < (g - 1) / g) by pos. assert (ln (ray_t g M') < ln (ray_t g M)) by nra. apply ln_lt_inv; [| |assumption]; unfold ray_t; pos.
Qed.
(*@P C104_fanno: For every gamma > 1, Mach range 0 < a <= b and number n >= 1 of intervals, the figures of fanno-diag.py have n + 1 finite points per curve, and at the i-th Mach number M the plotted values describe one flow: mass conservation at constant total temperature leads from Mach M and total pressure Pi to the sonic state of total pressure 1; Ps, Ts and V are its static pressure, static temperature and velocity over the sonic ones, S = ln Ts - (gamma-1)/gamma ln Ps; friction takes impulse away on the way to Mach 1; the Fanno parameter F is positive except at Mach 1, where it is 0, decreases on the subsonic and increases on the supersonic side. *)
Lemma fanno_figures : forall g a b n, 1 < g -> 0 < a -> a <= b -> (1 <= n)%nat ->
  exists cF cTs cPs cPi cV, fanno_ratios n (Some g) (Some a) (Some b) = cF :: cTs :: cPs :: cPi :: cV :: nil /\
  (forall d, In d (fanno_TS n (Some g) (Some a) (Some b) :: fanno_ratios n (Some g) (Some a) (Some b)) -> points_of d n (fun _ _ _ => True)) /\
  (forall i, (i <= n)%nat -> let M := sample a b n i in exists F Ts Pi Ps V S,
    on_curve cF i M F /\ on_curve cTs i M Ts /\ on_curve cPi i M Pi /\ on_curve cPs i M Ps /\ on_curve cV i M V /\
    on_curve (fanno_TS n (Some g) (Some a) (Some b)) i S Ts /\
    0 < Pi /\ adiabatic_duct g M Pi 1 1 /\ impulse g 1 1 <= impulse g M Pi /\ (impulse g 1 1 = impulse g M Pi <-> M = 1) /\
    Ps = static_p g M Pi / static_p g 1 1 /\ Ts = tfun g 1 / tfun g M /\ V = M * sqrt Ts /\ S = ln Ts - (g - 1) / g * ln Ps /\ 0 <= F /\ (F = 0 <-> M = 1)) /\
  (forall i j M F M' F', (i <= n)%nat -> (j <= n)%nat -> on_curve cF i M F -> on_curve cF j M' F' -> (M < M' <= 1 -> F' < F) /\ (1 <= M < M' -> F < F')).
Proof.
  intros g a b n Hg Ha Hab Hn. do 5 eexists. split; [reflexivity|].
  assert (K : forall i, (i <= n)%nat -> let M := sample a b n i in exists F Ts Pi Ps V S,
    Fa_maxFparam_Mach (Some M) (Some g) = Some F /\ Fa_Ts_Tscri (Some M) (Some g) = Some Ts /\ Fa_Pi_Picri (Some M) (Some g) = Some Pi /\ Fa_Ps_Pscri (Some M) (Some g) = Some Ps /\
    Fa_V_Vcri (Some M) (Some g) = Some V /\ Fa_NormdS (Some M) (Some g) = Some S /\
    0 < Pi /\ adiabatic_duct g M Pi 1 1 /\ impulse g 1 1 <= impulse g M Pi /\ (impulse g 1 1 = impulse g M Pi <-> M = 1) /\
    Ps = static_p g M Pi / static_p g 1 1 /\ Ts = tfun g 1 / tfun g M /\ V = M * sqrt Ts /\ S = ln Ts - (g - 1) / g * ln Ps /\ 0 <= F /\ (F = 0 <-> M = 1)).
  { intros i Hi M. assert (HM : 0 < M) by now apply sample_pos.
    destruct (fanno_consistent g M Hg HM) as (p & T & rho & V & Pi & dS & t & t1 & q & q1 & E1 & E2 & E3 & E4 & E6 & E7 & F1 & F2 & F3 & F4 & P1 & P2 & P3 & P4 & Q1 & Q2 & Q3 & Q4 & Q6 & Q5 & Q7 & _).
    destruct (fparam_min g M Hg HM) as (F & EF & PF & ZF).
    exists F, T, Pi, p, V, dS. do 6 (split; [assumption|]).
    assert (T0 := tt_pos g M Hg). assert (T1 := tt_pos g 1 Hg). rewrite PtPs_eval in F3, F4 by (assumption || lra). injection F3 as F3. injection F4 as F4.
    assert (t = tt g M) by (change (Some (tt g M) = Some t) in F1; congruence). assert (t1 = tt g 1) by (change (Some (tt g 1) = Some t1) in F2; congruence). subst t t1.
    assert (E6' := E6). rewrite FaPi_eval in E6' by assumption. injection E6' as E6'. assert (PP : 0 < Pi) by (rewrite <- E6'; apply sig_pos).
    assert (Eq : 0 < q) by (rewrite <- F3; apply Rpower_pos). assert (Eq1 : 0 < q1) by (rewrite <- F4; apply Rpower_pos).
    assert (Sp : p = static_p g M Pi / static_p g 1 1). { rewrite !static_one. rewrite F3, F4. replace p with (Pi * q1 / q) by (rewrite Q6; field; lra). field. lra. }
    assert (Ad : adiabatic_duct g M Pi 1 1). { unfold adiabatic_duct. rewrite !flux_sig by (assumption || lra). rewrite (sig_1 g Hg), E6'. field. lra. }
    split; [exact PP|]. split; [exact Ad|].
    assert (I1 : 0 < impulse g M Pi /\ 0 < impulse g 1 1 /\ (impulse g 1 1 / impulse g M Pi) ^ 2 = ray_ti g M).
    { destruct (flux_impulse g M Pi Hg HM PP) as [A1 A2]. destruct (flux_impulse g 1 1 Hg ltac:(lra) ltac:(lra)) as [B1 B2]. split; [exact A1|]. split; [exact B1|].
      unfold adiabatic_duct in Ad. assert (0 < RamjetSpec.mass_flux g 1 1) by (rewrite flux_sig by lra; rewrite (sig_1 g Hg); pose proof (Rpower_pos (2 / (g + 1)) (sexp g)); lra).
      rewrite Ad in A2. rewrite ti_one in B2 by exact Hg. set (m := RamjetSpec.mass_flux g 1 1) in *.
      replace ((impulse g 1 1 / impulse g M Pi) ^ 2) with ((m / impulse g M Pi) ^ 2 / (m / impulse g 1 1) ^ 2) by (field; lra). rewrite A2, B2. field. lra. }
    destruct I1 as (I1 & I2 & I3). set (x := impulse g 1 1 / impulse g M Pi) in *. assert (0 < x) by (unfold x; pos).
    assert (Ex : impulse g 1 1 = x * impulse g M Pi) by (unfold x; field; lra).
    pose proof (ti_le1 g M Hg) as L1. assert (x <= 1) by nra.
    split; [rewrite Ex; nra|]. split.
    { destruct (rayleigh_ti_max g M Hg ltac:(lra)) as (t & Et & _ & U). rewrite RaTi_eval in Et by exact Hg. injection Et as Et. rewrite Et in I3. split; intros H1.
      - apply U. rewrite <- I3. assert (x = 1) by (unfold x; rewrite H1; field; lra). rewrite H2. ring.
      - apply U in H1. assert (x = 1) by nra. rewrite Ex, H2. ring. }
    split; [exact Sp|]. split. { rewrite !tfun_tt. replace T with (T * tt g M / tt g M) by (field; lra). rewrite Q3. field. lra. }
    split; [exact Q4|]. split; [|split; [exact PF|exact ZF]].
    rewrite Q7. replace Pi with (p * q / q1) by (rewrite <- Q6; field; lra). rewrite <- F3, <- F4. rewrite ln_div by (try apply Rpower_pos; pose proof (Rpower_pos (tt g M) (g / (g - 1))); pos). rewrite ln_mult by (assumption || apply Rpower_pos).
    unfold Rpower. rewrite !ln_exp. replace T with (T * tt g M / tt g M) by (field; lra). rewrite Q3, Rmult_1_l. rewrite ln_div by assumption. field. lra. }
  split; [|split].
  - intros d Hd. split; [|split].
    1,2: unfold fanno_TS, fanno_ratios, curve, mach_axis, logspace in Hd; cbn [In] in Hd; decompose [or] Hd; try contradiction; subst d; cbn [d_x d_y]; now rewrite ?map_length, linspace_length.
    intros i Hi. destruct (K i Hi) as (Ti & Ts & Pi & Ps & V & S & E1 & E2 & E3 & E4 & E5 & E6 & _).
    assert (W : exists x y, on_curve d i x y).
    { unfold fanno_TS, fanno_ratios in Hd. cbv zeta in Hd. cbn [In] in Hd. decompose [or] Hd; try contradiction; subst d;
        do 2 eexists; [eapply column|eapply column1|eapply column1|eapply column1|eapply column1|eapply column1]; eassumption. }
    destruct W as (x & y & A & B). exists x, y. auto.
  - intros i Hi M. destruct (K i Hi) as (Ti & Ts & Pi & Ps & V & S & E1 & E2 & E3 & E4 & E5 & E6 & R). exists Ti, Ts, Pi, Ps, V, S.
    split; [now apply column1|]. split; [now apply column1|]. split; [now apply column1|]. split; [now apply column1|]. split; [now apply column1|].
    split; [|exact R]. now apply column.
  - intros i j M F M' F' Hi Hj A B. assert (HM := sample_pos a b n i Ha Hab Hn Hi). assert (HM' := sample_pos a b n j Ha Hab Hn Hj).
    assert (A' : on_curve (curve (mach_axis n (Some a) (Some b)) (map (fun m => Fa_maxFparam_Mach m (Some g)) (mach_axis n (Some a) (Some b)))) i (sample a b n i) (ffp g (sample a b n i))) by (apply column1; auto using Ff_eval).
    assert (B' : on_curve (curve (mach_axis n (Some a) (Some b)) (map (fun m => Fa_maxFparam_Mach m (Some g)) (mach_axis n (Some a) (Some b)))) j (sample a b n j) (ffp g (sample a b n j))) by (apply column1; auto using Ff_eval).
    destruct (on_curve_inj _ _ _ _ _ _ A A') as [-> ->]. destruct (on_curve_inj _ _ _ _ _ _ B B') as [-> ->].
    split; intros [H1 H2]; [now apply ffp_decr|now apply ffp_incr].
Qed.
Lemma fanno_TS_point g a b n i S T : 1 < g -> 0 < a -> a <= b -> (1 <= n)%nat -> (i <= n)%nat ->
  on_curve (fanno_TS n (Some g) (Some a) (Some b)) i S T -> S = - ((g - 1) / g) * lsig g (sample a b n i) /\ T = / fq g (sample a b n i).
Proof.
  intros Hg Ha Hab Hn Hi H. assert (HM := sample_pos a b n i Ha Hab Hn Hi).
  assert (C : on_curve (fanno_TS n (Some g) (Some a) (Some b)) i (- ((g - 1) / g) * lsig g (sample a b n i)) (/ fq g (sample a b n i))) by (apply column; [assumption|assumption|now apply FaS_eval|now apply FaTs_eval]).
  exact (on_curve_inj _ _ _ _ _ _ H C).
Qed.
(*@P C104_fanno_TS: On the Fanno T/S curve, for every gamma > 1, Mach range and number of points: the temperature strictly decreases from point to point, the entropy strictly increases up to Mach 1 and strictly decreases beyond, and it is negative everywhere but at Mach 1. *)
Lemma fanno_TS_shape : forall g a b n, 1 < g -> 0 < a -> a < b -> (1 <= n)%nat ->
  forall i j S T S' T', (i <= n)%nat -> (j <= n)%nat -> let M := sample a b n i in let M' := sample a b n j in
  on_curve (fanno_TS n (Some g) (Some a) (Some b)) i S T -> on_curve (fanno_TS n (Some g) (Some a) (Some b)) j S' T' ->
  ((i < j)%nat -> M < M' /\ T' < T) /\ (M < M' <= 1 -> S < S') /\ (1 <= M < M' -> S' < S) /\ (M <> 1 -> S < 0) /\ (M = 1 -> S = 0 /\ T = 1).
Proof.
  intros g a b n Hg Ha Hab Hn i j S T S' T' Hi Hj M M' A B.
  destruct (fanno_TS_point g a b n i S T Hg Ha ltac:(lra) Hn Hi A) as [-> ->]. destruct (fanno_TS_point g a b n j S' T' Hg Ha ltac:(lra) Hn Hj B) as [-> ->].
  fold M M'. assert (HM : 0 < M) by (apply sample_pos; (assumption || lra)). assert (HM' : 0 < M') by (apply sample_pos; (assumption || lra)).
  assert (Sm : (i < j)%nat -> M < M') by (intros; now apply sample_incr). clearbody M M'. assert (Hk : 0 < (g - 1) / g) by pos.
  split; [intros H; specialize (Sm H); split; [exact Sm|]|split; [|split; [|split]]].
  - pose proof (fq_pos g M Hg). apply Rinv_lt_contravar; [pose proof (fq_pos g M' Hg); pos|]. unfold fq. apply Rmult_lt_compat_l; [pos|]. assert (M ^ 2 < M' ^ 2) by (clear - HM Sm; nra). unfold tt. apply Rplus_lt_compat_l, Rmult_lt_compat_l; [lra|assumption].
  - intros [H1 H2]. pose proof (lsig_decr g M M' Hg HM H1 H2). nra.
  - intros [H1 H2]. pose proof (lsig_incr g M M' Hg H1 H2). nra.
  - intros N. pose proof (sig_gt_1 g M Hg HM N) as Q. unfold sig in Q. rewrite <- exp_0 in Q. apply exp_lt_inv in Q. nra.
  - intros ->. rewrite lsig_1, fq_1 by assumption. split; [ring|field].
Qed.
Lemma wmf_flux g M : 1 < g -> 0 < M -> wmf g M = sqrt g * RamjetSpec.mass_flux g M 1.
Proof.
  intros Hg HM. unfold wmf, RamjetSpec.mass_flux, static_p. rewrite tfun_tt. assert (T := tt_pos g M Hg). rewrite <- (Rpower_sqrt _ T).
  replace (1 / Rpower (tt g M) (g / (g - 1))) with (Rpower (tt g M) (- (g / (g - 1)))) by (rewrite Rpower_Ropp; field; pose proof (Rpower_pos (tt g M) (g / (g - 1))); lra).
  replace (-1 / 2 * (g + 1) / (g - 1)) with (- (g / (g - 1)) + / 2) by (field; lra). rewrite Rpower_plus. ring.
Qed.
(*@P C104_massflow: The two curves of massflow-diag.py (gamma = 1.4), for every Mach range 0 < a <= b and number n >= 1 of intervals, are finite at all n + 1 Mach numbers M: the mass flow of unit total pressure through a unit area (in units of Pt / sqrt(r Tt)), and the ratio of its value at Mach 1 to it. Their product is the same at all points; the first is largest, the second smallest, and equal to 1, exactly at Mach 1. *)
Lemma massflow_figures : forall a b n, 0 < a -> a <= b -> (1 <= n)%nat ->
  exists cW cS, massflow_curves n (Some air) (Some a) (Some b) = cW :: cS :: nil /\
  points_of cW n (fun i M W => M = sample a b n i /\ W = sqrt air * RamjetSpec.mass_flux air M 1 /\ (M <> 1 -> W < sqrt air * RamjetSpec.mass_flux air 1 1)) /\
  points_of cS n (fun i M s => M = sample a b n i /\ s * (sqrt air * RamjetSpec.mass_flux air M 1) = sqrt air * RamjetSpec.mass_flux air 1 1 /\ 1 <= s /\ (s = 1 <-> M = 1)).
Proof.
  intros a b n Ha Hab Hn. pose proof air_gt1 as G. do 2 eexists. split; [reflexivity|]. unfold points_of. cbn [d_x d_y curve].
  assert (L : List.length (mach_axis n (Some a) (Some b)) = S n) by (unfold mach_axis, logspace; rewrite !map_length; apply linspace_length).
  split; (split; [exact L|split; [rewrite map_length; exact L|]]); intros i Hi; assert (HM := sample_pos a b n i Ha Hab Hn Hi); set (M := sample a b n i) in *.
  - destruct (column1 (fun m => WeightMassFlow m (Some air) dgamma) a b n i (wmf air M) Hn Hi ltac:(apply (WMF_eval M _ air G))) as [A B].
    exists M, (wmf air M). split; [exact A|]. split; [exact B|]. split; [reflexivity|]. split; [now apply wmf_flux|].
    intros N. rewrite <- (wmf_flux air 1 G ltac:(lra)). pose proof (sig_gt_1 air M G HM N) as Q. rewrite sig_wmf in Q by assumption. pose proof (wmf_pos air M G HM).
    apply (Rmult_lt_compat_r (wmf air M)) in Q; [|assumption]. replace (wmf air 1 / wmf air M * wmf air M) with (wmf air 1) in Q by (field; lra). lra.
  - destruct (column1 (fun m => Sigma_Mach m (Some air)) a b n i (sig air M) Hn Hi ltac:(now apply Sigma_eval)) as [A B].
    exists M, (sig air M). split; [exact A|]. split; [exact B|]. split; [reflexivity|]. rewrite <- !wmf_flux by (assumption || lra). pose proof (wmf_pos air M G HM).
    split; [rewrite sig_wmf by assumption; field; lra|]. destruct (Req_dec M 1) as [E|N].
    + rewrite E, sig_1 by exact G. split; [lra|tauto].
    + pose proof (sig_gt_1 air M G HM N). split; [lra|]. split; intros; [lra|contradiction].
Qed.
(*@P C104_gamma_refuted: The mass flow curve of massflow-diag.py does not depend on its constant gam (the second argument of WeightMassFlow is r, and is unused): with gam = 3, at Mach 1 it is not the mass flow of that gas; the Sigma curve, which uses gam, is then not the ratio of the plotted mass flows either. *)
Lemma massflow_gamma : (forall g g' a b n, nth_error (massflow_curves n g a b) 0 = nth_error (massflow_curves n g' a b) 0) /\
  exists cW cS W W2 s2, massflow_curves 1 (Some 3) (Some 1) (Some 2) = cW :: cS :: nil /\
  on_curve cW 0 1 W /\ W < sqrt 3 * RamjetSpec.mass_flux 3 1 1 /\ on_curve cW 1 2 W2 /\ on_curve cS 1 2 s2 /\ s2 * W2 <> W.
Proof.
  split; [reflexivity|]. do 2 eexists. exists (wmf air 1), (wmf air 2), (sig 3 2). split; [reflexivity|]. pose proof air_gt1 as G.
  assert (S0 : sample 1 2 1 0 = 1) by (apply sample_first; lia). assert (S1 : sample 1 2 1 1 = 2) by (apply sample_last; lia).
  assert (Q : forall x, 0 < x -> Rpower x (-1 / 2 * (air + 1) / (air - 1)) = / x ^ 3).
  { intros x Hx. replace (-1 / 2 * (air + 1) / (air - 1)) with (- INR 3) by (unfold air; cbn [INR]; field). rewrite Rpower_Ropp, Rpower_pow by exact Hx. reflexivity. }
  assert (W1 : wmf air 1 = sqrt air * / (12/10) ^ 3) by (unfold wmf; rewrite Q by (apply tt_pos, G); unfold tt, air; rewrite Rmult_1_r; do 3 f_equal; field).
  assert (W2 : wmf air 2 = sqrt air * 2 * / (18/10) ^ 3) by (unfold wmf; rewrite Q by (apply tt_pos, G); unfold tt, air; do 3 f_equal; field).
  assert (W3 : sqrt 3 * RamjetSpec.mass_flux 3 1 1 = sqrt 3 * / 2).
  { rewrite <- wmf_flux by lra. unfold wmf. replace (-1 / 2 * (3 + 1) / (3 - 1)) with (Ropp 1) by field. rewrite Rpower_Ropp, Rpower_1 by (apply tt_pos; lra). unfold tt. field. }
  assert (W4 : sig 3 2 = 5 / 4).
  { rewrite sig_form by lra. replace (sexp 3) with 1 by (unfold sexp; field). rewrite Rpower_1 by (unfold tt; lra). unfold tt. field. }
  pose proof (sqrt_lt_R0 air ltac:(lra)) as P. pose proof (sqrt_sqrt air ltac:(lra)) as P2. pose proof (sqrt_lt_R0 3 ltac:(lra)) as P3. pose proof (sqrt_sqrt 3 ltac:(lra)) as P4.
  split; [apply column2; [lia|lia|exact S0|]; apply (WMF_eval 1 _ air G)|].
  split. { rewrite W1, W3. unfold air in P, P2 |- *. assert (sqrt (14/10) < 12/10) by nra. assert (17/10 < sqrt 3) by nra. lra. }
  split; [apply column2; [lia|lia|exact S1|]; apply (WMF_eval 2 _ air G)|].
  split; [apply column2; [lia|lia|exact S1|]; apply Sigma_eval; lra|].
  rewrite W1, W2, W4. lra.
Qed.
(*@P C104_sonic_missed: With the scripts' own settings (Mach 0.1 to 4, 200 or 100 intervals, gamma = 1.4) no plotted point is at Mach 1: every point of both T/S curves has negative entropy and every point of the Sigma curve is above 1, so no drawn curve reaches its sonic value 1 or its entropy maximum 0. *)
Lemma sonic_missed : forall i, (i <= 200)%nat -> sample (1/10) 4 200 i <> 1 /\ ((i <= 100)%nat -> sample (1/10) 4 100 i <> 1) /\
  (forall S T, on_curve (rayleigh_TS 200 (Some air) (Some (1/10)) (Some 4)) i S T -> S < 0) /\
  (forall S T, (i <= 100)%nat -> on_curve (fanno_TS 100 (Some air) (Some (1/10)) (Some 4)) i S T -> S < 0) /\
  (forall M s, (i <= 100)%nat -> on_curve (nth 1 (massflow_curves 100 (Some air) (Some (1/10)) (Some 4)) (curve nil nil)) i M s -> 1 < s).
Proof.
  intros i Hi. pose proof air_gt1 as G.
  assert (I200 : INR 200 = 200) by (rewrite INR_IZR_INZ; reflexivity). assert (I100 : INR 100 = 100) by (rewrite INR_IZR_INZ; reflexivity).
  assert (A : sample (1/10) 4 200 i <> 1).
  { unfold sample. rewrite I200. intros E. assert (K : INR i * 39 = 1800) by lra. rewrite INR_IZR_INZ in K. rewrite <- mult_IZR in K. apply eq_IZR in K. lia. }
  assert (B : sample (1/10) 4 100 i <> 1).
  { unfold sample. rewrite I100. intros E. assert (K : INR i * 39 = 900) by lra. rewrite INR_IZR_INZ in K. rewrite <- mult_IZR in K. apply eq_IZR in K. lia. }
  split; [exact A|]. split; [intros _; exact B|]. split; [|split].
  - intros S T H. destruct (rayleigh_TS_shape air (1/10) 4 200 G ltac:(lra) ltac:(lra) ltac:(lia) i i S T S T Hi Hi H H) as (_ & _ & Q & _). exact (Q A).
  - intros S T H1 H. destruct (fanno_TS_shape air (1/10) 4 100 G ltac:(lra) ltac:(lra) ltac:(lia) i i S T S T H1 H1 H H) as (_ & _ & _ & Q & _). exact (Q B).
  - intros M s H1 H. destruct (massflow_figures (1/10) 4 100 ltac:(lra) ltac:(lra) ltac:(lia)) as (cW & cS & E & _ & _ & _ & Q). rewrite E in H. cbn [nth] in H.
    destruct (Q i H1) as (x & y & X & Y & Em & _ & Q1 & Q2). destruct (on_curve_inj _ _ _ _ _ _ H (conj X Y)) as [-> ->]. destruct (Req_dec y 1) as [Z|]; [apply Q2 in Z; congruence|lra].
Qed.
(*@E C104_example: Three Mach numbers 1/2, 1, 3/2 with gamma = 3: the middle point of the Rayleigh T/S curve is (0, 1), and that of the Fanno curve too. *)
Lemma diagrams_example : on_curve (rayleigh_TS 2 (Some 3) (Some (1/2)) (Some (3/2))) 1 0 1 /\ on_curve (fanno_TS 2 (Some 3) (Some (1/2)) (Some (3/2))) 1 0 1.
Proof.
  assert (S1 : sample (1/2) (3/2) 2 1 = 1) by (unfold sample; cbn [INR]; field).
  split; apply column; try lia; rewrite S1.
  - rewrite RaS_eval, ray_s_1 by lra. reflexivity.
  - rewrite RaTs_eval by lra. f_equal. unfold rd. field.
  - rewrite FaS_eval, lsig_1 by lra. f_equal. field.
  - rewrite FaTs_eval, fq_1 by lra. f_equal. field.
Qed.
