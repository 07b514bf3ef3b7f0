From Coquelicot Require Import Coquelicot.
From Verif Require Import L_Num Spec NumSpec M_Isentropic M_Rayleigh L_Isentropic L_Fanno.
Open Scope R_scope.

Definition rd (g M : R) : R := 1 + g * M ^ 2.
Lemma rd_pos g M : 1 < g -> 0 < rd g M.
Proof. intros; unfold rd; pose proof (pow2_ge_0 M); nra. Qed.
Definition ray_ti (g M : R) : R := 2 * (g + 1) * M ^ 2 / rd g M ^ 2 * tt g M.
Definition ray_s (g M : R) : R := 2 * ln M + (g + 1) / g * (ln (g + 1) - ln (rd g M)).
Lemma RaPs_eval g M : 1 < g -> Ra_Ps_Pscri (Some M) (Some g) = Some ((g + 1) / rd g M).
Proof. intros Hg; unfold Ra_Ps_Pscri; ncbn. pose proof (rd_pos g M Hg). unfold rd in *. now rewrite ndiv_Some by lra. Qed.
Lemma RaTs_eval g M : 1 < g -> Ra_Ts_Tscri (Some M) (Some g) = Some (M ^ 2 * ((g + 1) / rd g M) ^ 2).
Proof. intros Hg; unfold Ra_Ts_Tscri; ncbn. pose proof (rd_pos g M Hg). unfold rd in *. now rewrite ndiv_Some by lra. Qed.
Lemma RaTi_eval g M : 1 < g -> Ra_Ti_Ticri (Some M) (Some g) = Some (ray_ti g M).
Proof.
  intros Hg; unfold Ra_Ti_Ticri; cbv zeta; ncbn. pose proof (rd_pos g M Hg). unfold ray_ti, rd in *.
  rewrite !ndiv_Some by (try apply pow_nonzero; lra). ncbn. now rewrite tt_alt.
Qed.
Lemma RaRho_eval g M : 1 < g -> 0 < M -> Ra_Rho_Rhocri (Some M) (Some g) = Some (rd g M / ((g + 1) * M ^ 2)).
Proof.
  intros Hg HM; unfold Ra_Rho_Rhocri; cbv zeta; ncbn. rewrite ndiv_Some; [reflexivity|]. apply pos_nz; pos.
Qed.
Lemma RaV_eval g M : 1 < g -> Ra_V_Vcri (Some M) (Some g) = Some (M ^ 2 * (g + 1) / rd g M).
Proof. intros Hg; unfold Ra_V_Vcri; cbv zeta; ncbn. pose proof (rd_pos g M Hg). unfold rd in *. now rewrite ndiv_Some by lra. Qed.
Lemma RaPi_eval g M : 1 < g -> Ra_Pi_Picri (Some M) (Some g) = Some ((g + 1) / rd g M * Rpower (fq g M) (g / (g - 1))).
Proof.
  intros Hg; unfold Ra_Pi_Picri; cbv zeta; ncbn. pose proof (rd_pos g M Hg). pose proof (fq_pos g M Hg). unfold rd, fq in *.
  rewrite !ndiv_Some by lra. ncbn. rewrite tt_alt. rewrite npow_Some by assumption. reflexivity.
Qed.
Lemma RaS_eval g M : 1 < g -> 0 < M -> Ra_NormdS (Some M) (Some g) = Some (ray_s g M).
Proof.
  intros Hg HM; unfold Ra_NormdS; cbv zeta; ncbn. pose proof (rd_pos g M Hg).
  change (1 + g * M ^ 2) with (rd g M). rewrite !ndiv_Some by lra. rewrite npow_Some by pos. ncbn.
  rewrite nlog_Some by pos. f_equal. rewrite ln_mult by pos. rewrite ln_Rpower, ln_div by (assumption || lra).
  unfold ray_s. replace (M ^ 2) with (M * M) by ring. rewrite ln_mult by assumption. ring.
Qed.
Lemma ray_s_derive g M : 1 < g -> 0 < M -> is_derive (ray_s g) M (2 * (1 - M ^ 2) / (M * rd g M)).
Proof.
  intros Hg HM. pose proof (rd_pos g M Hg). unfold ray_s, rd in *. auto_derive.
  - repeat split; try assumption; lra.
  - field. repeat split; lra.
Qed.
Lemma ray_s_1 g : 1 < g -> ray_s g 1 = 0.
Proof. intros; unfold ray_s, rd. rewrite ln_1. replace (1 + g * 1 ^ 2) with (g + 1) by ring. ring. Qed.
Lemma ray_s_neg g M : 1 < g -> 0 < M -> M <> 1 -> ray_s g M < 0.
Proof.
  intros Hg HM Hn. rewrite <- (ray_s_1 g Hg). destruct (Rtotal_order M 1) as [L|[E|L]]; [|contradiction|].
  - apply (strict_incr (ray_s g) _ M 1 L (fun z Hz => ray_s_derive g z Hg ltac:(lra))).
    intros z Hz; cbv beta. assert (0 < z) by lra. pose proof (rd_pos g z Hg). assert (0 < 1 - z ^ 2) by nra. pos.
  - apply (strict_decr (ray_s g) _ 1 M L (fun z Hz => ray_s_derive g z Hg ltac:(lra))).
    intros z Hz; cbv beta. assert (0 < z) by lra. pose proof (rd_pos g z Hg).
    replace (2 * (1 - z ^ 2) / (z * rd g z)) with (- (2 * (z ^ 2 - 1) / (z * rd g z))) by (field; lra).
    apply Ropp_lt_gt_0_contravar. assert (0 < z ^ 2 - 1) by nra. pos.
Qed.
(*@P C25_rayleigh: For every gamma > 1 and M > 0 the Rayleigh ratios describe one state: perfect gas law, mass conservation, constant impulse p + rho V^2 (in units of the sonic pressure: p + gamma rho V^2 = 1 + gamma), V = M a; Ti and Pi are the corresponding total conditions; NormdS = ln(T) - (gamma-1)/gamma ln(p), non-positive and zero only at M = 1. *)
Lemma rayleigh_consistent : forall g M, 1 < g -> 0 < M ->
  exists p T rho V Ti Pi dS t t1 q q1,
    Ra_Ps_Pscri (Some M) (Some g) = Some p /\ Ra_Ts_Tscri (Some M) (Some g) = Some T /\
    Ra_Rho_Rhocri (Some M) (Some g) = Some rho /\ Ra_V_Vcri (Some M) (Some g) = Some V /\
    Ra_Ti_Ticri (Some M) (Some g) = Some Ti /\
    Ra_Pi_Picri (Some M) (Some g) = Some Pi /\ Ra_NormdS (Some M) (Some g) = Some dS /\
    TtTs_Mach (Some M) (Some g) = Some t /\ TtTs_Mach (Some 1) (Some g) = Some t1 /\
    PtPs_Mach (Some M) (Some g) = Some q /\ PtPs_Mach (Some 1) (Some g) = Some q1 /\
    0 < p /\ 0 < T /\ 0 < rho /\ 0 < V /\
    p = rho * T /\ rho * V = 1 /\ p + g * (rho * V ^ 2) = 1 + g /\ V = M * sqrt T /\
    Ti * t1 = T * t /\ Pi * q1 = p * q /\
    dS = ln T - (g - 1) / g * ln p /\ dS <= 0 /\ (dS = 0 <-> M = 1).
Proof.
  intros g M Hg HM. pose proof (rd_pos g M Hg) as Hd. pose proof (tt_pos g M Hg) as Ht. pose proof (tt_pos g 1 Hg) as Ht1.
  assert (Hp : 0 < (g + 1) / rd g M) by pos.
  exists ((g + 1) / rd g M), (M ^ 2 * ((g + 1) / rd g M) ^ 2), (rd g M / ((g + 1) * M ^ 2)), (M ^ 2 * (g + 1) / rd g M),
    (ray_ti g M), ((g + 1) / rd g M * Rpower (fq g M) (g / (g - 1))), (ray_s g M), (tt g M), (tt g 1),
    (Rpower (tt g M) (g / (g - 1))), (Rpower (tt g 1) (g / (g - 1))).
  split; [now apply RaPs_eval|]. split; [now apply RaTs_eval|]. split; [now apply RaRho_eval|].
  split; [now apply RaV_eval|]. split; [now apply RaTi_eval|]. split; [now apply RaPi_eval|]. split; [now apply RaS_eval|].
  split; [reflexivity|]. split; [reflexivity|]. split; [now apply PtPs_eval|]. split; [now apply PtPs_eval|].
  split; [pos|]. split; [pos|]. split; [pos|]. split; [pos|].
  split. { field. repeat split; lra. }
  split. { field. repeat split; lra. }
  split. { unfold rd in *. field. repeat split; lra. }
  split. { replace (M ^ 2 * ((g + 1) / rd g M) ^ 2) with ((M * ((g + 1) / rd g M)) ^ 2) by ring.
           rewrite sqrt_sq by pos. field. lra. }
  split. { unfold ray_ti. rewrite (sonic_tt g Hg). field. lra. }
  split. { rewrite Rmult_assoc. f_equal. rewrite <- Rpower_mult_base by (try assumption; now apply fq_pos).
           f_equal. unfold fq. rewrite (sonic_tt g Hg). field. lra. }
  split.
  { unfold ray_s. rewrite ln_mult by pos. replace (M ^ 2) with (M * M) by ring.
    replace (((g + 1) / rd g M) ^ 2) with ((g + 1) / rd g M * ((g + 1) / rd g M)) by ring.
    rewrite !ln_mult by assumption. rewrite ln_div by lra. field. lra. }
  destruct (Req_dec M 1) as [->|Hn].
  - rewrite ray_s_1 by assumption. split; [lra|tauto].
  - pose proof (ray_s_neg g M Hg HM Hn). split; [lra|split; intros; [lra|contradiction]].
Qed.
(*@P C25_sonic: All Rayleigh ratios equal 1 at M = 1. *)
Lemma rayleigh_sonic : forall g, 1 < g ->
  Ra_Ps_Pscri (Some 1) (Some g) = Some 1 /\ Ra_Ts_Tscri (Some 1) (Some g) = Some 1 /\
  Ra_Rho_Rhocri (Some 1) (Some g) = Some 1 /\ Ra_V_Vcri (Some 1) (Some g) = Some 1 /\
  Ra_Ti_Ticri (Some 1) (Some g) = Some 1 /\ Ra_Pi_Picri (Some 1) (Some g) = Some 1 /\
  Ra_NormdS (Some 1) (Some g) = Some 0.
Proof.
  intros g Hg. rewrite RaPs_eval, RaTs_eval, RaRho_eval, RaV_eval, RaTi_eval, RaPi_eval, RaS_eval by lra.
  rewrite fq_1, ray_s_1, Rpower_one by assumption. unfold ray_ti. rewrite sonic_tt by assumption. unfold rd.
  repeat split; f_equal; field; lra.
Qed.
Lemma ray_ti_gap g M : 1 < g -> 1 - ray_ti g M = ((1 - M ^ 2) / rd g M) ^ 2.
Proof. intros Hg. pose proof (rd_pos g M Hg). unfold ray_ti, rd, tt in *. field. lra. Qed.
(*@P C26_maximum: Ti/Ti* is at most 1, with equality (for M >= 0) exactly at M = 1. *)
Lemma rayleigh_ti_max : forall g M, 1 < g -> 0 <= M ->
  exists t, Ra_Ti_Ticri (Some M) (Some g) = Some t /\ 0 <= t <= 1 /\ (t = 1 <-> M = 1).
Proof.
  intros g M Hg HM. exists (ray_ti g M). rewrite RaTi_eval by assumption. split; [reflexivity|].
  pose proof (ray_ti_gap g M Hg) as E. pose proof (rd_pos g M Hg) as Hd.
  pose proof (pow2_ge_0 ((1 - M ^ 2) / rd g M)) as Hp.
  assert (0 <= ray_ti g M) by (unfold ray_ti; pose proof (tt_pos g M Hg); pose proof (pow2_ge_0 M); pos).
  split; [lra|]. split; intros H1.
  - assert (H0 : ((1 - M ^ 2) / rd g M) ^ 2 = 0) by lra.
    assert (H2 : (1 - M ^ 2) / rd g M = 0) by nra.
    assert (1 - M ^ 2 = 0). { replace (1 - M ^ 2) with ((1 - M ^ 2) / rd g M * rd g M) by (field; lra). rewrite H2; ring. }
    nra.
  - subst M. replace (1 - 1 ^ 2) with 0 in E by ring. unfold Rdiv in E. rewrite Rmult_0_l in E. lra.
Qed.
(*@P C26_sub_inverse: SubMach_TiTicri inverts Ti_Ticri on the subsonic branch, in both directions, over the full range [0,1] of the ratio. *)
Lemma rayleigh_sub : forall g, 1 < g ->
  (forall M t, 0 <= M <= 1 -> Ra_Ti_Ticri (Some M) (Some g) = Some t -> Ra_SubMach_TiTicri (Some t) (Some g) = Some M) /\
  (forall t, 0 <= t <= 1 -> exists M, Ra_SubMach_TiTicri (Some t) (Some g) = Some M /\ 0 <= M <= 1 /\
     Ra_Ti_Ticri (Some M) (Some g) = Some t).
Proof.
  intros g Hg. split.
  - intros M t HM H. rewrite RaTi_eval in H by assumption. injection H as <-.
    pose proof (rd_pos g M Hg) as Hd. unfold Ra_SubMach_TiTicri. cbv zeta. ncbn. rewrite ray_ti_gap by assumption.
    rewrite nsqrt_Some by apply pow2_ge_0. assert (0 <= (1 - M ^ 2) / rd g M) by (assert (M ^ 2 <= 1) by nra; pos).
    rewrite sqrt_sq by assumption. ncbn. rewrite ndiv_Some by (apply pos_nz; pos).
    replace ((1 - (1 - M ^ 2) / rd g M) / ((1 - M ^ 2) / rd g M * g + 1)) with (M ^ 2).
    + rewrite nsqrt_Some by apply pow2_ge_0. now rewrite sqrt_sq by lra.
    + unfold rd in *. field. split; [lra|]. nra.
  - intros t Ht. unfold Ra_SubMach_TiTicri. cbv zeta. ncbn. rewrite nsqrt_Some by lra.
    set (a := sqrt (1 - t)). assert (Ha : 0 <= a) by apply sqrt_pos.
    assert (Ha2 : a ^ 2 = 1 - t) by (apply sq_sqrt; lra). assert (a <= 1) by nra.
    assert (Hden : 0 < a * g + 1) by nra.
    ncbn. rewrite ndiv_Some by lra. assert (Hm : 0 <= (1 - a) / (a * g + 1)) by pos.
    rewrite nsqrt_Some by assumption. eexists; split; [reflexivity|]. split.
    + split; [apply sqrt_pos|]. rewrite <- sqrt_1 at 3. apply sqrt_le_1_alt. apply Rle_div_l; nra.
    + rewrite RaTi_eval by assumption. f_equal. pose proof (ray_ti_gap g (sqrt ((1 - a) / (a * g + 1))) Hg) as E.
      unfold rd in E. rewrite (sq_sqrt _ Hm) in E.
      assert (E2 : (1 - (1 - a) / (a * g + 1)) / (1 + g * ((1 - a) / (a * g + 1))) = a) by (field; repeat split; nra).
      rewrite E2 in E. lra.
Qed.
(*@P C26_sup_inverse: SupMach_TiTicri inverts Ti_Ticri on the supersonic branch in both directions over the full range (1 - 1/gamma^2, 1] of the ratio there; below that range, where no supersonic state exists, and above 1 it has no finite result. *)
Lemma rayleigh_sup : forall g, 1 < g ->
  (forall M t, 1 <= M -> Ra_Ti_Ticri (Some M) (Some g) = Some t ->
     1 - 1 / g ^ 2 < t <= 1 /\ Ra_SupMach_TiTicri (Some t) (Some g) = Some M) /\
  (forall t, 1 - 1 / g ^ 2 < t <= 1 -> exists M, Ra_SupMach_TiTicri (Some t) (Some g) = Some M /\ 1 <= M /\
     Ra_Ti_Ticri (Some M) (Some g) = Some t) /\
  (forall t, t <= 1 - 1 / g ^ 2 \/ 1 < t -> Ra_SupMach_TiTicri (Some t) (Some g) = None).
Proof.
  intros g Hg. assert (Hg2 : 0 < g ^ 2) by nra. split; [|split].
  - intros M t HM H. rewrite RaTi_eval in H by assumption. injection H as <-.
    pose proof (rd_pos g M Hg) as Hd. pose proof (ray_ti_gap g M Hg) as E.
    assert (Hneg : ((1 - M ^ 2) / rd g M) ^ 2 = ((M ^ 2 - 1) / rd g M) ^ 2) by (field; lra).
    rewrite Hneg in E. set (a := (M ^ 2 - 1) / rd g M) in *.
    assert (Ha : 0 <= a) by (unfold a; assert (1 <= M ^ 2) by nra; pos).
    assert (Hag : a * g < 1). { unfold a. replace ((M ^ 2 - 1) / rd g M * g) with ((M ^ 2 - 1) * g / rd g M) by (field; lra).
      apply Rlt_div_l; [assumption|]. unfold rd; nra. }
    split.
    + split; [|pose proof (pow2_ge_0 a); lra]. assert (a ^ 2 < 1 / g ^ 2); [|lra].
      apply (Rlt_div_r (a ^ 2) 1 (g ^ 2)); [lra|]. assert (0 <= a * g) by nra. replace (a ^ 2 * g ^ 2) with ((a * g) * (a * g)) by ring. nra.
    + unfold Ra_SupMach_TiTicri. cbv zeta. ncbn. rewrite E. rewrite nsqrt_Some by apply pow2_ge_0.
      rewrite sqrt_sq by assumption. ncbn. rewrite ndiv_Some by lra.
      replace ((1 + a) / (1 - a * g)) with (M ^ 2).
      * rewrite nsqrt_Some by apply pow2_ge_0. now rewrite sqrt_sq by lra.
      * apply Rmult_eq_reg_r with (1 - a * g); [|lra].
        replace ((1 + a) / (1 - a * g) * (1 - a * g)) with (1 + a) by (field; lra).
        unfold a, rd in *. field. lra.
  - intros t Ht. unfold Ra_SupMach_TiTicri. cbv zeta. ncbn. rewrite nsqrt_Some by lra.
    set (a := sqrt (1 - t)). assert (Ha : 0 <= a) by apply sqrt_pos.
    assert (Ha2 : a ^ 2 = 1 - t) by (apply sq_sqrt; lra).
    assert (Hag : a * g < 1). { assert (Hlt : a ^ 2 < 1 / g ^ 2) by lra. apply (Rlt_div_r (a ^ 2) 1 (g ^ 2)) in Hlt; [|lra]. nra. }
    ncbn. rewrite ndiv_Some by lra. assert (Hm : 1 <= (1 + a) / (1 - a * g)) by (apply Rle_div_r; nra).
    rewrite nsqrt_Some by lra. eexists; split; [reflexivity|]. split.
    + rewrite <- sqrt_1 at 1. now apply sqrt_le_1_alt.
    + rewrite RaTi_eval by assumption. f_equal. pose proof (ray_ti_gap g (sqrt ((1 + a) / (1 - a * g))) Hg) as E.
      unfold rd in E. rewrite (sq_sqrt _ (Rle_trans _ _ _ Rle_0_1 Hm)) in E.
      assert (E2 : (1 - (1 + a) / (1 - a * g)) / (1 + g * ((1 + a) / (1 - a * g))) = - a).
      { field. split; [|lra]. replace (1 - a * g + g * (1 + a)) with (1 + g) by ring. lra. }
      rewrite E2 in E. nra.
  - intros t [Ht|Ht]; unfold Ra_SupMach_TiTicri; cbv zeta; ncbn.
    2:{ rewrite nsqrt_neg by lra. reflexivity. }
    assert (0 < 1 / g ^ 2) by pos. rewrite nsqrt_Some by lra.
    set (a := sqrt (1 - t)). assert (Ha : 0 <= a) by apply sqrt_pos.
    assert (Ha2 : a ^ 2 = 1 - t) by (apply sq_sqrt; lra).
    assert (Hag : 1 <= a * g). { assert (Hlt : 1 / g ^ 2 <= a ^ 2) by lra. apply (Rle_div_l 1 (a ^ 2) (g ^ 2)) in Hlt; [|lra]. assert (0 <= a * g) by nra. replace (a ^ 2 * g ^ 2) with ((a * g) * (a * g)) in Hlt by ring. nra. }
    ncbn. destruct (Req_dec (1 - a * g) 0) as [E|N]; [rewrite ndiv_zero by assumption; reflexivity|].
    rewrite ndiv_Some by assumption. apply nsqrt_neg. 
    replace ((1 + a) / (1 - a * g)) with (- ((1 + a) / (a * g - 1))) by (field; lra).
    apply Ropp_lt_gt_0_contravar. pos.
Qed.
(*@P C26_maxTiratio_partial: maxTiratio_Mach is the inverse of Ti/Ti* for gamma = 1.4, whatever gamma is passed. (Missing from the full claim: the requested gamma, see C26_maxTiratio_refuted.) *)
Lemma maxTi_partial : forall M g, 0 < M -> exists t, Ra_Ti_Ticri (Some M) (Some (14/10)) = Some t /\
  Ra_maxTiratio_Mach (Some M) (Some g) = Some (1 / t) /\ 1 <= 1 / t.
Proof.
  intros M g HM. destruct (rayleigh_ti_max (14/10) M ltac:(lra) ltac:(lra)) as [t [E [H1 _]]].
  assert (0 < t). { rewrite RaTi_eval in E by lra. injection E as <-. unfold ray_ti.
    pose proof (tt_pos (14/10) M ltac:(lra)). pose proof (rd_pos (14/10) M ltac:(lra)). pos. }
  exists t. split; [assumption|]. unfold Ra_maxTiratio_Mach. rewrite E. rewrite ndiv_Some by lra. split; [reflexivity|].
  apply Rle_div_r; lra.
Qed.
(*@P C26_maxTiratio_refuted: For every gamma other than 1.4 and every M > 0 other than 1, maxTiratio_Mach(M,gamma) is not 1/Ti_Ticri(M,gamma): the gamma argument is ignored. *)
Lemma maxTi_refuted : forall M g t, 1 < g -> g <> 14/10 -> 0 < M -> M <> 1 ->
  Ra_Ti_Ticri (Some M) (Some g) = Some t -> Ra_maxTiratio_Mach (Some M) (Some g) <> Some (1 / t).
Proof.
  intros M g t Hg Hn HM HM1 Ht H. destruct (maxTi_partial M g HM) as [t' [E [E2 E3]]].
  rewrite E2 in H. injection H as H.
  assert (Hpos : forall h, 1 < h -> 0 < ray_ti h M).
  { intros h Hh. unfold ray_ti. pose proof (tt_pos h M Hh). pose proof (rd_pos h M Hh). pos. }
  rewrite RaTi_eval in Ht, E by lra. injection Ht as <-. injection E as <-.
  pose proof (Hpos g Hg) as P1. pose proof (Hpos (14/10) ltac:(lra)) as P2.
  assert (Eq : ray_ti (14/10) M = ray_ti g M).
  { rewrite <- (Rinv_inv (ray_ti (14/10) M)), <- (Rinv_inv (ray_ti g M)). f_equal. unfold Rdiv in H. lra. }
  pose proof (ray_ti_gap g M Hg) as G1. pose proof (ray_ti_gap (14/10) M ltac:(lra)) as G2.
  pose proof (rd_pos g M Hg) as D1. pose proof (rd_pos (14/10) M ltac:(lra)) as D2.
  assert (M ^ 2 <> 1) by nra. set (m := M ^ 2) in *. assert (0 < m) by (unfold m; pos).
  assert (Hsq : ((1 - m) / rd g M) ^ 2 = ((1 - m) / rd (14/10) M) ^ 2) by lra.
  assert (Hx : (1 - m) ^ 2 * (rd (14/10) M ^ 2 - rd g M ^ 2) = 0).
  { replace ((1 - m) ^ 2 * (rd (14/10) M ^ 2 - rd g M ^ 2))
      with ((((1 - m) / rd g M) ^ 2 - ((1 - m) / rd (14/10) M) ^ 2) * (rd g M ^ 2 * rd (14/10) M ^ 2)) by (field; lra).
    rewrite Hsq. ring. }
  apply Rmult_integral in Hx. destruct Hx as [Hx|Hx]; [nra|].
  assert (rd (14/10) M = rd g M) by nra. unfold rd in H2. fold m in H2. apply Hn. nra.
Qed.
(*@E C26_example: concrete case: gamma = 3, M = 2: Ti/Ti* = 160/169, inside the supersonic range. *)
Lemma rayleigh_ex : Ra_Ti_Ticri (Some 2) (Some 3) = Some (160/169) /\ 1 - 1 / 3 ^ 2 < 160/169.
Proof. rewrite RaTi_eval by lra. split; [f_equal; unfold ray_ti, rd, tt; field|lra]. Qed.
(*@E C25_example: gamma = 3, M = 2: p = 4/13, T = 64/169, rho = 13/16, V = 16/13. *)
Lemma C25_example_lemma : Ra_Ps_Pscri (Some 2) (Some 3) = Some (4/13) /\ Ra_Ts_Tscri (Some 2) (Some 3) = Some (64/169) /\
  Ra_Rho_Rhocri (Some 2) (Some 3) = Some (13/16) /\ Ra_V_Vcri (Some 2) (Some 3) = Some (16/13) /\ Ra_Ti_Ticri (Some 2) (Some 3) = Some (160/169).
Proof.
  rewrite RaPs_eval, RaTs_eval, RaRho_eval, RaV_eval, RaTi_eval by lra. repeat split; f_equal; unfold ray_ti, rd, tt; field.
Qed.
