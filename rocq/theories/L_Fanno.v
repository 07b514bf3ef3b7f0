From Coquelicot Require Import Coquelicot.
From Verif Require Import L_Num Spec NumSpec M_Isentropic M_MassFlow M_Fanno L_Isentropic L_MassFlow.
Open Scope R_scope.

Definition fq (g M : R) : R := 2 / (g + 1) * tt g M.
Lemma tt_alt g M : 1 + (g - 1) / 2 * M ^ 2 = tt g M.
Proof. unfold tt; field. Qed.
Lemma fq_pos g M : 1 < g -> 0 < fq g M.
Proof. intros; unfold fq; pose proof (tt_pos g M H); pos. Qed.
Lemma fq_1 g : 1 < g -> fq g 1 = 1.
Proof. intros; unfold fq; rewrite sonic_tt by assumption; field; lra. Qed.
Lemma FaPs_eval g M : 1 < g -> 0 < M -> Fa_Ps_Pscri (Some M) (Some g) = Some (1 / (M * sqrt (fq g M))).
Proof.
  intros Hg HM. pose proof (fq_pos g M Hg). unfold Fa_Ps_Pscri. ncbn. rewrite ?ndiv_Some by lra. ncbn. rewrite tt_alt.
  change (2 / (g + 1) * tt g M) with (fq g M). rewrite nsqrt_Some by lra. ncbn. rewrite ndiv_Some; [reflexivity|].
  apply pos_nz. pos.
Qed.
Lemma FaTs_eval g M : 1 < g -> Fa_Ts_Tscri (Some M) (Some g) = Some (/ fq g M).
Proof.
  intros Hg. pose proof (tt_pos g M Hg). unfold Fa_Ts_Tscri. ncbn. rewrite ?ndiv_Some by lra. ncbn. rewrite tt_alt.
  rewrite ndiv_Some by lra. f_equal. unfold fq. field. lra.
Qed.
Lemma FaRho_eval g M : 1 < g -> 0 < M -> Fa_Rho_Rhocri (Some M) (Some g) = Some (sqrt (fq g M) / M).
Proof.
  intros Hg HM. pose proof (fq_pos g M Hg). unfold Fa_Rho_Rhocri. ncbn. rewrite ?ndiv_Some by lra. ncbn. rewrite tt_alt.
  change (2 / (g + 1) * tt g M) with (fq g M). rewrite nsqrt_Some by lra. ncbn. f_equal. field; lra.
Qed.
Lemma FaV_eval g M : 1 < g -> 0 < M -> Fa_V_Vcri (Some M) (Some g) = Some (M / sqrt (fq g M)).
Proof.
  intros Hg HM. pose proof (fq_pos g M Hg). unfold Fa_V_Vcri. ncbn. rewrite ?ndiv_Some by lra. ncbn. rewrite tt_alt.
  change (2 / (g + 1) * tt g M) with (fq g M). rewrite nsqrt_Some by lra. ncbn. rewrite ndiv_Some; [reflexivity|]. apply pos_nz; pos.
Qed.
Lemma FaPi_eval g M : 1 < g -> 0 < M -> Fa_Pi_Picri (Some M) (Some g) = Some (sig g M).
Proof.
  intros Hg HM. pose proof (fq_pos g M Hg). unfold Fa_Pi_Picri. ncbn. rewrite ?ndiv_Some by lra. ncbn.
  rewrite ?ndiv_Some by lra. ncbn. rewrite tt_alt.
  change (2 / (g + 1) * tt g M) with (fq g M). rewrite npow_Some by assumption. ncbn. f_equal.
  rewrite sig_form by assumption. unfold sexp. fold (fq g M).
  replace ((g + 1) / 2 / (g - 1)) with (1/2 * (g + 1) / (g - 1)) by (field; lra). field. lra.
Qed.
Lemma FaS_eval g M : 1 < g -> 0 < M -> Fa_NormdS (Some M) (Some g) = Some (- ((g - 1) / g) * lsig g M).
Proof.
  intros Hg HM. pose proof (fq_pos g M Hg). unfold Fa_NormdS. ncbn. rewrite ?ndiv_Some by lra. ncbn.
  rewrite ?ndiv_Some by lra. ncbn. rewrite tt_alt.
  change (2 / (g + 1) * tt g M) with (fq g M). rewrite !npow_Some by assumption. ncbn.
  rewrite nlog_Some by pos. f_equal. rewrite ln_mult by pos. rewrite !ln_Rpower.
  unfold lsig, fq, sexp. pose proof (tt_pos g M Hg). rewrite ln_mult by pos. field. lra.
Qed.
(*@P C23_fanno: For every gamma > 1 and M > 0 the Fanno ratios describe one state: perfect gas law, mass conservation rho V = rho* V*, constant total temperature, V = M a; Pi/Pi* is the total pressure ratio and equals Sigma_Mach; NormdS is minus (gamma-1)/gamma times its logarithm, non-positive and zero only at M = 1. *)
Lemma fanno_consistent : forall g M, 1 < g -> 0 < M ->
  exists p T rho V Pi dS t t1 q q1,
    Fa_Ps_Pscri (Some M) (Some g) = Some p /\ Fa_Ts_Tscri (Some M) (Some g) = Some T /\
    Fa_Rho_Rhocri (Some M) (Some g) = Some rho /\ Fa_V_Vcri (Some M) (Some g) = Some V /\
    Fa_Pi_Picri (Some M) (Some g) = Some Pi /\ Fa_NormdS (Some M) (Some g) = Some dS /\
    TtTs_Mach (Some M) (Some g) = Some t /\ TtTs_Mach (Some 1) (Some g) = Some t1 /\
    PtPs_Mach (Some M) (Some g) = Some q /\ PtPs_Mach (Some 1) (Some g) = Some q1 /\
    0 < p /\ 0 < T /\ 0 < rho /\ 0 < V /\
    p = rho * T /\ rho * V = 1 /\ T * t = 1 * t1 /\ V = M * sqrt T /\
    Pi * q1 = p * q /\ Sigma_Mach (Some M) (Some g) = Some Pi /\
    dS = - ((g - 1) / g) * ln Pi /\ dS <= 0 /\ (dS = 0 <-> M = 1).
Proof.
  intros g M Hg HM. pose proof (fq_pos g M Hg) as Hq. pose proof (tt_pos g M Hg) as Ht.
  pose proof (tt_pos g 1 Hg) as Ht1.
  set (s := sqrt (fq g M)). assert (Hs : 0 < s) by (unfold s; pos).
  assert (Hs2 : s * s = fq g M) by (unfold s; apply sqrt_sqrt; lra).
  exists (1 / (M * s)), (/ fq g M), (s / M), (M / s), (sig g M), (- ((g - 1) / g) * lsig g M), (tt g M), (tt g 1),
    (Rpower (tt g M) (g / (g - 1))), (Rpower (tt g 1) (g / (g - 1))).
  split; [now apply FaPs_eval|]. split; [now apply FaTs_eval|]. split; [now apply FaRho_eval|].
  split; [now apply FaV_eval|]. split; [now apply FaPi_eval|]. split; [now apply FaS_eval|].
  split; [reflexivity|]. split; [reflexivity|]. split; [now apply PtPs_eval|]. split; [now apply PtPs_eval|].
  split; [pos|]. split; [pos|]. split; [pos|]. split; [pos|].
  split. { rewrite <- Hs2. field. split; lra. }
  split. { field. split; lra. }
  split. { unfold fq. rewrite (sonic_tt g Hg). field. split; lra. }
  split. { rewrite sqrt_inv by lra. fold s. field. lra. }
  split.
  { rewrite sig_form by assumption. unfold sexp. fold (fq g M).
    assert (E : Rpower (tt g M) (g / (g - 1)) = Rpower (tt g 1) (g / (g - 1)) * Rpower (fq g M) (g / (g - 1))).
    { rewrite <- Rpower_mult_base by assumption. f_equal. unfold fq. rewrite (sonic_tt g Hg). field. lra. }
    rewrite E.
    replace (1 / (M * s) * (Rpower (tt g 1) (g / (g - 1)) * Rpower (fq g M) (g / (g - 1))))
      with (Rpower (fq g M) (g / (g - 1)) * / s / M * Rpower (tt g 1) (g / (g - 1))) by (field; split; lra).
    f_equal. f_equal. unfold s. rewrite <- Rpower_sqrt by assumption. rewrite <- Rpower_Ropp, <- Rpower_plus.
    f_equal. field. lra. }
  split; [now apply Sigma_eval|].
  assert (Hk : 0 < (g - 1) / g) by pos.
  split. { unfold sig. now rewrite ln_exp. }
  assert (Hl : M <> 1 -> 0 < lsig g M).
  { intros Hn. pose proof (sig_gt_1 g M Hg HM Hn). unfold sig in H. rewrite <- exp_0 in H. now apply exp_lt_inv. }
  destruct (Req_dec M 1) as [->|Hn].
  - rewrite lsig_1 by assumption. rewrite Rmult_0_r. split; [lra|tauto].
  - specialize (Hl Hn). split; [nra|]. split; [intros; exfalso; nra|intros; contradiction].
Qed.
(*@P C23_sonic: All Fanno ratios equal 1 at M = 1 and the entropy difference is 0. *)
Lemma fanno_sonic : forall g, 1 < g ->
  Fa_Ps_Pscri (Some 1) (Some g) = Some 1 /\ Fa_Ts_Tscri (Some 1) (Some g) = Some 1 /\
  Fa_Rho_Rhocri (Some 1) (Some g) = Some 1 /\ Fa_V_Vcri (Some 1) (Some g) = Some 1 /\
  Fa_Pi_Picri (Some 1) (Some g) = Some 1 /\ Fa_NormdS (Some 1) (Some g) = Some 0 /\
  Fa_maxFparam_Mach (Some 1) (Some g) = Some 0.
Proof.
  intros g Hg. rewrite FaPs_eval, FaTs_eval, FaRho_eval, FaV_eval, FaPi_eval, FaS_eval by lra.
  rewrite fq_1, sqrt_1, sig_1, lsig_1 by assumption.
  repeat split; try (f_equal; field; lra).
  unfold Fa_maxFparam_Mach. ncbn. rewrite ?ndiv_Some by lra. ncbn. rewrite ndiv_Some by lra.
  rewrite nlog_Some; ncbn. { f_equal.
  replace (1 ^ 2 * (g + 1) / 2 / (1 + (g - 1) / 2 * 1 ^ 2)) with 1 by (field; lra). rewrite ln_1. field. lra. }
  replace (1 ^ 2 * (g + 1) / 2 / (1 + (g - 1) / 2 * 1 ^ 2)) with 1 by (field; lra). lra.
Qed.
Definition ffp (g M : R) : R := (1 - M ^ 2) / (g * M ^ 2) + (g + 1) / (2 * g) * ln (M ^ 2 * (g + 1) / 2 / (1 + (g - 1) / 2 * M ^ 2)).
Lemma Ff_eval g M : 1 < g -> 0 < M -> Fa_maxFparam_Mach (Some M) (Some g) = Some (ffp g M).
Proof.
  intros Hg HM. assert (Hm : 0 < M ^ 2) by pos. pose proof (tt_pos g M Hg) as Ht.
  unfold Fa_maxFparam_Mach. cbv zeta. ncbn. rewrite !ndiv_Some by nra. ncbn. rewrite ndiv_Some by (rewrite tt_alt; lra).
  rewrite nlog_Some; [reflexivity|]. rewrite tt_alt. pos.
Qed.
Lemma ffp_derive g M : 1 < g -> 0 < M -> is_derive (ffp g) M (- 2 * (1 - M ^ 2) / (g * M ^ 3 * tt g M)).
Proof.
  intros Hg HM. pose proof (tt_pos g M Hg) as Ht. assert (Hm : 0 < M ^ 2) by pos.
  unfold ffp. auto_derive.
  - repeat split; try (apply pos_nz); try (rewrite <- ?tt_alt in Ht; pos).
  - rewrite <- tt_alt in *. unfold Rminus in *. field. repeat split; try nra.
Qed.
(*@P C24_slope: maxFparam_Mach satisfies the differential equation of the Fanno line, dF/dM = -2(1-M^2)/(gamma M^3 (1+(gamma-1)/2 M^2)), for all M > 0. *)
Lemma fparam_slope : forall g, 1 < g -> exists F,
  (forall M, 0 < M -> Fa_maxFparam_Mach (Some M) (Some g) = Some (F M)) /\
  (forall M, 0 < M -> is_derive F M (- 2 * (1 - M ^ 2) / (g * M ^ 3 * (1 + (g - 1) / 2 * M ^ 2)))).
Proof.
  intros g Hg. exists (ffp g). split; [intros; now apply Ff_eval|].
  intros M HM. rewrite tt_alt. now apply ffp_derive.
Qed.
Lemma ffp_decr g x y : 1 < g -> 0 < x -> x < y -> y <= 1 -> ffp g y < ffp g x.
Proof.
  intros Hg Hx Hxy Hy. apply (strict_decr (ffp g) _ x y Hxy (fun z Hz => ffp_derive g z Hg ltac:(lra))).
  intros z Hz. cbv beta. assert (0 < z) by lra. pose proof (tt_pos g z Hg) as Ht.
  replace (- 2 * (1 - z ^ 2) / (g * z ^ 3 * tt g z)) with (- (2 * (1 - z ^ 2) / (g * z ^ 3 * tt g z))) by (field; repeat split; lra).
  apply Ropp_lt_gt_0_contravar. assert (0 < 1 - z ^ 2) by nra. pos.
Qed.
Lemma ffp_incr g x y : 1 < g -> 1 <= x -> x < y -> ffp g x < ffp g y.
Proof.
  intros Hg Hx Hxy. apply (strict_incr (ffp g) _ x y Hxy (fun z Hz => ffp_derive g z Hg ltac:(lra))).
  intros z Hz. cbv beta. assert (0 < z) by lra. pose proof (tt_pos g z Hg) as Ht.
  replace (- 2 * (1 - z ^ 2) / (g * z ^ 3 * tt g z)) with (2 * (z ^ 2 - 1) / (g * z ^ 3 * tt g z)) by (field; repeat split; lra).
  assert (0 < z ^ 2 - 1) by nra. pos.
Qed.
Lemma ffp_1 g : 1 < g -> ffp g 1 = 0.
Proof.
  intros Hg. unfold ffp. replace (1 ^ 2 * (g + 1) / 2 / (1 + (g - 1) / 2 * 1 ^ 2)) with 1 by (field; lra). rewrite ln_1. field. lra.
Qed.
(*@P C24_decreasing: The Fanno parameter strictly decreases with M on (0,1]. *)
Lemma fparam_decr : forall g, 1 < g -> decr_on (fun M => 0 < M <= 1) (fun M => Fa_maxFparam_Mach M (Some g)).
Proof. intros g Hg x y Hx Hy Hxy. exists (ffp g x), (ffp g y). rewrite !Ff_eval by lra. repeat split. apply ffp_decr; lra. Qed.
(*@P C24_increasing: The Fanno parameter strictly increases with M on [1,inf). *)
Lemma fparam_incr : forall g, 1 < g -> incr_on (fun M => 1 <= M) (fun M => Fa_maxFparam_Mach M (Some g)).
Proof. intros g Hg x y Hx Hy Hxy. exists (ffp g x), (ffp g y). rewrite !Ff_eval by lra. repeat split. apply ffp_incr; lra. Qed.
(*@P C24_minimum: The Fanno parameter is >= 0 for every M > 0, and 0 exactly at M = 1. *)
Lemma fparam_min : forall g M, 1 < g -> 0 < M ->
  exists F, Fa_maxFparam_Mach (Some M) (Some g) = Some F /\ 0 <= F /\ (F = 0 <-> M = 1).
Proof.
  intros g M Hg HM. exists (ffp g M). rewrite Ff_eval by assumption. split; [reflexivity|].
  pose proof (ffp_1 g Hg). destruct (Rtotal_order M 1) as [L|[->|L]].
  - pose proof (ffp_decr g M 1 Hg HM L (Rle_refl _)). split; [lra|split; intros; lra].
  - split; [lra|tauto].
  - pose proof (ffp_incr g 1 M Hg (Rle_refl _) L). split; [lra|split; intros; lra].
Qed.
(*@E C23_example: a concrete case: gamma = 3, M = 2 gives T/T* = 2/5 and Pi/Pi* = 5/4. *)
Lemma fanno_ex : Fa_Ts_Tscri (Some 2) (Some 3) = Some (2/5) /\ Fa_Pi_Picri (Some 2) (Some 3) = Some (5/4).
Proof.
  split; [rewrite FaTs_eval by lra; f_equal; unfold fq, tt; field|].
  rewrite FaPi_eval by lra. rewrite <- Sigma_eval by lra. apply C06_example_lemma.
Qed.
(*@E C24_example: gamma = 3, M = 2: F = -1/4 + 2/3 ln (8/5), and it is positive. *)
Lemma C24_example_lemma : Fa_maxFparam_Mach (Some 2) (Some 3) = Some (- (1/4) + 2/3 * ln (8/5)) /\ 0 < - (1/4) + 2/3 * ln (8/5).
Proof.
  assert (E : Fa_maxFparam_Mach (Some 2) (Some 3) = Some (- (1/4) + 2/3 * ln (8/5))).
  { rewrite Ff_eval by lra. f_equal. unfold ffp. f_equal; [field|]. f_equal; [field|]. f_equal. field. }
  split; [assumption|]. destruct (fparam_min 3 2 ltac:(lra) ltac:(lra)) as (F & E' & H0 & H1).
  rewrite E in E'. injection E' as <-. destruct H0 as [H0|H0]; [assumption|]. symmetry in H0. apply H1 in H0. lra.
Qed.
