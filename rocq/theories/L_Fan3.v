From Coquelicot Require Import Coquelicot.
From Verif Require Import L_Num Spec NumSpec M_Degree M_IterSolve M_MassFlow M_Isentropic M_Supersonic M_Fan FanSpec L_Isentropic L_Degree L_Supersonic L_Fan.
Open Scope R_scope.

(** ** the pressure ratio *)
Definition lnpt (g M : R) : R := g / (g - 1) * ln (tt g M).
Lemma lnpt_derive g M : 1 < g -> is_derive (lnpt g) M (g * M / tt g M).
Proof.
  intros Hg. pose proof (tt_pos g M Hg) as Ht. unfold lnpt, tt in *. auto_derive; [lra|]. field. lra.
Qed.
Lemma pm_rad_derive g M : 1 < g -> 1 < M -> is_derive (fun m => rad (pm g m)) M (sqrt (M ^ 2 - 1) / (M * tt g M)).
Proof.
  intros Hg HM. destruct (pm_slope g M Hg HM) as [nu [E D]].
  apply is_derive_ext_loc with (fun m => PI / 180 * nu m).
  - exists (mkposreal (M - 1) ltac:(lra)). intros t Ht. unfold ball in Ht; cbn in Ht; unfold AbsRing_ball, minus, plus, opp, abs in Ht; cbn in Ht.
    apply Rabs_def2 in Ht. specialize (E t ltac:(lra)). rewrite PM_eval in E by (try assumption; rewrite Rabs_pos_eq; lra). injection E as E.
    rewrite <- E. unfold rad. apply Rmult_comm.
  - evar_last; [apply is_derive_scal; exact D|]. cbn -[pow sqrt]. unfold tt. pose proof PI_nz. assert (0 < 1 + (g - 1) / 2 * M ^ 2) by nra.
    field. repeat split; lra.
Qed.
Definition ker (M : R) : R := M ^ 2 / sqrt (M ^ 2 - 1).
Lemma ker_incr x y : 2 <= x ^ 2 -> 0 < x -> x < y -> ker x < ker y.
Proof.
  intros Hx Hp Hxy. unfold ker. assert (x ^ 2 < y ^ 2) by nra.
  set (u := sqrt (x ^ 2 - 1)). set (v := sqrt (y ^ 2 - 1)).
  assert (Hu : u ^ 2 = x ^ 2 - 1) by (apply sq_sqrt; lra). assert (Hv : v ^ 2 = y ^ 2 - 1) by (apply sq_sqrt; lra).
  assert (Hu0 : 0 < u) by (apply sqrt_lt_R0; lra). assert (Hv0 : 0 < v) by (apply sqrt_lt_R0; lra).
  assert (Hu1 : 1 <= u) by (apply Rnot_lt_le; intros Hlt; nra). assert (Huv : u < v) by (apply Rnot_le_lt; intros Hlt; nra).
  replace (x ^ 2) with (u ^ 2 + 1) by lra. replace (y ^ 2) with (v ^ 2 + 1) by lra.
  apply Rminus_lt_0. replace ((v ^ 2 + 1) / v - (u ^ 2 + 1) / u) with ((v - u) * (u * v - 1) / (u * v)) by (field; lra).
  apply Rdiv_lt_0_compat; [apply Rmult_lt_0_compat; [lra|assert (1 < u * v) by nra; lra]|apply Rmult_lt_0_compat; lra].
Qed.
Lemma two_turns g m0 m1 m2 : 1 < g -> 2 <= m0 ^ 2 -> 0 < m0 -> m0 < m1 -> m1 < m2 -> pm g m1 - pm g m0 = pm g m2 - pm g m1 ->
  lnpt g m1 - lnpt g m0 < lnpt g m2 - lnpt g m1.
Proof.
  intros Hg H2 H0 L01 L12 E. assert (H1 : 1 < m0) by nra. set (lam := g * ker m1).
  set (F := fun m => lnpt g m - lam * rad (pm g m)).
  set (F' := fun m => g * m / tt g m - lam * (sqrt (m ^ 2 - 1) / (m * tt g m))).
  assert (D : forall m, 1 < m -> is_derive F m (F' m)).
  { intros m Hm. unfold F, F'. apply (is_derive_minus (lnpt g) (fun m => lam * rad (pm g m))); [now apply lnpt_derive|].
    apply is_derive_scal. now apply pm_rad_derive. }
  assert (EF : forall m, 1 < m -> F' m = g * (ker m - ker m1) * (sqrt (m ^ 2 - 1) / (m * tt g m))).
  { intros m Hm. unfold F', lam. assert (Hs : 0 < sqrt (m ^ 2 - 1)) by (apply sqrt_lt_R0; nra). pose proof (tt_pos g m Hg).
    unfold ker at 2. field. repeat split; lra. }
  assert (Pos : forall m, 1 < m -> 0 < g * (sqrt (m ^ 2 - 1) / (m * tt g m))).
  { intros m Hm. assert (Hs : 0 < sqrt (m ^ 2 - 1)) by (apply sqrt_lt_R0; nra). pose proof (tt_pos g m Hg). pos. }
  assert (A : F m0 > F m1).
  { apply (strict_decr F F' m0 m1 L01); [intros; apply D; lra|]. intros m Hm. rewrite EF by lra. pose proof (Pos m ltac:(lra)).
    assert (ker m < ker m1) by (apply ker_incr; nra). nra. }
  assert (B : F m1 < F m2).
  { apply (strict_incr F F' m1 m2 L12); [intros; apply D; lra|]. intros m Hm. rewrite EF by lra. pose proof (Pos m ltac:(lra)).
    assert (ker m1 < ker m) by (apply ker_incr; nra). nra. }
  unfold F in A, B. assert (ER : rad (pm g m1) - rad (pm g m0) = rad (pm g m2) - rad (pm g m1)) by (rewrite <- !rad_sub; now f_equal). nra.
Qed.
Lemma Rpower_lnpt g M : 1 < g -> Rpower (tt g M) (g / (g - 1)) = exp (lnpt g M). Proof. reflexivity. Qed.
Lemma PtPs_lnpt g M : 1 < g -> PtPs_Mach (Some M) (Some g) = Some (exp (lnpt g M)). Proof. intros. now apply PtPs_eval. Qed.

(*@P C89_pressure_refuted: The global p1p0 is not the pressure ratio across the fan: it is computed from the Mach number behind the fan and turned once more. For every expansion from a Mach number of at least sqrt 2 (the notebook uses 2), it is strictly smaller than the ratio of the static pressures behind and before the fan. *)
Lemma fan_pressure : forall newton g m0 a m1 c q, solves 0 newton -> 1 < g -> sqrt 2 <= m0 -> a < 0 ->
  c = init_case newton (Some g) (Some m0) (Some a) -> M1 c = Some m1 -> 0 < m1 -> p1p0 c = Some q ->
  exists p0 p1, PtPs_Mach (Some m0) (Some g) = Some p0 /\ PtPs_Mach (Some m1) (Some g) = Some p1 /\ 0 < p0 /\ 0 < p1 /\ q < p0 / p1.
Proof.
  intros newton g m0 a m1 c q HN Hg Hm0 Ha Hc HM1 Hm1 Hq.
  assert (S2 : sqrt 2 ^ 2 = 2) by (apply sq_sqrt; lra). assert (S0 : 0 < sqrt 2) by (apply sqrt_lt_R0; lra).
  assert (Hm0' : 1 <= m0) by nra.
  destruct (case_m1 _ _ _ _ _ _ HN Hg Hm0' Ha Hc HM1 Hm1) as [L1 E1]. pose proof (case_gt _ _ _ _ _ _ HN Hg Hm0' Ha Hc HM1 Hm1) as L01.
  assert (Ep : p1p0 c = IsentropicPsratio_Mach_deflection newton (M1 c) (Some (a - 0)) (Some g)) by (subst c; reflexivity).
  rewrite HM1, Hq in Ep. symmetry in Ep. destruct (isen_defl_eval _ _ _ _ _ HN Hg L1 Ep) as [m2 [L2 [E2 ->]]].
  assert (L12 : m1 < m2). { destruct (Rlt_le_dec m1 m2) as [|[L|L]]; [assumption|pose proof (pm_incr g m2 m1 Hg L2 L); lra|subst m2; lra]. }
  exists (exp (lnpt g m0)), (exp (lnpt g m1)). split; [now apply PtPs_lnpt|]. split; [now apply PtPs_lnpt|]. split; [apply exp_pos|]. split; [apply exp_pos|].
  rewrite !Rpower_lnpt by assumption. unfold Rdiv. rewrite <- !exp_Ropp, <- !exp_plus. apply exp_increasing.
  pose proof (two_turns g m0 m1 m2 Hg ltac:(nra) ltac:(lra) L01 L12 ltac:(lra)). lra.
Qed.
