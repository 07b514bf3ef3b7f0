From Verif Require Import L_Num Spec M_Isentropic.
Open Scope R_scope.

(** The real formula behind Tt/Ts. *)
Definition tt (g M : R) : R := 1 + 1 / 2 * (g - 1) * M ^ 2.

Lemma tt_ge_1 g M : 1 < g -> 1 <= tt g M.
Proof. intros H; unfold tt; pose proof (sq_nonneg M); nra. Qed.
Lemma tt_pos g M : 1 < g -> 0 < tt g M.
Proof. intros H; pose proof (tt_ge_1 g M H); lra. Qed.
Lemma tt_gt_1 g M : 1 < g -> M <> 0 -> 1 < tt g M.
Proof. intros H HM; unfold tt; pose proof (sq_pos M HM); nra. Qed.
Lemma tt_incr g x y : 1 < g -> 0 <= x -> x < y -> tt g x < tt g y.
Proof. intros H Hx Hxy; unfold tt; assert (x ^ 2 < y ^ 2) by nra; nra. Qed.

Lemma TtTs_eval M g : TtTs_Mach (Some M) (Some g) = Some (tt g M).
Proof. reflexivity. Qed.

Lemma PtPs_eval M g : 1 < g ->
  PtPs_Mach (Some M) (Some g) = Some (Rpower (tt g M) (g / (g - 1))).
Proof.
  intros H; unfold PtPs_Mach; ncbn.
  rewrite ndiv_Some by lra. apply npow_Some. now apply tt_pos.
Qed.

Lemma Mach_TtTs_eval t g : 1 < g -> 1 <= t ->
  Mach_TtTs (Some t) (Some g) = Some (sqrt ((t - 1) * 2 / (g - 1))).
Proof.
  intros H Ht; unfold Mach_TtTs; ncbn; rewrite ndiv_Some by lra.
  apply nsqrt_Some. apply Rmult_le_pos; [lra|]. left; apply Rinv_0_lt_compat; lra.
Qed.
Lemma Mach_TtTs_none t g : 1 < g -> t < 1 -> Mach_TtTs (Some t) (Some g) = None.
Proof.
  intros H Ht; unfold Mach_TtTs; ncbn; rewrite ndiv_Some by lra.
  apply nsqrt_neg. assert (0 < / (g - 1)) by (apply Rinv_0_lt_compat; lra).
  unfold Rdiv; nra.
Qed.

Lemma exp_pos_gg g : 1 < g -> 0 < g / (g - 1).
Proof. intros; apply Rdiv_lt_0_compat; lra. Qed.
Lemma exp_pos_gi g : 1 < g -> 0 < (g - 1) / g.
Proof. intros; apply Rdiv_lt_0_compat; lra. Qed.

Lemma Mach_PtPs_eval q g : 1 < g -> 1 <= q ->
  Mach_PtPs (Some q) (Some g) = Some (sqrt ((Rpower q ((g - 1) / g) - 1) * 2 / (g - 1))).
Proof.
  intros H Hq; unfold Mach_PtPs; ncbn; rewrite (ndiv_Some (g - 1) g) by lra.
  rewrite npow_Some by lra; ncbn; rewrite ndiv_Some by lra.
  apply nsqrt_Some. apply Rmult_le_pos; [|left; apply Rinv_0_lt_compat; lra].
  pose proof (Rpower_ge_1 q ((g - 1) / g) Hq (exp_pos_gi g H)); lra.
Qed.
Lemma Mach_PtPs_none q g : 1 < g -> 0 < q < 1 -> Mach_PtPs (Some q) (Some g) = None.
Proof.
  intros H Hq; unfold Mach_PtPs; ncbn; rewrite (ndiv_Some (g - 1) g) by lra.
  rewrite npow_Some by lra; ncbn; rewrite ndiv_Some by lra.
  apply nsqrt_neg. pose proof (Rpower_lt_1 q ((g - 1) / g) Hq (exp_pos_gi g H)).
  assert (0 < / (g - 1)) by (apply Rinv_0_lt_compat; lra). unfold Rdiv; nra.
Qed.

Lemma tt_inv_abs g M : 1 < g -> (tt g M - 1) * 2 / (g - 1) = M ^ 2.
Proof. intros; unfold tt; field; lra. Qed.

Lemma Mach_TtTs_tt M g : 1 < g -> Mach_TtTs (Some (tt g M)) (Some g) = Some (Rabs M).
Proof.
  intros H; rewrite Mach_TtTs_eval by (auto; now apply tt_ge_1).
  rewrite tt_inv_abs by assumption. now rewrite sqrt_sq_abs.
Qed.
Lemma gg_inv g : 1 < g -> g / (g - 1) * ((g - 1) / g) = 1.
Proof. intros; field; lra. Qed.
Lemma gi_inv g : 1 < g -> (g - 1) / g * (g / (g - 1)) = 1.
Proof. intros; field; lra. Qed.

Lemma Mach_PtPs_pt M g : 1 < g ->
  Mach_PtPs (Some (Rpower (tt g M) (g / (g - 1)))) (Some g) = Some (Rabs M).
Proof.
  intros H. rewrite Mach_PtPs_eval; try assumption.
  - rewrite Rpower_inv_exp; [|now apply tt_pos|now apply gg_inv].
    rewrite tt_inv_abs by assumption. now rewrite sqrt_sq_abs.
  - apply Rpower_ge_1; [now apply tt_ge_1|now apply exp_pos_gg].
Qed.

Lemma tt_Mach_TtTs t g : 1 < g -> 1 <= t ->
  tt g (sqrt ((t - 1) * 2 / (g - 1))) = t.
Proof.
  intros H Ht; unfold tt; rewrite sq_sqrt; [field; lra|].
  apply Rmult_le_pos; [lra|left; apply Rinv_0_lt_compat; lra].
Qed.

Lemma sonic_tt g : 1 < g -> tt g 1 = (g + 1) / 2.
Proof. intros; unfold tt; field. Qed.

(** Energy balance behind Tt/Ts *)
Lemma energy_tt g r M Ts : 1 < g -> 0 < r -> 0 < Ts ->
  cp g r * (tt g M * Ts) = cp g r * Ts + (M * sound g r Ts) ^ 2 / 2.
Proof.
  intros Hg Hr HT. unfold cp, sound, tt.
  rewrite Rpow_mult_distr, sq_sqrt; [field; lra|].
  apply Rmult_le_pos; [apply Rmult_le_pos|]; lra.
Qed.

Lemma Velocity_eval M Tt r g : 1 < g -> 0 < r -> 0 < Tt ->
  Velocity_MachTt (Some M) (Some Tt) (Some r) (Some g)
  = Some (M * sqrt (g * r * Tt / tt g M)).
Proof.
  intros Hg Hr HT; unfold Velocity_MachTt; rewrite TtTs_eval; ncbn.
  pose proof (tt_pos g M Hg). rewrite ndiv_Some by lra.
  rewrite nsqrt_Some; [reflexivity|]. apply Rmult_le_pos; [|left; now apply Rinv_0_lt_compat].
  repeat apply Rmult_le_pos; lra.
Qed.
