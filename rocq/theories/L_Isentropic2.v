From Verif Require Import L_Num Spec NumSpec M_Isentropic L_Isentropic.
Open Scope R_scope.

(*@P C01_TtTs_energy *)
Lemma TtTs_energy : forall M g r Ts, 1 < g -> 0 < r -> 0 < Ts ->
  exists t, TtTs_Mach (Some M) (Some g) = Some t /\
            cp g r * (t * Ts) = cp g r * Ts + (M * sound g r Ts) ^ 2 / 2.
Proof. intros; eexists; split; [apply TtTs_eval|now apply energy_tt]. Qed.

(*@P C01_TtTs_range *)
Lemma TtTs_range : forall M g, 1 < g ->
  exists t, TtTs_Mach (Some M) (Some g) = Some t /\ 1 <= t /\ (t = 1 <-> M = 0) /\
            TtTs_Mach (Some (- M)) (Some g) = Some t.
Proof.
  intros M g H; eexists; split; [apply TtTs_eval|].
  split; [now apply tt_ge_1|]. split.
  - split; intros E.
    + destruct (Req_dec M 0) as [|N]; [assumption|]. pose proof (tt_gt_1 g M H N); lra.
    + subst; unfold tt; ring.
  - rewrite TtTs_eval; f_equal; unfold tt; ring.
Qed.
(*@P C01_TtTs_increasing *)
Lemma TtTs_increasing : forall g, 1 < g ->
  incr_on (fun M => 0 <= M) (fun M => TtTs_Mach M (Some g)).
Proof.
  intros g H x y Hx Hy Hxy; exists (tt g x), (tt g y).
  split; [apply TtTs_eval|]; split; [apply TtTs_eval|]; now apply tt_incr.
Qed.
(*@E C01_example *)
Lemma C01_example_lemma : TtTs_Mach (Some 2) (Some (16/10)) = Some (22/10).
Proof. rewrite TtTs_eval; f_equal; unfold tt; lra. Qed.

(*@P C02_Mach_of_TtTs *)
Lemma Mach_of_TtTs : forall M g, 1 < g ->
  exists t, TtTs_Mach (Some M) (Some g) = Some t /\ Mach_TtTs (Some t) (Some g) = Some (Rabs M).
Proof. intros; eexists; split; [apply TtTs_eval|now apply Mach_TtTs_tt]. Qed.
(*@P C02_TtTs_of_Mach *)
Lemma TtTs_of_Mach : forall t g, 1 < g -> 1 <= t ->
  exists M, Mach_TtTs (Some t) (Some g) = Some M /\ 0 <= M /\ TtTs_Mach (Some M) (Some g) = Some t.
Proof.
  intros t g H Ht; eexists; split; [now apply Mach_TtTs_eval|].
  split; [apply sqrt_pos|]. rewrite TtTs_eval; f_equal; now apply tt_Mach_TtTs.
Qed.
(*@P C02_domain *)
Lemma Mach_TtTs_domain : forall t g, 1 < g ->
  (exists M, Mach_TtTs (Some t) (Some g) = Some M) <-> 1 <= t.
Proof.
  intros t g H; split.
  - intros [M E]; destruct (Rle_lt_dec 1 t) as [|L]; [assumption|].
    rewrite Mach_TtTs_none in E by assumption; discriminate.
  - intros Ht; eexists; now apply Mach_TtTs_eval.
Qed.

(*@P C03_isentropic *)
Lemma PtPs_isentropic : forall M g, 1 < g ->
  exists t q, TtTs_Mach (Some M) (Some g) = Some t /\ PtPs_Mach (Some M) (Some g) = Some q /\
    forall ps Ts, 0 < ps -> 0 < Ts ->
      (q * ps) / Rpower (t * Ts) (g / (g - 1)) = ps / Rpower Ts (g / (g - 1)).
Proof.
  intros M g H; exists (tt g M), (Rpower (tt g M) (g / (g - 1))).
  split; [apply TtTs_eval|]; split; [now apply PtPs_eval|].
  intros ps Ts Hp HT. pose proof (tt_pos g M H).
  rewrite Rpower_mult_base by assumption.
  pose proof (Rpower_pos (tt g M) (g / (g - 1))). pose proof (Rpower_pos Ts (g / (g - 1))).
  field; split; lra.
Qed.
(*@P C03_Mach_of_PtPs *)
Lemma Mach_of_PtPs : forall M g, 1 < g ->
  exists q, PtPs_Mach (Some M) (Some g) = Some q /\ 1 <= q /\
            Mach_PtPs (Some q) (Some g) = Some (Rabs M).
Proof.
  intros M g H; eexists; split; [now apply PtPs_eval|]; split; [|now apply Mach_PtPs_pt].
  apply Rpower_ge_1; [now apply tt_ge_1|now apply exp_pos_gg].
Qed.
(*@P C03_PtPs_of_Mach *)
Lemma PtPs_of_Mach : forall q g, 1 < g -> 1 <= q ->
  exists M, Mach_PtPs (Some q) (Some g) = Some M /\ 0 <= M /\ PtPs_Mach (Some M) (Some g) = Some q.
Proof.
  intros q g H Hq; eexists; split; [now apply Mach_PtPs_eval|].
  split; [apply sqrt_pos|]. rewrite PtPs_eval by assumption; f_equal.
  rewrite tt_Mach_TtTs; [|assumption|].
  - apply Rpower_inv_exp; [lra|now apply gi_inv].
  - apply Rpower_ge_1; [assumption|now apply exp_pos_gi].
Qed.
(*@P C03_domain *)
Lemma Mach_PtPs_domain : forall q g, 1 < g -> 0 < q ->
  (exists M, Mach_PtPs (Some q) (Some g) = Some M) <-> 1 <= q.
Proof.
  intros q g H Hq; split.
  - intros [M E]; destruct (Rle_lt_dec 1 q) as [|L]; [assumption|].
    rewrite Mach_PtPs_none in E by (try assumption; lra); discriminate.
  - intros Ht; eexists; now apply Mach_PtPs_eval.
Qed.
(*@P C03_PtPs_increasing *)
Lemma PtPs_increasing : forall g, 1 < g ->
  incr_on (fun M => 0 <= M) (fun M => PtPs_Mach M (Some g)).
Proof.
  intros g H x y Hx Hy Hxy. do 2 eexists; split; [now apply PtPs_eval|].
  split; [now apply PtPs_eval|]. apply Rpower_lt_base.
  - now apply tt_pos.
  - now apply tt_incr.
  - now apply exp_pos_gg.
Qed.
(*@E C03_example *)
Lemma C03_example_lemma : PtPs_Mach (Some 1) (Some 2) = Some (9/4).
Proof.
  rewrite PtPs_eval by lra; f_equal. unfold tt.
  replace (2 / (2 - 1)) with 2 by field. rewrite Rpower_pow2; simpl; lra.
Qed.

(*@P C04_velocity_energy *)
Lemma Velocity_energy : forall M Tt r g, 1 < g -> 0 < r -> 0 < Tt ->
  exists V T t, Velocity_MachTt (Some M) (Some Tt) (Some r) (Some g) = Some V /\
    TtTs_Mach (Some M) (Some g) = Some t /\ T = Tt / t /\ 0 < T /\
    V = M * sound g r T /\ cp g r * Tt = cp g r * T + V ^ 2 / 2.
Proof.
  intros M Tt r g Hg Hr HT. pose proof (tt_pos g M Hg) as Ht.
  exists (M * sound g r (Tt / tt g M)), (Tt / tt g M), (tt g M).
  split; [rewrite Velocity_eval by assumption; unfold sound; do 3 f_equal; field; lra|].
  split; [apply TtTs_eval|]. split; [reflexivity|].
  assert (0 < Tt / tt g M) by (now apply Rdiv_lt_0_compat).
  split; [assumption|]. split; [reflexivity|].
  rewrite <- energy_tt by assumption. f_equal; field; lra.
Qed.
Lemma vel_sq g r Tt M : 1 < g -> 0 < r -> 0 < Tt ->
  (M * sqrt (g * r * Tt / tt g M)) ^ 2 = 2 * cp g r * Tt * (1 - / tt g M).
Proof.
  intros Hg Hr HT. pose proof (tt_pos g M Hg) as Ht.
  rewrite Rpow_mult_distr, sq_sqrt.
  - unfold cp. unfold tt in *. field; split; lra.
  - apply Rmult_le_pos; [repeat apply Rmult_le_pos; lra|left; now apply Rinv_0_lt_compat].
Qed.
Lemma cpT_pos g r Tt : 1 < g -> 0 < r -> 0 < Tt -> 0 < 2 * cp g r * Tt.
Proof.
  intros. unfold cp. assert (0 < g * r / (g - 1)).
  { apply Rdiv_lt_0_compat; [apply Rmult_lt_0_compat|]; lra. } nra.
Qed.
(*@P C04_velocity_increasing *)
Lemma Velocity_increasing : forall Tt r g, 1 < g -> 0 < r -> 0 < Tt ->
  incr_on (fun M => 0 <= M) (fun M => Velocity_MachTt M (Some Tt) (Some r) (Some g)).
Proof.
  intros Tt r g Hg Hr HT x y Hx Hy Hxy.
  do 2 eexists; split; [now apply Velocity_eval|]; split; [now apply Velocity_eval|].
  pose proof (vel_sq g r Tt x Hg Hr HT) as E1. pose proof (vel_sq g r Tt y Hg Hr HT) as E2.
  set (vx := x * _) in *. set (vy := y * _) in *.
  assert (0 <= vx) by (apply Rmult_le_pos; [assumption|apply sqrt_pos]).
  assert (0 <= vy) by (apply Rmult_le_pos; [assumption|apply sqrt_pos]).
  assert (/ tt g y < / tt g x).
  { apply Rinv_lt_contravar; [apply Rmult_lt_0_compat; now apply tt_pos|now apply tt_incr]. }
  pose proof (cpT_pos g r Tt Hg Hr HT). nra.
Qed.
(*@P C04_velocity_limit *)
Lemma Velocity_limit : forall M Tt r g V, 1 < g -> 0 < r -> 0 < Tt ->
  Velocity_MachTt (Some M) (Some Tt) (Some r) (Some g) = Some V -> V < sqrt (2 * cp g r * Tt).
Proof.
  intros M Tt r g V Hg Hr HT E. rewrite Velocity_eval in E by assumption.
  injection E as E. pose proof (vel_sq g r Tt M Hg Hr HT) as E1. rewrite E in E1.
  pose proof (cpT_pos g r Tt Hg Hr HT). pose proof (tt_pos g M Hg).
  assert (0 < / tt g M) by (now apply Rinv_0_lt_compat).
  pose proof (sqrt_lt_R0 _ H). pose proof (sq_sqrt (2 * cp g r * Tt)). nra.
Qed.
(*@E C04_example *)
Lemma C04_example_lemma : exists V, Velocity_MachTt (Some 2) (Some 300) dr dgamma = Some V /\ 0 < V.
Proof.
  eexists; split; [unfold dr, dgamma; apply Velocity_eval; lra|].
  apply Rmult_lt_0_compat; [lra|]. apply sqrt_lt_R0. unfold tt. lra.
Qed.
(*@E C02_example: gamma = 3, M = -2: Tt/Ts = 5 and back to |M| = 2; the ratio 5 satisfies the hypothesis, 1/2 has no Mach number. *)
Lemma C02_example_lemma : TtTs_Mach (Some (-2)) (Some 3) = Some 5 /\ Mach_TtTs (Some 5) (Some 3) = Some 2 /\ Mach_TtTs (Some (1/2)) (Some 3) = None.
Proof.
  assert (E : TtTs_Mach (Some (-2)) (Some 3) = Some 5) by (rewrite TtTs_eval; f_equal; unfold tt; field).
  split; [assumption|]. split.
  - destruct (Mach_of_TtTs (-2) 3 ltac:(lra)) as (t & E1 & E2). rewrite E in E1. injection E1 as <-.
    rewrite E2. f_equal. rewrite Rabs_left by lra. lra.
  - destruct (Mach_TtTs (Some (1/2)) (Some 3)) eqn:H; [|reflexivity].
    exfalso. assert (1 <= 1/2) by (apply (Mach_TtTs_domain (1/2) 3); [lra|eauto]). lra.
Qed.
