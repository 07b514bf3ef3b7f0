(** * C22: the secant inversion of the Prandtl-Meyer function *)
From Coquelicot Require Import Coquelicot.
From Verif Require Import L_Num Spec NumSpec M_Isentropic M_MassFlow M_IterSolve M_Supersonic L_Isentropic L_Degree L_Supersonic L_Secant L_Secant2 L_Model1D L_Propulsion.
Open Scope R_scope.

Definition dpm (g M : R) : R := 180 / PI * (sqrt (M ^ 2 - 1) / (M * (1 + (g - 1) / 2 * M ^ 2))).
Lemma pm_derive g m : 1 < g -> 1 < m -> is_derive (pm g) m (dpm g m).
Proof.
  intros Hg Hm. destruct (pm_slope g m Hg Hm) as (nu & E & D).
  apply (is_derive_ext_loc nu); [|exact D]. exists (mkposreal (m - 1) ltac:(lra)). intros y Hy. change (Rabs (y - m) < m - 1) in Hy. apply Rabs_def2 in Hy.
  specialize (E y ltac:(lra)). rewrite PM_eval in E by (try assumption; rewrite Rabs_pos_eq; lra). now injection E.
Qed.
Lemma dpm_bound g m : 1 < g -> 1 < m -> 0 < dpm g m <= 180 / PI.
Proof.
  intros Hg Hm. unfold dpm. pose proof PI_RGT_0. assert (0 < 180 / PI) by pos. assert (0 < m ^ 2 - 1) by nra. assert (0 < sqrt (m ^ 2 - 1)) by now apply sqrt_lt_R0.
  assert (sqrt (m ^ 2 - 1) < m). { rewrite <- (sqrt_pow2 m) at 2 by lra. apply sqrt_lt_1; nra. }
  assert (HD : 1 < 1 + (g - 1) / 2 * m ^ 2) by nra. set (d := 1 + _) in *. clearbody d.
  assert (Q : 0 < sqrt (m ^ 2 - 1) / (m * d) <= 1). { split; [apply Rdiv_lt_0_compat; nra|]. apply (Rle_div_l _ 1); nra. }
  set (q := _ / (m * d)) in *. clearbody q. nra.
Qed.
Definition lpm (g M : R) : R := ln (180 / PI) + 1 / 2 * ln (M ^ 2 - 1) - ln M - ln (1 + (g - 1) / 2 * M ^ 2).
Lemma dpm_exp g M : 1 < g -> 1 < M -> dpm g M = exp (lpm g M).
Proof.
  intros Hg HM. unfold lpm, dpm. pose proof PI_RGT_0. assert (0 < 180 / PI) by pos. assert (0 < M ^ 2 - 1) by nra. assert (0 < 1 + (g - 1) / 2 * M ^ 2) by nra.
  match goal with |- _ = exp (?a + ?b - ?c - ?d) => replace (a + b - c - d) with (a + b + - c + - d) by ring end. rewrite !exp_plus, !exp_Ropp, !exp_ln by lra.
  replace (exp (1 / 2 * ln (M ^ 2 - 1))) with (sqrt (M ^ 2 - 1)).
  2:{ rewrite <- Rpower_sqrt by assumption. unfold Rpower. f_equal. field. }
  field. repeat split; lra.
Qed.
Lemma lpm_derive g M : 1 < g -> 1 < M -> is_derive (lpm g) M (1 / (M * (M ^ 2 - 1)) - (g - 1) * M / (1 + (g - 1) / 2 * M ^ 2)).
Proof.
  intros Hg HM. assert (H2 : 0 < 1 + (g - 1) / 2 * M ^ 2) by nra. assert (0 < M ^ 2 - 1) by nra.
  unfold lpm. generalize (ln (180 / PI)). intros c. auto_derive; [repeat split; cbn [pow] in *; lra|]. field. repeat split; lra.
Qed.
Lemma dpm_decr g a b : 111/100 <= g -> 1998/1000 <= a -> a < b -> dpm g b < dpm g a.
Proof.
  intros Hg Ha Hab. rewrite !dpm_exp by lra. apply exp_increasing.
  apply (strict_decr (lpm g) (fun M => 1 / (M * (M ^ 2 - 1)) - (g - 1) * M / (1 + (g - 1) / 2 * M ^ 2)) a b Hab).
  - intros x Hx. apply lpm_derive; lra.
  - intros x Hx. assert (Hs : 3992/1000 <= x ^ 2) by nra.
    set (k := g - 1) in *. assert (Hk : 11/100 <= k) by (unfold k; lra). clearbody k. clear Hg.
    assert (H2 : 0 < 1 + k / 2 * x ^ 2) by nra.
    assert (D : 1 / (x * (x ^ 2 - 1)) - k * x / (1 + k / 2 * x ^ 2) = (1 + k / 2 * x ^ 2 - k * x ^ 2 * (x ^ 2 - 1)) / (x * (x ^ 2 - 1) * (1 + k / 2 * x ^ 2))).
    { field. repeat split; lra. }
    rewrite D. apply (Rlt_div_l _ 0); [apply Rmult_lt_0_compat; [apply Rmult_lt_0_compat; lra|lra]|]. rewrite Rmult_0_l.
    set (s := x ^ 2) in *. clearbody s. clear D. assert (Hq : 99/10 <= s * (s - 3 / 2)) by nra. set (w := s * (s - 3 / 2)) in *.
    replace (1 + k / 2 * s - k * s * (s - 1)) with (1 - k * w) by (unfold w; field). clearbody w. nra.
Qed.
Lemma pm_lip g a b : 1 < g -> 1 < a -> 1 < b -> Rabs (pm g a - pm g b) <= 180 / PI * Rabs (a - b).
Proof.
  intros Hg. assert (G : forall x y, 1 < x -> x < y -> 0 < pm g y - pm g x <= 180 / PI * (y - x)).
  { intros x y Hx Hxy. destruct (MVT_cor2 (pm g) (dpm g) x y Hxy) as (c & E & Hc).
    { intros c Hc. apply is_derive_Reals, pm_derive; lra. }
    rewrite E. pose proof (dpm_bound g c Hg ltac:(lra)). split; [apply Rmult_lt_0_compat; lra|apply Rmult_le_compat_r; lra]. }
  intros Ha Hb. destruct (Rtotal_order a b) as [h|[h|h]].
  - pose proof (G a b Ha h). rewrite !Rabs_left by lra. lra.
  - subst. rewrite !Rminus_eq_0, Rabs_R0. lra.
  - pose proof (G b a Hb h). rewrite !Rabs_right by lra. lra.
Qed.
Lemma old_is_secant : old_Mach_PrandtlMeyer = fun w g => secant_solve (fun m => PrandtlMeyer_Mach m g) w (Some 2).
Proof. reflexivity. Qed.
(*@P C22_secant_inverse: The secant inversion of the Prandtl-Meyer function, for every gamma >= 1.11 and every Mach number m >= 2: given the Prandtl-Meyer angle of m, the iteration stays supersonic, never evaluates the function beyond m, and returns z with 2 <= z <= m; if it ends without its warning, the Prandtl-Meyer angle of z is within 2e-5 z radians of the requested one. *)
Lemma old_inverse : forall g m w, 111/100 <= g -> 2 <= m -> PrandtlMeyer_Mach (Some m) (Some g) = Some w ->
  let run := secant_run_of (fun M => PrandtlMeyer_Mach M (Some g)) (Some w) (Some 2) secant_tol in
  exists z, old_Mach_PrandtlMeyer (Some w) (Some g) = Some z /\ 2 <= z <= m /\
    List.Forall (fun p => exists a, p = Some a /\ 2 * (999/1000) <= a <= m) (s_evals run) /\
    (s_warned run = false -> exists w', PrandtlMeyer_Mach (Some z) (Some g) = Some w' /\ Rabs (w' - w) <= 2 / 100000 * z * (180 / PI)).
Proof.
  intros g m w Hg Hm E run. assert (EV : forall z, 1 < z -> PrandtlMeyer_Mach (Some z) (Some g) = Some (pm g z)).
  { intros z Hz. apply PM_eval; [lra|rewrite Rabs_pos_eq; lra]. }
  rewrite EV in E by lra. apply Some_inj in E. subst w.
  destruct (secant_below (fun M => PrandtlMeyer_Mach M (Some g)) (pm g) (dpm g) m 1 2) as (z & Z1 & Z2 & Z3); try lra.
  - intros z Hz. split; [apply EV; lra|apply pm_derive; lra].
  - intros z Hz. rewrite Rmult_1_l. apply dpm_bound; lra.
  - intros a b Ha Hab Hb. rewrite !Rmult_1_l. left. apply dpm_decr; lra.
  - exists z. rewrite old_is_secant. split; [exact Z1|]. split; [exact Z2|]. split; [exact Z3|]. intros W.
    exists (pm g z). split; [apply EV; lra|]. pose proof PI_RGT_0. assert (0 <= 180 / PI) by (left; pos).
    assert (HL : forall a c u v, 1 < a -> 1 < c -> PrandtlMeyer_Mach (Some a) (Some g) = Some u -> PrandtlMeyer_Mach (Some c) (Some g) = Some v -> Rabs (u - v) <= 180 / PI * Rabs (a - c)).
    { intros a c u v Ha Hc Ea Ec. rewrite EV in Ea, Ec by lra. apply Some_inj in Ea, Ec. subst u v. apply pm_lip; lra. }
    pose proof (residual_default (fun M => PrandtlMeyer_Mach M (Some g)) (fun a => 1 < a) (180 / PI) (pm g m) 2 z H0 HL) as W'.
    assert (HD : forall a, In (Some a) (s_evals (secant_run_of (fun M => PrandtlMeyer_Mach M (Some g)) (Some (pm g m)) (Some 2) secant_tol)) -> 1 < a).
    { intros a Ha. rewrite List.Forall_forall in Z3. destruct (Z3 _ Ha) as (a' & Ea & Ba). injection Ea as <-. lra. }
    specialize (W' HD W Z1 ltac:(rewrite Rabs_pos_eq; lra) (pm g z) ltac:(lra) ltac:(apply EV; lra)).
    rewrite (Rabs_right z), Rmax_right in W' by lra. lra.
Qed.
(*@E C22_secant_example: gamma = 1.4, the Prandtl-Meyer angle of Mach 3: the hypotheses hold and the answer is between 2 and 3. *)
Lemma C22_secant_example_lemma : exists w z, PrandtlMeyer_Mach (Some 3) (Some (7/5)) = Some w /\ old_Mach_PrandtlMeyer (Some w) (Some (7/5)) = Some z /\ 2 <= z <= 3.
Proof.
  exists (pm (7/5) 3). assert (E : PrandtlMeyer_Mach (Some 3) (Some (7/5)) = Some (pm (7/5) 3)) by (apply PM_eval; [lra|rewrite Rabs_pos_eq; lra]).
  destruct (old_inverse (7/5) 3 (pm (7/5) 3) ltac:(lra) ltac:(lra) E) as (z & Z1 & Z2 & _). exists z. split; [exact E|]. split; [exact Z1|exact Z2].
Qed.
