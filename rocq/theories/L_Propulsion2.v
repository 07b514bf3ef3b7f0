(** * C69: inverting the thrust function *)
From Coquelicot Require Import Coquelicot.
From Verif Require Import L_Num Spec NumSpec M_Isentropic M_MassFlow M_IterSolve M_Propulsion L_Isentropic L_MassFlow L_Model1D L_Secant L_Secant2 L_Propulsion.
Open Scope R_scope.

(** slope of the thrust function, and its logarithm (up to sign) *)
Definition dthr (g M : R) : R := thr g M * ((M ^ 2 - 1) / (M * (1 + g * M ^ 2) * tt g M)).
Lemma thr_derive g M : 1 < g -> 0 < M -> is_derive (thr g) M (dthr g M).
Proof.
  intros Hg HM. apply (is_derive_ext_loc (fun m => exp (lthr g m))).
  { exists (mkposreal M HM). intros y Hy. change (Rabs (y - M) < M) in Hy. apply Rabs_def2 in Hy. symmetry. apply thr_exp; lra. }
  unfold dthr. rewrite (thr_exp g M Hg HM). rewrite Rmult_comm. apply (is_derive_comp exp (lthr g)); [apply is_derive_exp|now apply lthr_derive].
Qed.
Lemma dthr_form g M : 1 < g -> 0 < M -> dthr g M = C g * ((M ^ 2 - 1) / (M ^ 2 * (tt g M * sqrt (tt g M)))).
Proof.
  intros Hg HM. unfold dthr. rewrite thr_form by assumption. pose proof (tt_pos g M Hg). assert (0 < sqrt (tt g M)) by now apply sqrt_lt_R0.
  assert (0 < 1 + g * M ^ 2) by nra. field. repeat split; lra.
Qed.
Lemma tsq_incr g x y : 1 < g -> 0 < x -> x < y -> tt g x * sqrt (tt g x) < tt g y * sqrt (tt g y).
Proof.
  intros Hg Hx Hxy. pose proof (tt_pos g x Hg). pose proof (tt_incr g x y Hg ltac:(lra) Hxy). assert (0 < sqrt (tt g x)) by now apply sqrt_lt_R0.
  assert (sqrt (tt g x) < sqrt (tt g y)) by (apply sqrt_lt_1; lra). nra.
Qed.
(** subsonic: the slope is negative and flattens *)
Lemma dthr_sub g a b : 1 < g -> 0 < a -> a < b -> b <= 1 -> - dthr g b < - dthr g a.
Proof.
  intros Hg Ha Hab Hb. rewrite !dthr_form by lra. pose proof (C_pos g) as HC. pose proof (tsq_incr g a b Hg Ha Hab) as HT.
  assert (HA : 0 < tt g a * sqrt (tt g a)). { pose proof (tt_pos g a Hg). assert (0 < sqrt (tt g a)) by now apply sqrt_lt_R0. nra. }
  set (A := tt g a * sqrt (tt g a)) in *. set (B := tt g b * sqrt (tt g b)) in *.
  assert (Q : (1 - b ^ 2) / b ^ 2 / B < (1 - a ^ 2) / a ^ 2 / A).
  { assert (Hb2 : 0 <= (1 - b ^ 2) / b ^ 2). { apply Rdiv_le_0_compat; nra. }
    assert (Hab2 : (1 - b ^ 2) / b ^ 2 < (1 - a ^ 2) / a ^ 2).
    { replace ((1 - b ^ 2) / b ^ 2) with (/ (b ^ 2) - 1) by (field; lra). replace ((1 - a ^ 2) / a ^ 2) with (/ (a ^ 2) - 1) by (field; lra).
      assert (/ b ^ 2 < / a ^ 2) by (apply Rinv_lt_contravar; [pos|nra]). lra. }
    assert (HI : / B < / A) by (apply Rinv_lt_contravar; [apply Rmult_lt_0_compat; lra|lra]). assert (0 < / B) by (apply Rinv_0_lt_compat; lra). unfold Rdiv at 1 3. 
    set (p := (1 - b ^ 2) / b ^ 2) in *. set (q := (1 - a ^ 2) / a ^ 2) in *. nra. }
  replace (- (C g * ((b ^ 2 - 1) / (b ^ 2 * B)))) with (C g * ((1 - b ^ 2) / b ^ 2 / B)) by (field; lra).
  replace (- (C g * ((a ^ 2 - 1) / (a ^ 2 * A)))) with (C g * ((1 - a ^ 2) / a ^ 2 / A)) by (field; lra).
  apply Rmult_lt_compat_l; assumption.
Qed.
(** supersonic beyond Mach 1.998: the slope is positive and flattens, for gamma >= 1.15 *)
Definition lg (g M : R) : R := ln (M ^ 2 - 1) - 2 * ln M - 3 / 2 * ln (1 + 1 / 2 * (g - 1) * M ^ 2).
Lemma dthr_exp g M : 1 < g -> 1 < M -> dthr g M = C g * exp (lg g M).
Proof.
  intros Hg HM. rewrite dthr_form by lra. f_equal. unfold lg. fold (tt g M). pose proof (tt_pos g M Hg) as Ht. assert (0 < sqrt (tt g M)) by now apply sqrt_lt_R0.
  assert (0 < M ^ 2 - 1) by nra. unfold Rminus at 2 3. rewrite !exp_plus, !exp_Ropp, exp_ln by assumption.
  replace (exp (2 * ln M)) with (M ^ 2). 2:{ replace (2 * ln M) with (ln M + ln M) by ring. rewrite exp_plus, exp_ln by lra. ring. }
  replace (exp (3 / 2 * ln (tt g M))) with (tt g M * sqrt (tt g M)).
  2:{ replace (3 / 2 * ln (tt g M)) with (ln (tt g M) + / 2 * ln (tt g M)) by field. rewrite exp_plus, exp_ln by assumption. f_equal.
      rewrite <- Rpower_sqrt by assumption. reflexivity. }
  field. repeat split; lra.
Qed.
Lemma lg_derive g M : 1 < g -> 1 < M -> is_derive (lg g) M (2 / (M * (M ^ 2 - 1)) - 3 / 2 * (g - 1) * M / tt g M).
Proof.
  intros Hg HM. assert (H2 : 0 < 1 + 1 / 2 * (g - 1) * M ^ 2) by (apply (tt_pos g M Hg)). assert (0 < M ^ 2 - 1) by nra.
  unfold lg, tt. auto_derive; [repeat split; cbn [pow] in *; lra|]. field. repeat split; lra.
Qed.
Lemma dthr_sup g a b : 23/20 <= g -> 1998/1000 <= a -> a < b -> dthr g b < dthr g a.
Proof.
  intros Hg Ha Hab. rewrite !dthr_exp by lra. apply Rmult_lt_compat_l; [apply C_pos|]. apply exp_increasing.
  apply (strict_decr (lg g) (fun M => 2 / (M * (M ^ 2 - 1)) - 3 / 2 * (g - 1) * M / tt g M) a b Hab).
  - intros x Hx. apply lg_derive; lra.
  - intros x Hx. assert (Hs : 3992/1000 <= x ^ 2) by nra. assert (H2 : 0 < tt g x) by (apply (tt_pos g x); lra). unfold tt in *.
    set (k := g - 1) in *. assert (Hk : 15/100 <= k) by (unfold k; lra). clearbody k. clear Hg.
    assert (D : 2 / (x * (x ^ 2 - 1)) - 3 / 2 * k * x / (1 + 1 / 2 * k * x ^ 2) =
      (2 * (1 + 1 / 2 * k * x ^ 2) - 3 / 2 * k * x ^ 2 * (x ^ 2 - 1)) / (x * (x ^ 2 - 1) * (1 + 1 / 2 * k * x ^ 2))).
    { field. repeat split; lra. }
    rewrite D. apply (Rlt_div_l _ 0); [apply Rmult_lt_0_compat; [apply Rmult_lt_0_compat; lra|lra]|]. rewrite Rmult_0_l.
    set (s := x ^ 2) in *. clearbody s. clear D. assert (Hq : 139/10 <= s * (3 / 2 * s - 5 / 2)) by nra. set (w := s * (3 / 2 * s - 5 / 2)) in *.
    replace (2 * (1 + 1 / 2 * k * s) - 3 / 2 * k * s * (s - 1)) with (2 - k * w) by (unfold w; field). clearbody w. nra.
Qed.
(*@P C69_inverse: Inverting the thrust function, for every gamma >= 1.15, every Mach number m and every start M0 with 2 <= M0 <= m (2 is the default): given the thrust of m, Mach_ThrustFunction never evaluates the thrust function beyond m nor below 0.999 M0 and returns z with M0 <= z <= m; if it ends without its warning, the thrust at z is within 2e-5 z times the limit thrust of the requested one. *)
Lemma thrust_inverse_supersonic : forall g m M0 t, 23/20 <= g -> 2 <= M0 <= m -> ThrustFunction (Some m) (Some g) = Some t ->
  let run := secant_run_of (fun M => ThrustFunction M (Some g)) (Some t) (Some M0) secant_tol in
  exists z, Mach_ThrustFunction (Some t) (Some M0) (Some g) = Some z /\ M0 <= z <= m /\
    List.Forall (fun p => exists a, p = Some a /\ M0 * (999/1000) <= a <= m) (s_evals run) /\
    (s_warned run = false -> exists f, ThrustFunction (Some z) (Some g) = Some f /\
      Rabs (f - t) <= 2 / 100000 * z * (g * Rpower (2 / (g + 1)) ((g + 1) / (2 * (g - 1))) / sqrt ((g - 1) / 2))).
Proof.
  intros g m M0 t Hg HM E run. rewrite thrust_eval in E by lra. apply Some_inj in E. subst t.
  destruct (secant_below (fun M => ThrustFunction M (Some g)) (thr g) (dthr g) m 1 M0) as (z & Z1 & Z2 & Z3); try lra.
  - intros z Hz. split; [apply thrust_eval; lra|apply thr_derive; lra].
  - intros z Hz. rewrite Rmult_1_l, dthr_exp by lra. pose proof (C_pos g). pose proof (exp_pos (lg g z)). pos.
  - intros a b Ha Hab Hb. rewrite !Rmult_1_l. left. apply dthr_sup; lra.
  - exists z. split; [exact Z1|]. split; [exact Z2|]. split; [exact Z3|]. intros W.
    apply (thrust_inverse g (thr g m) M0 z); [lra|lra|exact Z1| |lra|exact W].
    intros a Ha. rewrite List.Forall_forall in Z3. destruct (Z3 _ Ha) as (a' & Ea & Ba). injection Ea as <-. lra.
Qed.
(*@P C69_inverse_subsonic: From a subsonic start: for every gamma > 1, every Mach number m <= 1 and every start M0 with 0.01 < M0 <= m, given the thrust of m Mach_ThrustFunction stays subsonic: it never evaluates the thrust function beyond m and returns z with M0 <= z <= m. *)
Lemma thrust_inverse_subsonic : forall g m M0 t, 1 < g -> 1/100 < M0 -> M0 <= m <= 1 -> ThrustFunction (Some m) (Some g) = Some t ->
  exists z, Mach_ThrustFunction (Some t) (Some M0) (Some g) = Some z /\ M0 <= z <= m /\
    List.Forall (fun p => exists a, p = Some a /\ M0 * (999/1000) <= a <= m)
      (s_evals (secant_run_of (fun M => ThrustFunction M (Some g)) (Some t) (Some M0) secant_tol)).
Proof.
  intros g m M0 t Hg H0 HM E. rewrite thrust_eval in E by lra. apply Some_inj in E. subst t.
  destruct (secant_below (fun M => ThrustFunction M (Some g)) (thr g) (dthr g) m (-1) M0) as (z & Z1 & Z2 & Z3); try lra.
  - intros z Hz. split; [apply thrust_eval; lra|apply thr_derive; lra].
  - intros z Hz. unfold dthr. pose proof (thr_pos g z Hg ltac:(lra)) as P. pose proof (tt_pos g z Hg).
    assert (0 < 1 + g * z ^ 2) by nra. assert (0 < (1 - z ^ 2) / (z * (1 + g * z ^ 2) * tt g z)).
    { apply Rdiv_lt_0_compat; [nra|]. apply Rmult_lt_0_compat; [apply Rmult_lt_0_compat; lra|lra]. }
    replace (-1 * (thr g z * ((z ^ 2 - 1) / (z * (1 + g * z ^ 2) * tt g z)))) with (thr g z * ((1 - z ^ 2) / (z * (1 + g * z ^ 2) * tt g z))) by (field; repeat split; lra).
    now apply Rmult_lt_0_compat.
  - intros a b Ha Hab Hb. left. pose proof (dthr_sub g a b Hg ltac:(lra) Hab ltac:(lra)). lra.
  - exists z. split; [exact Z1|]. split; [exact Z2|exact Z3].
Qed.
(*@E C69_inverse_example: gamma = 1.4, default start, thrust of Mach 3: the hypotheses hold and the answer is between 2 and 3. *)
Lemma C69_inverse_example_lemma : exists t z, ThrustFunction (Some 3) (Some (7/5)) = Some t /\ Mach_ThrustFunction (Some t) (Some 2) (Some (7/5)) = Some z /\ 2 <= z <= 3.
Proof.
  exists (thr (7/5) 3). assert (E : ThrustFunction (Some 3) (Some (7/5)) = Some (thr (7/5) 3)) by (apply thrust_eval; lra).
  destruct (thrust_inverse_supersonic (7/5) 3 2 (thr (7/5) 3) ltac:(lra) ltac:(lra) E) as (z & Z1 & Z2 & _). exists z. split; [exact E|]. split; [exact Z1|exact Z2].
Qed.
