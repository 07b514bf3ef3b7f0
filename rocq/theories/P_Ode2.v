(** Property theorems of L_Ode2.v. Generated by tools/gen.py; statements only, proofs are in L_Ode2.v. *)
From Coq Require Import Sorted.
From Verif Require Import Num M_Ode OdeSpec L_Ode.
From Verif Require Import L_Ode2.
Open Scope R_scope.

(** Whatever F, x, xStop, h and tol: RKF45 returns as many states as abscissae, starting with x and y, and each consecutive pair is one _rkf45 step whose error estimate is at most tol. *)
Theorem C57_accepted : forall passes n F x y xStop h tol b X Y, RKF45_n passes n F x y xStop h tol = (b, X, Y) ->
  length Y = length X /\ nth 0 X 0 = x /\ nth 0 Y (fun _ => 0) = y /\
  forall k, (S k < length X)%nat -> exists hk, nth (S k) X 0 = nth k X 0 + hk /\
    rkf45_e n F (nth k X 0) (nth k Y (fun _ => 0)) hk <= tol /\
    forall i, nth (S k) Y (fun _ => 0) i = nth k Y (fun _ => 0) i + rkf45_dy F (nth k X 0) (nth k Y (fun _ => 0)) hk i.
Proof. exact rkf45_accepted. Qed.
Print Assumptions C57_accepted.

(** With tol > 0 and a first step 0 < h < xStop - x, the abscissae returned are strictly increasing and never exceed xStop, whatever F. *)
Theorem C57_monotone : forall passes n F x y xStop h tol b X Y, 0 < tol -> 0 < h < xStop - x ->
  RKF45_n passes n F x y xStop h tol = (b, X, Y) -> StronglySorted Rlt X /\ forall t, In t X -> x <= t <= xStop.
Proof. exact rkf45_monotone. Qed.
Print Assumptions C57_monotone.

(** The property for integrations whose last step is accepted at the first attempt: if every step that would end at xStop has an error estimate within tol, then, unless the cap on the number of passes is hit, the last abscissa is xStop. Missing: the cases where such a step is rejected, which C57_refuted shows to be wrong in the code. *)
Theorem C57_reaches_partial : forall passes n F x y xStop h tol X Y,
  (forall x' y' h', x' + h' = xStop -> rkf45_e n F x' y' h' <= tol) ->
  RKF45_n passes n F x y xStop h tol = (true, X, Y) -> last X 0 = xStop.
Proof. exact rkf45_reaches. Qed.
Print Assumptions C57_reaches_partial.

(** RKF45 can stop before xStop without a word: for every tolerance there is a continuous right-hand side (zero up to x = 1.9, then a ramp) whose integration from 0 to 2 with first step 1 returns the abscissae 0, 1, 1.45 - the first attempt at the last step is rejected, and the shorter step that follows is taken for the last one. *)
Theorem C57_refuted : forall passes tol y, 0 < tol -> (3 <= passes)%nat ->
  exists F Y, (forall y i, continuity (fun t => F t y i)) /\
  RKF45_n passes 1 F 0 y 2 1 tol = (true, 0 :: 1 :: 145 / 100 :: nil, Y).
Proof. exact rkf45_refuted. Qed.
Print Assumptions C57_refuted.

(** The same failure through the interface, with its cap of 10000 passes, at the default tolerance 1e-6. *)
Theorem C57_default_refuted : forall y, exists F Y, (forall y i, continuity (fun t => F t y i)) /\
  RKF45 1 F 0 y 2 1 (1 / 1000000) = (0 :: 1 :: 145 / 100 :: nil, Y).
Proof. exact rkf45_default_refuted. Qed.
Print Assumptions C57_default_refuted.

(** The first step is not limited: with h > xStop - x > 0 and a right-hand side it integrates exactly, RKF45 steps past xStop and comes back: the abscissae are x, x + h, xStop, not increasing, and F is evaluated outside of [x, xStop]. *)
Theorem C57_overshoot_refuted : forall passes n a x y xStop h tol, 0 <= tol -> 0 < xStop - x < h -> (2 <= passes)%nat ->
  exists Y, RKF45_n passes n (fun t _ i => cubic a i t) x y xStop h tol = (true, x :: x + h :: xStop :: nil, Y).
Proof. exact rkf45_overshoot. Qed.
Print Assumptions C57_overshoot_refuted.

(** The cap on the number of passes is silent: an integration that needs more steps ends early, at x + passes h, without an error. *)
Theorem C57_cap_refuted : forall passes n a x y xStop h tol, 0 <= tol -> 0 < h -> x + (INR passes + 1) * h < xStop ->
  exists X Y, RKF45_n passes n (fun t _ i => cubic a i t) x y xStop h tol = (false, X, Y) /\
  last X 0 = x + INR passes * h /\ last X 0 < xStop.
Proof. exact rkf45_cap. Qed.
Print Assumptions C57_cap_refuted.

(** for right-hand sides cubic in x every step is accepted, so C57_reaches_partial applies: here from 0 to 1 with first step 0.4 *)
Example C57_example : forall n a y tol, 0 <= tol -> (forall x' y' h', rkf45_e n (fun t _ i => cubic a i t) x' y' h' <= tol) /\
  exists X Y, RKF45_n 3 n (fun t _ i => cubic a i t) 0 y 1 (4 / 10) tol = (true, X, Y) /\ length X = 4%nat /\ last X 0 = 1.
Proof. exact C57_ex. Qed.
