(** Property theorems of L_Ode.v. Generated by tools/gen.py; statements only, proofs are in L_Ode.v. *)
From Coq Require Import FunctionalExtensionality.
From Coq Require Import QArith Qreals.
From Verif Require Import Num M_Ode OdeSpec.
From Verif Require Import L_Ode.
Open Scope R_scope.

(** For every right-hand side F, start x < xStop and step h > 0 the loop of RK4 ends: with N the number of steps, (N-1)h < xStop - x <= N h, the abscissae returned are x, x+h, ..., x+(N-1)h and exactly xStop; as many states as abscissae are returned, the first is y, and each follows from the previous one by a step of the classical four stage method from one abscissa to the next. *)
Theorem C55_grid : forall F x y xStop h, 0 < h -> x < xStop ->
  exists N, (1 <= N)%nat /\ (INR N - 1) * h < xStop - x <= INR N * h /\
  forall fuel, (N <= fuel)%nat -> exists X Y, RK4 fuel F x y xStop h = Some (X, Y) /\
  length X = S N /\ length Y = S N /\ nth 0 Y (fun _ => 0) = y /\
  (forall k, (k < N)%nat -> nth k X 0 = x + INR k * h) /\ nth N X 0 = xStop /\
  (forall k, (k < N)%nat -> exists K, let hk := nth (S k) X 0 - nth k X 0 in
     is_stages 4 rk4_a rk4_c F (nth k X 0) (nth k Y (fun _ => 0)) hk K /\
     forall i, nth (S k) Y (fun _ => 0) i = nth k Y (fun _ => 0) i + Sum_to 4 (fun s => rk4_b s * K s i)).
Proof. exact rk4_grid. Qed.
Print Assumptions C55_grid.

(** Started at or after xStop RK4 returns the start only. *)
Theorem C55_empty : forall fuel F x y xStop h, xStop <= x -> RK4 fuel F x y xStop h = Some (x :: nil, y :: nil).
Proof. exact rk4_empty. Qed.
Print Assumptions C55_empty.

(** With h <= 0 and x < xStop the loop never ends, whatever F. *)
Theorem C55_nonterminating : forall fuel F x y xStop h, h <= 0 -> x < xStop -> RK4 fuel F x y xStop h = None.
Proof. exact rk4_diverges. Qed.
Print Assumptions C55_nonterminating.

(** RK4 integrates exactly every right-hand side that is a polynomial of degree at most 3 in x, with any coefficients in each component. *)
Theorem C55_cubic : forall a fuel x y xStop h X Y, 0 < h -> x < xStop ->
  RK4 fuel (fun t _ i => cubic a i t) x y xStop h = Some (X, Y) ->
  forall k i, (k < length X)%nat -> nth k Y (fun _ => 0) i = y i + (prim_cubic a i (nth k X 0) - prim_cubic a i x).
Proof. exact rk4_cubic. Qed.
Print Assumptions C55_cubic.

(** The coefficients of the step of RK4 satisfy the order condition of every rooted tree with at most four nodes: the method has order 4. The step uses exactly these coefficients (C55_grid), and each abscissa coefficient is the sum of its row. *)
Theorem C55_order : has_order 4 4 rk4_a rk4_b /\ (forall i, (i < 4)%nat -> Sum_to 4 (rk4_a i) = rk4_c i).
Proof. exact rk4_has_order. Qed.
Print Assumptions C55_order.

(** For every linear system y' = L y the step of RK4 is the exponential series through order 4. *)
Theorem C55_linear : forall L x y h i, linear L ->
  run_kut4 (fun _ => L) x y h i =
  h * L y i + h ^ 2 / 2 * L (L y) i + h ^ 3 / 6 * L (L (L y)) i + h ^ 4 / 24 * L (L (L (L y))) i.
Proof. exact rk4_linear. Qed.
Print Assumptions C55_linear.

(** One step of _rkf45 is a step of the six stage method of Cash and Karp: the increment uses its fifth order weights, the error estimate is the root mean square of the difference with its fourth order weights. *)
Theorem C56_step : forall n F x y h, exists K, is_stages 6 ck_a ck_c F x y h K /\
  (forall i, rkf45_dy F x y h i = Sum_to 6 (fun s => ck_b5 s * K s i)) /\
  rkf45_e n F x y h = sqrt (Sum_to n (fun i => (Sum_to 6 (fun s => ck_b5 s * K s i) - Sum_to 6 (fun s => ck_b4 s * K s i)) ^ 2) / INR n).
Proof. exact rkf45_step. Qed.
Print Assumptions C56_step.

(** These weights satisfy every order condition (rooted trees) up to order 5, respectively 4, and each abscissa coefficient is the sum of its row. *)
Theorem C56_order : has_order 5 6 ck_a ck_b5 /\ has_order 4 6 ck_a ck_b4 /\ (forall i, (i < 6)%nat -> Sum_to 6 (ck_a i) = ck_c i).
Proof. exact rkf45_order. Qed.
Print Assumptions C56_order.

(** The increment is exact for every right-hand side polynomial in x of degree at most 4, and the error estimate is zero for degree at most 3, whatever the coefficients in each component. *)
Theorem C56_polynomial : forall a n x y h,
  (forall i, rkf45_dy (fun t _ i => quartic a i t) x y h i = prim_quartic a i (x + h) - prim_quartic a i x) /\
  ((forall i, a i 4%nat = 0) -> rkf45_e n (fun t _ i => quartic a i t) x y h = 0).
Proof. exact rkf45_poly. Qed.
Print Assumptions C56_polynomial.

(** For every linear system y' = L y the increment is the exponential series through order 5, plus h^6/800 L^6 y. *)
Theorem C56_linear : forall L x y h i, linear L ->
  rkf45_dy (fun _ => L) x y h i =
  h * L y i + h ^ 2 / 2 * L (L y) i + h ^ 3 / 6 * L (L (L y)) i + h ^ 4 / 24 * L (L (L (L y))) i +
  h ^ 5 / 120 * L (L (L (L (L y)))) i + h ^ 6 / 800 * L (L (L (L (L (L y))))) i.
Proof. exact rkf45_linear. Qed.
Print Assumptions C56_linear.

(** a linear system (a rotation) and a step *)
Example C56_example : let L := fun (y : nat -> R) (i : nat) => match i with 0%nat => y 1%nat | 1%nat => - y 0%nat | _ => 0 end in
  linear L /\ rkf45_dy (fun _ => L) 0 (fun i => match i with 0%nat => 1 | _ => 0 end) 1 0%nat = - 1 / 2 + 1 / 24 - 1 / 800.
Proof. exact C56_ex. Qed.

(** x from 0 to 1 by steps of 0.3 of y' = 3x^2: four steps, ending at 1 *)
Example C55_example : exists X Y, RK4 4 (fun t _ i => cubic (fun _ => row [0; 0; 3]) i t) 0 (fun _ => 0) 1 (3 / 10) = Some (X, Y) /\
  length X = 5%nat /\ nth 4 X 0 = 1 /\ nth 4 Y (fun _ => 0) 0%nat = 1.
Proof. exact C55_ex. Qed.
