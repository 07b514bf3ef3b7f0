(** * SmoothSpec: functions of a real variable with all their derivatives.
    Nothing here mentions the model of the code. *)
From Coq Require Import Reals.
From Coquelicot Require Import Coquelicot.
Open Scope R_scope.

(** [F 1], [F 2], ... are the successive derivatives of [F 0] at every point of [[a, b]] *)
Definition derivatives_on (a b : R) (F : nat -> R -> R) : Prop :=
  forall m x, a <= x <= b -> is_derive (F m) x (F (S m) x).
