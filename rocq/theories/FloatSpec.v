(** * Specification for the floating-point properties *)
From Coq Require Import Reals List.
Import ListNotations.
Open Scope R_scope.

(** strictly increasing list *)
Fixpoint increasing (l : list R) : Prop :=
  match l with a :: (b :: _) as t => a < b /\ increasing t | _ => True end.
(** [v], the value computed with floats, is a number close to the exact value [x], which is a positive number *)
Definition close_to (bits : nat) (v x : option R) : Prop :=
  exists V X, v = Some V /\ x = Some X /\ 0 < X /\ Rabs (V - X) <= X / 2 ^ bits.
