(** * Straight lines in an (x, t) diagram. Independent of the model. *)
From Coq Require Import Reals.
Open Scope R_scope.

(** a front moving at speed [w] is at [a] = (x, t), and later at [b] *)
Definition travels (w : R) (a b : R * R) : Prop :=
  snd a < snd b /\ fst b - fst a = w * (snd b - snd a).
