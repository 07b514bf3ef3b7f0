(** * Changes of scale for the numerical tools *)
From Coq Require Import Reals List.
From Verif Require Import Num M_Ode M_Spectral.
Import ListNotations.
Open Scope R_scope.

(** the abscissa [x] and the unknowns [y] in other units and from other origins *)
Definition abscissa (a b x : R) : R := a * x + b.
Definition unknowns (s c : nat -> R) (y : state) : state := fun i => s i * y i + c i.
(** [F'] is the right-hand side of the same differential equation in the new variables *)
Definition same_equation (a b : R) (s c : nat -> R) (F F' : rhs) : Prop :=
  forall x y i, F' (abscissa a b x) (unknowns s c y) i = s i / a * F x y i.
(** a linear system, with coefficients depending on [x] *)
Definition linear_rhs (F : rhs) : Prop :=
  forall x al be y z i, F x (fun j => al * y j + be * z j) i = al * F x y i + be * F x z i.

(** the [k]-th derivative along [a x + b] is [a ^ k] times smaller *)
Definition rescaled_matrix (a : R) (k : nat) (r : matder_result) : matder_result :=
  match r with Matrix A => Matrix (fun i j => nmul (Some ((/ a) ^ k)) (A i j)) | e => e end.
(** a collocation object on the interval from [l] to [r], after requests for derivatives of any orders *)
Definition on_interval (n : nat) (l r : R) (past : list nat) : cheb := matder_run past (cheb_init n (Some (Some l)) (Some (Some r))).
(** lists of states combined entry by entry *)
Definition combine_states (al be : R) (y z : state) : state := fun i => al * y i + be * z i.
