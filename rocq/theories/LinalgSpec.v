(** * Assumed behaviour of numpy.linalg.solve / lstsq, in exact arithmetic *)
From Verif Require Import Num.
Open Scope R_scope.

(** [t 0 + ... + t (n-1)], undefined if a term is *)
Fixpoint numsum (n : nat) (t : nat -> num) : num :=
  match n with O => Some 0 | S k => nadd (numsum k t) (t k) end.
Fixpoint Rsum (n : nat) (t : nat -> R) : R :=
  match n with O => 0 | S k => Rsum k t + t k end.

(** When [solve n A f] returns [c], [A c = f]. *)
Definition solves_linear (solve : nat -> (nat -> nat -> num) -> (nat -> num) -> option (nat -> num)) : Prop :=
  forall n A f c, solve n A f = Some c ->
  forall i, (i < n)%nat -> numsum n (fun k => nmul (A i k) (c k)) = f i.

(** sum of squared residuals of [m] equations in [n] unknowns *)
Definition residual2 (m n : nat) (a : nat -> nat -> R) (f c : nat -> R) : R :=
  Rsum m (fun i => (Rsum n (fun k => a i k * c k) - f i) ^ 2).
(** When [lstsq] returns a solution for finite data, it is finite and minimises the sum of
    squared residuals. *)
Definition least_squares (lstsq : nat -> nat -> (nat -> nat -> num) -> (nat -> num) -> option (nat -> num)) : Prop :=
  forall m n A a F f c,
  (forall i k, (i < m)%nat -> (k < n)%nat -> A i k = Some (a i k)) ->
  (forall i, (i < m)%nat -> F i = Some (f i)) ->
  lstsq m n A F = Some c ->
  exists cr, (forall k, (k < n)%nat -> c k = Some (cr k)) /\
  forall d, residual2 m n a f cr <= residual2 m n a f d.
