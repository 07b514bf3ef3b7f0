(** * Specifications for the selection and refinement of eigenvalues *)
From Coq Require Import Reals List Permutation Sorted.
From Coquelicot Require Import Complex.
Import ListNotations.
Open Scope R_scope.

(** [o] is an order in which the entries of [l] do not decrease *)
Definition is_argsort (l : list R) (o : list nat) : Prop :=
  Permutation o (seq 0 (length l)) /\ StronglySorted Rle (map (fun i => nth i l 0) o).

(** finite complex sums, vectors of [n] entries *)
Fixpoint Csum_spec (n : nat) (f : nat -> C) : C := match n with O => RtoC 0 | S k => (Csum_spec k f + f k)%C end.
Fixpoint Rsum_spec (n : nat) (f : nat -> R) : R := match n with O => 0 | S k => Rsum_spec k f + f k end.
Definition Capply n (A : nat -> nat -> C) (v : nat -> C) (i : nat) : C := Csum_spec n (fun j => (A i j * v j)%C).
Definition inner n (a b : nat -> C) : C := Csum_spec n (fun i => (Cconj (a i) * b i)%C).
Definition norm2 n (v : nat -> C) : R := Rsum_spec n (fun i => fst (v i) * fst (v i) + snd (v i) * snd (v i)).
(** [w] is the Rayleigh quotient of [v] for the pair (B, M) *)
Definition rayleigh n (B M : nat -> nat -> C) (v : nat -> C) (w : C) : Prop :=
  inner n v (Capply n M v) <> RtoC 0 /\
  w = (inner n v (Capply n B v) / inner n v (Capply n M v))%C.
(** (w, v) is an eigenpair:  B v = w M v *)
Definition eigenpair n (B M : nat -> nat -> C) (w : C) (v : nat -> C) : Prop :=
  forall i, (i < n)%nat -> Capply n B v i = (w * Capply n M v i)%C.

(** what is assumed of the linear solver on [n] unknowns: a solution it returns for finite data
    is finite and solves the system; data with an undefined entry never give a finite solution *)
Definition finite_vec n (v : nat -> option C) : Prop := forall i, (i < n)%nat -> v i <> None.
Definition finite_mat n (K : nat -> nat -> option C) : Prop := forall i j, (i < n)%nat -> (j < n)%nat -> K i j <> None.
Definition solution n (K : nat -> nat -> option C) (v w : nat -> option C) : Prop :=
  finite_vec n w /\ finite_mat n K /\ finite_vec n v /\
  forall K' v' w', (forall i j, (i < n)%nat -> (j < n)%nat -> K i j = Some (K' i j)) ->
    (forall i, (i < n)%nat -> v i = Some (v' i)) -> (forall i, (i < n)%nat -> w i = Some (w' i)) ->
    forall i, (i < n)%nat -> Capply n K' w' i = v' i.
Definition solver n (solved : (nat -> nat -> option C) -> (nat -> option C) -> (nat -> option C) -> Prop) : Prop :=
  forall K v w, solved K v w -> (finite_mat n K /\ finite_vec n v \/ finite_vec n w) -> solution n K v w.
(** the square matrix K has a non zero vector in its kernel *)
Definition singular n (K : nat -> nat -> C) : Prop :=
  exists v, norm2 n v <> 0 /\ forall i, (i < n)%nat -> Capply n K v i = RtoC 0.
