(** * Scalar advection on a periodic interval, collocated at the nodes of a differentiation matrix
    Independent of the model of the code. *)
From Coq Require Import Reals List.
From Coquelicot Require Import Coquelicot.
From Verif Require Import EigenSpec.
Open Scope R_scope.

(** [v] is a nodal mode exp(-i omega t) v of  v_t + c v_x = 0 : at the interior nodes
    c v_x = i omega v, and v and v_x take the same values at both ends *)
Definition advects (n : nat) (d : nat -> nat -> R) (c : R) (omega : C) (v : nat -> C) : Prop :=
  let dv := Capply n (fun i j => RtoC (d i j)) v in
  (forall k, (0 < k < n - 1)%nat -> (RtoC c * dv k = Ci * omega * v k)%C) /\
  v O = v (n - 1)%nat /\ dv O = dv (n - 1)%nat.
Definition nonzero (n : nat) (v : nat -> C) : Prop := exists i, (i < n)%nat /\ v i <> RtoC 0.
(** [omega] is an eigenvalue of the advection at speed [c] *)
Definition advection_spectrum n d c (omega : C) : Prop := exists v, nonzero n v /\ advects n d c omega v.
(** [omega] is an eigenvalue of the pair (B, -i A):  B V = omega (-i A) V  with V <> 0 *)
Definition pair_spectrum n (B A : nat -> nat -> R) (omega : C) : Prop :=
  exists V, nonzero n V /\ eigenpair n (fun i j => RtoC (B i j)) (fun i j => (- Ci * RtoC (A i j))%C) omega V.
(** [omega] is a pulsation of the advection at speed [c] of complex functions p + i q of period [L]:
    exp(-i omega t) (p + i q) solves v_t + c v_x = 0, is periodic and is not zero *)
Definition periodic_pulsation (c L : R) (omega : C) : Prop :=
  exists p q : R -> R,
    (exists x, p x <> 0 \/ q x <> 0) /\ (forall x, p (x + L) = p x /\ q (x + L) = q x) /\
    forall x, exists p' q', is_derive p x p' /\ is_derive q x q' /\ (RtoC c * (p', q') = Ci * omega * (p x, q x))%C.
