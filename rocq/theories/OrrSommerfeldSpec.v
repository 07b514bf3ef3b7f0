(** * The Orr-Sommerfeld equation  (D^2 - a^2) v_t = L v
    for a complex-valued v = vr + i vi; independent of the model of the code. *)
From Coq Require Import Reals List.
From Coquelicot Require Import Coquelicot.
From Verif Require Import PolySpec.
Open Scope R_scope.

(** a polynomial with complex coefficients, given by its real and imaginary parts, and its
    derivatives *)
Definition cpoly (vr vi : list R) (x : R) : C := (peval vr x, peval vi x).
Definition dcpoly (k : nat) (vr vi : list R) (x : R) : C :=
  (Derive_n (peval vr) k x, Derive_n (peval vi) k x).
(** right-hand side at y:
    - i a U (v'' - a^2 v) + i a U'' v + (v'''' - 2 a^2 v'' + a^4 v) / Re *)
Definition os_rhs (a : C) (Re : R) (U : R -> R) (vr vi : list R) (y : R) : C :=
  (- Ci * a * RtoC (U y) * (dcpoly 2 vr vi y - a * a * cpoly vr vi y)
   + Ci * a * RtoC (Derive_n U 2 y) * cpoly vr vi y
   + (dcpoly 4 vr vi y - RtoC 2 * (a * a) * dcpoly 2 vr vi y + a * a * (a * a) * cpoly vr vi y) / RtoC Re)%C.
(** the operator in front of the time derivative *)
Definition os_lhs (a : C) (vr vi : list R) (y : R) : C :=
  (dcpoly 2 vr vi y - a * a * cpoly vr vi y)%C.
