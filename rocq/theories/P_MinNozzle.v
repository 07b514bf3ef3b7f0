(** Property theorems of L_MinNozzle.v. Generated by tools/gen.py; statements only, proofs are in L_MinNozzle.v. *)
From Coquelicot Require Import Coquelicot.
From Verif Require Import L_Num L_Supersonic MocSpec M_MinNozzle.
From Verif Require Import L_MinNozzle.
Open Scope R_scope.

(** The Newton iteration of mach_via_pmeyer, started at Mach 2, ends for every Prandtl-Meyer angle from 0 up to the limit angle (sqrt((g+1)/(g-1)) - 1) pi/2 (g = 1.27, the value fixed in the script), and returns a Mach number M >= 1 whose Prandtl-Meyer angle is the requested one within 1e-5 radian. *)
Theorem C84_inverse : forall v, 0 <= v < (sqrt ((127/100 + 1) / (127/100 - 1)) - 1) * (PI / 2) ->
  exists passes M, (forall more, mach_via_pmeyer (passes + more) (Some v) = Some M) /\ 1 <= M /\
    Rabs (prandtl_meyer (127/100) M - v) <= 1 / 100000.
Proof. exact newton_inverse. Qed.
Print Assumptions C84_inverse.

(** For an angle beyond the limit angle by more than the tolerance the loop of mach_via_pmeyer never ends. *)
Theorem C84_no_inverse : forall v, (sqrt ((127/100 + 1) / (127/100 - 1)) - 1) * (PI / 2) + 1 / 100000 <= v ->
  forall passes, mach_via_pmeyer passes (Some v) = None.
Proof. exact newton_never. Qed.
Print Assumptions C84_no_inverse.
