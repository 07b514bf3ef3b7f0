(** Property theorems of L_DevMax.v. Generated by tools/gen.py; statements only, proofs are in L_DevMax.v. *)
From Verif Require Import L_Num Spec NumSpec M_Isentropic M_Degree M_ShockWave L_Isentropic L_Degree L_Shock L_Oblique L_Oblique2 L_Sigma2 L_Polar.
From Verif Require Import L_DevMax.
Open Scope R_scope.

(** For every gamma > 1, dev_Max is positive and strictly increasing in the Mach number above 1, and it always stays strictly below asin(1/gamma) (in degrees; 45.58 degrees in air). *)
Theorem C19_increasing : forall g M M', 1 < g -> 1 < M -> M < M' -> exists d d',
  dev_Max (Some M) (Some g) = Some d /\ dev_Max (Some M') (Some g) = Some d' /\ 0 < d < d' /\ d' < asin (1 / g) * (180 / PI).
Proof. exact devmax_incr. Qed.
Print Assumptions C19_increasing.

(** For every gamma > 1 the bound asin(1/gamma) is the limit of dev_Max for large Mach numbers: every deflection below it is attached at every Mach number from some point on. *)
Theorem C19_limit : forall g d, 1 < g -> 0 < d -> d < asin (1 / g) * (180 / PI) ->
  exists A, 1 < A /\ forall M, A <= M -> exists dm, dev_Max (Some M) (Some g) = Some dm /\ d < dm < asin (1 / g) * (180 / PI).
Proof. exact devmax_lim. Qed.
Print Assumptions C19_limit.
