(** * Steady isentropic flow through a duct, from the conservation laws *)
From Verif Require Import Num Spec.
Open Scope R_scope.

(** the gas [q0] is the gas [q] brought to rest without losses: its pressure is the total pressure of [q] *)
Definition brought_to_rest (g : R) (q q0 : flow) : Prop :=
  positive_state q0 /\ f_u q0 = 0 /\ tot_enthalpy g q0 = tot_enthalpy g q /\ entropy_fn g q0 = entropy_fn g q.
(** the gas [qt] passes through the area [At] at the speed of sound, and through the area [A] as [q]: same mass flow,
    same total enthalpy, same entropy *)
Definition same_stream (g : R) (A : R) (q : flow) (At : R) (qt : flow) : Prop :=
  0 < A /\ 0 < At /\ positive_state q /\ positive_state qt /\ f_u qt = flow_sound g qt /\
  f_rho q * f_u q * A = f_rho qt * f_u qt * At /\
  tot_enthalpy g q = tot_enthalpy g qt /\ entropy_fn g q = entropy_fn g qt.
