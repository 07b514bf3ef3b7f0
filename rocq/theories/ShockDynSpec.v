(** * ShockDynSpec: a shock running into a gas at rest in a channel of varying area.
    Nothing here mentions the model of the code. *)
From Coq Require Import Reals.
From Coquelicot Require Import Coquelicot.
From Verif Require Import Spec.
Open Scope R_scope.

(** [q] is the state behind a compressive shock of Mach number [M] moving into the gas at rest (rho1, p1) *)
Definition shock_into_rest (g rho1 p1 M : R) (q : flow) : Prop :=
  rankine_hugoniot g (M * sqrt (g * p1 / rho1)) (mkflow rho1 0 p1) q /\ rho1 < f_rho q.
(** Whitham's rule: as the Mach number of the shock changes, the states [Q M] right behind it satisfy the relation that holds along
    the characteristics of speed u + c, dp + rho c du + rho c^2 u / (u + c) dA/A = 0, where d ln A = [dlnA] dM *)
Definition characteristic_rule (g : R) (Q : R -> flow) (M dlnA : R) : Prop :=
  let c := flow_sound g (Q M) in
  Derive (fun x => f_p (Q x)) M + f_rho (Q M) * c * Derive (fun x => f_u (Q x)) M
  + f_rho (Q M) * c ^ 2 * (f_u (Q M) / (f_u (Q M) + c)) * dlnA = 0.
