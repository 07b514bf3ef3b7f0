(** Property theorems of L_Propulsion.v. Generated by tools/gen.py; statements only, proofs are in L_Propulsion.v. *)
From Verif Require Import L_Num Spec DuctSpec NumSpec M_Isentropic M_MassFlow M_IterSolve M_Propulsion L_Isentropic L_MassFlow L_Shock L_Model1D L_Secant.
From Verif Require Import L_Propulsion.
Open Scope R_scope.

(** For every gamma > 1 the thrust function is defined and positive for M > 0, strictly decreases on (0,1], strictly increases on [1,inf), so it is minimal exactly at M = 1. *)
Theorem C69_minimum : forall g, 1 < g ->
  decr_on (fun M => 0 < M <= 1) (fun M => ThrustFunction M (Some g)) /\ incr_on (fun M => 1 <= M) (fun M => ThrustFunction M (Some g)) /\
  exists f1, ThrustFunction (Some 1) (Some g) = Some f1 /\ 0 < f1 /\
    forall M, 0 < M -> exists f, ThrustFunction (Some M) (Some g) = Some f /\ f1 <= f /\ (f = f1 <-> M = 1).
Proof. exact thrust_minimum. Qed.
Print Assumptions C69_minimum.

(** For every stream of perfect gas that passes without losses through a sonic throat of area At and through a section of area A at Mach number M, and whose total pressure (that of the gas brought to rest) is Pt, ThrustFunction(M) is the momentum flux through the section, A (p + rho u^2), divided by At Pt. *)
Theorem C69_momentum : forall g A q At qt q0 M, 1 < g -> 0 < M -> same_stream g A q At qt -> brought_to_rest g q q0 -> f_u q = M * flow_sound g q ->
  ThrustFunction (Some M) (Some g) = Some (A * (f_p q + f_rho q * f_u q ^ 2) / (At * f_p q0)).
Proof. exact thrust_momentum. Qed.
Print Assumptions C69_momentum.

(** Every thrust above that of Mach 1 is given by exactly one subsonic Mach number; by exactly one supersonic one if it is below the limit g (2/(g+1))^((g+1)/(2(g-1))) / sqrt((g-1)/2), and by no supersonic one otherwise. *)
Theorem C69_branches : forall g t f1, 1 < g -> ThrustFunction (Some 1) (Some g) = Some f1 -> f1 < t ->
  (exists M, (0 < M < 1 /\ ThrustFunction (Some M) (Some g) = Some t) /\ forall M', 0 < M' < 1 -> ThrustFunction (Some M') (Some g) = Some t -> M' = M) /\
  let limit := g * Rpower (2 / (g + 1)) ((g + 1) / (2 * (g - 1))) / sqrt ((g - 1) / 2) in
  (t < limit -> exists M, (1 < M /\ ThrustFunction (Some M) (Some g) = Some t) /\ forall M', 1 < M' -> ThrustFunction (Some M') (Some g) = Some t -> M' = M) /\
  (limit <= t -> forall M, 1 < M -> ThrustFunction (Some M) (Some g) <> Some t).
Proof. exact thrust_branches. Qed.
Print Assumptions C69_branches.

(** gamma = 3, a throat of area 1 with rho = 1, u = 1, p = 1/3: the hypotheses of the momentum theorem hold there, the gas brought to rest has density sqrt 2, and the thrust function is 4/sqrt 2^3. *)
Example C69_example : let q := mkflow 1 1 (1/3) in let q0 := mkflow (sqrt 2) 0 (sqrt 2 ^ 3 / 3) in
  same_stream 3 1 q 1 q /\ brought_to_rest 3 q q0 /\ f_u q = 1 * flow_sound 3 q /\ ThrustFunction (Some 1) (Some 3) = Some (4 / sqrt 2 ^ 3).
Proof. exact thrust_example. Qed.

(** For every gamma > 1, target thrust and supersonic start: if the secant iteration of Mach_ThrustFunction ends without its warning, and neither its iterates nor its answer r leave the supersonic range, the thrust function at r is within 2e-5 max(1, r) times the limit thrust of the target. PARTIAL: nothing keeps the iterates supersonic, and the iteration may be cut off after 20 evaluations. *)
Theorem C69_inverse_partial : forall g t M0 r, 1 < g -> 1 <= M0 -> Mach_ThrustFunction (Some t) (Some M0) (Some g) = Some r ->
  let run := secant_run_of (fun m => ThrustFunction m (Some g)) (Some t) (Some M0) secant_tol in
  (forall a, In (Some a) (s_evals run) -> 1 <= a) -> 1 <= r -> s_warned run = false ->
  exists f, ThrustFunction (Some r) (Some g) = Some f /\
    Rabs (f - t) <= 2 / 100000 * r * (g * Rpower (2 / (g + 1)) ((g + 1) / (2 * (g - 1))) / sqrt ((g - 1) / 2)).
Proof. exact thrust_inverse. Qed.
Print Assumptions C69_inverse_partial.
