(** Property theorems of L_Propulsion2.v. Generated by tools/gen.py; statements only, proofs are in L_Propulsion2.v. *)
From Coquelicot Require Import Coquelicot.
From Verif Require Import L_Num Spec NumSpec M_Isentropic M_MassFlow M_IterSolve M_Propulsion L_Isentropic L_MassFlow L_Model1D L_Secant L_Secant2 L_Propulsion.
From Verif Require Import L_Propulsion2.
Open Scope R_scope.

(** Inverting the thrust function, for every gamma >= 1.15, every Mach number m and every start M0 with 2 <= M0 <= m (2 is the default): given the thrust of m, Mach_ThrustFunction never evaluates the thrust function beyond m nor below 0.999 M0 and returns z with M0 <= z <= m; if it ends without its warning, the thrust at z is within 2e-5 z times the limit thrust of the requested one. *)
Theorem C69_inverse : forall g m M0 t, 23/20 <= g -> 2 <= M0 <= m -> ThrustFunction (Some m) (Some g) = Some t ->
  let run := secant_run_of (fun M => ThrustFunction M (Some g)) (Some t) (Some M0) secant_tol in
  exists z, Mach_ThrustFunction (Some t) (Some M0) (Some g) = Some z /\ M0 <= z <= m /\
    List.Forall (fun p => exists a, p = Some a /\ M0 * (999/1000) <= a <= m) (s_evals run) /\
    (s_warned run = false -> exists f, ThrustFunction (Some z) (Some g) = Some f /\
      Rabs (f - t) <= 2 / 100000 * z * (g * Rpower (2 / (g + 1)) ((g + 1) / (2 * (g - 1))) / sqrt ((g - 1) / 2))).
Proof. exact thrust_inverse_supersonic. Qed.
Print Assumptions C69_inverse.

(** From a subsonic start: for every gamma > 1, every Mach number m <= 1 and every start M0 with 0.01 < M0 <= m, given the thrust of m Mach_ThrustFunction stays subsonic: it never evaluates the thrust function beyond m and returns z with M0 <= z <= m. *)
Theorem C69_inverse_subsonic : forall g m M0 t, 1 < g -> 1/100 < M0 -> M0 <= m <= 1 -> ThrustFunction (Some m) (Some g) = Some t ->
  exists z, Mach_ThrustFunction (Some t) (Some M0) (Some g) = Some z /\ M0 <= z <= m /\
    List.Forall (fun p => exists a, p = Some a /\ M0 * (999/1000) <= a <= m)
      (s_evals (secant_run_of (fun M => ThrustFunction M (Some g)) (Some t) (Some M0) secant_tol)).
Proof. exact thrust_inverse_subsonic. Qed.
Print Assumptions C69_inverse_subsonic.

(** gamma = 1.4, default start, thrust of Mach 3: the hypotheses hold and the answer is between 2 and 3. *)
Example C69_inverse_example : exists t z, ThrustFunction (Some 3) (Some (7/5)) = Some t /\ Mach_ThrustFunction (Some t) (Some 2) (Some (7/5)) = Some z /\ 2 <= z <= 3.
Proof. exact C69_inverse_example_lemma. Qed.
