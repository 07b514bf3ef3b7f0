(** Property theorems of L_Shock.v. Generated by tools/gen.py; statements only, proofs are in L_Shock.v. *)
From Verif Require Import L_Num Spec NumSpec M_Isentropic M_ShockWave L_Isentropic.
From Verif Require Import L_Shock.
Open Scope R_scope.

(** For any upstream state moving at Mach M (velocity u = M a), multiplying the density by Rho_ratio, the pressure by Ps_ratio and dividing the velocity by Rho_ratio gives a state satisfying the Rankine-Hugoniot relations. *)
Theorem C09_rankine_hugoniot : forall g rho p M, 1 < g -> 0 < rho -> 0 < p -> M <> 0 ->
  exists Rr Pr, Rho_ratio (Some M) (Some g) = Some Rr /\ Ps_ratio (Some M) (Some g) = Some Pr /\
   let a := sqrt (g * p / rho) in
   rankine_hugoniot g 0 (mkflow rho (M * a) p) (mkflow (Rr * rho) (M * a / Rr) (Pr * p)).
Proof. exact normal_shock_RH. Qed.
Print Assumptions C09_rankine_hugoniot.

(** Ts_ratio is the ratio required by the perfect gas law p = rho r T on both sides. *)
Theorem C09_perfect_gas : forall g M, 1 < g -> M <> 0 ->
  exists Rr Pr Tr, Rho_ratio (Some M) (Some g) = Some Rr /\ Ps_ratio (Some M) (Some g) = Some Pr /\
   Ts_ratio (Some M) (Some g) = Some Tr /\
   forall r rho p T, 0 < rho -> p = rho * r * T -> Pr * p = (Rr * rho) * r * (Tr * T).
Proof. exact normal_shock_gas. Qed.
Print Assumptions C09_perfect_gas.

(** M = 2, gamma = 1.4 *)
Example C09_example : Ps_ratio (Some 2) dgamma = Some (9/2) /\ Rho_ratio (Some 2) dgamma = Some (8/3)
  /\ Ts_ratio (Some 2) dgamma = Some (27/16).
Proof. exact C09_example_lemma. Qed.

(** downstream_Mn is the downstream velocity (upstream velocity divided by Rho_ratio) over the downstream speed of sound. *)
Theorem C10_downstream_is_velocity_ratio : forall g rho p M, 1 < g -> 0 < rho -> 0 < p -> 0 < M -> (g - 1) / (2 * g) < M ^ 2 ->
  exists Rr Pr m, Rho_ratio (Some M) (Some g) = Some Rr /\ Ps_ratio (Some M) (Some g) = Some Pr /\
    downstream_Mn (Some M) (Some g) = Some m /\ 0 < m /\
    M * sqrt (g * p / rho) / Rr = m * sqrt (g * (Pr * p) / (Rr * rho)).
Proof. exact downstream_velocity. Qed.
Print Assumptions C10_downstream_is_velocity_ratio.

(** Applying downstream_Mn twice gives back the Mach number, on the whole domain where it is defined. *)
Theorem C10_involution : forall g M, 1 < g -> 0 < M -> (g - 1) / (2 * g) < M ^ 2 ->
  exists m, downstream_Mn (Some M) (Some g) = Some m /\ 0 < m /\ (g - 1) / (2 * g) < m ^ 2 /\
            downstream_Mn (Some m) (Some g) = Some M.
Proof. exact downstream_involution. Qed.
Print Assumptions C10_involution.

(** downstream_Mn fixes 1 and exchanges supersonic and subsonic. *)
Theorem C10_exchanges : forall g M, 1 < g -> 0 < M -> (g - 1) / (2 * g) < M ^ 2 ->
  exists m, downstream_Mn (Some M) (Some g) = Some m /\
   (M = 1 <-> m = 1) /\ (1 < M <-> m < 1) /\ (M < 1 <-> 1 < m).
Proof. exact downstream_exchange. Qed.
Print Assumptions C10_exchanges.

(** downstream_Mn has no finite real value at or below the limit Mach number. *)
Theorem C10_domain : forall g M, 1 < g ->
  (exists m, downstream_Mn (Some M) (Some g) = Some m) <-> (g - 1) / (2 * g) < M ^ 2.
Proof. exact downstream_domain. Qed.
Print Assumptions C10_domain.

Example C10_example : (14/10 - 1) / (2 * (14/10)) < 2 ^ 2 /\ downstream_Mn (Some 2) dgamma = Some (sqrt (1/3)).
Proof. exact C10_example_lemma. Qed.

(** Mn_Ps_ratio undoes Ps_ratio (up to the sign of Mn). *)
Theorem C11_Mn_of_Ps : forall g M, 1 < g ->
  exists P, Ps_ratio (Some M) (Some g) = Some P /\ Mn_Ps_ratio (Some P) (Some g) = Some (Rabs M).
Proof. exact Mn_of_Ps. Qed.
Print Assumptions C11_Mn_of_Ps.

(** Ps_ratio undoes Mn_Ps_ratio, whose domain is exactly P >= -(gamma-1)/(gamma+1) (in particular every positive ratio). *)
Theorem C11_Ps_of_Mn : forall g P, 1 < g ->
  (- (g - 1) / (g + 1) <= P <-> exists M, Mn_Ps_ratio (Some P) (Some g) = Some M) /\
  (forall M, Mn_Ps_ratio (Some P) (Some g) = Some M -> 0 <= M /\ Ps_ratio (Some M) (Some g) = Some P).
Proof. exact Ps_of_Mn. Qed.
Print Assumptions C11_Ps_of_Mn.

Example C11_example : Mn_Ps_ratio (Some (9/2)) dgamma = Some 2.
Proof. exact C11_example_lemma. Qed.

(** Ts_ratio times the downstream Tt/Ts is the upstream Tt/Ts. *)
Theorem C12_total_temperature : forall g M, 1 < g -> (g - 1) / (2 * g) < M ^ 2 ->
  exists t T m t', TtTs_Mach (Some M) (Some g) = Some t /\ Ts_ratio (Some M) (Some g) = Some T /\
    downstream_Mn (Some M) (Some g) = Some m /\ TtTs_Mach (Some m) (Some g) = Some t' /\ t = T * t'.
Proof. exact total_temperature. Qed.
Print Assumptions C12_total_temperature.

(** The entropy function p/rho^gamma increases across the jump exactly for Mn > 1, decreases exactly for Mn < 1 and is unchanged exactly for Mn = 1. *)
Theorem C13_entropy : forall g M p rho, 1 < g -> 0 < p -> 0 < rho -> 0 < M -> (g - 1) / (2 * g) < M ^ 2 ->
  exists Pr Rr, Ps_ratio (Some M) (Some g) = Some Pr /\ Rho_ratio (Some M) (Some g) = Some Rr /\
   let s q := f_p q / Rpower (f_rho q) g in
   let q0 := mkflow rho (M * sqrt (g * p / rho)) p in
   let q1 := mkflow (Rr * rho) (M * sqrt (g * p / rho) / Rr) (Pr * p) in
   (1 < M <-> s q0 < s q1) /\ (M < 1 <-> s q1 < s q0) /\ (M = 1 <-> s q0 = s q1).
Proof. exact shock_entropy. Qed.
Print Assumptions C13_entropy.

(** Rho_ratio stays strictly below (gamma+1)/(gamma-1). *)
Theorem C13_density_limit : forall g M, 1 < g ->
  exists Rr, Rho_ratio (Some M) (Some g) = Some Rr /\ 0 <= Rr < (g + 1) / (g - 1).
Proof. exact shock_density_limit. Qed.
Print Assumptions C13_density_limit.

(** Ps_ratio, Rho_ratio and Ts_ratio increase strictly with Mn >= 1. *)
Theorem C13_monotone : forall g, 1 < g ->
  incr_on (fun M => 1 <= M) (fun M => Ps_ratio M (Some g)) /\
  incr_on (fun M => 1 <= M) (fun M => Rho_ratio M (Some g)) /\
  incr_on (fun M => 1 <= M) (fun M => Ts_ratio M (Some g)).
Proof. exact shock_monotone. Qed.
Print Assumptions C13_monotone.

(** At Mn = 1 all ratios are 1. *)
Theorem C13_unit : forall g, 1 < g ->
  Ps_ratio (Some 1) (Some g) = Some 1 /\ Rho_ratio (Some 1) (Some g) = Some 1 /\ Ts_ratio (Some 1) (Some g) = Some 1.
Proof. exact shock_unit. Qed.
Print Assumptions C13_unit.

(** air at Mn = 2: Tt/Ts = 9/5 upstream, Ts_ratio = 27/16, downstream Mn = 1/sqrt 3. *)
Example C12_example : TtTs_Mach (Some 2) (Some (14/10)) = Some (9/5) /\ Ts_ratio (Some 2) (Some (14/10)) = Some (27/16) /\
  downstream_Mn (Some 2) (Some (14/10)) = Some (sqrt (1/3)) /\ TtTs_Mach (Some (sqrt (1/3))) (Some (14/10)) = Some (16/15).
Proof. exact C12_example_lemma. Qed.

(** air at Mn = 2: Ps_ratio = 9/2, Rho_ratio = 8/3 (below 6). *)
Example C13_example : Ps_ratio (Some 2) (Some (14/10)) = Some (9/2) /\ Rho_ratio (Some 2) (Some (14/10)) = Some (8/3) /\
  8/3 < (14/10 + 1) / (14/10 - 1) /\ (14/10 - 1) / (2 * (14/10)) < 2 ^ 2.
Proof. exact C13_example_lemma. Qed.
