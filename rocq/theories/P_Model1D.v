(** Property theorems of L_Model1D.v. Generated by tools/gen.py; statements only, proofs are in L_Model1D.v. *)
From Verif Require Import L_Num Spec NumSpec M_Isentropic M_ShockWave M_Model1D M_Unsteady1D L_Isentropic L_Shock.
From Verif Require Import L_Model1D.
Open Scope R_scope.

(** Speed of sound, acoustic speeds, Mach number, mass flow, total pressure and total temperature of one state are mutually consistent: a^2 = gamma p / rho, left/right acoustic = u -/+ a, Mach a = u, massflow = rho u, Ptot = p PtPs_Mach(Mach), rTtot = (p/rho) TtTs_Mach(Mach) and rTtot is (gamma-1)/gamma times the total enthalpy. *)
Theorem C33_consistency : forall g q, 1 < g -> positive_state q ->
  exists a M Pt rTt T P,
    asound (obj g q) = Some a /\ 0 < a /\ a ^ 2 = g * f_p q / f_rho q /\
    left_acoustic (obj g q) = Some (f_u q - a) /\ right_acoustic (obj g q) = Some (f_u q + a) /\
    M_Model1D.Mach (obj g q) = Some M /\ M * a = f_u q /\
    massflow (obj g q) = Some (mass_flux 0 q) /\
    PtPs_Mach (Some M) (Some g) = Some P /\ Ptot (obj g q) = Some Pt /\ Pt = f_p q * P /\
    TtTs_Mach (Some M) (Some g) = Some T /\ rTtot (obj g q) = Some rTt /\ rTt = f_p q / f_rho q * T /\
    rTt = (g - 1) / g * tot_enthalpy g q.
Proof. exact state_consistency. Qed.
Print Assumptions C33_consistency.

(** For every previous content of the object and every gas, compute_from_pt_rtt_M stores density, velocity and pressure which, for a state of that gas, have the requested Mach number, total pressure and total r T. The stored gamma however becomes 1.4 (see C32), so the methods of the object itself report the requested values only for gamma = 1.4: missing for every other gas, see C33_other_gas_refuted. *)
Theorem C33_from_Mach_partial : forall g rho u p pt rtt M, 1 < g -> 0 < pt -> 0 < rtt ->
  exists q, compute_from_pt_rtt_M (mk_state (Some g) rho u p) (Some pt) (Some rtt) (Some M)
      = mk_state dgamma (Some (f_rho q)) (Some (f_u q)) (Some (f_p q)) /\
    positive_state q /\
    M_Model1D.Mach (obj g q) = Some M /\ Ptot (obj g q) = Some pt /\ rTtot (obj g q) = Some rtt.
Proof. exact from_Mach. Qed.
Print Assumptions C33_from_Mach_partial.

(** For gamma = 1.4 the object's own methods return the requested values. *)
Theorem C33_from_Mach_air : forall rho u p pt rtt M, 0 < pt -> 0 < rtt ->
  let s := compute_from_pt_rtt_M (mk_state dgamma rho u p) (Some pt) (Some rtt) (Some M) in
  M_Model1D.Mach s = Some M /\ Ptot s = Some pt /\ rTtot s = Some rtt.
Proof. exact from_Mach_air. Qed.
Print Assumptions C33_from_Mach_air.

(** For every velocity below the limit velocity, compute_from_pt_rtt_u stores that velocity with a density and pressure which, for a state of the object's gas, have the requested total pressure and total r T. The stored gamma becomes 1.4: missing for every other gas. *)
Theorem C33_from_velocity_partial : forall g rho u0 p pt rtt u, 1 < g -> 0 < pt -> 0 < rtt ->
  u ^ 2 < 2 * g / (g - 1) * rtt ->
  exists q, compute_from_pt_rtt_u (mk_state (Some g) rho u0 p) (Some pt) (Some rtt) (Some u)
      = mk_state dgamma (Some (f_rho q)) (Some (f_u q)) (Some (f_p q)) /\
    positive_state q /\ f_u q = u /\ Ptot (obj g q) = Some pt /\ rTtot (obj g q) = Some rtt.
Proof. exact from_velocity. Qed.
Print Assumptions C33_from_velocity_partial.

(** For every pressure up to the total pressure, compute_from_pt_rtt_p stores that pressure with a non-negative velocity and a density which, for a state of the object's gas, have the requested total pressure and total r T. The stored gamma becomes 1.4: missing for every other gas. *)
Theorem C33_from_pressure_partial : forall g rho u p0 pt rtt p, 1 < g -> 0 < p <= pt -> 0 < rtt ->
  exists q, compute_from_pt_rtt_p (mk_state (Some g) rho u p0) (Some pt) (Some rtt) (Some p)
      = mk_state dgamma (Some (f_rho q)) (Some (f_u q)) (Some (f_p q)) /\
    positive_state q /\ f_p q = p /\ 0 <= f_u q /\ Ptot (obj g q) = Some pt /\ rTtot (obj g q) = Some rtt.
Proof. exact from_pressure. Qed.
Print Assumptions C33_from_pressure_partial.

(** For gamma = 1.4 the object's own methods return the requested totals after compute_from_pt_rtt_u and _p. *)
Theorem C33_from_velocity_pressure_air : forall rho u0 p0 pt rtt, 0 < pt -> 0 < rtt ->
  (forall u, u ^ 2 < 7 * rtt ->
     let s := compute_from_pt_rtt_u (mk_state dgamma rho u0 p0) (Some pt) (Some rtt) (Some u) in
     st_u s = Some u /\ Ptot s = Some pt /\ rTtot s = Some rtt) /\
  (forall p, 0 < p <= pt ->
     let s := compute_from_pt_rtt_p (mk_state dgamma rho u0 p0) (Some pt) (Some rtt) (Some p) in
     st_p s = Some p /\ Ptot s = Some pt /\ rTtot s = Some rtt).
Proof. exact from_up_air. Qed.
Print Assumptions C33_from_velocity_pressure_air.

(** For every gas other than gamma = 1.4 and every nonzero Mach number, the object returned by compute_from_pt_rtt_M does not report the requested total r T. *)
Theorem C33_other_gas_refuted : forall g rho u p pt rtt M, 1 < g -> g <> 14/10 -> 0 < pt -> 0 < rtt -> M <> 0 ->
  rTtot (compute_from_pt_rtt_M (mk_state (Some g) rho u p) (Some pt) (Some rtt) (Some M)) <> Some rtt.
Proof. exact other_gas_refuted. Qed.
Print Assumptions C33_other_gas_refuted.

(** state_isentropic_Mach returns density, velocity and pressure which, for a state of the object's gas, have the requested Mach number and the original total r T, but whose total pressure is the original total r T (a temperature!) instead of the original total pressure. *)
Theorem C33_isentropic_Mach_partial : forall g q M, 1 < g -> positive_state q ->
  exists q' T, rTtot (obj g q) = Some T /\
    state_isentropic_Mach (obj g q) (Some M)
      = mk_state dgamma (Some (f_rho q')) (Some (f_u q')) (Some (f_p q')) /\
    M_Model1D.Mach (obj g q') = Some M /\ rTtot (obj g q') = Some T /\ Ptot (obj g q') = Some T.
Proof. exact isentropic_Mach. Qed.
Print Assumptions C33_isentropic_Mach_partial.

(** Air at rest with p = 100000 and rho = 1.2: the state returned for Mach 1/2 does not have the original total pressure. *)
Theorem C33_isentropic_Mach_refuted :
  let q := obj (14/10) (mkflow (12/10) 0 100000) in
  Ptot q = Some 100000 /\ exists P, Ptot (state_isentropic_Mach q (Some (1/2))) = Some P /\ P <> 100000.
Proof. exact isentropic_Mach_refuted. Qed.
Print Assumptions C33_isentropic_Mach_refuted.

(** pt = 1, rtt = 1, M = 0, and a velocity and a pressure in range *)
Example C33_example : (1/2) ^ 2 < 7 * 1 /\ 0 < 1/2 <= 1 /\
  compute_from_pt_rtt_M (mk_state dgamma (Some 5) (Some 5) (Some 5)) (Some 1) (Some 1) (Some 0)
  = mk_state dgamma (Some 1) (Some 0) (Some 1).
Proof. exact C33_example_lemma. Qed.

(** copy, state_RH, copysymmetric and the moving-shock jump keep the gas of the state, for every state whatsoever. Missing: the operations listed in C32_lost_refuted. *)
Theorem C32_kept_partial : forall q w,
  st_g (state_copy q) = st_g q /\ state_copy q = q /\ uq_copy q = q /\ st_g (state_RH q) = st_g q /\
  st_g (copysymmetric q) = st_g q /\ st_g (rankinehugoniot_from_ushock q w) = st_g q.
Proof. exact gas_kept. Qed.
Print Assumptions C32_kept_partial.

(** Indexing an array state, the three compute_from_pt_rtt functions and state_isentropic_Mach produce a state with gamma = 1.4 whatever the gas of the object. *)
Theorem C32_lost_refuted : forall q pt rtt x (a : array_state) i e,
  st_g (state_isentropic_Mach q x) = Some (14/10) /\
  st_g (compute_from_pt_rtt_M q pt rtt x) = Some (14/10) /\
  st_g (compute_from_pt_rtt_u q pt rtt x) = Some (14/10) /\
  st_g (compute_from_pt_rtt_p q pt rtt x) = Some (14/10) /\
  (getitem a i = Some e -> st_g e = Some (14/10)).
Proof. exact gas_lost. Qed.
Print Assumptions C32_lost_refuted.

(** Indexing does return the density, velocity and pressure at that index; it raises exactly outside the range. *)
Theorem C32_getitem_values_partial : forall g rho u p i, length u = length rho -> length p = length rho ->
  (forall e, getitem (mk_astate g rho u p) i = Some e ->
     nth_error rho i = Some (st_rho e) /\ nth_error u i = Some (st_u e) /\ nth_error p i = Some (st_p e)) /\
  (getitem (mk_astate g rho u p) i = None <-> (length rho <= i)%nat).
Proof. exact getitem_values. Qed.
Print Assumptions C32_getitem_values_partial.

(** helium-like gas: indexing turns 5/3 into 1.4 *)
Example C32_example :
  let a := mk_astate (Some (5/3)) (cons (Some 1) nil) (cons (Some 2) nil) (cons (Some 3) nil) in
  getitem a 0 = Some (mk_state (Some (14/10)) (Some 1) (Some 2) (Some 3)) /\ as_g a = Some (5/3).
Proof. exact C32_example_lemma. Qed.

(** For every moving state of every gas, state_RH returns a state of the same gas satisfying the Rankine-Hugoniot relations across a steady front. *)
Theorem C34_conserves : forall g q, 1 < g -> positive_state q -> f_u q <> 0 ->
  exists q', state_RH (obj g q) = obj g q' /\ 0 < f_rho q' /\ rankine_hugoniot g 0 q q'.
Proof. exact state_RH_conserves. Qed.
Print Assumptions C34_conserves.

(** Applied twice, state_RH gives back the original state exactly, for every state with M^2 > (gamma-1)/(2 gamma) (that is, whenever the downstream pressure is positive). *)
Theorem C34_involution : forall g q, 1 < g -> positive_state q ->
  (g - 1) / (2 * g) < f_u q ^ 2 / (g * f_p q / f_rho q) ->
  state_RH (state_RH (obj g q)) = obj g q.
Proof. exact state_RH_involution. Qed.
Print Assumptions C34_involution.

(** The hypothesis is needed: at or below the limit Mach number the returned pressure is not positive. *)
Theorem C34_domain : forall g q, 1 < g -> positive_state q -> f_u q <> 0 ->
  f_u q ^ 2 / (g * f_p q / f_rho q) <= (g - 1) / (2 * g) ->
  exists q', state_RH (obj g q) = obj g q' /\ f_p q' <= 0.
Proof. exact state_RH_domain. Qed.
Print Assumptions C34_domain.

(** a Mach 2 state with gamma = 1.4, rho = 1.4, p = 1 (a = 1) *)
Example C34_example :
  let q := mkflow (14/10) 2 1 in positive_state q /\
  (14/10 - 1) / (2 * (14/10)) < f_u q ^ 2 / ((14/10) * f_p q / f_rho q) /\
  state_RH (obj (14/10) q) = obj (14/10) (mkflow (14/10 * (8/3)) (3/4) (9/2)).
Proof. exact C34_example_lemma. Qed.
