(** Property theorems of L_GuideVane.v. Generated by tools/gen.py; statements only, proofs are in L_GuideVane.v. *)
From Verif Require Import L_Num Spec NumSpec M_Isentropic M_Degree M_MassFlow M_ShockWave M_Model1D M_Unsteady1D M_Riemann M_GuideVane L_Isentropic L_Degree L_MassFlow L_Shock L_Model1D L_Unsteady L_Riemann1 L_Riemann2 L_Oblique NozzleSpec L_Nozzle1.
From Verif Require Import L_GuideVane.
Open Scope R_scope.

(** For every vane angle between -90 and 90 degrees, every throat pressure and every exact root finder: the upstream Mach number is positive, the upstream state has that Mach number, and a sonic throat flow with the same total pressure and total temperature (there is one, and it has the given throat pressure) carries exactly the same mass flow once its section is reduced by the cosine of the angle: the vane is choked. *)
Theorem C96_upstream : forall newton alpha p0c M, solves 0 newton -> -90 < alpha < 90 -> 0 < p0c ->
  gv_M0 newton (Some alpha) = Some M ->
  0 < M /\ exists q pt rtt, gv_q0 (Some M) (Some p0c) = obj (14/10) q /\ positive_state q /\
    M_Model1D.Mach (obj (14/10) q) = Some M /\ Ptot (obj (14/10) q) = Some pt /\ rTtot (obj (14/10) q) = Some rtt /\
    (exists qc, positive_state qc /\ M_Model1D.Mach (obj (14/10) qc) = Some 1 /\ Ptot (obj (14/10) qc) = Some pt /\ rTtot (obj (14/10) qc) = Some rtt) /\
    (forall qc, positive_state qc -> M_Model1D.Mach (obj (14/10) qc) = Some 1 -> Ptot (obj (14/10) qc) = Some pt -> rTtot (obj (14/10) qc) = Some rtt ->
      f_p qc = p0c /\ f_rho q * f_u q = cos (alpha * (PI / 180)) * (f_rho qc * f_u qc)).
Proof. exact gv_upstream. Qed.
Print Assumptions C96_upstream.

(** With a root finder that stays on the side of Mach 1 it starts from: for every vane angle strictly between -90 and 90 degrees the upstream Mach number exists; it is 1 for a straight vane (angle 0) and strictly between 0 and 1 for every other angle - the flow upstream of the choked vane is subsonic. *)
Theorem C96_subsonic : forall newton alpha, branch_solver (14/10) newton -> -90 < alpha < 90 ->
  exists M, gv_M0 newton (Some alpha) = Some M /\ 0 < M /\ (alpha = 0 -> M = 1) /\ (alpha <> 0 -> M < 1).
Proof. exact gv_subsonic. Qed.
Print Assumptions C96_subsonic.

(** The final state of the first hypothesis, for every Mach number, throat pressure and total pressure ratio r > 0: same Mach number and total temperature as upstream, total pressure and mass flow multiplied by r. *)
Theorem C96_same_mach : forall M p0c r, 0 < p0c -> 0 < r ->
  exists q q1 pt rtt, gv_q0 (Some M) (Some p0c) = obj (14/10) q /\ gv_q1f (obj (14/10) q) (Some r) = obj (14/10) q1 /\
    positive_state q /\ positive_state q1 /\
    Ptot (obj (14/10) q) = Some pt /\ Ptot (obj (14/10) q1) = Some (pt * r) /\
    M_Model1D.Mach (obj (14/10) q) = Some M /\ M_Model1D.Mach (obj (14/10) q1) = Some M /\
    rTtot (obj (14/10) q) = Some rtt /\ rTtot (obj (14/10) q1) = Some rtt /\
    f_rho q1 * f_u q1 = f_rho q * f_u q * r.
Proof. exact gv_same_mach. Qed.
Print Assumptions C96_same_mach.

(** The final state of the second hypothesis, for every positive Mach number, throat pressure and total pressure ratio r > 1: same static pressure and total temperature as upstream, total pressure multiplied by r, and both a higher Mach number (the one computed by the script) and a higher velocity. *)
Theorem C96_same_pressure : forall M p0c r, 0 < M -> 0 < p0c -> 1 < r ->
  exists q q1 pt rtt M1, gv_q0 (Some M) (Some p0c) = obj (14/10) q /\ gv_q10 (Some M) (obj (14/10) q) (Some r) = obj (14/10) q1 /\
    positive_state q /\ positive_state q1 /\ f_p q1 = f_p q /\
    Ptot (obj (14/10) q) = Some pt /\ Ptot (obj (14/10) q1) = Some (pt * r) /\
    gv_M10 (obj (14/10) q) (Some r) = Some M1 /\ M < M1 /\
    M_Model1D.Mach (obj (14/10) q) = Some M /\ M_Model1D.Mach (obj (14/10) q1) = Some M1 /\
    rTtot (obj (14/10) q) = Some rtt /\ rTtot (obj (14/10) q1) = Some rtt /\ 0 < f_u q < f_u q1.
Proof. exact gv_same_pressure. Qed.
Print Assumptions C96_same_pressure.

(** First hypothesis, for every positive Mach number, throat pressure, ratio r > 1 and exact root finder: whenever the Riemann problem is solved, the star pressure lies strictly between the upstream pressure and r times it, the star velocity is higher than the upstream one, the wave going to the vane is a Rankine-Hugoniot shock and the other an isentropic expansion; and the state left by the expansion has a Mach number strictly higher than the upstream Mach number, the only one the choked vane accepts: the imposed final state is not reached. *)
Theorem C96_first_problem : forall newton M p0c r S, solves 0 newton -> 0 < M -> 0 < p0c -> 1 < r ->
  gv_pb1 newton (Some M) (Some p0c) (Some r) = Some S ->
  exists q p u rL rR w M',
    gv_q0 (Some M) (Some p0c) = obj (14/10) q /\ r_pstar S = Some p /\ r_ustar S = Some u /\
    f_p q < p < f_p q * r /\ f_u q < u /\
    r_qsL S = obj (14/10) (mkflow rL u p) /\ r_qsR S = obj (14/10) (mkflow rR u p) /\
    entropy_fn (14/10) (mkflow rL u p) = entropy_fn (14/10) (mkflow (f_rho q * r) (f_u q) (f_p q * r)) /\
    rankine_hugoniot (14/10) w q (mkflow rR u p) /\ r_w3 S = Some w /\ r_w4 S = Some w /\
    M_Model1D.Mach (r_qsL S) = Some M' /\ M < M'.
Proof. exact gv_first. Qed.
Print Assumptions C96_first_problem.

(** Second hypothesis, same quantifiers: the star pressure is higher than the common pressure, so that two shocks leave the interface, and the star velocity lies strictly between the upstream velocity and the imposed one. *)
Theorem C96_second_problem : forall newton M p0c r S, solves 0 newton -> 0 < M -> 0 < p0c -> 1 < r ->
  gv_pb2 newton (Some M) (Some p0c) (Some r) = Some S ->
  exists q q1 p u rL rR wL wR,
    gv_q0 (Some M) (Some p0c) = obj (14/10) q /\ gv_q10 (Some M) (obj (14/10) q) (Some r) = obj (14/10) q1 /\
    r_pstar S = Some p /\ r_ustar S = Some u /\ f_p q < p /\ f_u q < u < f_u q1 /\
    r_qsL S = obj (14/10) (mkflow rL u p) /\ r_qsR S = obj (14/10) (mkflow rR u p) /\
    rankine_hugoniot (14/10) wL q1 (mkflow rL u p) /\ rankine_hugoniot (14/10) wR q (mkflow rR u p) /\
    r_w0 S = Some wL /\ r_w1 S = Some wL /\ r_w3 S = Some wR /\ r_w4 S = Some wR.
Proof. exact gv_second. Qed.
Print Assumptions C96_second_problem.

(** the script's own case (50 degrees, throat pressure 1e5, ratio 1.4) meets the hypotheses, with exact root finders, an upstream subsonic Mach number and solved problems; and there is a root finder that stays on the side of Mach 1 it starts from. *)
Example C96_example : (exists nb, branch_solver (14/10) nb) /\ exists newton M n1 S1 n2 S2, solves 0 newton /\ solves 0 n1 /\ solves 0 n2 /\
  gv_M0 newton (Some 50) = Some M /\ 0 < M < 1 /\
  gv_pb1 n1 (Some M) (Some 100000) (Some (14/10)) = Some S1 /\ gv_pb2 n2 (Some M) (Some 100000) (Some (14/10)) = Some S2.
Proof. exact C96_ex. Qed.
