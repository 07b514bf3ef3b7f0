(** Property theorems of L_Riemann2.v. Generated by tools/gen.py; statements only, proofs are in L_Riemann2.v. *)
From Verif Require Import L_Num Spec NumSpec M_Isentropic M_MassFlow M_ShockWave M_Model1D M_Unsteady1D M_Riemann L_Isentropic L_Shock L_Model1D L_Unsteady L_Riemann1.
From Verif Require Import L_Riemann2.
Open Scope R_scope.

(** With an exact root finder and no vacuum: both star states have the same positive pressure p* and the same velocity, which is the contact wave speed; densities are positive, gases are kept; each star state is joined to its side, with the stored wave speeds, by a Rankine-Hugoniot shock when p* is higher than that side's pressure and by an isentropic centred wave otherwise. *)
Theorem C37_star_states : forall newton gL gR qL qR S, solves 0 newton -> 1 < gL -> 1 < gR ->
  positive_state qL -> positive_state qR ->
  f_u qR - f_u qL < 2 * flow_sound gL qL / (gL - 1) + 2 * flow_sound gR qR / (gR - 1) ->
  riemann_pb newton (obj gL qL) (obj gR qR) = Some S ->
  exists p u rL rR w0 w1 w3 w4,
    r_pstar S = Some p /\ 0 < p /\ r_ustar S = Some u /\ r_w2 S = Some u /\
    r_qL S = obj gL qL /\ r_qR S = obj gR qR /\
    r_qsL S = obj gL (mkflow rL u p) /\ 0 < rL /\ r_qsR S = obj gR (mkflow rR u p) /\ 0 < rR /\
    r_w0 S = Some w0 /\ r_w1 S = Some w1 /\ r_w3 S = Some w3 /\ r_w4 S = Some w4 /\
    joined_by_wave (-1) gL qL (mkflow rL u p) w0 w1 /\
    joined_by_wave 1 gR qR (mkflow rR u p) w4 w3.
Proof. exact star_states. Qed.
Print Assumptions C37_star_states.

(** For a root finder that only guarantees a residual of at most eps, the star velocity is within eps/2 of the velocity each side's wave relation gives at p*: the error is split evenly between the two waves. *)
Theorem C37_residual : forall newton eps gL gR qL qR S p, solves eps newton -> 1 < gL -> 1 < gR ->
  positive_state qL -> positive_state qR ->
  riemann_pb newton (obj gL qL) (obj gR qR) = Some S -> r_pstar S = Some p -> 0 < p ->
  exists u dL dR, r_ustar S = Some u /\
    delta_uK (obj gL qL) (Some p) = Some dL /\ delta_uK (obj gR qR) (Some p) = Some dR /\
    Rabs (u - (f_u qL - dL)) <= eps / 2 /\ Rabs (u - (f_u qR + dR)) <= eps / 2.
Proof. exact star_residual. Qed.
Print Assumptions C37_residual.

(** a root finder meeting the hypothesis and two receding flows (u = -1 and u = 1): the constructor succeeds, with an exact star pressure below 1 *)
Example C37_example : solves 0 (lazy_newton 0) /\ positive_state qm /\ positive_state qp /\
  f_u qp - f_u qm < 2 * flow_sound (14/10) qm / (14/10 - 1) + 2 * flow_sound (14/10) qp / (14/10 - 1) /\
  exists S p, riemann_pb (lazy_newton 0) (obj (14/10) qm) (obj (14/10) qp) = Some S /\
    r_pstar S = Some p /\ 0 < p < 1.
Proof. exact C37_example_lemma. Qed.

(** With an exact root finder and no vacuum: waves[0] <= waves[1] < waves[2] < waves[3] <= waves[4]. *)
Theorem C38_ordering : forall newton gL gR qL qR S, solves 0 newton -> 1 < gL -> 1 < gR ->
  positive_state qL -> positive_state qR ->
  f_u qR - f_u qL < 2 * flow_sound gL qL / (gL - 1) + 2 * flow_sound gR qR / (gR - 1) ->
  riemann_pb newton (obj gL qL) (obj gR qR) = Some S ->
  exists w0 w1 w2 w3 w4, r_w0 S = Some w0 /\ r_w1 S = Some w1 /\ r_w2 S = Some w2 /\
    r_w3 S = Some w3 /\ r_w4 S = Some w4 /\ w0 <= w1 < w2 /\ w2 < w3 <= w4 /\
    left_fastest S = Some w0 /\ right_fastest S = Some w4.
Proof. exact waves_ordered. Qed.
Print Assumptions C38_ordering.

(** Each shock is supersonic with respect to the undisturbed side and subsonic with respect to the star state behind it; it is a true compression in density. *)
Theorem C38_lax : forall newton gL gR qL qR S, solves 0 newton -> 1 < gL -> 1 < gR ->
  positive_state qL -> positive_state qR ->
  f_u qR - f_u qL < 2 * flow_sound gL qL / (gL - 1) + 2 * flow_sound gR qR / (gR - 1) ->
  riemann_pb newton (obj gL qL) (obj gR qR) = Some S ->
  exists p u rL rR w0 w4, r_pstar S = Some p /\
    r_qsL S = obj gL (mkflow rL u p) /\ r_qsR S = obj gR (mkflow rR u p) /\
    r_w0 S = Some w0 /\ r_w4 S = Some w4 /\
    (f_p qL < p -> f_rho qL < rL /\ f_u qL - w0 > flow_sound gL qL /\ 0 < u - w0 < flow_sound gL (mkflow rL u p)) /\
    (f_p qR < p -> f_rho qR < rR /\ w4 - f_u qR > flow_sound gR qR /\ 0 < w4 - u < flow_sound gR (mkflow rR u p)).
Proof. exact shocks_lax. Qed.
Print Assumptions C38_lax.

(** the hypotheses are met by the receding flows of C37_example; a shock on the left needs f_p qL < p, met when p* = 2 and pL = 1 *)
Example C38_example : f_p qm < 2 /\
  flow_sound (14/10) qm < -1 * (wout (-1) (14/10) qm 2 - f_u qm).
Proof. exact C38_example_lemma. Qed.

(** Exchanging and mirroring the two states (copysymmetric) mirrors the whole solution: same star pressure, opposite star velocity, star states exchanged and mirrored, wave speeds negated in reverse order; for any two exact root finders. *)
Theorem C39_mirror : forall newton newton' gL gR qL qR S S', solves 0 newton -> solves 0 newton' ->
  1 < gL -> 1 < gR -> positive_state qL -> positive_state qR ->
  f_u qR - f_u qL < 2 * flow_sound gL qL / (gL - 1) + 2 * flow_sound gR qR / (gR - 1) ->
  riemann_pb newton (obj gL qL) (obj gR qR) = Some S ->
  riemann_pb newton' (copysymmetric (obj gR qR)) (copysymmetric (obj gL qL)) = Some S' ->
  r_pstar S' = r_pstar S /\ r_ustar S' = nopp (r_ustar S) /\
  r_qsL S' = copysymmetric (r_qsR S) /\ r_qsR S' = copysymmetric (r_qsL S) /\
  r_w0 S' = nopp (r_w4 S) /\ r_w1 S' = nopp (r_w3 S) /\ r_w2 S' = nopp (r_w2 S) /\
  r_w3 S' = nopp (r_w1 S) /\ r_w4 S' = nopp (r_w0 S).
Proof. exact riemann_mirror. Qed.
Print Assumptions C39_mirror.

(** Adding any velocity v to both states adds v to every wave speed and velocity and leaves the star pressure, densities and pressures unchanged. *)
Theorem C39_galilean : forall newton newton' gL gR qL qR v S S', solves 0 newton -> solves 0 newton' ->
  1 < gL -> 1 < gR -> positive_state qL -> positive_state qR ->
  f_u qR - f_u qL < 2 * flow_sound gL qL / (gL - 1) + 2 * flow_sound gR qR / (gR - 1) ->
  riemann_pb newton (obj gL qL) (obj gR qR) = Some S ->
  riemann_pb newton' (obj_shift v (obj gL qL)) (obj_shift v (obj gR qR)) = Some S' ->
  r_pstar S' = r_pstar S /\ r_ustar S' = nadd (r_ustar S) (Some v) /\
  r_qsL S' = obj_shift v (r_qsL S) /\ r_qsR S' = obj_shift v (r_qsR S) /\
  r_w0 S' = nadd (r_w0 S) (Some v) /\ r_w1 S' = nadd (r_w1 S) (Some v) /\
  r_w2 S' = nadd (r_w2 S) (Some v) /\ r_w3 S' = nadd (r_w3 S) (Some v) /\ r_w4 S' = nadd (r_w4 S) (Some v).
Proof. exact riemann_galilean. Qed.
Print Assumptions C39_galilean.

(** the receding flows of C37_example are their own mirror image, so the mirrored problem is also solved *)
Example C39_example : copysymmetric (obj (14/10) qp) = obj (14/10) qm /\
  exists S', riemann_pb (lazy_newton 0) (copysymmetric (obj (14/10) qp)) (copysymmetric (obj (14/10) qm)) = Some S'.
Proof. exact C39_example_lemma. Qed.
