(** Property theorems of L_Riemann3.v. Generated by tools/gen.py; statements only, proofs are in L_Riemann3.v. *)
From Verif Require Import L_Num Spec NumSpec M_Isentropic M_MassFlow M_ShockWave M_Model1D M_Unsteady1D M_Riemann L_Isentropic L_Shock L_Model1D L_Unsteady L_Riemann1 L_Riemann2.
From Verif Require Import L_Riemann3.
Open Scope R_scope.

(** With an exact root finder and no vacuum, at every x/t: qsol gives the left state before the left wave (including its outer edge when it is a fan), the left star state from the inner edge of the left wave up to the contact (contact excluded), the right star state from the contact to the right wave (edge excluded), the right state from the outer edge of the right wave on; strictly inside a fan it gives the unique state with the side's entropy and Riemann invariant whose acoustic speed u -/+ a is x/t. Not covered: x/t exactly equal to the inner edge of a right fan, where the result is wrong (C40_right_fan_edge_refuted); and the attached gas (C40_gas_refuted). *)
Theorem C40_regions_partial : forall newton gL gR qL qR S, solves 0 newton -> 1 < gL -> 1 < gR ->
  positive_state qL -> positive_state qR ->
  f_u qR - f_u qL < 2 * flow_sound gL qL / (gL - 1) + 2 * flow_sound gR qR / (gR - 1) ->
  riemann_pb newton (obj gL qL) (obj gR qR) = Some S ->
  exists w0 w1 w2 w3 w4 sL sR,
    r_w0 S = Some w0 /\ r_w1 S = Some w1 /\ r_w2 S = Some w2 /\ r_w3 S = Some w3 /\ r_w4 S = Some w4 /\
    r_qsL S = obj gL sL /\ r_qsR S = obj gR sR /\
    forall x, exists g q, (g = gL \/ g = gR) /\ qsol S (Some x) = Some (obj g q) /\
      (x < w0 -> q = qL) /\ (x = w0 -> w0 < w1 -> q = qL) /\
      (w0 < x < w1 -> positive_state q /\ entropy_fn gL q = entropy_fn gL qL /\
         riemann_invariant (-1) gL q = riemann_invariant (-1) gL qL /\ f_u q - flow_sound gL q = x) /\
      (w1 <= x < w2 -> q = sL) /\ (w2 <= x < w3 -> q = sR) /\
      (w3 < x < w4 -> positive_state q /\ entropy_fn gR q = entropy_fn gR qR /\
         riemann_invariant 1 gR q = riemann_invariant 1 gR qR /\ f_u q + flow_sound gR q = x) /\
      (w4 <= x -> q = qR).
Proof. exact qsol_regions. Qed.
Print Assumptions C40_regions_partial.

(** Strictly inside each fan the sampled solution is a differentiable function of x/t satisfying the three Euler conservation laws (mass, momentum, energy), and it joins the neighbouring constant states continuously at both edges. *)
Theorem C40_fans_solve_euler : forall newton gL gR qL qR S, solves 0 newton -> 1 < gL -> 1 < gR ->
  positive_state qL -> positive_state qR ->
  f_u qR - f_u qL < 2 * flow_sound gL qL / (gL - 1) + 2 * flow_sound gR qR / (gR - 1) ->
  riemann_pb newton (obj gL qL) (obj gR qR) = Some S ->
  exists w0 w1 w3 w4 sL sR, r_w0 S = Some w0 /\ r_w1 S = Some w1 /\ r_w3 S = Some w3 /\ r_w4 S = Some w4 /\
    r_qsL S = obj gL sL /\ r_qsR S = obj gR sR /\
    (w0 < w1 -> exists q : R -> flow,
       (forall x, w0 < x < w1 -> exists g, qsol S (Some x) = Some (obj g (q x))) /\
       (forall x, w0 < x < w1 -> euler_self_similar gL q x) /\
       q w0 = qL /\ q w1 = sL /\
       (forall x, w0 <= x <= w1 -> continuity_pt (fun t => f_rho (q t)) x /\
          continuity_pt (fun t => f_u (q t)) x /\ continuity_pt (fun t => f_p (q t)) x)) /\
    (w3 < w4 -> exists q : R -> flow,
       (forall x, w3 < x < w4 -> exists g, qsol S (Some x) = Some (obj g (q x))) /\
       (forall x, w3 < x < w4 -> euler_self_similar gR q x) /\
       q w3 = sR /\ q w4 = qR /\
       (forall x, w3 <= x <= w4 -> continuity_pt (fun t => f_rho (q t)) x /\
          continuity_pt (fun t => f_u (q t)) x /\ continuity_pt (fun t => f_p (q t)) x)).
Proof. exact fans_solve_euler. Qed.
Print Assumptions C40_fans_solve_euler.

(** For every problem with a genuine right fan, sampling exactly at its inner edge (x/t = waves[3]) returns the LEFT undisturbed state: none of the half-open masks covers that point. *)
Theorem C40_right_fan_edge_refuted : forall newton gL gR qL qR S w3 w4, solves 0 newton -> 1 < gL -> 1 < gR ->
  positive_state qL -> positive_state qR ->
  f_u qR - f_u qL < 2 * flow_sound gL qL / (gL - 1) + 2 * flow_sound gR qR / (gR - 1) ->
  riemann_pb newton (obj gL qL) (obj gR qR) = Some S ->
  r_w3 S = Some w3 -> r_w4 S = Some w4 -> w3 < w4 ->
  exists g, qsol S (r_w3 S) = Some (obj g qL).
Proof. exact right_fan_edge. Qed.
Print Assumptions C40_right_fan_edge_refuted.

(** The gas attached to the sampled state is the left one exactly for x/t < 0, whatever the contact speed: to the right of x/t = 0 but left of the contact (or left of 0 but right of the contact) the density, velocity and pressure are those of one side with the gamma of the other. *)
Theorem C40_gas_refuted : forall newton gL gR qL qR S x u, solves 0 newton -> 1 < gL -> 1 < gR ->
  positive_state qL -> positive_state qR ->
  f_u qR - f_u qL < 2 * flow_sound gL qL / (gL - 1) + 2 * flow_sound gR qR / (gR - 1) ->
  riemann_pb newton (obj gL qL) (obj gR qR) = Some S -> r_ustar S = Some u ->
  exists s, qsol S (Some x) = Some s /\
   (0 <= x < u -> st_g s = Some gR) /\ (u <= x < 0 -> st_g s = Some gL) /\
   (forall w1, r_w1 S = Some w1 -> 0 <= x -> w1 <= x < u ->
      s = mk_state (Some gR) (st_rho (r_qsL S)) (st_u (r_qsL S)) (st_p (r_qsL S))).
Proof. exact gas_refuted. Qed.
Print Assumptions C40_gas_refuted.

(** the receding flows of C37_example have a genuine right fan and, in the sampled solution at its inner edge, the velocity is -1 (the left state) although every state in that region moves at 0 or faster *)
Example C40_example : exists S w3 w4 g, riemann_pb (lazy_newton 0) (obj (14/10) qm) (obj (14/10) qp) = Some S /\
  r_w3 S = Some w3 /\ r_w4 S = Some w4 /\ w3 < w4 /\ qsol S (r_w3 S) = Some (obj g qm) /\ f_u qm = -1.
Proof. exact C40_example_lemma. Qed.
