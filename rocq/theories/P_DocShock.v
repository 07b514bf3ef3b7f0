(** Property theorems of L_DocShock.v. Generated by tools/gen.py; statements only, proofs are in L_DocShock.v. *)
From Verif Require Import L_Num Spec NumSpec PolarSpec WedgeSpec M_Isentropic M_MassFlow M_Degree M_IterSolve M_ShockWave M_Supersonic M_Wedge M_DocShock L_Isentropic L_Degree L_Shock L_Oblique L_Oblique2 L_WeakStrong L_Secant L_Sigma L_Sigma2 L_Sigma3 L_Polar L_Sonic L_DevMax L_Wedge.
From Verif Require Import L_DocShock.
Open Scope R_scope.

(** The documentation's reflexion, when the deflection d is attached both for the incoming Mach number and for the Mach number M1 > 1 computed behind the first shock: nothing is announced and every result is defined; there are two oblique shocks of ratios P1 and P2, from M to m1 and from M1 to m2, with p2p0 = P1 P2 and M1 sin(z1-d) = m1 sin(z1-th1); without solver warnings the flow behind the second is parallel to the wall again within the sum of the two solver tolerances, and when these are smaller than d, 1 < p1p0 < p2p0. *)
Theorem C106_regular : forall g M d dm mu M1 dm1 mu1, 1 < g -> 1 < M -> dev_Max (Some M) (Some g) = Some dm -> 0 < d <= dm ->
  dasin (ndiv (Some 1) (Some M)) = Some mu -> 1/100 < mu + d ->
  let f := doc_reflexion_cells (Some M) (Some d) (Some g) in
  w_M (dr_1 f) = Some M1 -> 1 < M1 -> dev_Max (Some M1) (Some g) = Some dm1 -> d <= dm1 -> dasin (ndiv (Some 1) (Some M1)) = Some mu1 -> 1/100 < mu1 + d ->
  dr_irregular f = false /\
  exists z1 th1 P1 m1 z2 th2 P2 m2, w_sig (dr_1 f) = Some z1 /\ w_p (dr_1 f) = Some P1 /\ shock_to g M z1 th1 P1 m1 /\ M1 * sin ((z1 - d) * (PI / 180)) = m1 * sin ((z1 - th1) * (PI / 180)) /\
    w_sig (dr_2 f) = Some z2 /\ w_p (dr_2 f) = Some P2 /\ shock_to g M1 z2 th2 P2 m2 /\ dr_p2p0 f = Some (P1 * P2) /\
    let e1 := 2 * sigma_lip g M * Rmax (1/100000) (1/100000 * z1) in let e2 := 2 * sigma_lip g M1 * Rmax (1/100000) (1/100000 * z2) in
    (s_warned (secant_run_of (fun s => deflection_Mach_sigma (Some M) s (Some g)) (Some d) (Some (mu + d)) secant_tol) = false ->
     s_warned (secant_run_of (fun s => deflection_Mach_sigma (Some M1) s (Some g)) (Some d) (Some (mu1 + d)) secant_tol) = false ->
     Rabs (th1 - d) <= e1 /\ Rabs (th2 - d) <= e2 /\ Rabs (th1 - th2) <= e1 + e2 /\ (e1 < d -> e2 < d -> 1 < P1 < P1 * P2)).
Proof. exact doc_regular. Qed.
Print Assumptions C106_regular.

(** When the flow behind the first shock is subsonic there is no maximum deflection: the test is silently passed, the irregular reflexion is not announced, and the angle, pressure, Mach number of the second region and p2p0 are all undefined. *)
Theorem C106_subsonic : forall g M d M1, 1 < g -> 0 < M1 < 1 ->
  let f := doc_reflexion_cells (Some M) (Some d) (Some g) in w_M (dr_1 f) = Some M1 ->
  dr_irregular f = false /\ w_sig (dr_2 f) = None /\ w_p (dr_2 f) = None /\ w_M (dr_2 f) = None /\ dr_p2p0 f = None.
Proof. exact doc_subsonic_reflexion. Qed.
Print Assumptions C106_subsonic.

(** When the flow behind the first shock is supersonic but cannot be turned by d, the irregular reflexion is announced and the second shock is put at the sonic angle: the pressure ratio is that of a shock behind which the flow is exactly sonic, but which turns it by dev_Sonic(M1) only, less than d. The Mach number printed for that region is never the right one, 1: it is computed as if the flow were turned by d, and is larger than 1 when d is below the shock angle, undefined when they are equal, and negative above. *)
Theorem C106_irregular_refuted : forall g M1 d dm1, 1 < g -> 1 < M1 -> dev_Max (Some M1) (Some g) = Some dm1 -> dm1 < d < 90 ->
  exists ss ds P, let c := snd (doc_second (Some M1) (Some d) (Some g)) in
    fst (doc_second (Some M1) (Some d) (Some g)) = true /\ w_sig c = Some ss /\ dev_Sonic (Some M1) (Some g) = Some ds /\ 0 < ds < d /\
    w_p c = Some P /\ shock_to g M1 ss ds P 1 /\
    (d < ss -> exists m, w_M c = Some m /\ 1 < m) /\ (d = ss -> w_M c = None) /\ (ss < d -> exists m, w_M c = Some m /\ m < 0).
Proof. exact doc_irregular. Qed.
Print Assumptions C106_irregular_refuted.

(** the irregular case occurs: for gamma = 3 and M1 = 2 the deflection of 30 degrees is out of reach, and as it is below the sonic shock angle a supersonic Mach number is printed behind a sonic shock *)
Example C106_example : exists dm1 m, dev_Max (Some 2) (Some 3) = Some dm1 /\ dm1 < 30 /\
  fst (doc_second (Some 2) (Some 30) (Some 3)) = true /\ w_M (snd (doc_second (Some 2) (Some 30) (Some 3))) = Some m /\ 1 < m.
Proof. exact doc_irregular_example. Qed.
