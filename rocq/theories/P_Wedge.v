(** Property theorems of L_Wedge.v. Generated by tools/gen.py; statements only, proofs are in L_Wedge.v. *)
From Verif Require Import L_Num Spec NumSpec PolarSpec WedgeSpec M_Isentropic M_MassFlow M_Degree M_IterSolve M_ShockWave M_Supersonic M_Wedge L_Isentropic L_Degree L_Shock L_Oblique L_Oblique2 L_WeakStrong L_Secant L_Sigma L_Sigma2 L_Sigma3 L_Polar L_Sonic L_DevMax.
From Verif Require Import L_Wedge.
Open Scope R_scope.

(** One shock cell of the wedge notebooks, for every gamma > 1, M > 1 and every attached deflection d (0 < d <= dev_Max; mu + d > 0.01): the angle z, the pressure ratio P and, once the angle exceeds d, the Mach number are defined; the shock at z satisfies the oblique conservation laws with that pressure ratio, a deflection th and a Mach number m behind it; th misses d by at most the solver tolerance (times an explicit constant) if no warning is printed; the Mach number returned is m corrected for that miss, m sin(z-th)/sin(z-d); and as soon as th > 0 the wave is a compression with a supersonic normal Mach number in front and a subsonic one behind. *)
Theorem C91_shock : forall g M d dm mu, 1 < g -> 1 < M -> dev_Max (Some M) (Some g) = Some dm -> 0 < d <= dm ->
  dasin (ndiv (Some 1) (Some M)) = Some mu -> 1/100 < mu + d ->
  let c := shock_cell (Some M) (Some d) (Some g) in
  exists z th P m, w_sig c = Some z /\ 0 < z < 90 /\ w_p c = Some P /\ shock_to g M z th P m /\
    (s_warned (secant_run_of (fun s => deflection_Mach_sigma (Some M) s (Some g)) (Some d) (Some (mu + d)) secant_tol) = false ->
      Rabs (th - d) <= 2 * sigma_lip g M * Rmax (1/100000) (1/100000 * z)) /\
    (d < z -> w_M c = Some (m * sin ((z - th) * (PI / 180)) / sin ((z - d) * (PI / 180))) /\ 0 < m * sin ((z - th) * (PI / 180)) / sin ((z - d) * (PI / 180))) /\
    (0 < th -> 1 < P /\ m * sin ((z - th) * (PI / 180)) < 1 < M * sin (z * (PI / 180))).
Proof. exact wedge_shock. Qed.
Print Assumptions C91_shock.

(** The whole reflexion: when the deflection d is attached both for the incoming Mach number and for the Mach number M1 > 1 computed behind the first shock, every result is defined; there are two oblique shocks of ratios P1 and P2, from M to m1 and from M1 to m2, with p2p0 = P1 P2, M1 sin(z1-d) = m1 sin(z1-th1), and without warnings the flow behind the second is parallel to the wall again within the sum of the two solver tolerances; when these are smaller than d, 1 < p1p0 < p2p0. *)
Theorem C91_reflexion : forall g M d yend dm mu M1 dm1 mu1, 1 < g -> 1 < M -> dev_Max (Some M) (Some g) = Some dm -> 0 < d <= dm ->
  dasin (ndiv (Some 1) (Some M)) = Some mu -> 1/100 < mu + d ->
  let f := reflexion_cells (Some M) (Some d) yend (Some g) in
  w_M (rf_1 f) = Some M1 -> 1 < M1 -> dev_Max (Some M1) (Some g) = Some dm1 -> d <= dm1 -> dasin (ndiv (Some 1) (Some M1)) = Some mu1 -> 1/100 < mu1 + d ->
  exists z1 th1 P1 m1 z2 th2 P2 m2, w_sig (rf_1 f) = Some z1 /\ w_p (rf_1 f) = Some P1 /\ shock_to g M z1 th1 P1 m1 /\ M1 * sin ((z1 - d) * (PI / 180)) = m1 * sin ((z1 - th1) * (PI / 180)) /\
    w_sig (rf_2 f) = Some z2 /\ w_p (rf_2 f) = Some P2 /\ shock_to g M1 z2 th2 P2 m2 /\ rf_p2p0 f = Some (P1 * P2) /\
    let e1 := 2 * sigma_lip g M * Rmax (1/100000) (1/100000 * z1) in let e2 := 2 * sigma_lip g M1 * Rmax (1/100000) (1/100000 * z2) in
    (s_warned (secant_run_of (fun s => deflection_Mach_sigma (Some M) s (Some g)) (Some d) (Some (mu + d)) secant_tol) = false ->
     s_warned (secant_run_of (fun s => deflection_Mach_sigma (Some M1) s (Some g)) (Some d) (Some (mu1 + d)) secant_tol) = false ->
     Rabs (th1 - d) <= e1 /\ Rabs (th2 - d) <= e2 /\ Rabs (th1 - th2) <= e1 + e2 /\ (e1 < d -> e2 < d -> 1 < P1 < P1 * P2)).
Proof. exact wedge_reflexion. Qed.
Print Assumptions C91_reflexion.

(** When the flow behind the first shock is subsonic (M1 < 1) nothing of the second region is computed: its angle, pressure, Mach number, p2p0 and the abscissa xbot of the reflected shock are all undefined. When it is supersonic but d exceeds dev_Max(M1), no shock angle whatever turns the flow back by d. *)
Theorem C91_no_reflexion : forall g M d yend M1, 1 < g -> 0 < M1 ->
  let f := reflexion_cells (Some M) (Some d) yend (Some g) in w_M (rf_1 f) = Some M1 ->
  (M1 < 1 -> w_sig (rf_2 f) = None /\ w_p (rf_2 f) = None /\ w_M (rf_2 f) = None /\ rf_p2p0 f = None /\ rf_xbot f = None) /\
  (1 < M1 -> forall dm1 mu1, dev_Max (Some M1) (Some g) = Some dm1 -> dm1 < d -> dasin (ndiv (Some 1) (Some M1)) = Some mu1 ->
     forall sigma, mu1 <= sigma < 90 -> exists th, deflection_Mach_sigma (Some M1) (Some sigma) (Some g) = Some th /\ th < d).
Proof. exact wedge_no_reflexion. Qed.
Print Assumptions C91_no_reflexion.

(** The drawn shocks: for angles 0 < z1 < 90 and d < z2 < d + 90 the incident shock, drawn from the apex of the wedge to the wall y = 1, is inclined at z1, and the reflected one, drawn from there down to the ordinate yend < 1, is inclined at d - z2: it makes the angle z2 with the flow of region 1, which is inclined at d. *)
Theorem C91_lines : forall g M d y z1 z2, let f := reflexion_cells M (Some d) (Some y) g in
  w_sig (rf_1 f) = Some z1 -> 0 < z1 < 90 -> w_sig (rf_2 f) = Some z2 -> d < z2 < d + 90 -> y < 1 ->
  exists xup xbot, rf_xup f = Some xup /\ rf_xbot f = Some xbot /\ inclined 0 0 xup 1 z1 /\ inclined xup 1 xbot y (d - z2).
Proof. exact wedge_lines. Qed.
Print Assumptions C91_lines.

(** With a flat wall (d = 0, the left end of the widget's slider) the notebook does not give the undisturbed flow: for every Mach number, the pressure ratio is undefined or equal to -(gamma-1)/(gamma+1), which is negative, and no Mach number is ever computed; at Mach 2 the negative pressure is what it gives. *)
Theorem C91_zero_refuted : (forall g M, 1 < g -> let c := shock_cell (Some M) (Some 0) (Some g) in
    w_M c = None /\ (forall P, w_p c = Some P -> P = - (g - 1) / (g + 1) /\ P < 0)) /\
  w_p (shock_cell (Some 2) (Some 0) (Some (7/5))) = Some (-1/6).
Proof. exact wedge_zero. Qed.
Print Assumptions C91_zero_refuted.
