(** Property theorems of L_Polar.v. Generated by tools/gen.py; statements only, proofs are in L_Polar.v. *)
From Coq Require Import String Permutation.
From Verif Require Import L_Num Spec NumSpec PolarSpec M_Isentropic M_MassFlow M_Degree M_ShockWave M_Supersonic M_Polar L_Isentropic L_Degree L_Shock L_Oblique L_Oblique2 L_Supersonic.
From Verif Require Import L_Polar.
Open Scope R_scope.

(** For all arguments, and whatever markers are asked for, the 'both' polar consists of exactly what 'right' and what 'left' draw, the left polar is the mirror image of the right one about the upstream direction, and any other curve name draws nothing. *)
Theorem C79_sides : forall mach gamma n t0 p0 dm so,
  let ts c := plot_theta_sigma mach gamma n c dm so in
  let tp c := plot_theta_pressure mach gamma n (Some t0) p0 c dm so in
  (Permutation (ts "both"%string) (ts "right"%string ++ ts "left"%string) /\ ts "left"%string = map (flipped 0) (ts "right"%string)) /\
  (Permutation (tp "both"%string) (tp "right"%string ++ tp "left"%string) /\ tp "left"%string = map (flipped t0) (tp "right"%string)) /\
  (forall c, ~ In c ["both"; "right"; "left"]%string -> ts c = [] /\ tp c = []).
Proof. exact polar_sides. Qed.
Print Assumptions C79_sides.

(** plot_theta_sigma, for every M > 1, gamma > 1 and number of points: every curve drawn has npts + 1 points; its ordinates are the equally spaced shock angles from the Mach angle to 90 degrees; below 90 degrees its abscissas are, on the right polar, the angles by which the shocks at these angles turn the flow - shocks in the sense of the conservation laws across an oblique front, none of them an expansion - and the opposite on the left polar; it starts undeflected at the Mach angle and never exceeds dev_Max. *)
Theorem C79_sigma_polar : forall g M n curve dm so d, 1 < g -> 1 < M -> (0 < n)%nat ->
  In d (plot_theta_sigma (Some M) (Some g) n curve dm so) -> d_mark d = Line ->
  exists e dmax, drawn_on curve e /\ dev_Max (Some M) (Some g) = Some dmax /\
    List.length (d_x d) = S n /\ List.length (d_y d) = S n /\ nth_error (d_y d) n = Some (Some 90) /\
    nth_error (d_x d) 0 = Some (Some 0) /\
    forall i, (i < n)%nat -> exists th P, nth_error (d_y d) i = Some (Some (shock_angle M n i)) /\ nth_error (d_x d) i = Some (Some (e * th)) /\
      oblique_shock g M (shock_angle M n i) th P /\ 1 <= P /\ 0 <= th <= dmax.
Proof. exact sigma_polar. Qed.
Print Assumptions C79_sigma_polar.

(** plot_theta_pressure, for every M > 1, gamma > 1, number of points, upstream direction and upstream pressure p0 > 0: every curve drawn has npts + 1 points; its points, the last one excepted, are (t0 + theta, p0 P) on the right polar and (t0 - theta, p0 P) on the left one, where theta and P are the turning angle and the pressure ratio of the shocks at the equally spaced angles; it starts at the upstream state (t0, p0), the pressures increase strictly and end at that of the normal shock, and theta never exceeds dev_Max. *)
Theorem C79_pressure_polar : forall g M n t0 p0 curve dm so d, 1 < g -> 1 < M -> (0 < n)%nat -> 0 < p0 ->
  In d (plot_theta_pressure (Some M) (Some g) n (Some t0) (Some p0) curve dm so) -> d_mark d = Line ->
  exists e dmax Pmax, drawn_on curve e /\ dev_Max (Some M) (Some g) = Some dmax /\ Ps_ratio (Some M) (Some g) = Some Pmax /\
    List.length (d_x d) = S n /\ List.length (d_y d) = S n /\
    nth_error (d_x d) 0 = Some (Some t0) /\ nth_error (d_y d) 0 = Some (Some p0) /\ nth_error (d_y d) n = Some (Some (p0 * Pmax)) /\
    (forall i, (i < n)%nat -> exists th P, nth_error (d_x d) i = Some (Some (t0 + e * th)) /\ nth_error (d_y d) i = Some (Some (p0 * P)) /\
      oblique_shock g M (shock_angle M n i) th P /\ 0 <= th <= dmax) /\
    (forall i j, (i < j <= n)%nat -> exists a b, nth_error (d_y d) i = Some (Some a) /\ nth_error (d_y d) j = Some (Some b) /\ a < b).
Proof. exact pressure_polar. Qed.
Print Assumptions C79_pressure_polar.

(** The markers, for every M > 1 and gamma > 1: with devmax (and only then) red dots are drawn, at the shock of largest turning angle on the sides drawn; with sonic (and only then) white dots, at the shock behind which the flow is exactly sonic; both are points of the polar, in either diagram. *)
Theorem C79_markers : forall g M n t0 p0 curve dm so, 1 < g -> 1 < M -> let mu := asin (1 / M) * (180 / PI) in
  exists sm tm Pm ss ts Ps, mu < sm < 90 /\ mu < ss < 90 /\ oblique_shock g M sm tm Pm /\ oblique_shock g M ss ts Ps /\ sonic_behind g M ss ts Ps /\
   (forall s, mu <= s < 90 -> s <> sm -> exists th, deflection_Mach_sigma (Some M) (Some s) (Some g) = Some th /\ th < tm) /\
   (forall d, In d (plot_theta_sigma (Some M) (Some g) n curve dm so) -> d_mark d <> Line -> exists e, drawn_on curve e /\
      ((dm = true /\ d = mk_drawn RedDot (Some (e * tm) :: nil) (Some sm :: nil)) \/ (so = true /\ d = mk_drawn WhiteDot (Some (e * ts) :: nil) (Some ss :: nil)))) /\
   (forall d, In d (plot_theta_pressure (Some M) (Some g) n (Some t0) (Some p0) curve dm so) -> d_mark d <> Line -> exists e, drawn_on curve e /\
      ((dm = true /\ d = mk_drawn RedDot (Some (t0 + e * tm) :: nil) (Some (p0 * Pm) :: nil)) \/ (so = true /\ d = mk_drawn WhiteDot (Some (t0 + e * ts) :: nil) (Some (p0 * Ps) :: nil)))) /\
   (forall e, drawn_on curve e ->
      (dm = true -> In (mk_drawn RedDot (Some (e * tm) :: nil) (Some sm :: nil)) (plot_theta_sigma (Some M) (Some g) n curve dm so) /\
                    In (mk_drawn RedDot (Some (t0 + e * tm) :: nil) (Some (p0 * Pm) :: nil)) (plot_theta_pressure (Some M) (Some g) n (Some t0) (Some p0) curve dm so)) /\
      (so = true -> In (mk_drawn WhiteDot (Some (e * ts) :: nil) (Some ss :: nil)) (plot_theta_sigma (Some M) (Some g) n curve dm so) /\
                    In (mk_drawn WhiteDot (Some (t0 + e * ts) :: nil) (Some (p0 * Ps) :: nil)) (plot_theta_pressure (Some M) (Some g) n (Some t0) (Some p0) curve dm so))).
Proof. exact polar_markers. Qed.
Print Assumptions C79_markers.

(** The isentropic polar, for every argument: one curve for 'C+' or 'c+', one for 'C-' or 'c-', both for 'both', nothing otherwise; no marker. *)
Theorem C80_curves : forall newton M d0 d1 g n t0 p0 curve,
  let drawing := plot_isentropic newton M d0 d1 g n t0 p0 curve in
  (List.length drawing = match curve with "both"%string => 2 | "C+"%string | "c+"%string | "C-"%string | "c-"%string => 1 | _ => 0 end)%nat /\
  List.Forall (fun d => d_mark d = Line) drawing.
Proof. exact isentropic_curves. Qed.
Print Assumptions C80_curves.

(** The isentropic polar with an exact root finder, for every M >= 1, gamma > 1, range of deflections, upstream direction and upstream pressure: the curve has npts + 1 points, its directions are the upstream direction plus the equally spaced deflections, and each pressure with a value belongs to the one state with the same total pressure whose Prandtl-Meyer angle is that of M minus the deflection (C+) or plus the deflection (C-). *)
Theorem C80_points : forall newton g M d0 d1 n t0 p0 curve d, solves 0 newton -> 1 < g -> 1 <= M -> (0 < n)%nat ->
  In d (plot_isentropic newton (Some M) (Some d0) (Some d1) (Some g) n (Some t0) (Some p0) curve) ->
  exists e, family curve e /\ List.length (d_x d) = S n /\ List.length (d_y d) = S n /\
    forall i, (i <= n)%nat -> nth_error (d_x d) i = Some (Some (t0 + spaced d0 d1 n i)) /\
      exists y, nth_error (d_y d) i = Some y /\
      forall p, y = Some p -> exists m nu1 nu2 P1 P2, 1 <= m /\
        PrandtlMeyer_Mach (Some M) (Some g) = Some nu1 /\ PrandtlMeyer_Mach (Some m) (Some g) = Some nu2 /\ nu2 = nu1 - e * spaced d0 d1 n i /\
        PtPs_Mach (Some M) (Some g) = Some P1 /\ PtPs_Mach (Some m) (Some g) = Some P2 /\ p * P2 = p0 * P1.
Proof. exact isentropic_points. Qed.
Print Assumptions C80_points.

(** On the isentropic polar the pressure of the C+ curve strictly increases, that of the C- curve strictly decreases with the direction, and a point at the upstream direction has the upstream pressure. *)
Theorem C80_monotone : forall newton g M d0 d1 n t0 p0 curve d, solves 0 newton -> 1 < g -> 1 <= M -> (0 < n)%nat -> 0 < p0 ->
  In d (plot_isentropic newton (Some M) (Some d0) (Some d1) (Some g) n (Some t0) (Some p0) curve) ->
  exists e, family curve e /\ forall i j xi xj pi pj,
    nth_error (d_x d) i = Some (Some xi) -> nth_error (d_y d) i = Some (Some pi) ->
    nth_error (d_x d) j = Some (Some xj) -> nth_error (d_y d) j = Some (Some pj) ->
    (xi < xj -> 0 < e * (pj - pi)) /\ (xi = t0 -> pi = p0) /\ 0 < pi.
Proof. exact isentropic_monotone. Qed.
Print Assumptions C80_monotone.

(** Both isentropic polars through a state of Mach number M >= 1, parametrised by the local Mach number m - direction t0 + e (nu(M) - nu(m)), pressure p0 PtPs(M)/PtPs(m) - follow the characteristic relation dp/p = e gamma m^2/sqrt(m^2-1) dtheta at every m > 1. *)
Theorem C80_characteristic : forall g M t0 p0 e, 1 < g -> 1 <= M -> (e = 1 \/ e = -1) ->
  exists nu P, (forall m, 1 <= m -> PrandtlMeyer_Mach (Some m) (Some g) = Some (nu m) /\ PtPs_Mach (Some m) (Some g) = Some (P m)) /\
    characteristic g e (fun m => t0 + e * (nu M - nu m)) (fun m => p0 * P M / P m).
Proof. exact isentropic_characteristic. Qed.
Print Assumptions C80_characteristic.

(** gamma = 3, M = 2, three points, 'right', with devmax: one line, at the shock angles 30, 60 and 90 degrees, starting undeflected, and one red dot at 60 degrees, a positive deflection th, the middle point of the line. *)
Example C79_example : exists th x, 0 < th /\ plot_theta_sigma (Some 2) (Some 3) 2 "right" true false =
  mk_drawn Line (Some 0 :: Some th :: x :: nil) (Some 30 :: Some 60 :: Some 90 :: nil) :: mk_drawn RedDot (Some th :: nil) (Some 60 :: nil) :: nil.
Proof. exact C79_example_lemma. Qed.

(** the hypotheses are met by a solver and a curve with a point at a proper compression: from Mach 3, turned by the difference of the Prandtl-Meyer angles of Mach 3 and Mach 2, the pressure drawn is PtPs(3)/PtPs(2) times the upstream one. *)
Example C80_example : solves 0 (lazy_newton 0) /\ exists nu P2 P3 d, 0 < nu /\ PtPs_Mach (Some 2) (Some (7/5)) = Some P2 /\ PtPs_Mach (Some 3) (Some (7/5)) = Some P3 /\ P2 < P3 /\
  In d (plot_isentropic (lazy_newton 0) (Some 3) (Some 0) (Some nu) (Some (7/5)) 1 (Some 5) (Some 10) "C+") /\
  nth_error (d_x d) 1 = Some (Some (5 + nu)) /\ nth_error (d_y d) 1 = Some (Some (10 * (P3 / P2))).
Proof. exact C80_example_lemma. Qed.
