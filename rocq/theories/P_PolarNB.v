(** Property theorems of L_PolarNB.v. Generated by tools/gen.py; statements only, proofs are in L_PolarNB.v. *)
From Coq Require Import String.
From Verif Require Import L_Num Spec NumSpec PolarSpec M_Isentropic M_MassFlow M_Degree M_ShockWave M_Supersonic M_Polar M_PolarNB L_Isentropic L_Degree L_Shock L_Oblique L_Oblique2 L_Supersonic L_Polar L_WeakStrong L_Sonic L_DevMax.
From Verif Require Import L_PolarNB.
Open Scope R_scope.

(** The Mach numbers of the maximum deviation and sonic lines: flin_m and finv_x are inverse of each other above Mach 0.9, and for all bounds 0.9 < mmin < mmax and every number of points the grid has npoints + 1 values, starting at mmin, ending at mmax, strictly increasing, and equally spaced in flin_m. *)
Theorem C109_grid : forall a b n, 9 / 10 < a -> a < b -> (0 < n)%nat -> exists M xa xb : R, exists mg : nat -> R,
  (forall m, 9 / 10 < m -> exists x, flin_m (Some m) = Some x /\ finv_x (Some x) = Some m) /\
  List.length (mach_grid (Some a) (Some b) n) = S n /\
  (forall i, (i <= n)%nat -> nth_error (mach_grid (Some a) (Some b) n) i = Some (Some (mg i))) /\
  mg 0%nat = a /\ mg n = b /\ (forall i j, (i < j <= n)%nat -> mg i < mg j) /\
  flin_m (Some a) = Some xa /\ flin_m (Some b) = Some xb /\ M = (xb - xa) / INR n /\
  (forall i, (i <= n)%nat -> flin_m (Some (mg i)) = Some (xa + INR i * M)).
Proof. exact grid_ok. Qed.
Print Assumptions C109_grid.

(** The maximum deviation line and the sonic line, for every gamma > 1, 1 < mmin < mmax and number of points: point i of each belongs to the grid Mach number i. On the maximum deviation line it is the shock that turns the flow most at this Mach number, and the deviation strictly increases along the line, staying below asin(1/gamma); on the sonic line it is the shock behind which the flow is exactly sonic, and it lies strictly below and strictly to the left of the point of the other line. *)
Theorem C109_lines : forall g a b n, 1 < g -> 1 < a -> a < b -> (0 < n)%nat ->
  let mach := mach_grid (Some a) (Some b) n in let dl := maxdev_line mach (Some g) in let sl := sonic_line mach (Some g) in
  exists mg dm sm ds ss : nat -> R,
   List.length (d_x dl) = S n /\ List.length (d_y dl) = S n /\ List.length (d_x sl) = S n /\ List.length (d_y sl) = S n /\
   (forall i j, (i < j <= n)%nat -> mg i < mg j /\ dm i < dm j) /\
   (forall i, (i <= n)%nat -> nth_error mach i = Some (Some (mg i)) /\ a <= mg i <= b /\
      nth_error (d_x dl) i = Some (Some (dm i)) /\ nth_error (d_y dl) i = Some (Some (sm i)) /\
      nth_error (d_x sl) i = Some (Some (ds i)) /\ nth_error (d_y sl) i = Some (Some (ss i)) /\
      (exists P, oblique_shock g (mg i) (sm i) (dm i) P) /\ (exists P, oblique_shock g (mg i) (ss i) (ds i) P /\ sonic_behind g (mg i) (ss i) (ds i) P) /\
      (forall s, asin (1 / mg i) * (180 / PI) <= s < 90 -> s <> sm i -> exists th P, oblique_shock g (mg i) s th P /\ th < dm i) /\
      asin (1 / mg i) * (180 / PI) < ss i < sm i /\ sm i < 90 /\ 0 < ds i < dm i /\ dm i < asin (1 / g) * (180 / PI)).
Proof. exact lines_ok. Qed.
Print Assumptions C109_lines.

(** The curves of the notebook are those of the plotting module: for every Mach number, gamma and number of points, the polar of cell 4 is what plot_theta_sigma draws for 'right', and the two curves of cell 5 are what plot_theta_pressure draws for 'right' from the state (0, 1), and plot_isentropic draws for 'C+' on the range [0, 0.99 nu(M)] from the same state (see C79 and C80). *)
Theorem C109_library : forall newton M g n,
  plot_theta_sigma M g n "right" false false = polar_curve M g n :: nil /\
  exists shock isen,
   fst (compression_polars newton M g n) = shock :: isen :: nil /\
   plot_theta_pressure M g n (Some 0) (Some 1) "right" false false = shock :: nil /\
   plot_isentropic newton M (Some 0) (nmul (Some (99 / 100)) (PrandtlMeyer_Mach M g)) g n (Some 0) (Some 1) "C+" = isen :: nil.
Proof. exact library_curves. Qed.
Print Assumptions C109_library.

(** The axes of cell 4 (0 to 50 degrees of deviation, 0 to 90 of shock angle) hold all the polars: in air, for every supersonic Mach number and number of points, every finite point of the curve has a deviation in [0, 50) and a shock angle in (0, 90]; so do the points of the maximum deviation and sonic lines (C109_lines). *)
Theorem C109_window : forall M n i x y, 1 < M -> (0 < n)%nat ->
  nth_error (d_x (polar_curve (Some M) (Some (14 / 10)) n)) i = Some (Some x) -> nth_error (d_y (polar_curve (Some M) (Some (14 / 10)) n)) i = Some (Some y) ->
  0 <= x < 50 /\ 0 < y <= 90 /\ asin (1 / (14 / 10)) * (180 / PI) < 50.
Proof. exact window_ok. Qed.
Print Assumptions C109_window.

(** The dot at the end of each isentropic polar is labelled 'M=1' but only approaches the sonic state: for every gamma > 1, Mach number above 1 and number of points, with an exact root finder, it is drawn at 99 % of the deflection that makes the flow sonic, and whenever it has a pressure it is that of a state that is still supersonic (with one hundredth of the initial Prandtl-Meyer angle), strictly below the pressure of the sonic state. *)
Theorem C109_dot : forall newton g M n curves x y label, solves 0 newton -> 1 < g -> 1 < M -> (0 < n)%nat ->
  compression_polars newton (Some M) (Some g) n = (curves, (x, y, label)) ->
  label = "M=1"%string /\ exists nu : R, PrandtlMeyer_Mach (Some M) (Some g) = Some nu /\ 0 < nu /\ x = Some (99 / 100 * nu) /\
  forall p, y = Some p -> exists m2 P P2 P1 : R, 1 < m2 /\ PrandtlMeyer_Mach (Some m2) (Some g) = Some (nu / 100) /\
    PtPs_Mach (Some M) (Some g) = Some P /\ PtPs_Mach (Some m2) (Some g) = Some P2 /\ PtPs_Mach (Some 1) (Some g) = Some P1 /\
    p = P / P2 /\ p < P / P1.
Proof. exact dot_refuted. Qed.
Print Assumptions C109_dot.

(** The verification printed by the notebook: at normal Mach number 2 in air the pressure ratio is exactly 4.5, and the relative error printed is 0; for any reference value other than 0 the error printed is 100 times the relative difference to the reference, and is 0 exactly when the reference is the pressure ratio. *)
Theorem C109_check : ps_check (Some 2) (Some (45 / 10)) (Some (14 / 10)) = Some 0 /\
  forall g n ref, 1 < g -> ref <> 0 -> (ps_check (Some n) (Some ref) (Some g) = Some 0 <-> Ps_ratio (Some n) (Some g) = Some ref) /\
    exists p, Ps_ratio (Some n) (Some g) = Some p /\ ps_check (Some n) (Some ref) (Some g) = Some (100 * ((p - ref) / ref)).
Proof. exact check_ok. Qed.
Print Assumptions C109_check.

(** the hypotheses are met: the two-interval grid from Mach 3/2 to 3 has its middle value strictly between, an exact root finder exists for which the dot of the polar of Mach 3 has a pressure. *)
Example C109_example : flin_m (Some (3 / 2)) = Some (- (1 / 6)) /\ flin_m (Some 3) = Some (1 / 14) /\
  mach_grid (Some (3 / 2)) (Some 3) 2 = Some (3 / 2) :: Some (33 / 18) :: Some 3 :: nil /\
  exists newton : solver, solves 0 newton /\ exists p, snd (fst (snd (compression_polars newton (Some 3) (Some (14 / 10)) 1))) = Some p.
Proof. exact polar_nb_ex. Qed.
