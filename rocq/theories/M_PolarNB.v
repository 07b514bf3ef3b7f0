(** * Model of notebooks/Shock-00-polar.ipynb (cells 2, 4 and 5)
    What is drawn: curves (abscissas and ordinates), markers and text labels; colours, styles and axis
    decorations other than the limits of the axes are not modelled. The root finder of cell 3 is in M_Coflow.v
    (same source). gam = 1.4 is a parameter here (cell 4 sets it). *)
From Coq Require Import String.
From Verif Require Import Num M_Isentropic M_MassFlow M_Degree M_ShockWave M_Supersonic M_Polar.
Open Scope num_scope.

(** Shock-00-polar.ipynb, cell 2: the relative error printed, in percent *)
Definition ps_check (Mnx ref gamma : num) : num := (Ps_ratio Mnx gamma - ref) / ref * #100.

(** cell 4: flin_m, finv_x, and the Mach numbers of the two lines (npoints + 1 values) *)
Definition flin_m (m : num) : num := (#1 * m - #(21 / 10)) / (#6 * m - #(54 / 10)).
Definition finv_x (x : num) : num := (#(54 / 10) * x - #(21 / 10)) / (#6 * x - #1).
Definition mach_grid (mmin mmax : num) (npoints : nat) : list num :=
  map finv_x (linspace (flin_m mmin) (flin_m mmax) npoints).
(** cell 4: the body of the loop over macharray *)
Definition polar_curve (m gam : num) (npoints : nat) : drawn :=
  let sig := linspace (dasin (#1 / m)) #90 npoints in
  mk_drawn Line (map (fun s => deflection_Mach_sigma m s gam) sig) sig.
(** elementwise f(mach, sig, gam) on arrays of the same size *)
Definition map2 (f : num -> num -> num) (xs ys : list num) : list num := map (fun p => f (fst p) (snd p)) (combine xs ys).
(** cell 4: maximum deviation line, sonic line *)
Definition maxdev_line (mach : list num) (gam : num) : drawn :=
  let sig := map (fun m => sigma_DevMax m gam) mach in
  mk_drawn Line (map2 (fun m s => deflection_Mach_sigma m s gam) mach sig) sig.
Definition sonic_line (mach : list num) (gam : num) : drawn :=
  let sig := map (fun m => sigma_Sonic m gam) mach in
  mk_drawn Line (map2 (fun m s => deflection_Mach_sigma m s gam) mach sig) sig.

(** cell 5: one turn of the loop: the shock polar, the isentropic polar, and the red dot with its label, at the
    last point of the isentropic polar *)
Definition compression_polars (newton : solver) (m gam : num) (npoints : nat) : list drawn * (num * num * string) :=
  let sig := linspace (dasin (#1 / m)) #90 npoints in
  let dev := map (fun s => deflection_Mach_sigma m s gam) sig in
  let kpsw := map (fun s => Ps_ratio (m * dsin s) gam) sig in
  let rdev := linspace #0 (#(99 / 100) * PrandtlMeyer_Mach m gam) npoints in
  let kpis := map (fun d => IsentropicPsratio_Mach_deflection newton m d gam) rdev in
  ([mk_drawn Line dev kpsw; mk_drawn Line rdev kpis],
   (List.last rdev None, List.last kpis None, "M=1"%string)).
