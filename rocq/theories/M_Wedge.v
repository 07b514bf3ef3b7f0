(** * Model of the wedge flows of notebooks/aero/Shock-21-reflexion.ipynb, Shock-21-reflexion-widget.ipynb and
    Shock-22-shock-expansion.ipynb (code cells counted from 0, without markdown cells) *)
From Verif Require Import Num M_Isentropic M_MassFlow M_Degree M_IterSolve M_ShockWave M_Supersonic.
Import ListNotations.
Open Scope num_scope.

(** what a shock cell computes: the shock angle, the static pressure ratio and the Mach number behind *)
Record shocked := mk_shocked { w_sig : num; w_p : num; w_M : num }.

(** Shock-21-reflexion.ipynb code cells 3 and 4, the widget's plot_all (code cell 2, lines 8-17) and Shock-22 code cells 3
    and 6: the same five lines
      sig = sw.sigma_Mach_deflection(M, wdev) ; Mn = M*deg.sin(sig) ; p = sw.Ps_ratio(Mn) ; Mn' = sw.downstream_Mn(Mn) ;
      M' = Mn'/deg.sin(sig-wdev)
    [gamma] is the default gas's, set by the notebook's first lines. Printing is not modelled. *)
Definition shock_cell (M wdev gamma : num) : shocked :=
  let sig := sigma_Mach_deflection M wdev None gamma in
  let Mn0 := M * dsin sig in
  let p := Ps_ratio Mn0 gamma in
  let Mn1 := downstream_Mn Mn0 gamma in
  mk_shocked sig p (Mn1 / dsin (sig - wdev)).

(** Shock-21-reflexion.ipynb code cells 3-5, widget code cell 2: two shocks of the same deflection, the pressure behind both
    [p2p0 = p2p1*p1p0], and the abscissae of the drawn shocks; [yend] is .75 in the first notebook, .8 in the second. *)
Record reflexion := mk_reflexion { rf_1 : shocked; rf_2 : shocked; rf_p2p0 : num; rf_xup : num; rf_xbot : num }.
Definition reflexion_cells (M0 wdev yend gamma : num) : reflexion :=
  let r1 := shock_cell M0 wdev gamma in
  let r2 := shock_cell (w_M r1) wdev gamma in
  let xup := #1 / dtan (w_sig r1) in
  mk_reflexion r1 r2 (w_p r2 * w_p r1) xup (xup + (#1 - yend) / dtan (w_sig r2 - wdev)).

(** Shock-22-shock-expansion.ipynb code cells 3, 5 and 6: shock of deflection [wang1], expansion to the angle [wang2], shock
    back to the direction 0. [newton] is scipy's, as in M_Supersonic. *)
Record shock_expansion := mk_shex { sx_1 : shocked; sx_om2 : num; sx_M2 : num; sx_p2p0 : num; sx_3 : shocked; sx_p3p0 : num }.
Definition shock_expansion_cells (newton : solver) (M0 wang1 wang2 gamma : num) : shock_expansion :=
  let r1 := shock_cell M0 wang1 gamma in
  let wdev := wang2 - wang1 in
  let om1 := PrandtlMeyer_Mach (w_M r1) gamma in
  let om2 := om1 - wdev in
  let M2 := Mach_PrandtlMeyer newton om2 gamma in
  let p2p0 := w_p r1 * IsentropicPsratio_Mach_deflection newton (w_M r1) wdev gamma in
  let r3 := shock_cell M2 (#0 - wang2) gamma in
  mk_shex r1 om2 M2 p2p0 r3 (p2p0 * w_p r3).

(** Shock-22 code cell 1, plot_geom: the corners of the drawn wall (its 3rd and 4th points); code cell 7: the foot of the
    tail shock. [length] is 1 in the calls. *)
Definition wall_corners (length wang1 wang2 : num) : list (num * num) :=
  let h := length * dtan wang1 in
  [(#0, #0); (length, h); (length - h / dtan wang2, #0)].
Definition tail_foot (wang1 wang2 : num) : num := #1 - dtan wang1 / dtan wang2.
(** code cells 5 and 7: end points of the first and last drawn Mach lines of the expansion, [dx] to the right of the corner *)
Definition fan_line (wang M dx : num) (corner : num * num) : num * num :=
  (fst corner + dx, snd corner + dx * dtan (wang + dasin (#1 / M))).
