(** * Model of docs/examples/aero.ShockWave.ipynb (code cells counted from 0, without markdown cells)
    Cells 1-3 are those of the reflexion notebook (M_Wedge.v); cell 4 differs: it first compares the deflection with dev_Max. Drawing
    and printing are not modelled. *)
From Verif Require Import Num M_Isentropic M_MassFlow M_Degree M_IterSolve M_ShockWave M_Supersonic M_Wedge.
Open Scope num_scope.

(** code cell 4: devmax = sw.dev_Max(M1); if wdev > devmax: sig2 = sw.sigma_Sonic(M1) else: sig2 = sw.sigma_Mach_deflection(M1, wdev);
    a comparison with nan is False. The first component says whether "the reflexion will be irregular" is printed. *)
Definition doc_second (M1 wdev gamma : num) : bool * shocked :=
  let devmax := dev_Max M1 gamma in
  let irregular := match wdev >? devmax with Some true => true | _ => false end in
  let sig2 := if irregular then sigma_Sonic M1 gamma else sigma_Mach_deflection M1 wdev None gamma in
  let Mn1 := M1 * dsin sig2 in
  let p2p1 := Ps_ratio Mn1 gamma in
  let Mn2 := downstream_Mn Mn1 gamma in
  (irregular, mk_shocked sig2 p2p1 (Mn2 / dsin (sig2 - wdev))).
(** code cells 3 and 4 *)
Record doc_reflexion := mk_doc_reflexion { dr_1 : shocked; dr_irregular : bool; dr_2 : shocked; dr_p2p0 : num }.
Definition doc_reflexion_cells (M0 wdev gamma : num) : doc_reflexion :=
  let r1 := shock_cell M0 wdev gamma in
  let r2 := doc_second (w_M r1) wdev gamma in
  mk_doc_reflexion r1 (fst r2) (snd r2) (w_p (snd r2) * w_p r1).
