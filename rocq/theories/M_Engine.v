(** * Model of aerokit/engine/gasgenerator.py, turbojet.py and turbofan.py *)
From Coq Require Import String.
From Verif Require Import Num M_Isentropic M_Obj.
Open Scope string_scope.
Open Scope list_scope.
Open Scope obj_scope.

(** constructor arguments; the Python defaults (defg._gamma, defg._r, 1., 42.8e6) are [gg_default] *)
Record gg_args := { a_OPR : num; a_Tt4 : num; a_gam_cold : num; a_gam_hot : num; a_r_cold : num; a_r_hot : num;
  a_xi_inlet : num; a_xi_nozzle : num; a_xi_cc : num; a_eta_cc : num; a_Pci : num;
  a_etapolCHP : num; a_etapolTHP : num; a_eta_shaft : num }.
(** gasgenerator.py:48-50, turbojet.py:49-51 *)
Definition gg_default (OPR Tt4 : num) : gg_args :=
  {| a_OPR := OPR; a_Tt4 := Tt4; a_gam_cold := dgamma; a_gam_hot := dgamma; a_r_cold := dr; a_r_hot := dr;
     a_xi_inlet := Some 1%R; a_xi_nozzle := Some 1%R; a_xi_cc := Some 1%R; a_eta_cc := Some 1%R; a_Pci := Some 42800000%R;
     a_etapolCHP := Some 1%R; a_etapolTHP := Some 1%R; a_eta_shaft := Some 1%R |}.
(** gasgenerator.py:51-62; eta_cc is accepted and not stored, xi_nozzle is not an argument of this class *)
Definition gg_init_body (p : gg_args) : prog :=
  [("OPR", L (a_OPR p)); ("Tt4", L (a_Tt4 p)); ("Pci", L (a_Pci p)); ("gam_cold", L (a_gam_cold p)); ("gam_hot", L (a_gam_hot p));
   ("r_cold", L (a_r_cold p)); ("r_hot", L (a_r_hot p)); ("xi_cc", L (a_xi_cc p)); ("xi_inlet", L (a_xi_inlet p));
   ("etapolCHP", L (a_etapolCHP p)); ("etapolTHP", L (a_etapolTHP p)); ("eta_shaft", L (a_eta_shaft p))].
(** turbojet.py:52-55 *)
Definition tj_init_body (p : gg_args) : prog := gg_init_body p ++ [("xi_nozzle", L (a_xi_nozzle p))].
(** turbofan.py:50-59: xi_nozzle is not forwarded to the turbojet constructor, whose default is 1. *)
Record tf_args := { a_core : gg_args; a_bpr : num; a_fanpower_ratio : num; a_etapolTBP : num; a_etapolfan : num }.
Definition with_xi_nozzle (p : gg_args) (x : num) : gg_args :=
  {| a_OPR := a_OPR p; a_Tt4 := a_Tt4 p; a_gam_cold := a_gam_cold p; a_gam_hot := a_gam_hot p; a_r_cold := a_r_cold p; a_r_hot := a_r_hot p;
     a_xi_inlet := a_xi_inlet p; a_xi_nozzle := x; a_xi_cc := a_xi_cc p; a_eta_cc := a_eta_cc p; a_Pci := a_Pci p;
     a_etapolCHP := a_etapolCHP p; a_etapolTHP := a_etapolTHP p; a_eta_shaft := a_eta_shaft p |}.
Definition tf_init_body (p : tf_args) : prog :=
  tj_init_body (with_xi_nozzle (a_core p) (Some 1%R)) ++
  [("bpr", L (a_bpr p)); ("etapolfan", L (a_etapolfan p)); ("etapolTBP", L (a_etapolTBP p)); ("fanpower_ratio", L (a_fanpower_ratio p))].

(** gasgenerator.py:64-67 *)
Definition flight_conditions (T0 P0 M0 : num) : prog := [("T0", L T0); ("P0", L P0); ("M0", L M0)].

Definition one : expr := L (Some 1%R).
Definition cp_cold : expr := V "gam_cold" * V "r_cold" / (V "gam_cold" - one).
Definition cp_hot : expr := V "gam_hot" * V "r_hot" / (V "gam_hot" - one).

(** gasgenerator.py:69-86 *)
Definition gg_update : prog :=
  let gc := V "gam_cold" in
  let cpc := cp_cold in
  let gh := V "gam_hot" in
  let cph := cp_hot in
  [ ("Tt0", V "T0" * F2 TtTs_Mach (V "M0") (V "gam_cold"));
    ("Pt0", V "P0" * F2 PtPs_Mach (V "M0") (V "gam_cold"));
    ("V0", V "M0" * F1 nsqrt (gc * V "r_cold" * V "T0"));
    ("Pt2", V "Pt0" * V "xi_inlet");
    ("Tt2", V "Tt0");
    ("Pt3", V "Pt2" * V "OPR");
    ("Tt3", V "Tt2" * V "OPR" ** ((gc - one) / (gc * V "etapolCHP")));
    ("Pt4", V "Pt3" * V "xi_cc");
    ("far", (cph * V "Tt4" - cpc * V "Tt3") / (V "xi_cc" * V "Pci" - cph * V "Tt4"));
    ("Tt45", V "Tt4" - cpc * (V "Tt3" - V "Tt2") / (V "eta_shaft" * cph * (one + V "far")));
    ("Pt45", V "Pt4" * (V "Tt45" / V "Tt4") ** (gh / ((gh - one) * V "etapolTHP"))) ].
(** gasgenerator.py:88-89 *)
Definition Wsp_cc : expr := V "far" * V "Pci".
(** gasgenerator.py:91-94; the argument P19 defaults to self.P0 *)
Definition Wsp_TBP_ideal (P19 : expr) : expr :=
  let gogm1 := V "gam_hot" / (V "gam_hot" - one) in
  (one + V "far") * gogm1 * V "r_hot" / (V "gam_hot" - one) * V "Tt45" * ((P19 / V "Pt45") ** (one / gogm1) - one).
(** gasgenerator.py:96-97 *)
Definition gg_thermal_efficiency : expr := Wsp_TBP_ideal (V "P0") / Wsp_cc.

(** turbojet.py:59-65 *)
Definition tj_update : prog :=
  gg_update ++
  [ ("Pt9", F2 nmax (V "Pt45" * V "xi_nozzle") (V "P0"));
    ("M9", F2 Mach_PtPs (V "Pt9" / V "P0") (V "gam_hot"));
    ("V9", F4 Velocity_MachTi (V "M9") (V "Tt45") (V "r_hot") (V "gam_hot")) ].
(** turbojet.py:67-68, 70-71, 73-74 *)
Definition tj_Wsp_kinEn : expr := L (Some (1 / 2)%R) * ((one + V "far") * V "V9" ^ 2 - V "V0" ^ 2).
Definition tj_norm_thrust : expr := (one + V "far") * V "V9" - V "V0".
Definition tj_spec_thrust : expr := tj_norm_thrust.
(** turbojet.py:76-86; self.Wsp_kinEn() and self.norm_thrust() are those of the object's class *)
Definition thermal_efficiency (Wsp_kinEn : expr) : expr := Wsp_kinEn / Wsp_cc.
Definition propulsive_efficiency (Wsp_kinEn norm_thrust : expr) : expr := norm_thrust * V "V0" / Wsp_kinEn.
Definition thermoprop_efficiency (norm_thrust : expr) : expr := norm_thrust * V "V0" / Wsp_cc.
Definition Sfc (norm_thrust : expr) : expr := V "far" / norm_thrust.

(** turbofan.py:65 *)
Definition Wsp_mono : expr :=
  let gh := V "gam_hot" in
  (one - (V "Pt45" / V "P0" * V "xi_nozzle") ** (- (gh - one) * V "etapolTBP" / gh)) * V "Tt45" * cp_hot * (one + V "far").
(** turbofan.py:61-82 *)
Definition tf_update : prog :=
  let gh := V "gam_hot" in
  let gc := V "gam_cold" in
  tj_update ++
  [ ("Tt5", V "Tt45" - Wsp_mono * V "fanpower_ratio" / cp_hot / (one + V "far"));
    ("Pt5", V "Pt45" * (V "Tt5" / V "Tt45") ** (gh / ((gh - one) * V "etapolTBP")));
    ("Pt9", V "Pt5" * V "xi_nozzle");
    ("M9", F2 Mach_PtPs (V "Pt9" / V "P0") (V "gam_hot"));
    ("V9", F4 Velocity_MachTi (V "M9") (V "Tt5") (V "r_hot") (V "gam_hot"));
    ("Tt17", V "Tt2" + V "eta_shaft" * Wsp_mono * V "fanpower_ratio" / (V "bpr" * cp_cold));
    ("Pt17", V "Pt2" * (V "Tt17" / V "Tt2") ** ((gc * V "etapolfan") / (gc - one)));
    ("Tt19", V "Tt17");
    ("Pt19", V "Pt17" * V "xi_nozzle");
    ("M19", F2 Mach_PtPs (V "Pt19" / V "P0") gc);
    ("V19", F4 Velocity_MachTi (V "M19") (V "Tt19") (V "r_cold") gc) ].
(** turbofan.py:84-85, 87-88, 90-91 *)
Definition tf_Wsp_kinEn : expr :=
  L (Some (1 / 2)%R) * ((one + V "far") * V "V9" ^ 2 - V "V0" ^ 2 + V "bpr" * (V "V19" ^ 2 - V "V0" ^ 2)).
Definition tf_norm_thrust : expr := (one + V "far") * V "V9" - V "V0" + V "bpr" * (V "V19" - V "V0").
Definition tf_spec_thrust : expr := tf_norm_thrust / (one + V "bpr").
