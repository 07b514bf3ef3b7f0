(** * Model of notebooks/Riemann-GuideVane.py (response of a choked guide vane)
    The gas is the default one everywhere (gam = 1.4 in the script, the defaults of the
    library elsewhere); [math.sqrt] raises where [nsqrt] is [None]. Printing is left out. *)
From Verif Require Import Num M_Isentropic M_Degree M_MassFlow M_Model1D M_Unsteady1D M_Riemann.
Open Scope num_scope.

(** Riemann-GuideVane.py:13 *)
Definition gv_gam : num := #(14/10).
(** Riemann-GuideVane.py:21-23 (alpha is line 21); [newton]: scipy.optimize.newton, see M_MassFlow.v *)
Definition gv_AoAc (alpha : num) : num := #1 / dcos alpha.
Definition gv_M0 (newton : solver) (alpha : num) : num :=
  Mach_Sigma newton (gv_AoAc alpha) #(2/10) dgamma.
(** Riemann-GuideVane.py:32-35 *)
Definition gv_Pt0 (p0c : num) : num := p0c * PtPs_Mach #1 dgamma.
Definition gv_p0 (M0 p0c : num) : num := gv_Pt0 p0c / PtPs_Mach M0 dgamma.
(** Riemann-GuideVane.py:37 *)
Definition gv_q0 (M0 p0c : num) : state :=
  state_init #1 (M0 * nsqrt (gv_gam * gv_p0 M0 p0c / #1)) (gv_p0 M0 p0c) None.
(** Riemann-GuideVane.py:51 *)
Definition gv_q1f (q0 : state) (r : num) : state :=
  state_init (st_rho q0 * r) (st_u q0) (st_p q0 * r) None.
(** Riemann-GuideVane.py:73-76 *)
Definition gv_M10 (q0 : state) (r : num) : num := Mach_PtPs (Ptot q0 * r / st_p q0) dgamma.
Definition gv_q10 (M0 : num) (q0 : state) (r : num) : state :=
  let M10 := gv_M10 q0 r in
  let p10 := Ptot q0 * r / PtPs_Mach M10 dgamma in
  let rho10 := p10 / (st_p q0 / st_rho q0 * TtTs_Mach M0 dgamma / TtTs_Mach M10 dgamma) in
  state_init rho10 (M10 * nsqrt (gv_gam * p10 / rho10)) p10 None.
(** Riemann-GuideVane.py:59 and 84: the two problems *)
Definition gv_pb1 (newton : solver) (M0 p0c r : num) : option riemann :=
  riemann_pb newton (gv_q1f (gv_q0 M0 p0c) r) (gv_q0 M0 p0c).
Definition gv_pb2 (newton : solver) (M0 p0c r : num) : option riemann :=
  riemann_pb newton (gv_q10 M0 (gv_q0 M0 p0c) r) (gv_q0 M0 p0c).
