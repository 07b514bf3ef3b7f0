(** * Gas turbine cycles: what the stations of an engine must satisfy (textbook relations) *)
From Coq Require Import String.
From Verif Require Import Num M_Obj.
Open Scope R_scope.

Definition cp_of (g r : R) : R := g * r / (g - 1).
(** total to static ratios at Mach number m *)
Definition temp_ratio (g m : R) : R := 1 + (g - 1) / 2 * m ^ 2.
Definition pres_ratio (g m : R) : R := Rpower (temp_ratio g m) (g / (g - 1)).
(** polytropic compression, efficiency e <= 1 raises the temperature *)
Definition compression (g e p1 t1 p2 t2 : R) : Prop := t2 / t1 = Rpower (p2 / p1) ((g - 1) / (g * e)).
(** polytropic expansion, efficiency e *)
Definition expansion (g e p1 t1 p2 t2 : R) : Prop := t2 / t1 = Rpower (p2 / p1) ((g - 1) * e / g).
(** burning [far] kg of fuel of heating value [pci] in 1 kg of air with efficiency [eta] *)
Definition burner (cpc cph eta pci far t3 t4 : R) : Prop := (1 + far) * cph * t4 - cpc * t3 = eta * far * pci.
(** adapted nozzle: isentropic expansion from (pt, tt) down to p0 *)
Definition nozzle (g r pt tt p0 m v : R) : Prop :=
  0 <= m /\ pt / p0 = pres_ratio g m /\ v ^ 2 = 2 * cp_of g r * (tt - tt / temp_ratio g m) /\ 0 <= v.

(** attribute [a] of the object holds the finite number [x] *)
Definition has (o : obj) (a : string) (x : R) : Prop := o a = Some (Some x).

(** parameters and flight conditions of a gas generator, in the operating range *)
Record gas_generator := { OPR : R; Tt4 : R; gc : R; gh : R; rc : R; rh : R; xi_inlet : R; xi_cc : R; Pci : R;
  eC : R; eT : R; eS : R; T0 : R; P0 : R; M0 : R }.
Definition cpc (e : gas_generator) : R := cp_of (gc e) (rc e).
Definition cph (e : gas_generator) : R := cp_of (gh e) (rh e).
Definition in_range (e : gas_generator) : Prop :=
  0 < OPR e /\ 0 < Tt4 e /\ 1 < gc e /\ 1 < gh e /\ 0 < rc e /\ 0 < rh e /\ 0 < xi_inlet e /\ 0 < xi_cc e /\
  0 < eC e /\ 0 < eT e /\ 0 < eS e /\ 0 < T0 e /\ 0 < P0 e /\ 0 <= M0 e /\ cph e * Tt4 e < xi_cc e * Pci e.
Definition described (o : obj) (e : gas_generator) : Prop :=
  has o "OPR" (OPR e) /\ has o "Tt4" (Tt4 e) /\ has o "gam_cold" (gc e) /\ has o "gam_hot" (gh e) /\ has o "r_cold" (rc e) /\
  has o "r_hot" (rh e) /\ has o "xi_inlet" (xi_inlet e) /\ has o "xi_cc" (xi_cc e) /\ has o "Pci" (Pci e) /\
  has o "etapolCHP" (eC e) /\ has o "etapolTHP" (eT e) /\ has o "eta_shaft" (eS e) /\
  has o "T0" (T0 e) /\ has o "P0" (P0 e) /\ has o "M0" (M0 e).

(** the stations *)
Record stations := { Tt0 : R; Pt0 : R; V0 : R; Tt2 : R; Pt2 : R; Tt3 : R; Pt3 : R; Pt4 : R; far : R; Tt45 : R; Pt45 : R }.
(** the power delivered by the high pressure turbine drives the compressor *)
Definition shaft_balance (e : gas_generator) (s : stations) : Prop :=
  eS e * ((1 + far s) * cph e * (Tt4 e - Tt45 s)) = cpc e * (Tt3 s - Tt2 s).
Definition shows (o : obj) (s : stations) : Prop :=
  has o "Tt0" (Tt0 s) /\ has o "Pt0" (Pt0 s) /\ has o "V0" (V0 s) /\ has o "Tt2" (Tt2 s) /\ has o "Pt2" (Pt2 s) /\
  has o "Tt3" (Tt3 s) /\ has o "Pt3" (Pt3 s) /\ has o "Pt4" (Pt4 s) /\ has o "far" (far s) /\ has o "Tt45" (Tt45 s) /\ has o "Pt45" (Pt45 s).
(** everything but the combustion efficiency *)
Definition cycle (e : gas_generator) (s : stations) : Prop :=
  Tt0 s = T0 e * temp_ratio (gc e) (M0 e) /\ Pt0 s = P0 e * pres_ratio (gc e) (M0 e) /\
  V0 s = M0 e * sqrt (gc e * rc e * T0 e) /\
  Tt2 s = Tt0 s /\ Pt2 s = xi_inlet e * Pt0 s /\
  Pt3 s = OPR e * Pt2 s /\ compression (gc e) (eC e) (Pt2 s) (Tt2 s) (Pt3 s) (Tt3 s) /\
  Pt4 s = xi_cc e * Pt3 s /\
  shaft_balance e s /\
  expansion (gh e) (eT e) (Pt4 s) (Tt4 e) (Pt45 s) (Tt45 s).
(** conditions for the turbine to deliver the power: the air leaving the compressor is colder than
    the fully burnt gas, and the demanded work leaves a positive temperature *)
Definition compressor_exit (e : gas_generator) : R :=
  T0 e * temp_ratio (gc e) (M0 e) * Rpower (OPR e) ((gc e - 1) / (gc e * eC e)).
Definition inlet_temp (e : gas_generator) : R := T0 e * temp_ratio (gc e) (M0 e).
Definition feasible (e : gas_generator) (eta : R) : Prop :=
  cpc e * compressor_exit e < eta * Pci e /\
  cpc e * (compressor_exit e - inlet_temp e) <
    eS e * (cph e * (eta * Pci e - cpc e * compressor_exit e) / (eta * Pci e - cph e * Tt4 e)) * Tt4 e.
