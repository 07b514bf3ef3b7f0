(** Property theorems of L_Thermo.v. Generated by tools/gen.py; statements only, proofs are in L_Thermo.v. *)
From Verif Require Import Num L_Num M_Thermo.
From Coquelicot Require Import Coquelicot.
From Verif Require Import L_Thermo.
Open Scope R_scope.

(** ThermoKerosen, for every temperature T > 0: Enthalpy and Phi are defined and differentiable and satisfy dh = T ds exactly, where s = r ln(10) Phi is the entropy function (so an isentropic evolution computed with Phi and the work computed with Enthalpy are consistent), and Pc_eff + Enthalpy is the same constant at all temperatures. *)
Theorem C63_kerosen_gibbs : exists h phi : R -> R, computes ke_Enthalpy h /\ computes ke_Phi phi /\
  (forall T, 0 < T -> exists h' phi' : R, is_derive h T h' /\ is_derive phi T phi' /\ h' = T * (r_ref * ln 10 * phi')) /\
  (exists q, computes (fun T => nadd (ke_Pc_eff T) (ke_Enthalpy T)) (fun _ => q)).
Proof. exact kerosen_gibbs. Qed.
Print Assumptions C63_kerosen_gibbs.

(** ThermoKerosen: the derivative of Enthalpy is Cp to the rounding of the printed coefficients: it differs from Cp by 4e-12 r T^2, less than 5e-3 J/(kg K) up to 2000 K. PARTIAL: it is not exactly Cp at any temperature, see C63_kerosen_cp_refuted. *)
Theorem C63_kerosen_cp_partial : exists h c : R -> R, computes ke_Enthalpy h /\ computes ke_Cp c /\
  forall T, 0 < T -> is_derive h T (c T + r_ref * (4 / 1000000000000) * T ^ 2) /\ (T <= 2000 -> 0 < r_ref * (4 / 1000000000000) * T ^ 2 < 5 / 1000).
Proof. exact kerosen_cp. Qed.
Print Assumptions C63_kerosen_cp_partial.

(** ThermoKerosen.Cp is not the derivative of Enthalpy, and Phi is not the entropy function of Cp, at any temperature T > 0: the quadratic coefficients 1.8373e-6 and 3 x 6.12432e-7 = 2 x 9.18648e-7 = 1.837296e-6 differ. *)
Theorem C63_kerosen_cp_refuted : forall h c phi : R -> R, computes ke_Enthalpy h -> computes ke_Cp c -> computes ke_Phi phi ->
  forall T, 0 < T -> ~ is_derive h T (c T) /\ ~ is_derive phi T (c T / (r_ref * T * ln 10)).
Proof. exact kerosen_cp_refuted. Qed.
Print Assumptions C63_kerosen_cp_refuted.

(** ThermoRealGas, for every temperature T > 0: Cp, Gamma and Phi are defined; Gamma = Cp / (Cp - r) with 1 < Gamma < 1.402; and the derivative of Phi is Cp / (r T ln 10), that is Phi is exactly the entropy function of Cp. *)
Theorem C63_realgas : exists c g phi : R -> R, computes rg_Cp c /\ computes rg_Gamma g /\ computes rg_Phi phi /\
  forall T, 0 < T -> g T = c T / (c T - r_ref) /\ 1 < g T < 1402 / 1000 /\ is_derive phi T (c T / (r_ref * T * ln 10)).
Proof. exact realgas. Qed.
Print Assumptions C63_realgas.

(** ThermoRealGas: the derivative of Enthalpy is Cp to the rounding of the printed coefficients: it differs from Cp by 1e-12 r T^2, less than 3e-3 J/(kg K) up to 3000 K. PARTIAL: it is not exactly Cp at any temperature, see C63_realgas_enthalpy_refuted. *)
Theorem C63_realgas_enthalpy_partial : exists h c : R -> R, computes rg_Enthalpy h /\ computes rg_Cp c /\
  forall T, 0 < T -> is_derive h T (c T + r_ref * (1 / 1000000000000) * T ^ 2) /\ (T <= 3000 -> 0 < r_ref * (1 / 1000000000000) * T ^ 2 < 3 / 1000).
Proof. exact realgas_enthalpy. Qed.
Print Assumptions C63_realgas_enthalpy_partial.

(** ThermoRealGas.Cp is not the derivative of Enthalpy at any temperature T > 0: the cubic coefficient 7.467e-9 is not a third of 2.240e-8. *)
Theorem C63_realgas_enthalpy_refuted : forall h c : R -> R, computes rg_Enthalpy h -> computes rg_Cp c -> forall T, 0 < T -> ~ is_derive h T (c T).
Proof. exact realgas_enthalpy_refuted. Qed.
Print Assumptions C63_realgas_enthalpy_refuted.

(** ThermoKerosen.Enthalpy and ThermoKerosen.Phi are strictly increasing for temperatures in (0, 4850 K]: no two temperatures of that range have the same enthalpy, or the same entropy function. *)
Theorem C77_kerosen_monotone : forall T1 T2, 0 < T1 < T2 -> T2 <= 4850 -> exists h1 h2 p1 p2,
  ke_Enthalpy (Some T1) = Some h1 /\ ke_Enthalpy (Some T2) = Some h2 /\ ke_Phi (Some T1) = Some p1 /\ ke_Phi (Some T2) = Some p2 /\ h1 < h2 /\ p1 < p2.
Proof. exact kerosen_monotone. Qed.
Print Assumptions C77_kerosen_monotone.

(** ThermoRealGas.Enthalpy and ThermoRealGas.Phi are strictly increasing on all temperatures T > 0, so temperature is determined by either. *)
Theorem C77_realgas_monotone : forall T1 T2, 0 < T1 < T2 -> exists h1 h2 p1 p2,
  rg_Enthalpy (Some T1) = Some h1 /\ rg_Enthalpy (Some T2) = Some h2 /\ rg_Phi (Some T1) = Some p1 /\ rg_Phi (Some T2) = Some p2 /\ h1 < h2 /\ p1 < p2.
Proof. exact realgas_monotone. Qed.
Print Assumptions C77_realgas_monotone.

(** Example: 300 K and 1500 K are in the range of both statements. *)
Example C77_example : 0 < 300 < 1500 /\ 1500 <= 4850.
Proof. exact monotone_example. Qed.

(** the fits at 1000 K: Cp = 287.04 (4.47659 + 8.01994 - 1.8373), Enthalpy = 287.04 (-149.054 + 4476.59 + 4009.97 - 612.432). *)
Example C63_example : ke_Cp (Some 1000) = Some (28704/100 * (1065923/100000)) /\
  ke_Enthalpy (Some 1000) = Some (28704/100 * (7725074/1000)) /\ 0 < 1000 <= 2000.
Proof. exact C63_example_lemma. Qed.
