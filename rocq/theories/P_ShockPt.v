(** Property theorems of L_ShockPt.v. Generated by tools/gen.py; statements only, proofs are in L_ShockPt.v. *)
From Verif Require Import L_Num Spec NumSpec M_Isentropic M_ShockWave M_IterSolve L_Isentropic L_Shock.
From Verif Require Import L_ShockPt.
Open Scope R_scope.

(** For gamma = 1.4 (the only gamma for which it holds, see C14_other_gamma_refuted), Pt_ratio is downstream over upstream total pressure computed with the library's own Ps_ratio, downstream_Mn and PtPs_Mach for that same gamma, and equals exp(-ds/r): the entropy jump. *)
Theorem C14_air_partial : forall M, 0 < M -> (14/10 - 1) / (2 * (14/10)) < M ^ 2 ->
  exists P Pr Rr m q1 q0, Pt_ratio (Some M) (Some (14/10)) = Some P /\
    Ps_ratio (Some M) (Some (14/10)) = Some Pr /\ Rho_ratio (Some M) (Some (14/10)) = Some Rr /\
    downstream_Mn (Some M) (Some (14/10)) = Some m /\
    PtPs_Mach (Some m) (Some (14/10)) = Some q1 /\ PtPs_Mach (Some M) (Some (14/10)) = Some q0 /\
    P = (Pr * q1) / q0 /\ ln P = - (ln Pr - 14/10 * ln Rr) / (14/10 - 1).
Proof. exact Pt_ratio_air. Qed.
Print Assumptions C14_air_partial.

(** For gamma = 1.4: Pt_ratio is 1 at Mn = 1, below 1 beyond, and strictly decreasing. *)
Theorem C14_air_monotone_partial :
  Pt_ratio (Some 1) (Some (14/10)) = Some 1 /\
  (forall M, 1 < M -> exists P, Pt_ratio (Some M) (Some (14/10)) = Some P /\ 0 < P < 1) /\
  decr_on (fun M => 1 <= M) (fun M => Pt_ratio M (Some (14/10))).
Proof. exact Pt_ratio_air_monotone. Qed.
Print Assumptions C14_air_monotone_partial.

(** The value the code asks for, for every gamma: what the total pressure ratio built from Ps_ratio, downstream_Mn and PtPs_Mach at the requested gamma would be is 1 at Mn=1 and below 1, decreasing, for Mn > 1 (so the specification is meaningful for every gamma). *)
Theorem C14_formula_any_gamma : forall g, 1 < g ->
  let spec M := ndiv (nmul (Ps_ratio M (Some g)) (PtPs_Mach (downstream_Mn M (Some g)) (Some g))) (PtPs_Mach M (Some g)) in
  spec (Some 1) = Some 1 /\ decr_on (fun M => 1 <= M) spec.
Proof. exact Pt_spec_any_gamma. Qed.
Print Assumptions C14_formula_any_gamma.

(** For every gamma > 1 other than 1.4 and every Mn >= 1, Pt_ratio is not the total pressure ratio of the gas with that gamma (the downstream Pt/Ps is computed with the default gamma): it is below it for gamma > 1.4 and above it for gamma < 1.4. In particular at Mn = 1 it is not 1. *)
Theorem C14_other_gamma_refuted : forall g M, 1 < g -> 1 <= M ->
  exists P Pr m q1 q0, Pt_ratio (Some M) (Some g) = Some P /\
    Ps_ratio (Some M) (Some g) = Some Pr /\ downstream_Mn (Some M) (Some g) = Some m /\
    PtPs_Mach (Some m) (Some g) = Some q1 /\ PtPs_Mach (Some M) (Some g) = Some q0 /\
    (14/10 < g -> P < Pr * q1 / q0) /\ (g < 14/10 -> Pr * q1 / q0 < P) /\
    (M = 1 -> Pr * q1 / q0 = 1).
Proof. exact Pt_ratio_refuted. Qed.
Print Assumptions C14_other_gamma_refuted.

(** gamma = 5/3 (argon) at Mn = 2 is a case of the refutation, and gamma = 1.4 at Mn = 2 a case of the positive part. *)
Example C14_example : (1 < 5/3 /\ 14/10 < 5/3 /\ 1 <= 2) /\ (14/10 - 1) / (2 * (14/10)) < 2 ^ 2 /\
  Ps_ratio (Some 2) (Some (14/10)) = Some (9/2) /\ exists P, Pt_ratio (Some 2) (Some (14/10)) = Some P /\ 0 < P < 1.
Proof. exact C14_example_lemma. Qed.

(** Mn_Pt_ratio returns 1 for every ratio above 1. *)
Theorem C14_Mn_Pt_ratio : forall P g, 1 < P -> Mn_Pt_ratio (Some P) (Some g) = Some 1.
Proof. exact Mn_Pt_ratio_above. Qed.
Print Assumptions C14_Mn_Pt_ratio.
