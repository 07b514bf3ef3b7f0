(** Property theorems of L_Oblique2.v. Generated by tools/gen.py; statements only, proofs are in L_Oblique2.v. *)
From Verif Require Import L_Num Spec NumSpec M_Isentropic M_Degree M_ShockWave L_Isentropic L_Degree L_Shock L_Oblique.
From Verif Require Import L_Oblique2.
Open Scope R_scope.

(** For every M > 1 and pressure ratio P of a shock weaker than the normal shock, there is a shock angle sigma with Ps_ratio(M sin sigma) = P whose deflection is deflection_Mach_ShockPsratio(M,P), and the Mach number returned by downstreamMach_Mach_ShockPsratio conserves total temperature and has the shock's downstream normal component. *)
Theorem C16_shock_of_pressure_ratio : forall g M P Pmax, 1 < g -> 1 < M ->
  Ps_ratio (Some M) (Some g) = Some Pmax -> 1 <= P < Pmax ->
  exists sigma mn th M1 T t0 t1 mn1, 0 < sigma < 90 /\
    mn = M * sin (sigma * (PI / 180)) /\ Ps_ratio (Some mn) (Some g) = Some P /\
    deflection_Mach_ShockPsratio (Some M) (Some P) (Some g) = Some th /\
    deflection_Mach_sigma (Some M) (Some sigma) (Some g) = Some th /\
    downstreamMach_Mach_ShockPsratio (Some M) (Some P) (Some g) = Some M1 /\ 0 < M1 /\
    Ts_ratio (Some mn) (Some g) = Some T /\ TtTs_Mach (Some M) (Some g) = Some t0 /\
    TtTs_Mach (Some M1) (Some g) = Some t1 /\ t0 = T * t1 /\
    downstream_Mn (Some mn) (Some g) = Some mn1 /\ mn1 = M1 * sin ((sigma - th) * (PI / 180)).
Proof. exact shock_of_Psratio. Qed.
Print Assumptions C16_shock_of_pressure_ratio.

(** M = 3, gamma = 1.4, P = 4.5 (the shock of normal Mach 2) meets the hypotheses *)
Example C16_example : exists Pmax, Ps_ratio (Some 3) dgamma = Some Pmax /\ 1 <= 9/2 < Pmax.
Proof. exact C16_example_lemma. Qed.

(** For every M > 1, sigma_Sonic(M) is a shock angle between the Mach angle and 90 degrees; dev_Sonic is its deflection; and the downstream Mach number, computed either from the normal component downstream_Mn(M sin sigma)/sin(sigma - deflection) or by downstreamMach_Mach_ShockPsratio, is exactly 1. *)
Theorem C18_sonic : forall g M, 1 < g -> 1 < M ->
  exists sigma th mn P mn1, sigma_Sonic (Some M) (Some g) = Some sigma /\ 0 < sigma < 90 /\
    mn = M * sin (sigma * (PI / 180)) /\ 1 < mn /\
    dev_Sonic (Some M) (Some g) = Some th /\
    deflection_Mach_sigma (Some M) (Some sigma) (Some g) = Some th /\
    downstream_Mn (Some mn) (Some g) = Some mn1 /\ mn1 = 1 * sin ((sigma - th) * (PI / 180)) /\
    Ps_ratio (Some mn) (Some g) = Some P /\
    downstreamMach_Mach_ShockPsratio (Some M) (Some P) (Some g) = Some 1.
Proof. exact sonic_shock. Qed.
Print Assumptions C18_sonic.

(** For every M > 1, sigma_DevMax(M) is a shock angle between the Mach angle and 90 degrees, dev_Max is its deflection, and every other shock angle between the Mach angle and 90 degrees deflects strictly less. *)
Theorem C19_maximum : forall g M, 1 < g -> 1 < M ->
  exists sm dm mu, sigma_DevMax (Some M) (Some g) = Some sm /\ dasin (ndiv (Some 1) (Some M)) = Some mu /\
    mu < sm < 90 /\ dev_Max (Some M) (Some g) = Some dm /\
    deflection_Mach_sigma (Some M) (Some sm) (Some g) = Some dm /\
    forall sigma, mu <= sigma < 90 -> sigma <> sm ->
      exists th, deflection_Mach_sigma (Some M) (Some sigma) (Some g) = Some th /\ th < dm.
Proof. exact max_deflection. Qed.
Print Assumptions C19_maximum.

(** gamma = 16/9, M = sqrt 3: the sonic shock angle is 60 degrees. *)
Example C18_example : sigma_Sonic (Some (sqrt 3)) (Some (16/9)) = Some 60 /\ 1 < sqrt 3 /\ 1 < 16/9.
Proof. exact C18_example_lemma. Qed.

(** gamma = 3, M = 2: the shock angle of largest deflection is 60 degrees. *)
Example C19_example : sigma_DevMax (Some 2) (Some 3) = Some 60 /\ 1 < 2 /\ 1 < 3.
Proof. exact C19_example_lemma. Qed.
