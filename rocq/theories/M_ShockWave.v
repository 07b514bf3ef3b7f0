(** * Model of aerokit/aero/ShockWave.py (normal and plane oblique shocks; the conical
    part is in M_Conical.v) *)
From Verif Require Import Num M_Isentropic M_Degree M_IterSolve.
Open Scope num_scope.

(** ShockWave.py:16-27 *)
Definition Ps_ratio (Mn gamma : num) : num :=
  #1 + (#2 * gamma / (gamma + #1)) * (Mn ^ 2 - #1).

(** ShockWave.py:30-41 *)
Definition Mn_Ps_ratio (Pratio gamma : num) : num :=
  nsqrt (#1 + (Pratio - #1) * (gamma + #1) / (#2 * gamma)).

(** ShockWave.py:44-54 *)
Definition Rho_ratio (Mn gamma : num) : num :=
  ((gamma + #1) * Mn ^ 2) / (#2 + (gamma - #1) * Mn ^ 2).

(** ShockWave.py:57-67 *)
Definition Ts_ratio (Mn gamma : num) : num := Ps_ratio Mn gamma / Rho_ratio Mn gamma.

(** ShockWave.py:70-80 *)
Definition downstream_Mn (Mn gamma : num) : num :=
  nsqrt ((#1 + #(1/2) * (gamma - #1) * Mn ^ 2) / (gamma * Mn ^ 2 - #(1/2) * (gamma - #1))).

(** ShockWave.py:83-93; [Is.PtPs_Mach(downstream_Mn(Mn, gamma))] is called without gamma,
    hence with the default of PtPs_Mach. *)
Definition Pt_ratio (Mn gamma : num) : num :=
  Ps_ratio Mn gamma * PtPs_Mach (downstream_Mn Mn gamma) dgamma / PtPs_Mach Mn gamma.

(** ShockWave.py:96-121 *)
Definition Mn_Pt_ratio (ptratio gamma : num) : num :=
  nif (ptratio >? #1) #1 (secant_solve (fun m => Pt_ratio m gamma) ptratio #(3/2)).

(** ShockWave.py:127-140 *)
Definition deflection_Mach_sigma (Mach sigma gamma : num) : num :=
  let sigrad := nradians sigma in
  let Mn := Mach * nsin sigrad in
  sigma - ndegrees (narctan2 (ntan sigrad) (Rho_ratio Mn gamma)).

(** ShockWave.py:143-154 *)
Definition deflection_Mach_ShockPsratio (Mach Pratio gamma : num) : num :=
  deflection_Mach_sigma Mach (dasin (Mn_Ps_ratio Pratio gamma / Mach)) gamma.

(** ShockWave.py:157-172 *)
Definition downstreamMach_Mach_ShockPsratio (Mach Pratio gamma : num) : num :=
  let Mn0 := Mn_Ps_ratio Pratio gamma in
  let sig := dasin (Mn0 / Mach) in
  let dev := deflection_Mach_sigma Mach sig gamma in
  let Mn1 := downstream_Mn Mn0 gamma in
  Mn1 / dsin (sig - dev).

(** ShockWave.py:186-190 and 211-215: the five coefficients shared by the two closed
    forms; the code repeats the lines in both functions. *)
Definition sig_ka (Mach deflection gamma : num) : num :=
  (#1 + #(1/2) * (gamma + #1) * Mach ^ 2) * dtan deflection.
Definition sig_kb (Mach : num) : num := #1 - Mach ^ 2.
Definition sig_kc (Mach deflection gamma : num) : num :=
  (#1 + #(1/2) * (gamma - #1) * Mach ^ 2) * dtan deflection.
Definition sig_kd (ka kb : num) : num := (ka ^ 2 / #3 - kb) / #3.
Definition sig_ke (ka kb kc : num) : num := #2 * ka ^ 3 / #27 - ka * kb / #3 + kc.

(** ShockWave.py:175-197 *)
Definition weaksigma_Mach_deflection (Mach deflection gamma : num) : num :=
  let ka := sig_ka Mach deflection gamma in
  let kb := sig_kb Mach in
  let kc := sig_kc Mach deflection gamma in
  let kd := sig_kd ka kb in
  let ke := sig_ke ka kb kc in
  nif (ke ^ 2 - #4 * kd ^ 3 >? #0)
    (dasin (#1 / Mach))
    (let phi := narccos (#(-1/2) * ke / nsqrt (kd ^ 3)) in
     let kf := #2 * nsqrt kd * ncos (phi / #3) - ka / #3 in
     datan (#1 / kf)).

(** ShockWave.py:200-222 *)
Definition strongsigma_Mach_deflection (Mach deflection gamma : num) : num :=
  let ka := sig_ka Mach deflection gamma in
  let kb := sig_kb Mach in
  let kc := sig_kc Mach deflection gamma in
  let kd := sig_kd ka kb in
  let ke := sig_ke ka kb kc in
  nif (ke ^ 2 - #4 * kd ^ 3 >? #0)
    #90
    (let phi := narccos (#(-1/2) * ke / nsqrt (kd ^ 3)) + #4 * npi in
     let kf := #2 * nsqrt kd * ncos (phi / #3) - ka / #3 in
     datan (#1 / kf)).

(** ShockWave.py:225-253; [init = None] is the Python default. *)
Definition sigma_Mach_deflection (Mach deflection : num) (init : option num) (gamma : num) : num :=
  let sig0 := match init with
              | None => dasin (#1 / Mach) + deflection
              | Some s => s end in
  secant_solve (fun sig => deflection_Mach_sigma Mach sig gamma) (nabs deflection) sig0
  * nsign deflection.

(** ShockWave.py:282-305 *)
Definition sigma_DevMax (Mach gamma : num) : num :=
  let fogpu := #4 / (gamma + #1) in
  let M2 := Mach ^ 2 in
  dasin (nsqrt (#1 / fogpu / gamma / M2
    * (M2 - fogpu + nsqrt (M2 * M2 + #2 * (gamma - #1) * fogpu * M2 + #4 * fogpu)))).

(** ShockWave.py:256-266 *)
Definition dev_Max (Mach gamma : num) : num :=
  deflection_Mach_sigma Mach (sigma_DevMax Mach gamma) gamma.

(** ShockWave.py:308-321 *)
Definition sigma_Sonic (Mach gamma : num) : num :=
  let M2 := Mach ^ 2 in
  let ka := gamma - #3 + M2 * (gamma + #1) in
  let kb := (gamma + #1) * ((M2 - #3) ^ 2 + gamma * (M2 + #1) ^ 2) in
  dasin (nsqrt ((ka + nsqrt kb) / (#4 * gamma * M2))).

(** ShockWave.py:269-279 *)
Definition dev_Sonic (Mach gamma : num) : num :=
  deflection_Mach_sigma Mach (sigma_Sonic Mach gamma) gamma.

(** ShockWave.py:433-434, backward compatible names *)
Definition Pi_ratio := Pt_ratio.
Definition Mn_Pi_ratio := Mn_Pt_ratio.
