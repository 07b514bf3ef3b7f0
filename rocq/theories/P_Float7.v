(** Property theorems of L_Float7.v. Generated by tools/gen.py; statements only, proofs are in L_Float7.v. *)
From Coq Require Import Reals List ZArith Lra Lia Psatz.
From Flocq Require Import Core.
From Verif Require Import Num M_Isentropic M_ShockWave M_Fanno M_Rayleigh L_Isentropic L_Shock L_Fanno L_Rayleigh M_Float FloatSpec L_Float L_Float2 L_Float3 L_Float6.
From Verif Require Import L_Float7.
Open Scope R_scope.

(** For every double 1 < gamma <= 2 and every double normal Mach number 1 <= M <= 2^200, the density ratio computed in binary64 arithmetic is the exact one with a relative error of at most 2^-50. *)
Theorem C112_density : forall gamma M, b64 gamma -> b64 M -> 1 < gamma <= 2 -> 1 <= M <= bpow radix2 200 ->
  close_to 50 (float_Rho_ratio (Some M) (Some gamma)) (Rho_ratio (Some M) (Some gamma)).
Proof. exact Rho_close. Qed.
Print Assumptions C112_density.

(** For the same doubles, the temperature ratio computed in binary64 arithmetic is the exact one with a relative error of at most 2^-48. *)
Theorem C112_temperature : forall gamma M, b64 gamma -> b64 M -> 1 < gamma <= 2 -> 1 <= M <= bpow radix2 200 ->
  close_to 48 (float_Ts_ratio (Some M) (Some gamma)) (Ts_ratio (Some M) (Some gamma)).
Proof. exact Ts_close. Qed.
Print Assumptions C112_temperature.

(** For the same doubles, the downstream normal Mach number computed in binary64 arithmetic is the exact one with a relative error of at most 2^-50. *)
Theorem C112_downstream : forall gamma M, b64 gamma -> b64 M -> 1 < gamma <= 2 -> 1 <= M <= bpow radix2 200 ->
  close_to 50 (float_downstream_Mn (Some M) (Some gamma)) (downstream_Mn (Some M) (Some gamma)).
Proof. exact Md_close. Qed.
Print Assumptions C112_downstream.

(** For every double 1 < gamma <= 2 and every double 1 <= M <= 2^200, the downstream normal Mach number computed in binary64 arithmetic never exceeds 1, whatever the rounding errors. *)
Theorem C112_subsonic : forall gamma M, b64 gamma -> b64 M -> 1 < gamma <= 2 -> 1 <= M <= bpow radix2 200 ->
  exists N, float_downstream_Mn (Some M) (Some gamma) = Some N /\ 0 < N <= 1.
Proof. exact Md_subsonic. Qed.
Print Assumptions C112_subsonic.

(** For every double 1 < gamma <= 2 a normal shock at Mach number 1 does nothing at all: the pressure, density and temperature ratios and the downstream Mach number computed in binary64 arithmetic are exactly 1. *)
Theorem C112_sonic : forall gamma, b64 gamma -> 1 < gamma <= 2 ->
  float_Ps_ratio (Some 1) (Some gamma) = Some 1 /\ float_Rho_ratio (Some 1) (Some gamma) = Some 1
  /\ float_Ts_ratio (Some 1) (Some gamma) = Some 1 /\ float_downstream_Mn (Some 1) (Some gamma) = Some 1.
Proof. exact sonic_exact. Qed.
Print Assumptions C112_sonic.

(** the hypotheses hold for gamma = 1.5 and the Mach number 2 *)
Example C112_example : b64 (3 / 2) /\ b64 2 /\ 1 < 3 / 2 <= 2 /\ 1 <= 2 <= bpow radix2 200.
Proof. exact C112_ex. Qed.
