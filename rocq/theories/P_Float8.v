(** Property theorems of L_Float8.v. Generated by tools/gen.py; statements only, proofs are in L_Float8.v. *)
From Coq Require Import Reals List ZArith Lra Lia Psatz.
From Flocq Require Import Core.
From Verif Require Import Num M_Isentropic M_ShockWave M_Fanno M_Rayleigh L_Isentropic L_Shock L_Fanno L_Rayleigh M_Float FloatSpec L_Float L_Float2 L_Float3 L_Float6 L_Float7.
From Verif Require Import L_Float8.
Open Scope R_scope.

(** For every double 1 < gamma <= 2 and every double Mach number between 2^-100 and 2^100, each column of the Fanno table (pressure, temperature, density, velocity over their critical values) computed in binary64 arithmetic is the exact value with a relative error of at most 2^-50. *)
Theorem C113_fanno : forall gamma M, b64 gamma -> b64 M -> 1 < gamma <= 2 -> bpow radix2 (-100) <= M <= bpow radix2 100 ->
  close_to 50 (float_Fa_Ps_Pscri (Some M) (Some gamma)) (Fa_Ps_Pscri (Some M) (Some gamma))
  /\ close_to 50 (float_Fa_Ts_Tscri (Some M) (Some gamma)) (Fa_Ts_Tscri (Some M) (Some gamma))
  /\ close_to 50 (float_Fa_Rho_Rhocri (Some M) (Some gamma)) (Fa_Rho_Rhocri (Some M) (Some gamma))
  /\ close_to 50 (float_Fa_V_Vcri (Some M) (Some gamma)) (Fa_V_Vcri (Some M) (Some gamma)).
Proof. exact fanno_close. Qed.
Print Assumptions C113_fanno.

(** For the same doubles, the pressure, density and velocity columns of the Rayleigh table computed in binary64 arithmetic are the exact values with a relative error of at most 2^-50, the static temperature of at most 2^-49 and the stagnation temperature of at most 2^-48. *)
Theorem C113_rayleigh : forall gamma M, b64 gamma -> b64 M -> 1 < gamma <= 2 -> bpow radix2 (-100) <= M <= bpow radix2 100 ->
  close_to 50 (float_Ra_Ps_Pscri (Some M) (Some gamma)) (Ra_Ps_Pscri (Some M) (Some gamma))
  /\ close_to 50 (float_Ra_Rho_Rhocri (Some M) (Some gamma)) (Ra_Rho_Rhocri (Some M) (Some gamma))
  /\ close_to 50 (float_Ra_V_Vcri (Some M) (Some gamma)) (Ra_V_Vcri (Some M) (Some gamma))
  /\ close_to 49 (float_Ra_Ts_Tscri (Some M) (Some gamma)) (Ra_Ts_Tscri (Some M) (Some gamma))
  /\ close_to 48 (float_Ti_Ticri (Some M) (Some gamma)) (Ra_Ti_Ticri (Some M) (Some gamma)).
Proof. exact rayleigh_close. Qed.
Print Assumptions C113_rayleigh.

(** For the same doubles, every double gas constant and every double total temperature between 2^-100 and 2^100, the flow velocity computed from the Mach number and the total temperature in binary64 arithmetic is the exact one with a relative error of at most 2^-50. *)
Theorem C113_velocity : forall gamma M r Tt, b64 gamma -> b64 M -> b64 r -> b64 Tt -> 1 < gamma <= 2 -> bpow radix2 (-100) <= M <= bpow radix2 100 ->
  bpow radix2 (-100) <= r <= bpow radix2 100 -> bpow radix2 (-100) <= Tt <= bpow radix2 100 ->
  close_to 50 (float_Velocity_MachTt (Some M) (Some Tt) (Some r) (Some gamma)) (Velocity_MachTt (Some M) (Some Tt) (Some r) (Some gamma)).
Proof. exact velocity_close. Qed.
Print Assumptions C113_velocity.

(** the hypotheses hold for gamma = 1.5, the Mach number 2, the gas constant 287 and the total temperature 300 *)
Example C113_example : b64 (3 / 2) /\ b64 2 /\ 1 < 3 / 2 <= 2 /\ bpow radix2 (-100) <= 2 <= bpow radix2 100
  /\ b64 287 /\ b64 300 /\ bpow radix2 (-100) <= 287 <= bpow radix2 100 /\ bpow radix2 (-100) <= 300 <= bpow radix2 100.
Proof. exact C113_ex. Qed.
