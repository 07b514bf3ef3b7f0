(** Property theorems of L_Float4.v. Generated by tools/gen.py; statements only, proofs are in L_Float4.v. *)
From Coq Require Import Reals List ZArith Lra Lia Psatz.
From Flocq Require Import Core Sterbenz Mult_error Relative Plus_error.
From Verif Require Import M_Float L_Float L_Float2.
From Verif Require Import L_Float4.
Open Scope R_scope.

(** In binary64 arithmetic the round trip can fail close to the sonic state: with the default gamma = 1.4 there is a double M < 1 with Ti_Ticri(M) > 1, for which SubMach_TiTicri and SupMach_TiTicri return nan; with gamma = 1.298 this happens for the Mach number 1 itself. *)
Theorem C87_nan_refuted :
  (exists g M T, fl (7 / 5) = Some g /\ b64 M /\ 1 - / 2 ^ 53 <= M < 1 /\ float_Ti_Ticri (Some M) (Some g) = Some T /\ 1 < T /\
     float_SubMach_TiTicri (Some T) (Some g) = None /\ float_SupMach_TiTicri (Some T) (Some g) = None) /\
  (exists g T, fl (1298 / 1000) = Some g /\ float_Ti_Ticri (Some 1) (Some g) = Some T /\ 1 < T /\
     float_SubMach_TiTicri (Some T) (Some g) = None /\ float_SupMach_TiTicri (Some T) (Some g) = None).
Proof. exact rayleigh_nan. Qed.
Print Assumptions C87_nan_refuted.

(** In binary64 arithmetic, for every double 1 < gamma <= 2 and every double Mach number from 2^-100 to 1 - 2^-20: Ti_Ticri(M) is a number T in [0, 1) with a relative error of at most 2^-48, and SubMach_TiTicri(T) is a number of [0, 1], never nan, that differs from M by at most 2^-46 (1 + gamma M^2) / (M (1 - M^2)). *)
Theorem C87_subsonic_partial : forall gamma M, b64 gamma -> b64 M -> 1 < gamma <= 2 -> bpow radix2 (-100) <= M <= 1 - / 2 ^ 20 ->
  exists T M', float_Ti_Ticri (Some M) (Some gamma) = Some T /\ 0 <= T < 1 /\
    (let exact := 2 * (gamma + 1) * M ^ 2 / (1 + gamma * M ^ 2) ^ 2 * (1 + (gamma - 1) / 2 * M ^ 2) in Rabs (T - exact) <= exact / 2 ^ 48) /\
    float_SubMach_TiTicri (Some T) (Some gamma) = Some M' /\ 0 <= M' <= 1 /\ Rabs (M' - M) <= / 2 ^ 46 * ((1 + gamma * M ^ 2) / (M * (1 - M ^ 2))).
Proof. exact rayleigh_sub. Qed.
Print Assumptions C87_subsonic_partial.

(** Likewise for every double Mach number from 1 + 2^-20 to 2^10: Ti_Ticri(M) is in [0, 1) with a relative error of at most 2^-48 and SupMach_TiTicri of it is a number, never nan, that differs from M by at most 2^-45 M^3 (1 + gamma M^2) / (M^2 - 1). *)
Theorem C87_supersonic_partial : forall gamma M, b64 gamma -> b64 M -> 1 < gamma <= 2 -> 1 + / 2 ^ 20 <= M <= 2 ^ 10 ->
  exists T M', float_Ti_Ticri (Some M) (Some gamma) = Some T /\ 0 <= T < 1 /\
    (let exact := 2 * (gamma + 1) * M ^ 2 / (1 + gamma * M ^ 2) ^ 2 * (1 + (gamma - 1) / 2 * M ^ 2) in Rabs (T - exact) <= exact / 2 ^ 48) /\
    float_SupMach_TiTicri (Some T) (Some gamma) = Some M' /\ 0 <= M' /\ Rabs (M' - M) <= / 2 ^ 45 * (M ^ 3 * (1 + gamma * M ^ 2) / (M ^ 2 - 1)).
Proof. exact rayleigh_sup. Qed.
Print Assumptions C87_supersonic_partial.

(** the hypotheses hold for gamma = 1.5, M = 1/2 and M = 2 *)
Example C87_example : b64 (3 / 2) /\ b64 (1 / 2) /\ b64 2 /\ 1 < 3 / 2 <= 2 /\ bpow radix2 (-100) <= 1 / 2 <= 1 - / 2 ^ 20 /\ 1 + / 2 ^ 20 <= 2 <= 2 ^ 10.
Proof. exact rayleigh_float_ex. Qed.
