(** Property theorems of L_Float2.v. Generated by tools/gen.py; statements only, proofs are in L_Float2.v. *)
From Coq Require Import Reals List ZArith Lra Lia Psatz.
From Flocq Require Import Core Sterbenz Mult_error Relative Plus_error.
From Verif Require Import M_Float L_Float.
From Verif Require Import L_Float2.
Open Scope R_scope.

(** In binary64 arithmetic, for every double 1 < gamma <= 2 and every double Mach number up to 2^400, TtTs_Mach returns a finite number T >= 1 and Mach_TtTs of it returns a finite number >= 0, never nan; both are non-decreasing functions, so that M <= N gives T(M) <= T(N) and M' <= N'. *)
Theorem C82_defined : forall gamma M N, b64 gamma -> b64 M -> b64 N -> 1 < gamma <= 2 -> 0 <= M <= N -> N <= bpow radix2 400 ->
  exists T T' M' N', float_TtTs_Mach (Some M) (Some gamma) = Some T /\ float_TtTs_Mach (Some N) (Some gamma) = Some T' /\
    float_Mach_TtTs (Some T) (Some gamma) = Some M' /\ float_Mach_TtTs (Some T') (Some gamma) = Some N' /\
    1 <= T <= T' /\ 0 <= M' <= N'.
Proof. exact float_TtTs_defined. Qed.
Print Assumptions C82_defined.

(** In binary64 arithmetic Mach_TtTs(TtTs_Mach(M)) differs from M by at most (M + 1/((gamma-1) M)) / 2^50, for every double 1 < gamma <= 2 and every double Mach number between 2^-400 and 2^400. *)
Theorem C82_accuracy : forall gamma M, b64 gamma -> b64 M -> 1 < gamma <= 2 -> bpow radix2 (-400) <= M <= bpow radix2 400 ->
  exists T M', float_TtTs_Mach (Some M) (Some gamma) = Some T /\ float_Mach_TtTs (Some T) (Some gamma) = Some M' /\
    Rabs (M' - M) <= (M + 1 / ((gamma - 1) * M)) / 2 ^ 50.
Proof. exact float_TtTs_accuracy. Qed.
Print Assumptions C82_accuracy.

(** In binary64 arithmetic Mach numbers up to 2^-27 are lost: TtTs_Mach returns exactly 1 and Mach_TtTs of it exactly 0, for every double 1 < gamma <= 2. *)
Theorem C82_small_Mach : forall gamma M, b64 gamma -> b64 M -> 1 < gamma <= 2 -> 0 <= M <= bpow radix2 (-27) ->
  float_TtTs_Mach (Some M) (Some gamma) = Some 1 /\ float_Mach_TtTs (Some 1) (Some gamma) = Some 0.
Proof. exact float_TtTs_small. Qed.
Print Assumptions C82_small_Mach.

(** the hypotheses hold for gamma = 1.5 and the Mach number 2 *)
Example C82_example : b64 (3 / 2) /\ b64 2 /\ 1 < 3 / 2 <= 2 /\ bpow radix2 (-400) <= 2 <= bpow radix2 400.
Proof. exact float_TtTs_example. Qed.

(** In binary64 arithmetic, for every double 1 < gamma <= 2 and all doubles 1 <= M <= N <= 2^400, the shock pressure ratio Ps_ratio is a finite number >= 1, non-decreasing in the Mach number, and Mn_Ps_ratio of it is a finite number >= 1. *)
Theorem C83_defined : forall gamma M N, b64 gamma -> b64 M -> b64 N -> 1 < gamma <= 2 -> 1 <= M <= N -> N <= bpow radix2 400 ->
  exists P P' M', float_Ps_ratio (Some M) (Some gamma) = Some P /\ float_Ps_ratio (Some N) (Some gamma) = Some P' /\
    1 <= P <= P' /\ float_Mn_Ps_ratio (Some P) (Some gamma) = Some M' /\ 1 <= M'.
Proof. exact float_Ps_defined. Qed.
Print Assumptions C83_defined.

(** In binary64 arithmetic Mn_Ps_ratio(Ps_ratio(M)) equals M with a relative error of at most 2^-49, for every double 1 < gamma <= 2 and every double 1 <= M <= 2^400. *)
Theorem C83_accuracy : forall gamma M, b64 gamma -> b64 M -> 1 < gamma <= 2 -> 1 <= M <= bpow radix2 400 ->
  exists P M', float_Ps_ratio (Some M) (Some gamma) = Some P /\ float_Mn_Ps_ratio (Some P) (Some gamma) = Some M' /\
    Rabs (M' - M) <= M / 2 ^ 49.
Proof. exact float_Ps_accuracy. Qed.
Print Assumptions C83_accuracy.

(** the hypotheses hold for gamma = 1.5 and the Mach number 2 *)
Example C83_example : b64 (3 / 2) /\ b64 2 /\ 1 < 3 / 2 <= 2 /\ 1 <= 2 <= bpow radix2 400.
Proof. exact float_Ps_example. Qed.
