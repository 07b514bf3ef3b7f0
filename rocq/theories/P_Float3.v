(** Property theorems of L_Float3.v. Generated by tools/gen.py; statements only, proofs are in L_Float3.v. *)
From Coq Require Import Reals ZArith Lra Lia.
From Flocq Require Import Core.
From Verif Require Import Num M_Isentropic M_ShockWave L_Isentropic L_Shock M_Float L_Float L_Float2.
From Verif Require Import L_Float3.
Open Scope R_scope.

(** For every double 1 < gamma <= 2 and every double Mach number between 2^-400 and 2^400, TtTs_Mach computed in binary64 arithmetic is the exact value of the formula with a relative error of at most 2^-51. *)
Theorem C82_close : forall gamma M, b64 gamma -> b64 M -> 1 < gamma <= 2 -> bpow radix2 (-400) <= M <= bpow radix2 400 ->
  exists T X, float_TtTs_Mach (Some M) (Some gamma) = Some T /\ TtTs_Mach (Some M) (Some gamma) = Some X /\
    Rabs (T - X) <= X / 2 ^ 51.
Proof. exact float_TtTs_close. Qed.
Print Assumptions C82_close.

(** For every double 1 < gamma <= 2 and every double 1 <= M <= 2^400, Ps_ratio computed in binary64 arithmetic is the exact value of the formula with a relative error of at most 2^-49. *)
Theorem C83_close : forall gamma M, b64 gamma -> b64 M -> 1 < gamma <= 2 -> 1 <= M <= bpow radix2 400 ->
  exists P X, float_Ps_ratio (Some M) (Some gamma) = Some P /\ Ps_ratio (Some M) (Some gamma) = Some X /\
    Rabs (P - X) <= X / 2 ^ 49.
Proof. exact float_Ps_close. Qed.
Print Assumptions C83_close.
