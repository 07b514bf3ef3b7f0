(** Property theorems of L_Float5.v. Generated by tools/gen.py; statements only, proofs are in L_Float5.v. *)
From Coq Require Import Reals List ZArith Lra Lia Psatz.
From Flocq Require Import Core.
From Verif Require Import M_Float L_Float L_Float2 L_Float4.
From Verif Require Import L_Float5.
Open Scope R_scope.

(** In binary64 arithmetic, for every double 1 < gamma <= 2, every double Mach number M up to 2^400 and every pressure ratio 1 <= P <= Ps_ratio(N), where N is a normal Mach number at least 2^-49 M below M: the argument of the arc sine in deflection_Mach_ShockPsratio and downstreamMach_Mach_ShockPsratio is a number of (0, 1], so that the shock angle is not nan; for P = Ps_ratio(N) it is N / M with a relative error of at most 2^-48. *)
Theorem C88_defined_partial : forall gamma M N P PN, b64 gamma -> b64 M -> b64 N -> b64 P -> 1 < gamma <= 2 -> 1 <= N -> N * (1 + / 2 ^ 49) <= M -> M <= bpow radix2 400 ->
  float_Ps_ratio (Some N) (Some gamma) = Some PN -> 1 <= P <= PN ->
  exists s, float_shock_sine (Some M) (Some P) (Some gamma) = Some s /\ 0 < s <= 1 /\ float_arcsin_defined (Some s) /\ (P = PN -> Rabs (s - N / M) <= N / M * / 2 ^ 48).
Proof. exact shock_sine_defined. Qed.
Print Assumptions C88_defined_partial.

(** In binary64 arithmetic the strongest shock itself can be lost: with gamma = 1.4 and the Mach number 3, for the pressure ratio P = Ps_ratio(3) of the normal shock the argument of the arc sine exceeds 1, so that deflection_Mach_ShockPsratio(3, P) and downstreamMach_Mach_ShockPsratio(3, P) are nan instead of the normal shock. *)
Theorem C88_nan_refuted : exists g P s, fl (7 / 5) = Some g /\ float_Ps_ratio (Some 3) (Some g) = Some P /\ float_shock_sine (Some 3) (Some P) (Some g) = Some s /\ 1 < s /\
  ~ float_arcsin_defined (Some s).
Proof. exact shock_sine_nan. Qed.
Print Assumptions C88_nan_refuted.

(** the hypotheses of C88_defined_partial hold for gamma = 1.5, M = 3, N = 2 and P = 4. *)
Example C88_example : exists PN, b64 (3 / 2) /\ b64 3 /\ b64 2 /\ b64 4 /\ 2 * (1 + / 2 ^ 49) <= 3 /\ 3 <= bpow radix2 400 /\ float_Ps_ratio (Some 2) (Some (3 / 2)) = Some PN /\ 1 <= 4 <= PN.
Proof. exact shock_sine_ex. Qed.
