(** Property theorems of L_Float12.v. Generated by tools/gen.py; statements only, proofs are in L_Float12.v. *)
From Coq Require Import Bool Reals List ZArith Lra Lia Psatz.
From Flocq Require Import Core.
From Verif Require Import Num M_Isentropic L_Isentropic M_Float M_FloatPow FloatSpec L_Float L_Float2 L_Float6 L_Float7 L_Float9 L_Float10.
From Verif Require Import L_Float12.
Open Scope R_scope.

(** Whatever accurate C library computes the powers, for every double 9/8 <= gamma <= 2 and every double Mach number between 2^-10 and 16: Mach_PtPs(PtPs_Mach(M)) is a number and differs from M by at most (M + 1/((gamma-1) M)) / 2^42. *)
Theorem C116_accuracy : forall p gamma M, libm_pow p -> b64 gamma -> b64 M -> 9 / 8 <= gamma <= 2 -> / 1024 <= M <= 16 ->
  exists P M', float_PtPs_Mach p (Some M) (Some gamma) = Some P /\ float_Mach_PtPs p (Some P) (Some gamma) = Some M' /\
  Rabs (M' - M) <= (M + 1 / ((gamma - 1) * M)) / 2 ^ 42.
Proof. exact PtPs_round_trip. Qed.
Print Assumptions C116_accuracy.

(** At small Mach numbers nothing of the Mach number is left: for every double 9/8 <= gamma <= 2 and every double Mach number 0 < M <= 2^-30, with every accurate C library, Mach_PtPs(PtPs_Mach(M)) is not a number or is off by at least M itself. *)
Theorem C116_small_Mach : forall p gamma M, libm_pow p -> b64 gamma -> b64 M -> 9 / 8 <= gamma <= 2 -> 0 < M <= / 2 ^ 30 ->
  exists P, float_PtPs_Mach p (Some M) (Some gamma) = Some P /\ (forall M', float_Mach_PtPs p (Some P) (Some gamma) = Some M' -> M <= Rabs (M' - M)).
Proof. exact PtPs_small. Qed.
Print Assumptions C116_small_Mach.

(** gamma = 1.5 with the Mach numbers 2 and 2^-30, and the correctly rounded power *)
Example C116_example : libm_pow (fun x y => rn (Rpower x y)) /\ b64 (3 / 2) /\ b64 2 /\ 9 / 8 <= 3 / 2 <= 2 /\ / 1024 <= 2 <= 16 /\ b64 (bpow radix2 (-30)) /\ 0 < bpow radix2 (-30) <= / 2 ^ 30.
Proof. exact C116_ex. Qed.
