(** Property theorems of L_Float10.v. Generated by tools/gen.py; statements only, proofs are in L_Float10.v. *)
From Coq Require Import Bool Reals List ZArith Lra Lia Psatz.
From Flocq Require Import Core.
From Verif Require Import Num M_Isentropic M_MassFlow M_Fanno M_Rayleigh L_Isentropic L_MassFlow L_Fanno L_Rayleigh M_Float M_FloatPow FloatSpec L_Float L_Float2 L_Float6 L_Float7 L_Float8 L_Float9.
From Verif Require Import L_Float10.
Open Scope R_scope.

(** Whatever accurate C library computes the power: for every double 9/8 <= gamma <= 2 and every double Mach number between 2^-10 and 16, the total to static pressure ratio computed in binary64 arithmetic is the exact value of the formula with a relative error of at most 2^-45. *)
Theorem C114_pressure : forall p gamma M, libm_pow p -> b64 gamma -> b64 M -> 9 / 8 <= gamma <= 2 -> / 1024 <= M <= 16 ->
  close_to 45 (float_PtPs_Mach p (Some M) (Some gamma)) (PtPs_Mach (Some M) (Some gamma)).
Proof. exact PtPs_close. Qed.
Print Assumptions C114_pressure.

(** For the same doubles, the ratio of the section to the critical section computed in binary64 arithmetic is the exact value with a relative error of at most 2^-43. *)
Theorem C114_area : forall p gamma M, libm_pow p -> b64 gamma -> b64 M -> 9 / 8 <= gamma <= 2 -> / 1024 <= M <= 16 ->
  close_to 43 (float_Sigma_Mach p (Some M) (Some gamma)) (Sigma_Mach (Some M) (Some gamma)).
Proof. exact Sigma_close. Qed.
Print Assumptions C114_area.

(** For the same doubles, the reduced mass flow computed in binary64 arithmetic is the exact value with a relative error of at most 2^-44. *)
Theorem C114_flow : forall p gamma M r, libm_pow p -> b64 gamma -> b64 M -> 9 / 8 <= gamma <= 2 -> / 1024 <= M <= 16 ->
  close_to 44 (float_WeightMassFlow p (Some M) (Some gamma)) (WeightMassFlow (Some M) r (Some gamma)).
Proof. exact Weight_close. Qed.
Print Assumptions C114_flow.

(** For the same doubles, the total pressure column of the Fanno table computed in binary64 arithmetic is the exact value with a relative error of at most 2^-43. *)
Theorem C114_fanno : forall p gamma M, libm_pow p -> b64 gamma -> b64 M -> 9 / 8 <= gamma <= 2 -> / 1024 <= M <= 16 ->
  close_to 43 (float_Fa_Pi_Picri p (Some M) (Some gamma)) (Fa_Pi_Picri (Some M) (Some gamma)).
Proof. exact FaPi_close. Qed.
Print Assumptions C114_fanno.

(** For the same doubles, the total pressure column of the Rayleigh table computed in binary64 arithmetic is the exact value with a relative error of at most 2^-45. *)
Theorem C114_rayleigh : forall p gamma M, libm_pow p -> b64 gamma -> b64 M -> 9 / 8 <= gamma <= 2 -> / 1024 <= M <= 16 ->
  close_to 45 (float_Ra_Pi_Picri p (Some M) (Some gamma)) (Ra_Pi_Picri (Some M) (Some gamma)).
Proof. exact RaPi_close. Qed.
Print Assumptions C114_rayleigh.

(** the hypotheses hold for gamma = 1.5, the Mach number 2 and the correctly rounded power *)
Example C114_example : libm_pow (fun x y => rn (Rpower x y)) /\ b64 (3 / 2) /\ b64 2 /\ 9 / 8 <= 3 / 2 <= 2 /\ / 1024 <= 2 <= 16.
Proof. exact C114_ex. Qed.
