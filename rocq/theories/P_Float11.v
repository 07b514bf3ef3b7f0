(** Property theorems of L_Float11.v. Generated by tools/gen.py; statements only, proofs are in L_Float11.v. *)
From Coq Require Import Bool Reals List ZArith Lra Lia Psatz.
From Coquelicot Require Import Coquelicot.
From Flocq Require Import Core.
From Verif Require Import Num M_Isentropic M_MassFlow L_Num L_Isentropic L_MassFlow M_Float M_FloatPow FloatSpec L_Float L_Float2 L_Float6 L_Float7 L_Float9 L_Float10.
From Verif Require Import L_Float11.
Open Scope R_scope.

(** Whatever accurate C library computes the power, for every double 9/8 <= gamma <= 2 and every double Mach number between 2^-10 and 16 that is at least 2^-20 away from 1: the section ratio computed in binary64 arithmetic is above 1, and the two starting points that the inversions compute from it are numbers, one below 1 and the other above. PARTIAL: nearer to the throat this is false, see C115_throat_refuted. *)
Theorem C115_defined_partial : forall p gamma M, libm_pow p -> b64 gamma -> b64 M -> 9 / 8 <= gamma <= 2 -> / 1024 <= M <= 16 -> / 2 ^ 20 <= Rabs (M - 1) ->
  exists s a b, float_Sigma_Mach p (Some M) (Some gamma) = Some s /\ 1 < s /\
  float_MachSub_guess (Some s) (Some gamma) = Some a /\ a < 1 /\ float_MachSup_guess (Some s) (Some gamma) = Some b /\ 1 < b.
Proof. exact guesses_defined. Qed.
Print Assumptions C115_defined_partial.

(** gamma = 1.5, the Mach number 2 and the correctly rounded power *)
Example C115_example : libm_pow (fun x y => rn (Rpower x y)) /\ b64 (3 / 2) /\ b64 2 /\ 9 / 8 <= 3 / 2 <= 2 /\ / 1024 <= 2 <= 16 /\ / 2 ^ 20 <= Rabs (2 - 1).
Proof. exact C115_ex. Qed.

(** At the throat itself rounding can put the computed section ratio below 1, and then both starting points are not numbers: for gamma = 97/64 and Mach 1 this happens with every accurate C library, so that inverting the section ratio of Mach 1 starts from nan. *)
Theorem C115_throat_refuted : forall p, libm_pow p -> b64 (97 / 64) /\ b64 1 /\ exists s, float_Sigma_Mach p (Some 1) (Some (97 / 64)) = Some s /\ s < 1 /\
  float_MachSub_guess (Some s) (Some (97 / 64)) = None /\ float_MachSup_guess (Some s) (Some (97 / 64)) = None.
Proof. exact throat_refuted. Qed.
Print Assumptions C115_throat_refuted.
