(** Property theorems of L_DefaultGas.v. Generated by tools/gen.py; statements only, proofs are in L_DefaultGas.v. *)
From Verif Require Import L_Num M_Isentropic M_DefaultGas L_Isentropic.
From Verif Require Import L_DefaultGas.
Open Scope R_scope.
Import ListNotations.
Open Scope list_scope.

(** Whatever the history [pre], the sequence: save, any calls other than save (setters and restores, in any number), restore - never raises and gives back exactly the pair that was current at the save. *)
Theorem C30_save_restore : forall pre s body, gas_run defgas0 pre = Some s ->
  (forall o, In o body -> o <> SaveDefault) ->
  exists s', gas_run defgas0 (pre ++ (SaveDefault :: nil) ++ body ++ (RestoreDefault :: nil)) = Some s' /\
    get_gamma s' = get_gamma s /\ get_r s' = get_r s.
Proof. exact save_restore. Qed.
Print Assumptions C30_save_restore.

(** Nested saves are not stacked: the last save before a restore is the one restored. *)
Theorem C30_latest_save_wins : forall pre1 s1 pre2 s body, gas_run defgas0 pre1 = Some s1 ->
  gas_run s1 (SaveDefault :: pre2) = Some s ->
  (forall o, In o body -> o <> SaveDefault) ->
  exists s', gas_run defgas0 (pre1 ++ (SaveDefault :: pre2) ++ (SaveDefault :: nil) ++ body ++ (RestoreDefault :: nil)) = Some s' /\
    get_gamma s' = get_gamma s /\ get_r s' = get_r s.
Proof. exact latest_save. Qed.
Print Assumptions C30_latest_save_wins.

(** In a history with no save, the first restore raises; with a save somewhere before, no restore ever raises. *)
Theorem C30_restore_needs_save : forall pre s, gas_run defgas0 pre = Some s ->
  (gas_step s RestoreDefault = None <-> ~ In SaveDefault pre).
Proof. exact restore_needs_save. Qed.
Print Assumptions C30_restore_needs_save.

(** set_gamma and set_r_ideal never raise, return the value set, and do not change the other value nor the saved pair. *)
Theorem C30_setters_local : forall s g r,
  (exists s', gas_step s (SetGamma g) = Some s' /\ get_gamma s' = g /\ get_r s' = get_r s /\
     dg_saved s' = dg_saved s) /\
  (exists s', gas_step s (SetR r) = Some s' /\ get_r s' = r /\ get_gamma s' = get_gamma s /\
     dg_saved s' = dg_saved s).
Proof. exact setters_local. Qed.
Print Assumptions C30_setters_local.

(** a save, a body with two setters and an early restore, and a restore, after a non-trivial history *)
Example C30_example :
  exists s', gas_run defgas0 ((SetGamma (Some (13/10)) :: SetR (Some 300) :: nil) ++ (SaveDefault :: nil) ++
      (SetGamma (Some (5/3)) :: RestoreDefault :: SetR (Some 1) :: nil) ++ (RestoreDefault :: nil)) = Some s' /\
    get_gamma s' = Some (13/10) /\ get_r s' = Some 300.
Proof. exact C30_example_lemma. Qed.

(** After any history ending in set_gamma(g), gamma() returns g, and passing gamma explicitly always works. What is missing is the effect on the flow functions' default, which is refuted below. *)
Theorem C31_gamma_getter_partial : forall pre s g s', gas_run defgas0 pre = Some s ->
  gas_step s (SetGamma g) = Some s' ->
  get_gamma s' = g /\
  forall (A : Type) (f : num -> A) h, call_default s' f (Some h) = f h.
Proof. exact gamma_getter. Qed.
Print Assumptions C31_gamma_getter_partial.

(** The documented effect does not exist: after ANY history of set/save/restore calls a flow function called without gamma still uses 1.4, because Python binds the default when the function is defined. *)
Theorem C31_refuted : forall l s, gas_run defgas0 l = Some s ->
  forall (A : Type) (f : num -> A), call_default s f None = f (Some (14/10)).
Proof. exact default_is_frozen. Qed.
Print Assumptions C31_refuted.

(** Hence for every g other than 1.4 and every Mach number other than 0, after set_gamma(g) the value of TtTs_Mach(Mach) is not TtTs_Mach(Mach, g). *)
Theorem C31_refuted_instance : forall pre s g s' M, gas_run defgas0 pre = Some s ->
  gas_step s (SetGamma (Some g)) = Some s' -> g <> 14/10 -> M <> 0 ->
  call_default s' (TtTs_Mach (Some M)) None <> TtTs_Mach (Some M) (get_gamma s').
Proof. exact default_wrong. Qed.
Print Assumptions C31_refuted_instance.

Example C31_example : exists s', gas_step defgas0 (SetGamma (Some (13/10))) = Some s' /\
  get_gamma s' = Some (13/10) /\
  call_default s' (TtTs_Mach (Some 1)) None = Some (12/10).
Proof. exact C31_example_lemma. Qed.
