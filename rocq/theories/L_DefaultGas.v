(** * C30, C31: the default gas *)
From Verif Require Import L_Num M_Isentropic M_DefaultGas L_Isentropic.
Open Scope R_scope.
Import ListNotations.
Open Scope list_scope.

Definition is_save (o : gas_op) : bool := match o with SaveDefault => true | _ => false end.

Lemma run_app s l1 l2 : gas_run s (l1 ++ l2) =
  match gas_run s l1 with Some s' => gas_run s' l2 | None => None end.
Proof.
  revert s; induction l1 as [|o l IH]; intros s; [reflexivity|]; cbn [app gas_run].
  destruct (gas_step s o); [apply IH|reflexivity].
Qed.
Lemma run_saved s l r g : dg_saved s = Some (r, g) -> (forall o, In o l -> is_save o = false) ->
  exists s', gas_run s l = Some s' /\ dg_saved s' = Some (r, g) /\ captured s' = captured s.
Proof.
  revert s; induction l as [|o l IH]; intros s Hs Hl; [exists s; auto|]; cbn [gas_run].
  assert (Ho := Hl o (or_introl eq_refl)).
  destruct (gas_step s o) as [s1|] eqn:E.
  - assert (H1 : dg_saved s1 = Some (r, g) /\ captured s1 = captured s).
    { destruct o; cbn [is_save] in Ho; try discriminate; cbn [gas_step] in E; rewrite ?Hs in E;
        injection E as <-; cbn; auto. }
    destruct H1 as [H1 H2].
    destruct (IH s1 H1 (fun o Ho => Hl o (or_intror Ho))) as (s' & A & B & C).
    exists s'; rewrite C, H2; auto.
  - exfalso; destruct o; cbn [is_save] in Ho; try discriminate; cbn [gas_step] in E; rewrite ?Hs in E;
      discriminate.
Qed.

(*@P C30_save_restore: Whatever the history [pre], the sequence: save, any calls other than save (setters and restores, in any number), restore - never raises and gives back exactly the pair that was current at the save. *)
Lemma save_restore : forall pre s body, gas_run defgas0 pre = Some s ->
  (forall o, In o body -> o <> SaveDefault) ->
  exists s', gas_run defgas0 (pre ++ (SaveDefault :: nil) ++ body ++ (RestoreDefault :: nil)) = Some s' /\
    get_gamma s' = get_gamma s /\ get_r s' = get_r s.
Proof.
  intros pre s body Hpre Hbody. rewrite run_app, Hpre; cbn [app gas_run gas_step].
  rewrite run_app.
  edestruct (run_saved (mk_defgas (dg_gamma s) (dg_r s) (Some (dg_r s, dg_gamma s)) (captured s)) body)
    as (s' & H1 & H2 & _); [reflexivity| |].
  - intros o Ho; specialize (Hbody o Ho); destruct o; auto; congruence.
  - rewrite H1; cbn [gas_run gas_step]; rewrite H2. eexists; split; [reflexivity|].
    unfold get_gamma, get_r; cbn; auto.
Qed.

(*@P C30_latest_save_wins: Nested saves are not stacked: the last save before a restore is the one restored. *)
Lemma latest_save : forall pre1 s1 pre2 s body, gas_run defgas0 pre1 = Some s1 ->
  gas_run s1 (SaveDefault :: pre2) = Some s ->
  (forall o, In o body -> o <> SaveDefault) ->
  exists s', gas_run defgas0 (pre1 ++ (SaveDefault :: pre2) ++ (SaveDefault :: nil) ++ body ++ (RestoreDefault :: nil)) = Some s' /\
    get_gamma s' = get_gamma s /\ get_r s' = get_r s.
Proof.
  intros pre1 s1 pre2 s body H1 H2 Hb.
  destruct (save_restore (pre1 ++ SaveDefault :: pre2) s body) as (s' & H & Hg); auto.
  - rewrite run_app, H1; exact H2.
  - exists s'; rewrite <- app_assoc in H; auto.
Qed.

(*@P C30_restore_needs_save: In a history with no save, the first restore raises; with a save somewhere before, no restore ever raises. *)
Lemma restore_needs_save : forall pre s, gas_run defgas0 pre = Some s ->
  (gas_step s RestoreDefault = None <-> ~ In SaveDefault pre).
Proof.
  assert (G : forall l s0 s, gas_run s0 l = Some s ->
    (dg_saved s = None <-> dg_saved s0 = None /\ ~ In SaveDefault l)).
  { induction l as [|o l IH]; intros s0 s; cbn [gas_run].
    - intros E; injection E as <-; cbn; tauto.
    - destruct (gas_step s0 o) as [s1|] eqn:E; [|discriminate]; intros H.
      specialize (IH s1 s H); rewrite IH.
      destruct o; cbn [gas_step] in E.
      1,2: injection E as <-; cbn; intuition congruence.
      + injection E as <-; cbn; intuition congruence.
      + destruct (dg_saved s0) as [[r g]|] eqn:Es; [|discriminate].
        injection E as <-; cbn; intuition congruence. }
  intros pre s H; specialize (G pre defgas0 s H); cbn [gas_step].
  destruct (dg_saved s) as [[r g]|]; cbn in G; intuition congruence.
Qed.

(*@P C30_setters_local: set_gamma and set_r_ideal never raise, return the value set, and do not change the other value nor the saved pair. *)
Lemma setters_local : forall s g r,
  (exists s', gas_step s (SetGamma g) = Some s' /\ get_gamma s' = g /\ get_r s' = get_r s /\
     dg_saved s' = dg_saved s) /\
  (exists s', gas_step s (SetR r) = Some s' /\ get_r s' = r /\ get_gamma s' = get_gamma s /\
     dg_saved s' = dg_saved s).
Proof. intros s g r; split; eexists; repeat split; reflexivity. Qed.

(*@E C30_example: a save, a body with two setters and an early restore, and a restore, after a non-trivial history *)
Lemma C30_example_lemma :
  exists s', gas_run defgas0 ((SetGamma (Some (13/10)) :: SetR (Some 300) :: nil) ++ (SaveDefault :: nil) ++
      (SetGamma (Some (5/3)) :: RestoreDefault :: SetR (Some 1) :: nil) ++ (RestoreDefault :: nil)) = Some s' /\
    get_gamma s' = Some (13/10) /\ get_r s' = Some 300.
Proof. eexists; repeat split; reflexivity. Qed.

(** the default captured at import never changes *)
Lemma captured_const l s s' : gas_run s l = Some s' -> captured s' = captured s.
Proof.
  revert s; induction l as [|o l IH]; intros s; cbn [gas_run]; [intros E; now injection E as <-|].
  destruct (gas_step s o) as [s1|] eqn:E; [|discriminate]; intros H; rewrite (IH _ H).
  destruct o; cbn [gas_step] in E; try (injection E as <-; reflexivity).
  destruct (dg_saved s) as [[r g]|]; [injection E as <-; reflexivity|discriminate].
Qed.

(*@P C31_gamma_getter_partial: After any history ending in set_gamma(g), gamma() returns g, and passing gamma explicitly always works. What is missing is the effect on the flow functions' default, which is refuted below. *)
Lemma gamma_getter : forall pre s g s', gas_run defgas0 pre = Some s ->
  gas_step s (SetGamma g) = Some s' ->
  get_gamma s' = g /\
  forall (A : Type) (f : num -> A) h, call_default s' f (Some h) = f h.
Proof. intros pre s g s' _ E; cbn in E; injection E as <-; split; reflexivity. Qed.

(*@P C31_refuted: The documented effect does not exist: after ANY history of set/save/restore calls a flow function called without gamma still uses 1.4, because Python binds the default when the function is defined. *)
Lemma default_is_frozen : forall l s, gas_run defgas0 l = Some s ->
  forall (A : Type) (f : num -> A), call_default s f None = f (Some (14/10)).
Proof.
  intros l s H A f; unfold call_default; rewrite (captured_const _ _ _ H); reflexivity.
Qed.

(*@P C31_refuted_instance: Hence for every g other than 1.4 and every Mach number other than 0, after set_gamma(g) the value of TtTs_Mach(Mach) is not TtTs_Mach(Mach, g). *)
Lemma default_wrong : forall pre s g s' M, gas_run defgas0 pre = Some s ->
  gas_step s (SetGamma (Some g)) = Some s' -> g <> 14/10 -> M <> 0 ->
  call_default s' (TtTs_Mach (Some M)) None <> TtTs_Mach (Some M) (get_gamma s').
Proof.
  intros pre s g s' M H E Hg HM.
  assert (H' : gas_run defgas0 (pre ++ (SetGamma (Some g) :: nil)) = Some s')
    by (rewrite run_app, H; cbn; exact E).
  rewrite (default_is_frozen _ _ H'). cbn in E; injection E as <-; unfold get_gamma; cbn [dg_gamma].
  rewrite !TtTs_eval; intros F; injection F as F; unfold tt in F.
  assert (M ^ 2 <> 0) by (apply pow_nonzero; exact HM).
  apply Hg. assert ((g - 14/10) * M ^ 2 = 0) by lra. nra.
Qed.

(*@E C31_example *)
Lemma C31_example_lemma : exists s', gas_step defgas0 (SetGamma (Some (13/10))) = Some s' /\
  get_gamma s' = Some (13/10) /\
  call_default s' (TtTs_Mach (Some 1)) None = Some (12/10).
Proof.
  eexists; split; [reflexivity|]; split; [reflexivity|].
  unfold call_default; cbn [captured defgas0]; unfold dgamma; rewrite TtTs_eval; unfold tt; f_equal; lra.
Qed.
