(** * C78: importing the modules of the package *)
From Coq Require Import String List Bool Arith Lia.
From Verif Require Import M_Import.
Import ListNotations.
Open Scope string_scope.
Open Scope list_scope.

Lemma mem_In a l : mem a l = true <-> In a l.
Proof. unfold mem. rewrite existsb_exists. split; [intros (x & I & E); apply String.eqb_eq in E; congruence|intros I; exists a; split; [exact I|apply String.eqb_refl]]. Qed.
(** position in the list of sound modules, which is sorted so that imports go to earlier positions *)
Fixpoint position (m : string) (l : list file) : option nat :=
  match l with [] => None | f :: l => if String.eqb (name f) m then Some 0 else option_map S (position m l) end.
Definition rank (m : string) : option nat := position m sound_files.
Definition below (m : string) (i : nat) : bool := match rank m with Some j => Nat.ltb j i | None => false end.
Definition ancestors (m : string) : list string := removelast (dotted m).
Fixpoint chain_ok (known l : list string) (i : nat) : bool :=
  match l with
  | [] => true
  | q :: l => (mem q known || (below q i && forallb (fun a => mem a known) (ancestors q))) && chain_ok (q :: known) l i
  end.
Definition dep_ok (m : string) (i : nat) (d : string * list string) : bool :=
  let (t, ns) := d in
  mem (hd "" (dotted t)) external ||
  (chain_ok (dotted m) (dotted t) i &&
   forallb (fun n => (below t i && match find_file t with Some f => mem n (provides f) | None => false end)
     || (below (append t (append "." n)) i && forallb (fun a => mem a (dotted t)) (ancestors (append t (append "." n))))) ns).
Fixpoint files_ok (i : nat) (l : list file) : bool :=
  match l with [] => true | f :: l => forallb (dep_ok (name f) i) (deps f) && files_ok (S i) l end.
Lemma all_ok : files_ok 0 sound_files = true.
Proof. vm_compute. reflexivity. Qed.
Lemma distinct : forallb (fun f => match find_file (name f) with Some g => String.eqb (name g) (name f) | None => false end) sound_files = true.
Proof. vm_compute. reflexivity. Qed.

Lemma position_nth m : forall l i, position m l = Some i -> exists f, nth_error l i = Some f /\ name f = m /\ find (fun f => String.eqb (name f) m) l = Some f.
Proof.
  induction l as [|f l IH]; intros i H; [discriminate|]. cbn [position] in H. cbn [find]. destruct (String.eqb_spec (name f) m) as [E|N].
  - injection H as <-. exists f. auto.
  - destruct (position m l) as [j|]; [|discriminate]. injection H as <-. destruct (IH j eq_refl) as (g & A & B). exists g. auto.
Qed.
Lemma files_nth : forall l k i f, files_ok k l = true -> nth_error l i = Some f -> forallb (dep_ok (name f) (k + i)) (deps f) = true.
Proof.
  induction l as [|g l IH]; intros k i f H E; [destruct i; discriminate|]. cbn [files_ok] in H. apply andb_prop in H. destruct H as [H1 H2].
  destruct i as [|i]; [injection E as ->; now rewrite Nat.add_0_r|]. cbn [nth_error] in E. rewrite <- Nat.add_succ_comm. now apply IH.
Qed.
Lemma rank_file m i : rank m = Some i -> exists f, find_file m = Some f /\ name f = m /\ forallb (dep_ok m i) (deps f) = true.
Proof.
  intros H. destruct (position_nth _ _ _ H) as (f & A & B & C). exists f. split.
  - unfold find_file, package. clear A. induction sound_files as [|g l IH]; [discriminate|]. cbn [find app] in *. destruct (String.eqb (name g) m); auto. 
  - split; [exact B|]. rewrite <- B. exact (files_nth _ 0 i f all_ok A).
Qed.

(** all entries are sound modules, and those whose body is still running have rank at least [i] *)
Definition inv (s : modules) (i : nat) : Prop := forall q b, In (q, b) s -> exists j, rank q = Some j /\ (b = false -> i <= j).
Definition grows (s s' : modules) : Prop := forall q, loaded s q = true -> loaded s' q = true.
Lemma loaded_In s q : loaded s q = true <-> exists b, In (q, b) s.
Proof. unfold loaded. rewrite mem_In, in_map_iff. split; [intros ([a b] & E & I); cbn in E; subst; eauto|intros (b & I); exists (q, b); auto]. Qed.
Lemma inv_finished s i m j : inv s i -> loaded s m = true -> rank m = Some j -> j < i -> finished s m = true.
Proof.
  intros I L R J. apply loaded_In in L. destruct L as [b L]. destruct (I m b L) as (k & K & B). rewrite R in K. injection K as <-.
  unfold finished. rewrite existsb_exists. exists (m, b). split; [exact L|]. cbn [fst snd]. rewrite String.eqb_refl. destruct b; [reflexivity|]. specialize (B eq_refl). lia.
Qed.
Lemma inv_weaken s i j : j <= i -> inv s i -> inv s j.
Proof. intros L I q b Q. destruct (I q b Q) as (k & K & B). exists k. split; [exact K|]. intros E. specialize (B E). lia. Qed.

Definition ok (s : modules) : Prop := forall q b, In (q, b) s -> exists j, rank q = Some j.
(** the modules whose body is still running after were so before *)
Definition less (s s' : modules) : Prop := forall q, In (q, false) s' -> In (q, false) s.
Lemma inv_ok s i : inv s i -> ok s.
Proof. intros I q b Q. destruct (I q b Q) as (j & J & _). eauto. Qed.
Lemma inv_less s s' i : inv s i -> ok s' -> less s s' -> inv s' i.
Proof.
  intros I O L q b Q. destruct (O q b Q) as [j J]. exists j. split; [exact J|]. intros ->. destruct (I q false (L q Q)) as (k & K & B). rewrite J in K. injection K as <-. auto.
Qed.
Lemma less_refl s : less s s.
Proof. intros q; auto. Qed.
Lemma less_trans a b c : less a b -> less b c -> less a c.
Proof. intros H K q Q. auto. Qed.
Lemma grows_refl s : grows s s.
Proof. intros q; auto. Qed.
Lemma grows_trans a b c : grows a b -> grows b c -> grows a c.
Proof. intros H K q Q. auto. Qed.
#[local] Hint Resolve less_refl less_trans grows_refl grows_trans inv_ok inv_less : core.
Definition good (s s' : modules) : Prop := grows s s' /\ ok s' /\ less s s'.
Lemma good_refl s : ok s -> good s s.
Proof. unfold good. auto. Qed.
Lemma good_trans a b c : good a b -> good b c -> good a c.
Proof. unfold good. intros (A & B & C) (D & E & F). eauto. Qed.
Lemma good_inv a b i : good a b -> inv a i -> inv b i.
Proof. intros (A & B & C) I. eauto. Qed.

(** loading works for modules below [i] whose parents are loaded *)
Definition loads (ld : modules -> string -> modules * bool) (i : nat) : Prop :=
  forall s m j, rank m = Some j -> j < i -> inv s (S j) -> (forall a, In a (ancestors m) -> loaded s a = true) ->
  exists s', ld s m = (s', true) /\ loaded s' m = true /\ good s s'.
Definition returns_loaded (ld : modules -> string -> modules * bool) : Prop := forall s m, loaded s m = true -> ld s m = (s, true).

Lemma chain_loads ld i : loads ld i -> returns_loaded ld -> forall l known s, chain_ok known l i = true -> inv s i -> (forall a, In a known -> loaded s a = true) ->
  exists s', in_order ld l s = (s', true) /\ (forall a, In a l -> loaded s' a = true) /\ good s s'.
Proof.
  intros LD RL. induction l as [|q l IH]; intros known s C I K.
  { exists s. split; [reflexivity|]. split; [intros a []|apply good_refl; eauto]. }
  cbn [chain_ok] in C. apply andb_prop in C. destruct C as [C1 C2]. cbn [in_order].
  assert (Q : exists s1, ld s q = (s1, true) /\ loaded s1 q = true /\ good s s1).
  { apply orb_prop in C1. destruct C1 as [C1|C1].
    - apply mem_In in C1. exists s. rewrite RL by auto. split; [reflexivity|]. split; [auto|apply good_refl; eauto].
    - apply andb_prop in C1. destruct C1 as [B A]. unfold below in B. destruct (rank q) as [j|] eqn:R; [|discriminate]. apply Nat.ltb_lt in B. rewrite forallb_forall in A.
      apply (LD s q j R B); [apply (inv_weaken s i); [lia|exact I]|intros a Ia; apply K, mem_In, A, Ia]. }
  destruct Q as (s1 & E & L & G). rewrite E. destruct (IH (q :: known) s1 C2 (good_inv _ _ _ G I)) as (s2 & E2 & L2 & G2).
  { intros a [Ha|Ia]; [subst; exact L|apply G, K, Ia]. }
  exists s2. split; [exact E2|]. split; [|eapply good_trans; eauto]. intros a [Ha|Ia]; [subst; apply G2, L|apply L2, Ia].
Qed.
Lemma statement_loads ld i m d : loads ld i -> returns_loaded ld -> dep_ok m i d = true -> forall s, inv s i -> (forall a, In a (dotted m) -> loaded s a = true) ->
  exists s', statement ld s d = (s', true) /\ good s s'.
Proof.
  intros LD RL D s I K. destruct d as [t ns]. unfold dep_ok in D. unfold statement. destruct (mem (hd "" (dotted t)) external); [exists s; split; [reflexivity|apply good_refl; eauto]|].
  cbn [orb] in D. apply andb_prop in D. destruct D as [D1 D2]. destruct (chain_loads ld i LD RL _ _ s D1 I K) as (s1 & E1 & L1 & G1). rewrite E1.
  assert (IT : forall ns s1, forallb (fun n => (below t i && match find_file t with Some f => mem n (provides f) | None => false end)
     || (below (append t (append "." n)) i && forallb (fun a => mem a (dotted t)) (ancestors (append t (append "." n))))) ns = true -> inv s1 i -> (forall a, In a (dotted t) -> loaded s1 a = true) ->
     (below t i = true -> loaded s1 t = true) ->
     exists s2, in_order (fun s n => if finished s t && match find_file t with Some f => mem n (provides f) | None => false end then (s, true) else ld s (append t (append "." n))) ns s1 = (s2, true) /\ good s1 s2).
  { clear - LD RL. induction ns as [|n ns IH]; intros s1 D I L LT.
    { exists s1. split; [reflexivity|apply good_refl; eauto]. }
    cbn [forallb] in D. apply andb_prop in D. destruct D as [D1 D2]. cbn [in_order].
    assert (Q : exists s2, (if finished s1 t && match find_file t with Some f => mem n (provides f) | None => false end then (s1, true) else ld s1 (append t (append "." n))) = (s2, true) /\ good s1 s2).
    { destruct (finished s1 t && match find_file t with Some f => mem n (provides f) | None => false end) eqn:F; [exists s1; split; [reflexivity|apply good_refl; eauto]|].
      apply orb_prop in D1. destruct D1 as [D1|D1].
      - exfalso. apply andb_prop in D1. destruct D1 as [B P]. unfold below in *. destruct (rank t) as [j|] eqn:R; [|discriminate].
        rewrite (inv_finished s1 i t j I (LT B) R) in F by (now apply Nat.ltb_lt). rewrite P in F. discriminate.
      - apply andb_prop in D1. destruct D1 as [B A]. unfold below in B. destruct (rank (append t (append "." n))) as [j|] eqn:R; [|discriminate]. apply Nat.ltb_lt in B. rewrite forallb_forall in A.
        destruct (LD s1 _ j R B) as (s2 & E & _ & G); [apply (inv_weaken s1 i); [lia|exact I]|intros a Ia; apply L, mem_In, A, Ia|].
        exists s2. auto. }
    destruct Q as (s2 & E & G). rewrite E. destruct (IH s2 D2 (good_inv _ _ _ G I)) as (s3 & E3 & G3); [intros a Ia; apply G, L, Ia|intros B; apply G, LT, B|].
    exists s3. split; [exact E3|]. eapply good_trans; eauto. }
  destruct (IT ns s1 D2 (good_inv _ _ _ G1 I) L1) as (s2 & E2 & G2).
  { intros B. apply L1. clear - B. unfold below in B. destruct (rank t) as [j|] eqn:R; [|discriminate]. 
    assert (T : forallb (fun f => mem (name f) (dotted (name f))) sound_files = true) by (vm_compute; reflexivity). rewrite forallb_forall in T.
    destruct (position_nth _ _ _ R) as (f & A & <- & _). apply mem_In, T. eapply nth_error_In, A. }
  exists s2. split; [exact E2|]. eapply good_trans; eauto.
Qed.
Lemma load_returns n : n <> 0 -> returns_loaded (load n).
Proof. intros N s m L. destruct n; [congruence|]. cbn [load]. now rewrite L. Qed.
Lemma self_dotted m j : rank m = Some j -> forall a, In a (dotted m) -> a = m \/ In a (ancestors m).
Proof.
  intros R a. assert (T : forallb (fun f => forallb (fun a => String.eqb a (name f) || mem a (ancestors (name f))) (dotted (name f))) sound_files = true) by (vm_compute; reflexivity).
  rewrite forallb_forall in T. destruct (position_nth _ _ _ R) as (f & A & <- & _). specialize (T f (nth_error_In _ _ A)). rewrite forallb_forall in T.
  intros I. specialize (T a I). apply orb_prop in T. destruct T as [T|T]; [left; now apply String.eqb_eq|right; now apply mem_In].
Qed.
Lemma loaded_finish m s q : loaded (finish m s) q = loaded s q.
Proof.
  unfold loaded, finish. f_equal. rewrite map_map. apply map_ext. intros [a b]. cbn [fst]. destruct (String.eqb_spec a m); [now subst|reflexivity].
Qed.
Lemma finish_false m s q : In (q, false) (finish m s) -> q <> m /\ In (q, false) s.
Proof.
  unfold finish. rewrite in_map_iff. intros ([a b] & E & I). cbn [fst] in E. destruct (String.eqb_spec a m) as [A|A]; [discriminate|]. injection E as -> ->. auto.
Qed.
Lemma finish_any m s q b : In (q, b) (finish m s) -> exists b', In (q, b') s.
Proof.
  unfold finish. rewrite in_map_iff. intros ([a c] & E & I). cbn [fst] in E. destruct (String.eqb_spec a m) as [A|A].
  - injection E as <- <-. subst. eauto.
  - injection E as -> ->. eauto.
Qed.
Lemma load_S n s m : load (S n) s m = if loaded s m then (s, true) else match find_file m with None => (s, false) | Some f =>
  match in_order (statement (load n)) (deps f) ((m, false) :: s) with (s, true) => (finish m s, true) | (s, false) => (remove m s, false) end end.
Proof. reflexivity. Qed.
Lemma load_loads : forall n, loads (load (S n)) n.
Proof.
  induction n as [|n IHn]; intros s m j R J I A; [lia|].
  rewrite load_S. destruct (loaded s m) eqn:L. { exists s. split; [reflexivity|]. split; [auto|apply good_refl; eauto]. }
  destruct (rank_file m j R) as (f & F & _ & D). rewrite F.
  assert (LJ : loads (load (S n)) j) by (intros s1 m1 j1 R1 J1; apply IHn; [exact R1|lia]).
  assert (RL : returns_loaded (load (S n))) by now apply load_returns.
  assert (Q : forall l s, forallb (dep_ok m j) l = true -> inv s j -> (forall a, In a (dotted m) -> loaded s a = true) -> exists s', in_order (statement (load (S n))) l s = (s', true) /\ good s s').
  { induction l as [|d l IHl]; intros s1 Dl Il K; [exists s1; split; [reflexivity|apply good_refl; eauto]|].
    cbn [forallb] in Dl. apply andb_prop in Dl. destruct Dl as [D1 D2]. cbn [in_order].
    destruct (statement_loads _ j m d LJ RL D1 s1 Il K) as (s2 & E & G). rewrite E.
    destruct (IHl s2 D2 (good_inv _ _ _ G Il)) as (s3 & E3 & G3); [intros a Ia; apply G, K, Ia|].
    exists s3. split; [exact E3|]. eapply good_trans; eauto. }
  destruct (Q (deps f) ((m, false) :: s) D) as (s2 & E & G & O & U).
  - intros q b [E|Iq]; [injection E as <- <-; exists j; split; [exact R|lia]|]. destruct (I q b Iq) as (k & K & B). exists k. split; [exact K|]. intros Eb. specialize (B Eb). lia.
  - intros a Ia. destruct (self_dotted m j R a Ia) as [->|Ha].
    + apply loaded_In. exists false. now left.
    + apply loaded_In. specialize (A a Ha). apply loaded_In in A. destruct A as [b B]. exists b. now right.
  - exists (finish m s2). rewrite E. split; [reflexivity|].
    split; [rewrite loaded_finish; apply G, loaded_In; exists false; now left|]. split; [|split].
    + intros q Lq. rewrite loaded_finish. apply G. apply loaded_In in Lq. destruct Lq as [b B]. apply loaded_In. exists b. now right.
    + intros q b Iq. apply finish_any in Iq. destruct Iq as [b' Iq]. exact (O q b' Iq).
    + intros q Iq. apply finish_false in Iq. destruct Iq as [Nq Iq]. apply U in Iq. destruct Iq as [E1|Iq]; [injection E1 as <-; congruence|exact Iq].
Qed.

(** what every import, successful or not, keeps: only files of the package are loaded, and only sound ones completely *)
Definition keeps_ (s : modules) : Prop := forall q b, In (q, b) s -> find_file q <> None /\ (b = true -> rank q <> None).
Definition tame (s s' : modules) : Prop := keeps_ s -> keeps_ s' /\ less s s'.
Lemma tame_refl s : tame s s.
Proof. intros K. auto. Qed.
Lemma in_order_tame {A} (f : modules -> A -> modules * bool) : (forall s a, tame s (fst (f s a))) -> forall l s, tame s (fst (in_order f l s)).
Proof.
  intros T. induction l as [|a l IH]; intros s K; [now apply tame_refl|]. cbn [in_order]. pose proof (T s a K) as [K1 L1]. destruct (f s a) as [s1 [|]]; cbn [fst] in *; [|auto].
  destruct (IH s1 K1) as [K2 L2]. split; [exact K2|]. eauto.
Qed.
Lemma statement_tame ld : (forall s a, tame s (fst (ld s a))) -> forall s d, tame s (fst (statement ld s d)).
Proof.
  intros T s [m ns] K. unfold statement. destruct (mem _ _); [now apply tame_refl|]. pose proof (in_order_tame ld T (dotted m) s K) as [K1 L1].
  destruct (in_order ld (dotted m) s) as [s1 [|]]; cbn [fst] in *; [|auto].
  assert (Q : tame s1 (fst (in_order (fun s n => if finished s m && match find_file m with Some f => mem n (provides f) | None => false end then (s, true) else ld s (append m (append "." n))) ns s1))).
  { apply in_order_tame. intros s2 n. destruct (_ && _); [apply tame_refl|apply T]. }
  destruct (Q K1) as [K2 L2]. split; [exact K2|eauto].
Qed.
(** a module name that no file has never loads *)
Lemma missing_fails n m s : find_file m = None -> keeps_ s -> snd (load n s m) = false.
Proof.
  intros F K. destruct n as [|n]; [reflexivity|]. rewrite load_S. destruct (loaded s m) eqn:L; [|now rewrite F].
  apply loaded_In in L. destruct L as [b B]. destruct (K m b B) as [X _]. congruence.
Qed.
Lemma last_fails {A} (f : modules -> A -> modules * bool) : (forall s a, tame s (fst (f s a))) -> forall l a, (forall s, keeps_ s -> snd (f s a) = false) -> forall s, keeps_ s -> snd (in_order f (app l [a]) s) = false.
Proof.
  intros T. induction l as [|b l IH]; intros a F s K; cbn [in_order app].
  - specialize (F s K). destruct (f s a) as [s1 b]. cbn [snd] in *. now subst.
  - pose proof (T s b K) as [K1 _]. destruct (f s b) as [s1 [|]]; cbn [fst] in *; [|reflexivity]. now apply IH.
Qed.
Lemma broken_fails n m f s : (forall s a, tame s (fst (load n s a))) -> find_file m = Some f -> rank m = None -> keeps_ s -> snd (in_order (statement (load n)) (deps f) s) = false.
Proof.
  intros T F R K. assert (B : In f broken_files).
  { unfold find_file, package in F. unfold rank in R. clear - F R. induction sound_files as [|g l IH].
    - cbn [app] in F. eapply find_some, F.
    - cbn [position] in R. cbn [app find] in F. destruct (String.eqb (name g) m); [discriminate|]. destruct (position m l); [discriminate|]. auto. }
  assert (ST := statement_tame (load n) T).
  destruct B as [<-|[<-|[]]]; cbn [deps].
  - change [("aerokit.aero.Isentropic", []); ("aerokit.aero.MassFlow", @nil string); ("aerokit.IterativeSolve", [])] with (app [("aerokit.aero.Isentropic", []); ("aerokit.aero.MassFlow", @nil string)] [("aerokit.IterativeSolve", [])]).
    apply (last_fails (statement (load n)) ST); [|exact K]. intros s1 K1. unfold statement.
    change (mem (hd "" (dotted "aerokit.IterativeSolve")) external) with false. change (dotted "aerokit.IterativeSolve") with (app ["aerokit"] ["aerokit.IterativeSolve"]).
    pose proof (last_fails (load n) T ["aerokit"] "aerokit.IterativeSolve" (fun s K => missing_fails n "aerokit.IterativeSolve" s eq_refl K) s1 K1) as X.
    destruct (in_order (load n) _ s1) as [s2 b]. cbn [snd] in X. subst b. reflexivity.
  - cbn [in_order]. unfold statement.
    change (mem (hd "" (dotted "dicovar")) external) with false. change (dotted "dicovar") with (app [] ["dicovar"]).
    pose proof (last_fails (load n) T [] "dicovar" (fun s K => missing_fails n "dicovar" s eq_refl K) s K) as X.
    destruct (in_order (load n) _ s) as [s2 b]. cbn [snd] in X. subst b. reflexivity.
Qed.
Lemma load_tame : forall n s m, tame s (fst (load n s m)).
Proof.
  induction n as [|n IH]; intros s m K; [now apply tame_refl|]. rewrite load_S. destruct (loaded s m) eqn:L; [now apply tame_refl|].
  destruct (find_file m) as [f|] eqn:F; [|now apply tame_refl].
  assert (K1 : keeps_ ((m, false) :: s)) by (intros q b [E|I]; [injection E as <- <-; split; [congruence|discriminate]|exact (K q b I)]).
  pose proof (in_order_tame _ (statement_tame _ IH) (deps f) _ K1) as [K2 L2].
  pose proof (broken_fails n m f ((m, false) :: s) IH F) as B.
  destruct (in_order (statement (load n)) (deps f) ((m, false) :: s)) as [s2 [|]]; cbn [fst snd] in *.
  - assert (Rm : rank m <> None) by (intros E; specialize (B E K1); discriminate).
    split.
    + intros q b I. split; [apply finish_any in I; destruct I as [b' I]; exact (proj1 (K2 q b' I))|].
      intros ->. unfold finish in I. rewrite in_map_iff in I. destruct I as ([a c] & E & I). cbn [fst] in E. destruct (String.eqb_spec a m) as [A|A]; [injection E as <-; exact Rm|injection E as <- E]. subst c. exact (proj2 (K2 a true I) eq_refl).
    + intros q I. apply finish_false in I. destruct I as [N I]. apply L2 in I. destruct I as [E|I]; [injection E as <-; congruence|exact I].
  - split.
    + intros q b I. unfold remove in I. apply filter_In in I. exact (K2 q b (proj1 I)).
    + intros q I. unfold remove in I. apply filter_In in I. destruct I as [I N]. cbn [fst] in N. apply L2 in I. destruct I as [E|I]; [injection E as <-; rewrite String.eqb_refl in N; discriminate|exact I].
Qed.
Definition settled (s : modules) : Prop := keeps_ s /\ forall q, ~ In (q, false) s.
Lemma import_settled m s : settled s -> settled (fst (import_ m s)).
Proof.
  intros [K N]. unfold import_. pose proof (statement_tame _ (load_tame (S (List.length package))) s (m, []) K) as [K1 L1]. split; [exact K1|]. intros q I. exact (N q (L1 q I)).
Qed.
Lemma session_settled : forall h s, settled s -> settled (session h s).
Proof. induction h as [|m h IH]; intros s S; [exact S|]. cbn [session]. apply IH, import_settled, S. Qed.
Lemma empty_settled : settled [].
Proof. split; [intros q b []|intros q []]. Qed.
Lemma settled_inv s i : settled s -> inv s i.
Proof.
  intros [K N] q b I. destruct b; [|elim (N q I)]. destruct (K q true I) as [_ R]. specialize (R eq_refl). destruct (rank q) as [j|]; [|congruence]. exists j. split; [reflexivity|discriminate].
Qed.
Lemma top_ok : forallb (fun f => dep_ok "" (List.length sound_files) (name f, [])) sound_files = true.
Proof. vm_compute. reflexivity. Qed.
Lemma sound_chain : forallb (fun f => chain_ok [] (dotted (name f)) (List.length sound_files) && negb (mem (hd "" (dotted (name f))) external) && mem (name f) (dotted (name f))) sound_files = true.
Proof. vm_compute. reflexivity. Qed.
Lemma import_sound f s : In f sound_files -> settled s -> exists s', import_ (name f) s = (s', true) /\ loaded s' (name f) = true /\ grows s s'.
Proof.
  intros I S. pose proof sound_chain as C. rewrite forallb_forall in C. specialize (C f I). apply andb_prop in C. destruct C as [C M]. apply andb_prop in C. destruct C as [C E]. apply negb_true_iff in E.
  destruct (chain_loads (load (Datatypes.S (List.length package))) (List.length sound_files)) with (l := dotted (name f)) (known := @nil string) (s := s) as (s1 & E1 & L1 & G1).
  - intros s1 m1 j1 R1 J1. apply load_loads; [exact R1|]. unfold package. rewrite app_length. lia.
  - now apply load_returns.
  - exact C.
  - now apply settled_inv.
  - intros a [].
  - exists s1. split; [|split; [apply L1, mem_In, M|apply G1]]. unfold import_, statement. rewrite E, E1. reflexivity.
Qed.
Lemma settled_finished s m : settled s -> loaded s m = true -> finished s m = true.
Proof.
  intros [K N] L. apply loaded_In in L. destruct L as [b B]. destruct b; [|elim (N m B)]. unfold finished. rewrite existsb_exists. exists (m, true). split; [exact B|]. cbn [fst snd]. now rewrite String.eqb_refl.
Qed.
Lemma in_package f : In f package -> In f sound_files \/ name f = "aerokit.aero.Propulsion" \/ name f = "aerokit.common.extendvar".
Proof. unfold package. rewrite in_app_iff. intros [I|[<-|[<-|[]]]]; auto. Qed.
(*@P C78_imports_partial: After every session of import statements, in any order, of modules of the package or any other names, failed or not, the next import of any module of the package other than aerokit.aero.Propulsion and aerokit.common.extendvar succeeds: it runs into no missing module, missing name or import cycle, its body has run to the end, and so have the bodies of all modules then in sys.modules. PARTIAL: the two others fail, see C78_imports_refuted. *)
Lemma imports_succeed : forall h f, In f package -> name f <> "aerokit.aero.Propulsion" -> name f <> "aerokit.common.extendvar" ->
  exists s, import_ (name f) (session h []) = (s, true) /\ finished s (name f) = true /\ (forall q, loaded s q = true -> finished s q = true) /\
  (forall q, loaded (session h []) q = true -> loaded s q = true).
Proof.
  intros h f I N1 N2. destruct (in_package f I) as [J|[J|J]]; [|congruence|congruence].
  pose proof (session_settled h [] empty_settled) as S. destruct (import_sound f _ J S) as (s & E & L & G). exists s. split; [exact E|].
  pose proof (import_settled (name f) _ S) as S1. rewrite E in S1. cbn [fst] in S1. split; [now apply settled_finished|]. split; [intros q Q; now apply settled_finished|exact G].
Qed.
Lemma last_fails_ {A} (f : modules -> A -> modules * bool) (Q : modules -> Prop) : (forall s a, Q s -> Q (fst (f s a))) -> forall l a, (forall s, Q s -> snd (f s a) = false) -> forall s, Q s -> snd (in_order f (app l [a]) s) = false.
Proof.
  intros T. induction l as [|b l IH]; intros a F s K; cbn [in_order app].
  - specialize (F s K). destruct (f s a) as [s1 b]. cbn [snd] in *. now subst.
  - pose proof (T s b K) as K1. destruct (f s b) as [s1 [|]]; cbn [fst] in *; [|reflexivity]. now apply IH.
Qed.
Lemma import_broken m f s : find_file m = Some f -> rank m = None -> mem (hd "" (dotted m)) external = false -> (exists l, dotted m = app l [m]) -> settled s -> snd (import_ m s) = false.
Proof.
  intros F R X [l D] Se. unfold import_, statement. rewrite X, D.
  assert (B : snd (in_order (load (S (List.length package))) (app l [m]) s) = false).
  { apply (last_fails_ _ settled); [| |exact Se]; clear Se s.
    - intros s a [K N]. destruct (load_tame (S (List.length package)) s a K) as [K1 L1]. split; [exact K1|]. intros q I. exact (N q (L1 q I)).
    - intros s [K N]. rewrite load_S. destruct (loaded s m) eqn:L.
      { apply loaded_In in L. destruct L as [b B]. destruct b; [|elim (N m B)]. destruct (K m true B) as [_ Y]. elim (Y eq_refl R). }
      rewrite F. assert (K1 : keeps_ ((m, false) :: s)) by (intros q b [E|I]; [injection E as <- <-; split; [congruence|discriminate]|exact (K q b I)]).
      pose proof (broken_fails (List.length package) m f ((m, false) :: s) (load_tame _) F R K1) as B.
      destruct (in_order _ _ _) as [s2 b]. cbn [snd] in B. now subst. }
  destruct (in_order _ _ s) as [s2 b]. cbn [snd] in B. now subst.
Qed.
(*@P C78_imports_refuted: After every session of import statements, importing aerokit.aero.Propulsion or aerokit.common.extendvar fails: the first asks for a module aerokit.IterativeSolve, the second for a top-level module dicovar, and no file has these names. *)
Lemma imports_fail : forall h, snd (import_ "aerokit.aero.Propulsion" (session h [])) = false /\ snd (import_ "aerokit.common.extendvar" (session h [])) = false.
Proof.
  intros h. pose proof (session_settled h [] empty_settled) as S. split.
  - eapply import_broken; [reflexivity|reflexivity|reflexivity|exists ["aerokit"; "aerokit.aero"]; reflexivity|exact S].
  - eapply import_broken; [reflexivity|reflexivity|reflexivity|exists ["aerokit"; "aerokit.common"]; reflexivity|exact S].
Qed.
(*@E C78_example: A session that tries Propulsion first: the attempt fails but leaves Isentropic and MassFlow imported; the stability subpackage, whose own __init__ imports a submodule, then loads, and turbofan loads turbojet and gasgenerator. *)
Lemma session_example : let s := session ["aerokit.aero.Propulsion"; "aerokit.stability.Euler"; "aerokit.engine.turbofan"] [] in
  snd (import_ "aerokit.aero.Propulsion" []) = false /\ finished (fst (import_ "aerokit.aero.Propulsion" [])) "aerokit.aero.MassFlow" = true /\ loaded s "aerokit.aero.Propulsion" = false /\
  finished s "aerokit.stability._base" = true /\ finished s "aerokit.engine.gasgenerator" = true /\ loaded s "aerokit.aero.Rayleigh" = false.
Proof.
  vm_compute. auto 10.
Qed.
