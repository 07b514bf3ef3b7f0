(** * C64-C66: the variable dictionary *)
From Coq Require Import String List Bool Arith Lia.
From Verif Require Import M_DicoVar DicoVarSpec.
Import ListNotations.
Open Scope string_scope.
Open Scope list_scope.

Lemma lookup_store k v d w : lookup (store k v d) w = if string_dec w k then Some v else lookup d w.
Proof.
  induction d as [|[a x] d IH]; cbn [store lookup].
  - destruct (String.eqb_spec w k); destruct (string_dec w k); congruence.
  - destruct (String.eqb_spec k a) as [E|N]; cbn [lookup].
    + subst a. destruct (String.eqb_spec w k); destruct (string_dec w k); congruence.
    + rewrite IH. destruct (String.eqb_spec w a); destruct (string_dec w k); congruence.
Qed.
Lemma lookup_In d v : In v (map fst d) <-> lookup d v <> None.
Proof.
  induction d as [|[a x] d IH]; cbn [map fst lookup In]; [split; [intros []|congruence]|].
  destruct (String.eqb_spec v a) as [->|N]; [split; [congruence|auto]|]. rewrite <- IH. split; [intros [->|H]; [congruence|auto]|auto].
Qed.
Lemma store_keys k v d : NoDup (map fst d) -> NoDup (map fst (store k v d)).
Proof.
  induction d as [|[a x] d IH]; cbn [store map fst]; intros H; [constructor; [intros []|constructor]|].
  apply NoDup_cons_iff in H. destruct H as [H1 H2]. destruct (String.eqb_spec k a) as [->|N]; cbn [map fst]; constructor; auto.
  rewrite lookup_In in *. rewrite lookup_store. destruct (string_dec a k); [congruence|exact H1].
Qed.
Lemma put_same h r d : put h r d r = d. Proof. unfold put. now rewrite Nat.eqb_refl. Qed.
Lemma put_other h r d r' : r' <> r -> put h r d r' = h r'.
Proof. intros N. unfold put. destruct (Nat.eqb_spec r' r); congruence. Qed.
Lemma contains_lookup d k : contains d k = true <-> lookup d k <> None.
Proof. unfold contains. destruct (lookup d k); split; congruence. Qed.

(** the built-in databases are intact and the object's dictionary is not one of them *)
Record good (p : process) : Prop := {
  cx_ok : heap p 0 = cxDico; of_ok : heap p 1 = ofDico; own : 2 <= dv p; old : dv p < next p; keys_ok : NoDup (map fst (heap p (dv p))) }.
Definition shows (p : process) (m : names_map) : Prop := forall v, lookup (heap p (dv p)) v = m v.

Lemma shows_builtin w : forall v, lookup (match w with IC3 => cxDico | OpenFOAM => ofDico end) v = builtin w v.
Proof.
  intros v. destruct w; cbn [lookup cxDico ofDico builtin]; unfold bind, nothing_bound;
  repeat match goal with |- context [String.eqb v ?k] => destruct (String.eqb_spec v k); destruct (string_dec v k); try congruence end; reflexivity.
Qed.
Lemma elem_In s l : elem s l = true <-> In s l.
Proof. unfold elem. rewrite existsb_exists. split; [intros (x & I & E); apply String.eqb_eq in E; congruence|intros I; exists s; split; [exact I|apply String.eqb_refl]]. Qed.
(** lower-case strings found in the name lists *)
Lemma lower_idem s : lower (lower s) = lower s.
Proof.
  induction s as [|c s IH]; [reflexivity|]. cbn [lower]. rewrite IH. f_equal. destruct c as [[] [] [] [] [] [] [] []]; reflexivity.
Qed.
Lemma cx_denotes s : elem (lower s) cxNames = true <-> denotes s IC3.
Proof.
  rewrite elem_In. unfold cxNames, denotes, same_letters.
  replace (lower "IC3") with "ic3" by reflexivity. replace (lower "CharlesX") with "charlesx" by reflexivity. replace (lower "cx") with "cx" by reflexivity. cbn [In].
  split.
  - intros [H|[H|[H|[H|[H|[]]]]]]; try (rewrite <- H; tauto); exfalso; pose proof (lower_idem s) as E; rewrite <- H in E; discriminate E.
  - intros [H|[H|H]]; rewrite H; tauto.
Qed.
Lemma of_denotes s : elem (lower s) ofNames = true <-> denotes s OpenFOAM.
Proof.
  rewrite elem_In. unfold ofNames, denotes, same_letters. 
  replace (lower "OpenFOAM") with "openfoam" by reflexivity. replace (lower "of") with "of" by reflexivity. replace (lower "ofoam") with "ofoam" by reflexivity. cbn [In].
  split.
  - intros [H|[H|[H|[H|[]]]]]; try (rewrite <- H; tauto); exfalso; pose proof (lower_idem s) as E; rewrite <- H in E; discriminate E.
  - intros [H|[H|H]]; rewrite H; tauto.
Qed.
Lemma denotes_one s : denotes s IC3 -> denotes s OpenFOAM -> False.
Proof. unfold denotes, same_letters. intros [A|[A|A]] [B|[B|B]]; rewrite A in B; discriminate B. Qed.

Lemma init_spec s p : heap p 0 = cxDico -> heap p 1 = ofDico -> 2 <= next p ->
  let (p', r) := init s p in good p' /\
  ((exists w, denotes s w /\ r = Nothing /\ shows p' (builtin w)) \/ ((forall w, ~ denotes s w) /\ r = ValueError /\ shows p' nothing_bound)).
Proof.
  intros H0 H1 N. unfold init. cbn [find_soft dataBase].
  pose proof (cx_denotes s) as C. pose proof (of_denotes s) as O.
  assert (KC : NoDup (map fst cxDico)) by (repeat (constructor; [cbn [map fst cxDico In]; intuition discriminate|]); constructor).
  assert (KO : NoDup (map fst ofDico)) by (repeat (constructor; [cbn [map fst ofDico In]; intuition discriminate|]); constructor).
  destruct (elem (lower s) cxNames) eqn:EC; destruct (elem (lower s) ofNames) eqn:EO; cbn [heap next dv softName].
  - exfalso. apply (denotes_one s); [apply C|apply O]; reflexivity.
  - split.
    + constructor; cbn [heap next dv softName]; rewrite ?put_same, ?put_other, ?H0 by lia; auto; lia.
    + left. exists IC3. split; [now apply C|]. split; [reflexivity|]. intros v. cbn [heap dv]. rewrite put_same, put_other, H0 by lia. apply (shows_builtin IC3).
  - split.
    + constructor; cbn [heap next dv softName]; rewrite ?put_same, ?put_other, ?H1 by lia; auto; lia.
    + left. exists OpenFOAM. split; [now apply O|]. split; [reflexivity|]. intros v. cbn [heap dv]. rewrite put_same, put_other, H1 by lia. apply (shows_builtin OpenFOAM).
  - split.
    + constructor; cbn [heap next dv softName]; rewrite ?put_same, ?put_other, ?H0, ?H1 by lia; auto. constructor.
    + right. split; [intros [|] D; [apply C in D|apply O in D]; discriminate|]. split; [reflexivity|]. intros v. cbn [heap dv]. now rewrite put_same.
Qed.
Lemma update_spec p v s m : good p -> shows p m ->
  let q := {| heap := put (heap p) (dv p) (store v s (heap p (dv p))); next := next p; dv := dv p; softName := softName p |} in good q /\ shows q (bind v s m).
Proof.
  intros [A B C D E] S q. split.
  - constructor; unfold q; cbn [heap next dv]; rewrite ?put_same, ?put_other by lia; auto. now apply store_keys.
  - intros w. unfold q. cbn [heap dv]. rewrite put_same, lookup_store. unfold bind. destruct (string_dec w v); [reflexivity|apply S].
Qed.
Lemma step_spec o p m : good p -> shows p m -> let (p', r) := step o p in good p' /\ exists m', answered (fun _ => nothing_bound) o m r m' /\ shows p' m'.
Proof.
  intros G S.
  assert (Gt : forall v, (o = Get v \/ o = Call v \/ o = Item v) -> let (p', r) := get v p in good p' /\ exists m', answered (fun _ => nothing_bound) o m r m' /\ shows p' m').
  { intros v K. unfold get. split; [exact G|]. exists m. split; [|exact S]. rewrite (S v). destruct (m v) eqn:E; econstructor; eauto. }
  destruct o; cbn [step]; [apply Gt; auto|apply Gt; auto|apply Gt; auto|..].
  - split; [exact G|]. exists m. split; [|exact S]. constructor; [apply G|]. intros v. rewrite lookup_In. now rewrite (S v).
  - split; [exact G|]. exists m. split; [constructor|exact S].
  - unfold addVar. destruct (contains (heap p (dv p)) v) eqn:C.
    + split; [exact G|]. exists m. split; [|exact S]. constructor. rewrite <- (S v). now apply contains_lookup.
    + destruct (update_spec p v s m G S) as [U1 U2]. split; [exact U1|]. eexists. split; [|exact U2]. constructor. rewrite <- (S v). unfold contains in C. destruct (lookup _ v); congruence.
  - unfold setVar. destruct (contains (heap p (dv p)) v) eqn:C.
    + destruct (update_spec p v s m G S) as [U1 U2]. split; [exact U1|]. eexists. split; [|exact U2]. constructor. rewrite <- (S v). now apply contains_lookup.
    + split; [exact G|]. exists m. split; [|exact S]. constructor. rewrite <- (S v). unfold contains in C. destruct (lookup _ v); congruence.
  - pose proof (init_spec software p (cx_ok p G) (of_ok p G)) as I. destruct (init software p) as [p' r]. destruct I as [G' I]; [destruct G; lia|]. split; [exact G'|].
    destruct I as [(w & D & -> & Sh)|(D & -> & Sh)].
    + exists (builtin w). split; [now constructor|exact Sh].
    + exists nothing_bound. split; [now apply (a_dico_no (fun _ => nothing_bound))|exact Sh].
Qed.
Lemma explained : forall l p m, good p -> shows p m -> explains (fun _ => nothing_bound) m l (answers l p).
Proof.
  induction l as [|o l IH]; intros p m G S; cbn [answers]; [constructor|].
  pose proof (step_spec o p m G S) as K. destruct (step o p) as [p' r]. destruct K as (G' & m' & A & S'). econstructor; [exact A|intros v; reflexivity|]. now apply IH.
Qed.
Lemma imported_good : good imported /\ shows imported (builtin IC3).
Proof.
  pose proof (init_spec default {| heap := import_heap; next := 2; dv := 0; softName := "" |} eq_refl eq_refl (le_n 2)) as H. unfold imported.
  destruct (init default _) as [p r]. cbn [fst]. destruct H as [G [(w & D & _ & S)|(D & _)]].
  - split; [exact G|]. destruct w; [exact S|]. exfalso. unfold denotes, same_letters, default in D. destruct D as [D|[D|D]]; discriminate D.
  - exfalso. apply (D IC3). left. reflexivity.
Qed.
Lemma after_good : forall l p, good p -> good (after l p).
Proof.
  induction l as [|o l IH]; intros p G; cbn [after]; [exact G|]. apply IH.
  pose proof (step_spec o p _ G (fun v => eq_refl)) as K. destruct (step o p) as [p' r]. apply K.
Qed.

(*@P C64_behaves_like_a_map: For every history of calls after import - get, dv(...), dv[...], keys, printing, addVar, setVar, setDicoVar, in any order and number - the answers are those of a partial map from names to names that starts as the IC3 denominations: the three ways of reading agree and give the last value set, or ValueError for an unknown name; keys lists every bound name once; addVar binds only unknown names and setVar only known ones, a refusal changing nothing; setDicoVar accepts every capitalisation of every name of a known software and installs that software's built-in names, whatever was edited before. (After a refused setDicoVar the map is empty, see C66.) *)
Lemma behaves_like_a_map : forall h, explains (fun _ => nothing_bound) (builtin IC3) h (answers h imported).
Proof. intros h. destruct imported_good. now apply explained. Qed.

Lemma shows_answers : forall l p q, good p -> good q -> heap p (dv p) = heap q (dv q) -> answers l p = answers l q.
Proof.
  induction l as [|o l IH]; intros p q Gp Gq E; cbn [answers]; [reflexivity|].
  assert (K : snd (step o p) = snd (step o q) /\ heap (fst (step o p)) (dv (fst (step o p))) = heap (fst (step o q)) (dv (fst (step o q)))).
  { destruct o; cbn [step get fst snd]; rewrite ?E; auto.
    - unfold addVar. rewrite E. destruct (contains _ v); cbn [fst snd heap dv]; rewrite ?put_same; auto.
    - unfold setVar. rewrite E. destruct (contains _ v); cbn [fst snd heap dv]; rewrite ?put_same; auto.
    - unfold init. cbn [find_soft dataBase]. destruct Gp as [p0 p1 p2 p3 _], Gq as [q0 q1 q2 q3 _].
      destruct (elem _ cxNames); destruct (elem _ ofNames); cbn [fst snd heap dv next]; rewrite ?put_same; rewrite ?put_other by lia; rewrite ?p0, ?p1, ?q0, ?q1; auto; rewrite ?put_other by lia; rewrite ?p1, ?q1; auto. }
  pose proof (step_spec o p _ Gp (fun v => eq_refl)) as Sp. pose proof (step_spec o q _ Gq (fun v => eq_refl)) as Sq.
  destruct (step o p) as [p' r], (step o q) as [q' r']. cbn [fst snd] in K. destruct K as [-> K]. f_equal. apply IH; [apply Sp|apply Sq|exact K].
Qed.
(*@P C64_reset: Edits never reach the built-in databases: after any history, a setDicoVar of a known software followed by any further calls gives exactly the answers it would give right after import. *)
Lemma reset : forall h s w l, denotes s w -> answers (SetDicoVar s :: l) (after h imported) = answers (SetDicoVar s :: l) imported.
Proof.
  intros h s w l D. destruct imported_good as [G _]. pose proof (after_good h _ G) as G'.
  cbn [answers step]. 
  assert (K : snd (init s (after h imported)) = snd (init s imported) /\ heap (fst (init s (after h imported))) (dv (fst (init s (after h imported)))) = heap (fst (init s imported)) (dv (fst (init s imported)))).
  { unfold init. cbn [find_soft dataBase]. destruct G as [p0 p1 p2 p3 _], G' as [q0 q1 q2 q3 _].
    destruct (elem _ cxNames); destruct (elem _ ofNames); cbn [fst snd heap dv next]; rewrite ?put_same; rewrite ?put_other by lia; rewrite ?p0, ?p1, ?q0, ?q1; auto; rewrite ?put_other by lia; rewrite ?p1, ?q1; auto. }
  pose proof (step_spec (SetDicoVar s) _ _ G (fun v => eq_refl)) as Sp. pose proof (step_spec (SetDicoVar s) _ _ G' (fun v => eq_refl)) as Sq. cbn [step] in Sp, Sq.
  destruct (init s (after h imported)) as [p' r], (init s imported) as [q' r']. cbn [fst snd] in K. destruct K as [-> K]. f_equal. apply shows_answers; [apply Sq|apply Sp|exact K].
Qed.
(*@E C64_example: Example: after import, reading rho by index, renaming it, adding Ma, a refused addVar, switching to OpenFOAM spelled OpenFoam, and reading rho again. *)
Lemma example : denotes "OpenFoam" OpenFOAM /\
  answers [Item "rho"; SetVar "rho" "RHO2"; Call "rho"; AddVar "Ma" "MACH"; AddVar "rho" "x"; Get "Ma"; SetDicoVar "OpenFoam"; Item "rho"; Item "rho_avg"] imported =
  [Returns "RHO"; Nothing; Returns "RHO2"; Nothing; ValueError; Returns "MACH"; Nothing; ValueError; Returns "rhoAVG"].
Proof. split; [left; reflexivity|vm_compute; reflexivity]. Qed.

(*@P C65_case_refuted: Names are not case-insensitive as the module notes promise (dv['U_avg'] <=> dv['u_avg']): right after import, or after switching to any known software, every name that differs from all bound names, even if only by capitals, is refused with ValueError although the name in the right capitals is found; 'U_avg' against 'u_avg' is an instance. *)
Lemma case_refuted :
  (forall s w, denotes s w -> forall k u, builtin w k <> None -> same_letters u k -> builtin w u = None ->
     exists name, answers [SetDicoVar s; Get k; Get u; Item u; Call u] imported = [Nothing; Returns name; ValueError; ValueError; ValueError]) /\
  answers [Item "u_avg"; Item "U_avg"] imported = [Returns "U_AVG"; ValueError] /\ same_letters "U_avg" "u_avg".
Proof.
  split; [|split; vm_compute; reflexivity]. intros s w D k u K U N. destruct imported_good as [G S]. cbn [answers step].
  pose proof (init_spec s imported (cx_ok _ G) (of_ok _ G)) as I. destruct (init s imported) as [p r]. destruct I as [_ I]; [destruct G; lia|].
  destruct I as [(w' & D' & -> & Sh)|(D' & _)]; [|exfalso; exact (D' w D)].
  assert (w' = w) as -> by (destruct w, w'; try reflexivity; exfalso; eapply denotes_one; eassumption).
  unfold get. rewrite (Sh k), (Sh u), N. destruct (builtin w k) as [n|]; [|congruence]. now exists n.
Qed.
(*@P C65_case_partial: Names that are equal letter for letter are found whatever happened before: a name read successfully once keeps being readable, in all three ways, as long as no setDicoVar intervenes. PARTIAL: only exact spelling; the promised case-insensitivity is refuted in C65_case_refuted. *)
Lemma case_partial : forall h l v s, snd (step (Get v) (after h imported)) = Returns s ->
  Forall (fun o => forall n, o <> SetDicoVar n) l -> exists s', Forall (fun o => snd (step o (after l (after h imported))) = Returns s') [Get v; Call v; Item v].
Proof.
  intros h l v s R NS. destruct imported_good as [G _]. pose proof (after_good h _ G) as Gh. clear G. revert s R Gh NS. generalize (after h imported). clear h.
  induction l as [|o l IH]; intros p s R G NS; cbn [after].
  - exists s. repeat constructor; exact R.
  - inversion NS as [|? ? N1 N2]; subst. pose proof (step_spec o p _ G (fun v => eq_refl)) as K. destruct (step o p) as [p' r] eqn:E. destruct K as (G' & m' & A & S').
    cbn [fst]. cbn [step get snd] in R. destruct (lookup (heap p (dv p)) v) as [x|] eqn:L; [|discriminate].
    assert (M : exists y, m' v = Some y).
    { inversion A; subst; try (exists x; assumption); try (unfold bind; destruct (string_dec v v0); eexists; eauto; fail); exfalso; eapply N1; reflexivity. }
    destruct M as [y M]. apply (IH p' y); auto. cbn [step get snd]. rewrite (S' v), M. reflexivity.
Qed.

(*@P C66_refused_refuted: A refused setDicoVar does not keep the current database: for every history and every software name that is not known, setDicoVar raises ValueError and leaves the dictionary empty - afterwards every name, also one that could be read before, is refused, and keys is empty - and the only ways out are addVar and another setDicoVar. *)
Lemma refused_refuted : forall h s v, (forall w, ~ denotes s w) ->
  answers [SetDicoVar s; Get v; Call v; Item v; SetVar v s; Keys] (after h imported) = [ValueError; ValueError; ValueError; ValueError; ValueError; KeyList []].
Proof.
  intros h s v D. destruct imported_good as [G _]. pose proof (after_good h _ G) as Gh. cbn [answers step].
  pose proof (init_spec s _ (cx_ok _ Gh) (of_ok _ Gh)) as I. destruct (init s (after h imported)) as [p r]. destruct I as [Gp I]; [destruct Gh; lia|].
  destruct I as [(w' & D' & _)|(_ & -> & Sh)]; [exfalso; exact (D w' D')|].
  unfold get, setVar, contains. rewrite (Sh v). cbn [nothing_bound]. do 5 f_equal. do 2 f_equal.
  destruct (heap p (dv p)) as [|[a x] d] eqn:E; [reflexivity|]. specialize (Sh a). rewrite E in Sh. cbn [lookup] in Sh. rewrite String.eqb_refl in Sh. discriminate.
Qed.
(*@P C66_refused_partial: What does survive a refused setDicoVar: the built-in databases, so that a later setDicoVar of a known software recovers all its names as after import. PARTIAL: the current database is lost, see C66_refused_refuted. *)
Lemma refused_partial : forall h s s' w v, (forall w, ~ denotes s w) -> denotes s' w ->
  answers [SetDicoVar s'; Get v] (after (h ++ [SetDicoVar s]) imported) = [Nothing; match builtin w v with Some n => Returns n | None => ValueError end].
Proof.
  intros h s s' w v D D'. rewrite (reset _ _ w _ D'). destruct imported_good as [G _]. cbn [answers step].
  pose proof (init_spec s' imported (cx_ok _ G) (of_ok _ G)) as I. destruct (init s' imported) as [p r]. destruct I as [_ I]; [destruct G; lia|].
  destruct I as [(w' & D2 & -> & Sh)|(D2 & _)]; [|exfalso; exact (D2 w D')].
  assert (w' = w) as -> by (destruct w, w'; try reflexivity; exfalso; eapply denotes_one; eassumption).
  unfold get. now rewrite (Sh v).
Qed.
(*@E C66_example: Example: fluent is not a known software name, and IC3 is; after a refused switch to fluent the density name is lost. *)
Lemma refused_example : (forall w, ~ denotes "fluent" w) /\ denotes "IC3" IC3 /\ answers [Item "rho"; SetDicoVar "fluent"; Item "rho"; SetDicoVar "Cx"; Item "rho"] imported =
  [Returns "RHO"; ValueError; ValueError; Nothing; Returns "RHO"].
Proof.
  split; [intros [|]; unfold denotes, same_letters; intros [E|[E|E]]; discriminate E|]. split; [left; reflexivity|vm_compute; reflexivity].
Qed.
(*@E C65_example: a history in which a name was read successfully and then rebound, with no change of software in between. *)
Lemma C65_example_lemma : answers [Get "u_avg"; Call "u_avg"; Item "u_avg"; Item "U_avg"] imported = [Returns "U_AVG"; Returns "U_AVG"; Returns "U_AVG"; ValueError] /\
  snd (step (Get "u_avg") (after [Item "U_avg"] imported)) = Returns "U_AVG" /\ Forall (fun o => forall n, o <> SetDicoVar n) [Item "U_avg"; Call "u_avg"].
Proof. split; [vm_compute; reflexivity|]. split; [vm_compute; reflexivity|]. repeat constructor; discriminate. Qed.
