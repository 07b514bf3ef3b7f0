(** * Facts about straight-line method bodies *)
From Coq Require Import String.
From Verif Require Import Num M_Obj.

Fixpoint reads (e : expr) : list string :=
  match e with
  | V a => [a] | L _ => [] | F1 _ e => reads e
  | F2 _ e1 e2 => reads e1 ++ reads e2
  | F4 _ e1 e2 e3 e4 => reads e1 ++ reads e2 ++ reads e3 ++ reads e4
  end.
Definition mem (a : string) (l : list string) : bool := existsb (String.eqb a) l.
Definition writes (p : prog) : list string := map fst p.
(** the program reads only [ins] or what it has written before *)
Fixpoint closed (ins : list string) (p : prog) : bool :=
  match p with
  | [] => true
  | (a, e) :: p => forallb (fun b => mem b ins) (reads e) && closed (a :: ins) p
  end.
Definition disjoint (l m : list string) : bool := forallb (fun b => negb (mem b m)) l.

Lemma mem_in a l : mem a l = true <-> In a l.
Proof.
  unfold mem. rewrite existsb_exists. split.
  - intros (x & I & E). apply String.eqb_eq in E. now subst.
  - intros I. exists a. split; [exact I|apply String.eqb_refl].
Qed.
Lemma upd_same a v o : upd a v o a = Some v.
Proof. unfold upd. now rewrite String.eqb_refl. Qed.
Lemma upd_other a b v o : b <> a -> upd a v o b = o b.
Proof. intros N. unfold upd. apply String.eqb_neq in N. now rewrite N. Qed.

Lemma eval_ext o o' e : (forall a, In a (reads e) -> o a = o' a) -> eval o e = eval o' e.
Proof.
  induction e; cbn [reads eval]; intros H; auto.
  - apply H. now left.
  - rewrite IHe; auto.
  - rewrite IHe1, IHe2; auto; intros; apply H; apply in_or_app; auto.
  - rewrite IHe1, IHe2, IHe3, IHe4; auto; intros; apply H; repeat (apply in_or_app; auto; try (left; assumption); right); auto.
Qed.
Lemma eval_some o e : (forall a, In a (reads e) -> o a <> None) -> exists v, eval o e = Some v.
Proof.
  induction e; cbn [reads eval]; intros H; eauto.
  - destruct (o a) eqn:E; eauto. exfalso. apply (H a); auto. now left.
  - destruct IHe as [x ->]; eauto.
  - destruct IHe1 as [x ->]; [intros; apply H; apply in_or_app; auto|]. destruct IHe2 as [y ->]; [intros; apply H; apply in_or_app; auto|]. eauto.
  - destruct IHe1 as [x ->]; [intros; apply H; apply in_or_app; auto|].
    destruct IHe2 as [y ->]; [intros; apply H; apply in_or_app; right; apply in_or_app; auto|].
    destruct IHe3 as [z ->]; [intros; apply H; apply in_or_app; right; apply in_or_app; right; apply in_or_app; auto|].
    destruct IHe4 as [t ->]; [intros; apply H; apply in_or_app; right; apply in_or_app; right; apply in_or_app; auto|]. eauto.
Qed.
Lemma run_app p q o : run (p ++ q) o = match run p o with Some o' => run q o' | None => None end.
Proof. revert o; induction p as [|[a e] p IH]; intros o; cbn [app run]; [reflexivity|]. destruct (eval o e); [apply IH|reflexivity]. Qed.
Lemma run_frame : forall p o o' b, run p o = Some o' -> ~ In b (writes p) -> o' b = o b.
Proof.
  induction p as [|[a e] p IH]; intros o o' b; cbn [run writes map fst].
  - intros H _. now injection H as ->.
  - destruct (eval o e) as [v|]; [|discriminate]. intros H N. rewrite (IH _ _ b H).
    + apply upd_other. intros ->. apply N. now left.
    + intros I. apply N. now right.
Qed.
(** attributes never disappear *)
Lemma run_keeps : forall p o o' b, run p o = Some o' -> o b <> None -> o' b <> None.
Proof.
  induction p as [|[a e] p IH]; intros o o' b; cbn [run].
  - intros H. now injection H as ->.
  - destruct (eval o e) as [v|]; [|discriminate]. intros H N. apply (IH _ _ b H).
    destruct (string_dec b a) as [->|Q]; [rewrite upd_same; discriminate|now rewrite upd_other].
Qed.
Lemma run_writes : forall p o o' b, run p o = Some o' -> In b (writes p) -> o' b <> None.
Proof.
  induction p as [|[a e] p IH]; intros o o' b; cbn [run writes map fst]; [intros _ []|].
  destruct (eval o e) as [v|]; [|discriminate]. intros H [<-|I].
  - apply (run_keeps _ _ _ _ H). rewrite upd_same. discriminate.
  - apply (IH _ _ _ H I).
Qed.
Lemma run_total : forall p ins o, closed ins p = true -> (forall a, In a ins -> o a <> None) -> exists o', run p o = Some o'.
Proof.
  induction p as [|[a e] p IH]; intros ins o; cbn [closed run]; [eauto|].
  intros C I. apply andb_prop in C. destruct C as [C1 C2].
  destruct (eval_some o e) as [v ->].
  { intros b B. apply I. apply mem_in. rewrite forallb_forall in C1. now apply C1. }
  apply (IH _ _ C2). intros b [<-|B]; [rewrite upd_same; discriminate|].
  destruct (string_dec b a) as [->|Q]; [rewrite upd_same; discriminate|rewrite upd_other; auto].
Qed.
(** an assignment whose target and inputs are not touched afterwards holds in the final state *)
Lemma run_equation p1 a e p2 o o' : run (p1 ++ (a, e) :: p2) o = Some o' ->
  mem a (writes p2) = false -> disjoint (reads e) (a :: writes p2) = true -> o' a = eval o' e.
Proof.
  intros H N D. rewrite run_app in H. destruct (run p1 o) as [o1|]; [|discriminate]. cbn [run] in H.
  destruct (eval o1 e) as [v|] eqn:E; [|discriminate].
  assert (N' : ~ In a (writes p2)) by (intros I; apply mem_in in I; congruence).
  rewrite (run_frame _ _ _ a H N'), upd_same, <- E. apply eval_ext. intros b B.
  unfold disjoint in D. rewrite forallb_forall in D. specialize (D b B). apply negb_true_iff in D.
  rewrite (run_frame _ _ _ b H).
  - symmetry. apply upd_other. intros ->. assert (mem a (a :: writes p2) = true) by (apply mem_in; now left). congruence.
  - intros I. assert (mem b (a :: writes p2) = true) by (apply mem_in; now right). congruence.
Qed.
(** the list of such assignments *)
Fixpoint lasting (p : prog) : prog :=
  match p with
  | [] => []
  | (a, e) :: p =>
    if negb (mem a (writes p)) && disjoint (reads e) (a :: writes p) then (a, e) :: lasting p else lasting p
  end.
Lemma run_lasting : forall p o o', run p o = Some o' -> Forall (fun ae => o' (fst ae) = eval o' (snd ae)) (lasting p).
Proof.
  induction p as [|[a e] p IH]; intros o o'; cbn [lasting]; [constructor|]. intros H.
  assert (H' := H). cbn [run] in H'. destruct (eval o e) as [v|] eqn:E; [|discriminate].
  destruct (negb (mem a (writes p)) && disjoint (reads e) (a :: writes p)) eqn:C; [|now apply (IH _ _ H')].
  apply andb_prop in C. destruct C as [C1 C2]. apply negb_true_iff in C1. constructor; [|now apply (IH _ _ H')].
  cbn [fst snd]. exact (run_equation [] a e p o o' H C1 C2).
Qed.
