(** * Lazy properties *)
From Coq Require Import String List Arith Lia Bool.
From Verif Require Import M_Lazy.
Import ListNotations.

Section L.
Context {V : Type}.


Lemma key_eqb_spec a b : reflect (a = b) (key_eqb a b).
Proof.
  destruct a as [i s], b as [j t]; unfold key_eqb; cbn.
  destruct (Nat.eqb_spec i j), (String.eqb_spec s t); cbn; constructor; congruence.
Qed.

(** invariant: a body has completed for exactly the cached keys, once each *)
Definition ok (w : world V) : Prop :=
  map fst (w_cache w) = w_log w.
(** what a computation may change: cached values stay, new ones may appear *)
Definition grows (w w' : world V) : Prop :=
  forall k v, cached (w_cache w) k = Some v -> cached (w_cache w') k = Some v.
End L.

(** properties a body may read, at any depth of the program *)
Fixpoint reads_only {V} (P : string -> Prop) (b : body V) : Prop :=
  match b with
  | Return _ | Raise => True
  | Look k => forall t, reads_only P (k t)
  | Get n k => P n /\ forall v, reads_only P (k v)
  end.

Section L2.
Context {V : Type} (props : string -> body V) (rank : string -> nat).
Hypothesis Hrank : forall n, reads_only (fun m => rank m < rank n) (props n).

Definition good (w : world V) := ok w /\ NoDup (w_log w).

Lemma cached_none (w : world V) k : ok w -> (cached (w_cache w) k = None <-> ~ In k (w_log w)).
Proof.
  unfold ok. intros <-. induction (w_cache w) as [|[k' v] c IH]; cbn; [tauto|].
  destruct (key_eqb_spec k k') as [->|Hk]; [split; [discriminate|intros H; exfalso; auto]|].
  rewrite IH. split; [intros H [E|E]; [congruence|auto]|auto].
Qed.

Definition step_ok (n : string) (o : nat) (w : world V) (r : option V * world V) : Prop :=
  good (snd r) /\ grows w (snd r) /\
  (forall k, In k (w_log (snd r)) -> In k (w_log w) \/ (fst k = o /\ rank (snd k) <= rank n)) /\
  (forall v, fst r = Some v -> cached (w_cache (snd r)) (o, n) = Some v).

Lemma read_ok fuel : forall o n w, good w -> step_ok n o w (read props fuel o n w).
Proof.
  induction fuel as [|fuel IH]; intros o n w G; cbn [read].
  - destruct (cached (w_cache w) (o, n)) as [v|] eqn:E; cbn;
    (split; [assumption|split; [intros ? ?; auto|split; [auto|]]]); cbn; [congruence|discriminate].
  - destruct (cached (w_cache w) (o, n)) as [v|] eqn:E.
    { split; [assumption|split; [intros ? ?; auto|split; [auto|]]]; cbn; congruence. }
    set (run := fix run (b : body V) (w : world V) : option V * world V :=
        match b with
        | Return v => (Some v, w)
        | Raise => (None, w)
        | Look k => run (k (w_clock w)) (tick w)
        | Get n k =>
            match read props fuel o n w with
            | (Some v, w') => run (k v) w'
            | (None, w') => (None, w')
            end
        end).
    assert (R : forall b w, reads_only (fun m => rank m < rank n) b -> good w ->
       good (snd (run b w)) /\ grows w (snd (run b w)) /\
       (forall k, In k (w_log (snd (run b w))) -> In k (w_log w) \/ (fst k = o /\ rank (snd k) < rank n))).
    { clear w G E. induction b as [v| |k IHb|m k IHb]; intros w Hr G; cbn [run] in *.
      - cbn; split; [assumption|split; [intros ? ?; auto|auto]].
      - cbn; split; [assumption|split; [intros ? ?; auto|auto]].
      - destruct (IHb (w_clock w) (tick w) (Hr _) G) as (A & B & C). split; [exact A|split; [exact B|exact C]].
      - destruct Hr as [Hm Hk]. destruct (IH o m w G) as (A & B & C & D).
        destruct (read props fuel o m w) as [[v|] w'] eqn:Er; cbn in *.
        + destruct (IHb v w' (Hk v) A) as (A' & B' & C'). split; [exact A'|split].
          * intros ? ? ?; auto.
          * intros q Hq. destruct (C' q Hq) as [Hq'|]; [|auto]. destruct (C q Hq') as [|[? ?]]; [auto|]. right; split; [assumption|lia].
        + split; [exact A|split; [exact B|]]. intros q Hq. destruct (C q Hq) as [|[? ?]]; [auto|]. right; split; [assumption|lia]. }
    destruct (R (props n) w (Hrank n) G) as (A & B & C).
    destruct (run (props n) w) as [[v|] w'] eqn:Er; cbn [fst snd] in *.
    + assert (Hn : ~ In (o, n) (w_log w')).
      { intros Hin. destruct (C _ Hin) as [H|[_ H]]; [|cbn in H; lia]. destruct G as [G1 _]. apply (cached_none w (o, n) G1) in E. contradiction. }
      destruct A as [A1 A2]. unfold step_ok; cbn [fst snd store w_cache w_log cached].
      assert (K : key_eqb (o, n) (o, n) = true) by (destruct (key_eqb_spec (o, n) (o, n)); congruence).
      rewrite K. split; [split; [unfold ok; cbn; f_equal; exact A1|constructor; assumption]|]. split; [|split; [|auto]].
      * intros k u Hk. unfold store; cbn [w_cache cached]. destruct (key_eqb_spec k (o, n)) as [->|]; [|apply B, Hk].
        rewrite E in Hk; discriminate.
      * cbn [w_log store]. intros k [<-|Hk]; [right; cbn; auto|]. destruct (C k Hk) as [|[? ?]]; [auto|right; split; [assumption|lia]].
    + split; [exact A|split; [exact B|split]]; cbn [fst snd]; [|discriminate].
      intros k Hk. destruct (C k Hk) as [|[? ?]]; [auto|right; split; [assumption|lia]].
Qed.
Lemma reads_ok fuel l w : good w -> good (snd (reads props fuel l w)) /\ grows w (snd (reads props fuel l w)).
Proof.
  revert w; induction l as [|[o n] l IH]; intros w G; cbn [reads]; [cbn; split; [assumption|intros ? ?; auto]|].
  destruct (read_ok fuel o n w G) as (A & B & _ & _). destruct (read props fuel o n w) as [r w1]. cbn [fst snd] in *.
  destruct (IH w1 A) as [C D]. destruct (reads props fuel l w1) as [rs w2]. cbn [fst snd] in *. split; [assumption|]. intros ? ? ?; auto.
Qed.
Lemma good0 : ok (@world0 V) /\ NoDup (w_log (@world0 V)).
Proof. split; [reflexivity|constructor]. Qed.
End L2.

(*@P C48_computed_at_most_once: For properties without circular dependencies (bodies otherwise arbitrary: they may raise, depend on the rest of the world, read other lazy properties), and every sequence of reads over any objects and properties: the body of a given property completes at most once per object. *)
Lemma computed_at_most_once : forall (V : Type) (props : string -> body V) (rank : string -> nat) fuel requests,
  (forall n, reads_only (fun m => rank m < rank n) (props n)) ->
  NoDup (w_log (snd (reads props fuel requests world0))).
Proof. intros V props rank fuel l H. destruct (reads_ok props rank H fuel l world0 good0) as [[_ G] _]. exact G. Qed.

(*@P C48_same_value_ever_after: Once a read of property n on object o has returned v, every later read of n on o, whatever happens in between, returns v and changes nothing. *)
Lemma same_value_ever_after : forall (V : Type) (props : string -> body V) (rank : string -> nat) fuel before o n v between,
  (forall n, reads_only (fun m => rank m < rank n) (props n)) ->
  let w1 := snd (reads props fuel before world0) in
  fst (read props fuel o n w1) = Some v ->
  let w2 := snd (reads props fuel between (snd (read props fuel o n w1))) in
  read props fuel o n w2 = (Some v, w2).
Proof.
  intros V props rank fuel bef o n v btw H w1 E w2.
  destruct (reads_ok props rank H fuel bef world0 good0) as [G _]. fold w1 in G.
  destruct (read_ok props rank H fuel o n w1 G) as (A & _ & _ & D). specialize (D v E).
  destruct (reads_ok props rank H fuel btw _ A) as [_ B]. fold w2 in B. apply B in D.
  destruct fuel; cbn [read]; rewrite D; reflexivity.
Qed.

(*@P C48_objects_are_independent: Reading a property of one object never creates, changes or removes a cached value of another object. *)
Lemma objects_are_independent : forall (V : Type) (props : string -> body V) (rank : string -> nat) fuel before o n o' n',
  (forall n, reads_only (fun m => rank m < rank n) (props n)) -> o' <> o ->
  let w1 := snd (reads props fuel before world0) in
  cached (w_cache (snd (read props fuel o n w1))) (o', n') = cached (w_cache w1) (o', n').
Proof.
  intros V props rank fuel bef o n o' n' H Ho w1.
  destruct (reads_ok props rank H fuel bef world0 good0) as [G _]. fold w1 in G.
  destruct (read_ok props rank H fuel o n w1 G) as (A & B & C & _).
  destruct (cached (w_cache w1) (o', n')) as [v|] eqn:E; [apply B, E|].
  destruct A as [A _]. apply (cached_none _ _ A). intros Hin. destruct (C _ Hin) as [Hin'|[Hc _]].
  - destruct G as [G _]. apply (cached_none _ _ G) in E. contradiction.
  - cbn in Hc; congruence.
Qed.

(*@P C48_exception_not_cached: A read that raises leaves no cached value for that property, so a later read evaluates the body again. *)
Lemma exception_not_cached : forall (V : Type) (props : string -> body V) (rank : string -> nat) fuel before o n,
  (forall n, reads_only (fun m => rank m < rank n) (props n)) ->
  let w1 := snd (reads props fuel before world0) in
  fst (read props fuel o n w1) = None ->
  cached (w_cache (snd (read props fuel o n w1))) (o, n) = None.
Proof.
  intros V props rank fuel bef o n H w1 E.
  destruct (reads_ok props rank H fuel bef world0 good0) as [G _]. fold w1 in G.
  destruct (cached (w_cache (snd (read props fuel o n w1))) (o, n)) as [v|] eqn:Ec; [exfalso|reflexivity].
  revert E Ec. destruct fuel as [|fuel]; cbn [read].
  - destruct (cached (w_cache w1) (o, n)) eqn:E1; cbn; congruence.
  - destruct (cached (w_cache w1) (o, n)) as [u|] eqn:E1; [cbn; congruence|].
    set (run := fix run (b : body V) (w : world V) : option V * world V :=
        match b with
        | Return v => (Some v, w)
        | Raise => (None, w)
        | Look k => run (k (w_clock w)) (tick w)
        | Get n k =>
            match read props fuel o n w with
            | (Some v, w') => run (k v) w'
            | (None, w') => (None, w')
            end
        end).
    assert (R : forall b w, reads_only (fun m => rank m < rank n) b -> ok w /\ NoDup (w_log w) ->
       (ok (snd (run b w)) /\ NoDup (w_log (snd (run b w)))) /\
       (forall k, In k (w_log (snd (run b w))) -> In k (w_log w) \/ (fst k = o /\ rank (snd k) < rank n))).
    { clear - H. induction b as [v| |k IHb|m k IHb]; intros w Hr G; cbn [run] in *.
      - cbn; auto. - cbn; auto.
      - destruct (IHb (w_clock w) (tick w) (Hr _) G) as (A & B). split; [exact A|exact B].
      - destruct Hr as [Hm Hk]. destruct (read_ok props rank H fuel o m w G) as (A & B & C & D).
        destruct (read props fuel o m w) as [[v|] w'] eqn:Er; cbn in *.
        + destruct (IHb v w' (Hk v) A) as (A' & C'). split; [exact A'|].
          intros q Hq. destruct (C' q Hq) as [Hq'|]; [|auto]. destruct (C q Hq') as [|[? ?]]; [auto|]. right; split; [assumption|lia].
        + split; [exact A|]. intros q Hq. destruct (C q Hq) as [|[? ?]]; [auto|]. right; split; [assumption|lia]. }
    destruct (R (props n) w1 (H n) G) as (A & C).
    destruct (run (props n) w1) as [[v'|] w'] eqn:Er; cbn [fst snd store w_cache cached] in *.
    + destruct (key_eqb_spec (o, n) (o, n)); congruence.
    + intros _ Ec. destruct A as [A _]. assert (Hn : ~ In (o, n) (w_log w')).
      { intros Hin. destruct (C _ Hin) as [H0|[_ H0]]; [|cbn in H0; lia]. destruct G as [G1 _]. apply (cached_none w1 (o, n) G1) in E1. contradiction. }
      apply (cached_none _ _ A) in Hn. congruence.
Qed.

(*@E C48_example: two properties, x reading xi, on two objects; bodies that give a different value at each evaluation. *)
Lemma lazy_ex : let props := fun n : string => if String.eqb n "x" then Get "xi" (fun v => Look (fun t => Return (v + 100 * t))) else Look (fun t => Return t) in
  (forall n, reads_only (fun m => (if String.eqb m "x" then 1 else 0) < (if String.eqb n "x" then 1 else 0)) (props n)) /\
  fst (reads props 10 [(0, "x"); (1, "xi"); (0, "xi"); (1, "x"); (0, "x")]%string world0) = [Some 100; Some 2; Some 0; Some 302; Some 100].
Proof.
  intros props. split; [|reflexivity]. intros n. unfold props. destruct (String.eqb n "x"); cbn; auto.
Qed.
