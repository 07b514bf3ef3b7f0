(** Property theorems of L_Lazy.v. Generated by tools/gen.py; statements only, proofs are in L_Lazy.v. *)
From Coq Require Import String List Arith Lia Bool.
From Verif Require Import M_Lazy.
From Verif Require Import L_Lazy.
Import ListNotations.

(** For properties without circular dependencies (bodies otherwise arbitrary: they may raise, depend on the rest of the world, read other lazy properties), and every sequence of reads over any objects and properties: the body of a given property completes at most once per object. *)
Theorem C48_computed_at_most_once : forall (V : Type) (props : string -> body V) (rank : string -> nat) fuel requests,
  (forall n, reads_only (fun m => rank m < rank n) (props n)) ->
  NoDup (w_log (snd (reads props fuel requests world0))).
Proof. exact computed_at_most_once. Qed.
Print Assumptions C48_computed_at_most_once.

(** Once a read of property n on object o has returned v, every later read of n on o, whatever happens in between, returns v and changes nothing. *)
Theorem C48_same_value_ever_after : forall (V : Type) (props : string -> body V) (rank : string -> nat) fuel before o n v between,
  (forall n, reads_only (fun m => rank m < rank n) (props n)) ->
  let w1 := snd (reads props fuel before world0) in
  fst (read props fuel o n w1) = Some v ->
  let w2 := snd (reads props fuel between (snd (read props fuel o n w1))) in
  read props fuel o n w2 = (Some v, w2).
Proof. exact same_value_ever_after. Qed.
Print Assumptions C48_same_value_ever_after.

(** Reading a property of one object never creates, changes or removes a cached value of another object. *)
Theorem C48_objects_are_independent : forall (V : Type) (props : string -> body V) (rank : string -> nat) fuel before o n o' n',
  (forall n, reads_only (fun m => rank m < rank n) (props n)) -> o' <> o ->
  let w1 := snd (reads props fuel before world0) in
  cached (w_cache (snd (read props fuel o n w1))) (o', n') = cached (w_cache w1) (o', n').
Proof. exact objects_are_independent. Qed.
Print Assumptions C48_objects_are_independent.

(** A read that raises leaves no cached value for that property, so a later read evaluates the body again. *)
Theorem C48_exception_not_cached : forall (V : Type) (props : string -> body V) (rank : string -> nat) fuel before o n,
  (forall n, reads_only (fun m => rank m < rank n) (props n)) ->
  let w1 := snd (reads props fuel before world0) in
  fst (read props fuel o n w1) = None ->
  cached (w_cache (snd (read props fuel o n w1))) (o, n) = None.
Proof. exact exception_not_cached. Qed.
Print Assumptions C48_exception_not_cached.

(** two properties, x reading xi, on two objects; bodies that give a different value at each evaluation. *)
Example C48_example : let props := fun n : string => if String.eqb n "x" then Get "xi" (fun v => Look (fun t => Return (v + 100 * t))) else Look (fun t => Return t) in
  (forall n, reads_only (fun m => (if String.eqb m "x" then 1 else 0) < (if String.eqb n "x" then 1 else 0)) (props n)) /\
  fst (reads props 10 [(0, "x"); (1, "xi"); (0, "xi"); (1, "x"); (0, "x")]%string world0) = [Some 100; Some 2; Some 0; Some 302; Some 100].
Proof. exact lazy_ex. Qed.
