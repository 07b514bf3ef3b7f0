(** * Model of aerokit/common/_dev.py (lazyprop)

    Objects are identified by natural numbers, properties by strings; the attributes
    [_cache_<name>] of all objects form one association list.  The body of a property is an
    arbitrary program that may read other lazy properties of the same object, look at the
    rest of the world (a clock that changes at every look, so that evaluating a body twice
    may give two values) and return a value or raise. *)
From Coq Require Import String List Arith.
Import ListNotations.

Section LAZY.
Context {V : Type}.

Inductive body :=
  | Return (v : V)
  | Raise
  | Look (k : nat -> body)              (* depends on anything else in the world *)
  | Get (name : string) (k : V -> body). (* reads self.<name>, a lazy property *)

Record world := mk_world {
  w_cache : list ((nat * string) * V);  (* the _cache_* attributes *)
  w_clock : nat;
  w_log : list (nat * string) }.        (* bodies that ran to completion, latest first *)

Definition key_eqb (a b : nat * string) : bool :=
  andb (Nat.eqb (fst a) (fst b)) (String.eqb (snd a) (snd b)).
(** hasattr / getattr of the cache attribute *)
Fixpoint cached (c : list ((nat * string) * V)) (k : nat * string) : option V :=
  match c with
  | [] => None
  | (k', v) :: t => if key_eqb k k' then Some v else cached t k
  end.
Definition store (w : world) (k : nat * string) (v : V) : world :=
  mk_world ((k, v) :: w_cache w) (w_clock w) (k :: w_log w).
Definition tick (w : world) : world := mk_world (w_cache w) (S (w_clock w)) (w_log w).

(** _dev.py:7-14.  [props name] is the decorated function [fn].  [fuel] bounds the depth of
    nested property reads (Python's recursion limit: RecursionError, here [None], as for
    any exception). *)
Fixpoint read (props : string -> body) (fuel : nat) (o : nat) (name : string) (w : world)
  : option V * world :=
  match cached (w_cache w) (o, name) with
  | Some v => (Some v, w)                       (* hasattr: return getattr *)
  | None =>
    match fuel with
    | O => (None, w)
    | S fuel =>
      let fix run (b : body) (w : world) : option V * world :=
        match b with
        | Return v => (Some v, w)
        | Raise => (None, w)
        | Look k => run (k (w_clock w)) (tick w)
        | Get n k =>
            match read props fuel o n w with
            | (Some v, w') => run (k v) w'
            | (None, w') => (None, w')
            end
        end in
      match run (props name) w with
      | (Some v, w') => (* setattr, then getattr *)
          let w'' := store w' (o, name) v in (cached (w_cache w'') (o, name), w'')
      | (None, w') => (None, w')
      end
    end
  end.

(** a sequence of reads over several objects and properties *)
Fixpoint reads (props : string -> body) (fuel : nat) (l : list (nat * string)) (w : world)
  : list (option V) * world :=
  match l with
  | [] => ([], w)
  | (o, n) :: t =>
      let '(r, w1) := read props fuel o n w in
      let '(rs, w2) := reads props fuel t w1 in (r :: rs, w2)
  end.
Definition world0 : world := mk_world [] 0 [].
End LAZY.
Arguments body : clear implicits.
Arguments world : clear implicits.
