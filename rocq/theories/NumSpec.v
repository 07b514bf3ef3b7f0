(** * Vocabulary for stating properties of model functions *)
From Verif Require Import Num.
Open Scope R_scope.

(** [f] is defined at every point of [P] and strictly increases (decreases) on [P]. *)
Definition incr_on (P : R -> Prop) (f : num -> num) : Prop :=
  forall x y, P x -> P y -> x < y ->
  exists a b, f (Some x) = Some a /\ f (Some y) = Some b /\ a < b.
Definition decr_on (P : R -> Prop) (f : num -> num) : Prop :=
  forall x y, P x -> P y -> x < y ->
  exists a b, f (Some x) = Some a /\ f (Some y) = Some b /\ b < a.

(** The assumed behaviour of an external root finder: a returned [r] makes the residual
    at most [eps] in absolute value. *)
Definition solves (eps : R) (newton : (num -> num) -> num -> num) : Prop :=
  forall f x0 r, newton f x0 = Some r -> exists e, f (Some r) = Some e /\ Rabs e <= eps.

(** A root finder meeting [solves]: it accepts its starting point when the residual there
    is small enough, and fails otherwise. Used to show the hypothesis is satisfiable. *)
Definition lazy_newton (eps : R) (f : num -> num) (x0 : num) : num :=
  match f x0 with
  | Some e => if Rle_dec (Rabs e) eps then x0 else None
  | None => None end.
Lemma lazy_newton_solves eps :
  (0 <= eps) -> solves eps (lazy_newton eps).
Proof.
  intros He f x0 r; unfold lazy_newton.
  destruct (f x0) as [e|] eqn:E; [|discriminate].
  destruct (Rle_dec (Rabs e) eps); [|discriminate].
  intros ->; exists e; auto.
Qed.
