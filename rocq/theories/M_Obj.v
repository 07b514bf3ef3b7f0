(** * Python objects holding numeric attributes

    Method bodies of the engine modules are straight-line sequences of attribute assignments
    [self.a = e].  Reading a missing attribute is an AttributeError ([None]).  Values are [num]
    (exact reals or undefined, see Num.v); array arguments are not modelled. *)
From Coq Require Import String.
From Verif Require Import Num.
Open Scope num_scope.

(** instance dictionary over class attributes *)
Definition obj := string -> option num.
Definition empty_obj : obj := fun _ => None.
Definition upd (a : string) (v : num) (o : obj) : obj := fun b => if String.eqb b a then Some v else o b.

(** expressions reading attributes of self *)
Inductive expr :=
| V (a : string)                        (* self.a *)
| L (v : num)                           (* a literal or a local value *)
| F1 (f : num -> num) (e : expr)
| F2 (f : num -> num -> num) (e1 e2 : expr)
| F4 (f : num -> num -> num -> num -> num) (e1 e2 e3 e4 : expr).
Fixpoint eval (o : obj) (e : expr) : option num :=
  match e with
  | V a => o a
  | L v => Some v
  | F1 f e => match eval o e with Some x => Some (f x) | None => None end
  | F2 f e1 e2 => match eval o e1, eval o e2 with Some x, Some y => Some (f x y) | _, _ => None end
  | F4 f e1 e2 e3 e4 =>
    match eval o e1, eval o e2, eval o e3, eval o e4 with
    | Some x, Some y, Some z, Some t => Some (f x y z t) | _, _, _, _ => None end
  end.
(** method bodies *)
Definition prog := list (string * expr).
Fixpoint run (p : prog) (o : obj) : option obj :=
  match p with
  | [] => Some o
  | (a, e) :: p => match eval o e with Some v => run p (upd a v o) | None => None end
  end.

Declare Scope obj_scope.
Delimit Scope obj_scope with obj.
Bind Scope obj_scope with expr.
Infix "+" := (F2 nadd) : obj_scope.
Infix "-" := (F2 nsub) : obj_scope.
Infix "*" := (F2 nmul) : obj_scope.
Infix "/" := (F2 ndiv) : obj_scope.
Infix "**" := (F2 npow) (at level 30, right associativity) : obj_scope.
Notation "- e" := (F1 nopp e) : obj_scope.
Notation "e ^ n" := (F1 (fun x => npowi x n) e) : obj_scope.
