(** * Model of aerokit/aero/IterativeSolve.py

    The scalar function wrapped by [np.vectorize] (the wrapper applies it to each element;
    to find the output type it also calls it once more on the first element: not modelled).
    A nan makes the loop test false in Python, so the loop ends and the nan is returned:
    here a missing value ends the loop and the result is [None]. *)
From Verif Require Import Num.
Open Scope num_scope.

(** What one call does: the returned value, the points at which [f] was evaluated (in
    order), and whether the "max number of iterations" message was printed. *)
Record secant_run := mk_secant { s_result : num; s_evals : list num; s_warned : bool }.

(** IterativeSolve.py:16-22, the while loop; [fuel] is itmax - it. *)
Fixpoint secant_loop (fuel : nat) (f : num -> num) (y tol old_x old_y new_x : num)
  : secant_run :=
  match fuel with
  | O => mk_secant new_x [] true
  | S k =>
    match nabs (new_x - old_x) >? nmax tol (tol * nabs new_x) with
    | Some true =>
        let new_y := f new_x in
        let next_x := new_x + (new_x - old_x) / (new_y - old_y) * (y - new_y) in
        let run := secant_loop k f y tol new_x new_y next_x in
        mk_secant (s_result run) (new_x :: s_evals run) (s_warned run)
    | Some false => mk_secant new_x [] false
    | None => mk_secant None [] false
    end
  end.

(** IterativeSolve.py:5-29; itmax = 20, it starts at 1. *)
Definition secant_run_of (f : num -> num) (y x tol : num) : secant_run :=
  let old_y := f x in
  let run := secant_loop 19 f y tol x old_y (x * #(999/1000)) in
  mk_secant (s_result run) (x :: s_evals run) (s_warned run).

(** the value returned, with the default tolerance 0.00001 *)
Definition secant_tol : num := #(1/100000).
Definition secant_solve (f : num -> num) (y x : num) : num :=
  s_result (secant_run_of f y x secant_tol).
