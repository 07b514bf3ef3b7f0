(** * Model of aerokit/common/_ode.py
    States are vectors [nat -> R] of which the first [n] entries are used; the right-hand side F
    takes and returns such vectors and is assumed to return (a float for every component). *)
From Verif Require Import Num.
Open Scope R_scope.

Definition state := nat -> R.
Definition rhs := R -> state -> state.

(** ** _ode.py:8-14 run_kut4 *)
Definition run_kut4 (F : rhs) (x : R) (y : state) (h : R) : state :=
  let K0 : state := fun i => h * F x y i in
  let K1 : state := fun i => h * F (x + h / 2) (fun i => y i + K0 i / 2) i in
  let K2 : state := fun i => h * F (x + h / 2) (fun i => y i + K1 i / 2) i in
  let K3 : state := fun i => h * F (x + h) (fun i => y i + K2 i) i in
  fun i => (K0 i + 2 * K1 i + 2 * K2 i + K3 i) / 6.
(** ** _ode.py:20-26 the while loop; [None] when the fuel is exhausted, that is when the loop has
    not ended after that number of passes *)
Fixpoint rk4_loop (fuel : nat) (F : rhs) (x : R) (y : state) (xStop h : R) : option (list R * list state) :=
  if Rlt_dec x xStop then
    match fuel with
    | O => None
    | S k =>
      let h := if Rlt_dec (xStop - x) h then xStop - x else h in
      let y : state := let d := run_kut4 F x y h in fun i => y i + d i in
      let x := x + h in
      match rk4_loop k F x y xStop h with None => None | Some (X, Y) => Some (x :: X, y :: Y) end
    end
  else Some (nil, nil).
(** _ode.py:7-27 *)
Definition RK4 (fuel : nat) (F : rhs) (x : R) (y : state) (xStop h : R) : option (list R * list state) :=
  match rk4_loop fuel F x y xStop h with None => None | Some (X, Y) => Some (x :: X, y :: Y) end.

(** ** _ode.py:30-64 *)
Fixpoint rsum_state (n : nat) (f : state) : R := match n with O => 0 | S k => rsum_state k f + f k end.
Definition rkf45_K (F : rhs) (x : R) (y : state) (h : R) : nat -> state :=
  let K0 : state := fun i => h * F x y i in
  let K1 : state := fun i => h * F (x + 1 / 5 * h) (fun i => y i + 1 / 5 * K0 i) i in
  let K2 : state := fun i => h * F (x + 3 / 10 * h) (fun i => y i + 3 / 40 * K0 i + 9 / 40 * K1 i) i in
  let K3 : state := fun i => h * F (x + 3 / 5 * h) (fun i => y i + 3 / 10 * K0 i - 9 / 10 * K1 i + 6 / 5 * K2 i) i in
  let K4 : state := fun i => h * F (x + h) (fun i => y i - 11 / 54 * K0 i + 5 / 2 * K1 i - 70 / 27 * K2 i + 35 / 27 * K3 i) i in
  let K5 : state := fun i => h * F (x + 7 / 8 * h) (fun i => y i + 1631 / 55296 * K0 i + 175 / 512 * K1 i + 575 / 13824 * K2 i
                                                       + 44275 / 110592 * K3 i + 253 / 4096 * K4 i) i in
  fun s => match s with 0%nat => K0 | 1%nat => K1 | 2%nat => K2 | 3%nat => K3 | 4%nat => K4 | _ => K5 end.
Definition rkf45_C (s : nat) : R :=
  match s with 0%nat => 37 / 378 | 1%nat => 0 | 2%nat => 250 / 621 | 3%nat => 125 / 594 | 4%nat => 0 | _ => 512 / 1771 end.
Definition rkf45_D (s : nat) : R :=
  match s with 0%nat => 2825 / 27648 | 1%nat => 0 | 2%nat => 18575 / 48384 | 3%nat => 13525 / 55296 | 4%nat => 277 / 14336 | _ => 1 / 4 end.
Definition rkf45_dy (F : rhs) (x : R) (y : state) (h : R) : state :=
  let K := rkf45_K F x y h in fun i => rsum_state 6 (fun s => rkf45_C s * K s i).
Definition rkf45_E (F : rhs) (x : R) (y : state) (h : R) : state :=
  let K := rkf45_K F x y h in fun i => rsum_state 6 (fun s => (rkf45_C s - rkf45_D s) * K s i).
(** n >= 1 is assumed by the theorems (numpy gives nan for n = 0) *)
Definition rkf45_e (n : nat) (F : rhs) (x : R) (y : state) (h : R) : R :=
  sqrt (rsum_state n (fun i => (rkf45_E F x y h i) * (rkf45_E F x y h i)) / INR n).

(** ** _ode.py:67-96; tol >= 0; numpy: 0.0 ** 0.2 is 0.  [stopped]: whether the loop was left by
    break; otherwise the 10000 passes are exhausted, which Python does not report *)
Definition pow02 (b : R) : R := if Req_EM_T b 0 then 0 else Rpower b (2 / 10).
Definition rkf45_next (xStop tol x h e : R) (stopper : bool) : R * bool :=
  let hNext := if Req_EM_T e 0 then h else 9 / 10 * h * pow02 (tol / e) in
  if Bool.eqb (if Rlt_dec 0 h then true else false) (if Rle_dec xStop (x + hNext) then true else false)
  then (xStop - x, true) else (hNext, stopper).
Fixpoint rkf45_loop (n : nat) (F : rhs) (xStop tol : R) (passes : nat) (x : R) (y : state) (h : R) (stopper : bool)
    : bool * list R * list state :=
  match passes with
  | O => (false, nil, nil)
  | S k =>
    let e := rkf45_e n F x y h in
    if Rle_dec e tol then
      let y : state := let dy := rkf45_dy F x y h in fun i => y i + dy i in
      let x := x + h in
      if stopper then (true, x :: nil, y :: nil)
      else let '(h', s') := rkf45_next xStop tol x h e stopper in
           let '(b, X, Y) := rkf45_loop n F xStop tol k x y h' s' in (b, x :: X, y :: Y)
    else let '(h', s') := rkf45_next xStop tol x h e stopper in
         rkf45_loop n F xStop tol k x y h' s'
  end.
Definition RKF45_n (passes n : nat) (F : rhs) (x : R) (y : state) (xStop h tol : R) : bool * list R * list state :=
  let '(b, X, Y) := rkf45_loop n F xStop tol passes x y h false in (b, x :: X, y :: Y).
Definition RKF45 (n : nat) (F : rhs) (x : R) (y : state) (xStop h tol : R) : list R * list state :=
  let '(_, X, Y) := RKF45_n (100 * 100) n F x y xStop h tol in (X, Y).
