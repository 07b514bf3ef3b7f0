(** Property theorems of L_Float.v. Generated by tools/gen.py; statements only, proofs are in L_Float.v. *)
From Coq Require Import Reals List ZArith Lra Lia.
From Flocq Require Import Core Sterbenz Mult_error Relative.
From Verif Require Import M_Float FloatSpec.
From Verif Require Import L_Float.
Import ListNotations.
Open Scope R_scope.

(** In binary64 arithmetic, for 0 <= x < xStop and a step between xStop / 2^52 and half of xStop, RK4 ends after at most 2 (xStop - x) / h + 2 passes whatever the right-hand side is; the abscissae start at x, are strictly increasing finite doubles and end exactly at xStop, one value of y per abscissa. *)
Theorem C81_reaches_partial : forall (Y : Type) (step : R -> Y -> R -> Y) (x xStop h : R) (y : Y),
  b64 x -> b64 xStop -> b64 h -> 0 <= x < xStop -> bpow radix2 (-1020) <= xStop ->
  xStop / 2 ^ 52 <= h < xStop / 2 ->
  exists passes X Ys, INR passes <= 2 * (xStop - x) / h + 2 /\
    float_RK4 step passes x y xStop h = Some (x :: X, y :: Ys) /\
    increasing (x :: X) /\ last X x = xStop /\ List.Forall b64 X /\ length Ys = length X.
Proof. exact float_rk4_reaches. Qed.
Print Assumptions C81_reaches_partial.

(** the hypotheses hold when integrating from 0 to 10 with steps of 1/4 *)
Example C81_reaches_example : b64 0 /\ b64 10 /\ b64 (1 / 4) /\ 0 <= 0 < 10 /\ bpow radix2 (-1020) <= 10 /\ 10 / 2 ^ 52 <= 1 / 4 < 10 / 2.
Proof. exact float_rk4_example. Qed.

(** In binary64 arithmetic RK4 never ends when 0 < x < xStop and the step is below x / 2^54: x + h is rounded to x and the loop runs for ever, whatever the right-hand side. *)
Theorem C81_stall_refuted : forall (Y : Type) (step : R -> Y -> R -> Y) (x xStop h : R) (y : Y),
  b64 x -> b64 xStop -> b64 h -> 0 < x < xStop -> 0 < h < x / 2 ^ 54 ->
  forall passes, float_RK4 step passes x y xStop h = None.
Proof. exact float_rk4_stalls. Qed.
Print Assumptions C81_stall_refuted.

(** such a call: from 1 to 2 with the step 2^-60 *)
Example C81_stall_example : b64 1 /\ b64 2 /\ b64 (bpow radix2 (-60)) /\ 0 < 1 < 2 /\ 0 < bpow radix2 (-60) < 1 / 2 ^ 54.
Proof. exact float_rk4_stall_example. Qed.

(** In binary64 arithmetic RK4 can end beyond xStop, not at xStop: from -1 to 3 / 2^54 with the step 2 it makes one step and ends at 4 / 2^54. *)
Theorem C81_overshoot_refuted : forall (Y : Type) (step : R -> Y -> R -> Y) (y : Y),
  b64 (-1) /\ b64 (3 * bpow radix2 (-54)) /\ b64 2 /\
  exists passes Ys, float_RK4 step passes (-1) y (3 * bpow radix2 (-54)) 2 = Some (-1 :: 4 * bpow radix2 (-54) :: [], Ys).
Proof. exact float_rk4_overshoot. Qed.
Print Assumptions C81_overshoot_refuted.

(** In binary64 arithmetic, whenever RK4 returns, its last abscissa is xStop up to rounding: not before xStop and at most m / 2^50 + 2^-1073 beyond it, m being the larger of |x| and |xStop|. *)
Theorem C81_end : forall (Y : Type) (step : R -> Y -> R -> Y) (x xStop h : R) (y : Y) passes X Ys,
  b64 x -> b64 xStop -> b64 h -> x <= xStop -> 0 <= h ->
  float_RK4 step passes x y xStop h = Some (x :: X, y :: Ys) ->
  xStop <= last X x <= xStop + Rmax (Rabs x) (Rabs xStop) / 2 ^ 50 + bpow radix2 (-1073).
Proof. exact float_rk4_end. Qed.
Print Assumptions C81_end.
