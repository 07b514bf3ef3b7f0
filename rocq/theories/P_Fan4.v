(** Property theorems of L_Fan4.v. Generated by tools/gen.py; statements only, proofs are in L_Fan4.v. *)
From Verif Require Import L_Num Spec NumSpec M_Degree M_IterSolve M_MassFlow M_Isentropic M_Supersonic M_Fan FanSpec L_Isentropic L_Degree L_Supersonic L_Fan.
From Verif Require Import L_Fan4.
Open Scope R_scope.

(** Drawing a line through (x, y) along any of the three direction fields (any direction field with finite values), over arc lengths smin <= 0 <= smax, not both 0, with npts segments: the result has npts + 1 points, and (x, y) is the one of index nback; the points after it are successive midpoint-rule steps of length smax / (npts - nback), the points before it successive midpoint-rule steps backwards, of length smin / nback; npts - nback is the integer part of npts smax / (smax - smin). *)
Theorem C89_trajectory : forall angle A x y smin smax npts, (forall x y, angle (Some x) (Some y) = Some (A x y)) ->
  smin <= 0 -> 0 <= smax -> smin < smax -> exists nback (X Y : nat -> R), (nback <= npts)%nat /\
  INR (npts - nback) <= INR npts * smax / (smax - smin) < INR (npts - nback) + 1 /\
  integ angle (Some x) (Some y) (Some smin) (Some smax) npts = Some (map (fun i => (Some (X i), Some (Y i))) (seq 0 (npts + 1))) /\
  X nback = x /\ Y nback = y /\
  (forall i, (nback <= i < npts)%nat -> midpoint_step A (smax / INR (npts - nback)) (X i) (Y i) (X (S i)) (Y (S i))) /\
  (forall i, (i < nback)%nat -> midpoint_step A (smin / INR nback) (X (S i)) (Y (S i)) (X i) (Y i)).
Proof. exact integ_trajectory. Qed.
Print Assumptions C89_trajectory.
