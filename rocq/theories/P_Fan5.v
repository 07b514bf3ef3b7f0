(** Property theorems of L_Fan5.v. Generated by tools/gen.py; statements only, proofs are in L_Fan5.v. *)
From Verif Require Import L_Num Spec NumSpec M_Degree M_IterSolve M_MassFlow M_Isentropic M_Supersonic M_Fan FanSpec L_Isentropic L_Degree L_Supersonic L_Fan L_Fan3 L_Fan4.
From Verif Require Import L_Fan5.
Open Scope R_scope.

(** A characteristic C+ drawn by the notebook through any point of the fan (polar angle phi, distance r from the corner), backwards by less than r, is exactly the ray from the corner: its npts + 1 points are at the distances r + s(i) with that polar angle, s being 0 at the given point, growing strictly, equally spaced on each side, down to smin and - when there is at least one forward step - up to smax. *)
Theorem C89_rays : forall newton g m0 a m1 c mu0 mu1, solves 0 newton -> 1 < g -> 1 <= m0 -> a < 0 ->
  c = init_case newton (Some g) (Some m0) (Some a) -> M1 c = Some m1 -> 0 < m1 ->
  is_mach_angle m0 mu0 -> is_mach_angle m1 mu1 ->
  forall x y r phi smin smax npts, polar x y r phi -> a + mu1 <= phi <= mu0 -> - r < smin -> smin <= 0 -> 0 <= smax -> smin < smax ->
  exists nback (s : nat -> R), (nback <= npts)%nat /\ INR (npts - nback) <= INR npts * smax / (smax - smin) < INR (npts - nback) + 1 /\
    trajectory (Some g) c Cplus (Some x) (Some y) (Some smin) (Some smax) npts =
      Some (map (fun i => (Some ((r + s i) * cos (rd phi)), Some ((r + s i) * sin (rd phi)))) (seq 0 (npts + 1))) /\
    (forall i, (nback <= i <= npts)%nat -> s i * INR (npts - nback) = smax * INR (i - nback)) /\
    (forall i, (i <= nback)%nat -> s i * INR nback = smin * INR (nback - i)) /\ s nback = 0.
Proof. exact fan_rays. Qed.
Print Assumptions C89_rays.

(** The forward part of a line can be lost: with smax > 0 but npts smax < smax - smin, for any direction field, the last point of the line is its starting point - nothing is drawn ahead of it, although the length smax was asked for. *)
Theorem C89_forward_refuted : forall angle x y smin smax npts, smin < 0 -> 0 < smax -> INR npts * smax < smax - smin ->
  exists l, integ angle (Some x) (Some y) (Some smin) (Some smax) npts = Some l /\ length l = (npts + 1)%nat /\ nth npts l (None, None) = (Some x, Some y).
Proof. exact integ_forward. Qed.
Print Assumptions C89_forward_refuted.

(** gamma = 7/5, from Mach 3/2: there are a turning angle a < 0 and an exact root finder with which the case is set up and p1p0 has a value - the second turn of p1p0 ends at Mach 3; and a point of the fan, on the first Mach line, through which lines can be drawn. *)
Example C89_example : exists newton a m1 q mu0, solves 0 newton /\ a < 0 /\ sqrt 2 <= 3 / 2 /\
  let c := init_case newton (Some (7/5)) (Some (3/2)) (Some a) in
  M1 c = Some m1 /\ 3 / 2 < m1 < 3 /\ p1p0 c = Some q /\ is_mach_angle (3 / 2) mu0 /\ exists x y, polar x y 1 mu0 /\
  exists l, trajectory (Some (7/5)) c Cplus (Some x) (Some y) (Some (- (1/2))) (Some 1) 100 = Some l /\ length l = 101%nat.
Proof. exact C89_example_lemma. Qed.
