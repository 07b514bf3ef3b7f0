(** * Specification of a net of characteristics (method of characteristics, planar flow) *)
From Coq Require Import Reals.
Open Scope R_scope.

(** the Prandtl-Meyer angle, in radians *)
Definition prandtl_meyer (g M : R) : R :=
  sqrt ((g + 1) / (g - 1)) * atan (sqrt ((g - 1) / (g + 1) * (M ^ 2 - 1))) - atan (sqrt (M ^ 2 - 1)).

(** mu is the Mach angle of a flow whose Prandtl-Meyer angle is nu, up to tol *)
Definition mach_angle_of (g tol nu mu : R) : Prop :=
  exists M, 1 <= M /\ Rabs (prandtl_meyer g M - nu) <= tol /\ 0 < mu <= PI / 2 /\ sin mu = 1 / M.

(** (x', y') is on the line through (x, y) with this inclination *)
Definition on_line (x y x' y' inclination : R) : Prop := y' - y = tan inclination * (x' - x).

(** In what follows point b of the C- number a (0 <= a <= n) has coordinates x a b, y a b, flow direction
    th a b, Prandtl-Meyer angle nu a b and Mach angle mu a b; b = 0 is the corner, b = a + 1 the axis. *)

(** the expansion fan at the corner (0, r): from the sonic state, n equal turns up to the direction th0 *)
Definition corner_fan (n : nat) (r th0 : R) (x y th nu : nat -> nat -> R) : Prop :=
  (forall a, (a <= n)%nat -> x a 0%nat = 0 /\ y a 0%nat = r /\ nu a 0%nat = th a 0%nat) /\
  (forall a, (a < n)%nat -> th (S a) 0%nat - th a 0%nat = (th0 - th 0%nat 0%nat) / INR n) /\ th n 0%nat = th0.

(** th + nu is constant along a C-, th - nu along a C+ *)
Definition compatible (n : nat) (th nu : nat -> nat -> R) : Prop :=
  forall a b, (1 <= b <= a)%nat -> (a <= n)%nat ->
  th a b + nu a b = th a (b - 1)%nat + nu a (b - 1)%nat /\ th a b - nu a b = th (a - 1)%nat b - nu (a - 1)%nat b.

(** every inner point is where its C- (inclination th - mu) and its C+ (inclination th + mu) meet *)
Definition intersections (n : nat) (x y th mu : nat -> nat -> R) : Prop :=
  forall a b, (1 <= b <= a)%nat -> (a <= n)%nat ->
  let c := (b - 1)%nat in let d := (a - 1)%nat in
  on_line (x a c) (y a c) (x a b) (y a b) ((th a c - mu a c + (th a b - mu a b)) / 2) /\
  on_line (x d b) (y d b) (x a b) (y a b) ((th d b + mu d b + (th a b + mu a b)) / 2).

(** the C- number a ends on the axis, where the flow is axial *)
Definition on_axis (a : nat) (x y th nu mu : nat -> nat -> R) : Prop :=
  y a (S a) = 0 /\ on_line (x a a) (y a a) (x a (S a)) (y a (S a)) (th a a - mu a a) /\
  th a (S a) = 0 /\ nu a (S a) = th a a + nu a a.

(** the wall: it starts at the corner in the direction th0; its point k is on the C+ number k and has the flow
    direction there, so that this C+ is not reflected *)
Definition cancelling_wall (n : nat) (r th0 : R) (x y th mu : nat -> nat -> R) (wx wy wth : nat -> R) : Prop :=
  wx 0%nat = 0 /\ wy 0%nat = r /\ wth 0%nat = th0 /\
  forall k, (1 <= k <= n + 1)%nat -> wth k = th n k /\
    on_line (wx (k - 1)%nat) (wy (k - 1)%nat) (wx k) (wy k) ((wth (k - 1)%nat + wth k) / 2) /\
    on_line (x n k) (y n k) (wx k) (wy k) (th n k + mu n k).
