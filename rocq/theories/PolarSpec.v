(** * PolarSpec: oblique shocks and simple waves in the plane, over plain real numbers.
    Nothing here mentions the model of the code. *)
From Coq Require Import Reals.
Open Scope R_scope.

Definition radian (a : R) : R := a * (PI / 180).

(** A flow of Mach number [M] crosses a shock inclined at [s] degrees and leaves it turned by [th] degrees with
    its pressure multiplied by [P] and its density by [r]: conservation of tangential velocity, mass, normal momentum
    and total enthalpy. Units: upstream density and speed of sound are 1, so the upstream pressure is 1/g;
    [W] is the downstream speed. *)
Definition oblique_shock (g M s th P : R) : Prop :=
  exists r W, 0 < r /\ 0 < W /\
    let un := M * sin (radian s) in let ut := M * cos (radian s) in
    let vn := W * sin (radian (s - th)) in let vt := W * cos (radian (s - th)) in
    ut = vt /\ un = r * vn /\
    1 / g + un ^ 2 = P / g + r * vn ^ 2 /\
    1 / (g - 1) + M ^ 2 / 2 = P / r / (g - 1) + W ^ 2 / 2.

(** speed behind the same shock over the speed of sound there *)
Definition sonic_behind (g M s th P : R) : Prop :=
  exists r W, 0 < r /\ 0 < W /\ M * sin (radian s) = r * (W * sin (radian (s - th))) /\
    M * cos (radian s) = W * cos (radian (s - th)) /\ W ^ 2 = P / r.

(** A point at abscissa [x], ordinate [y] of a list of curves *)
Definition point_of {A B} (l : list (list A * list B)) (x : A) (y : B) : Prop :=
  exists c i, List.In c l /\ List.nth_error (fst c) i = Some x /\ List.nth_error (snd c) i = Some y.

(** Along a wave, pressure [p] and direction [th] (degrees), as functions of the local Mach number m > 1, change
    according to the characteristic relation dp/p = e * (g m^2 / sqrt (m^2 - 1)) * dtheta; e = 1 for one family, -1 for the other *)
Definition characteristic (g e : R) (th p : R -> R) : Prop :=
  forall m, 1 < m -> exists dth dp : R, derivable_pt_lim th m dth /\ derivable_pt_lim p m dp /\
    dp = e * (g * m ^ 2 / sqrt (m ^ 2 - 1)) * p m * radian dth.
