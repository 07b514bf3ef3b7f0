(** * WedgeSpec: oblique shocks with the Mach number behind them, over plain real numbers.
    Nothing here mentions the model of the code. *)
From Coq Require Import Reals.
Open Scope R_scope.

(** A flow of Mach number [M] crosses a shock inclined at [s] degrees to it; it leaves turned by [th] degrees, with the Mach
    number [M1], its pressure multiplied by [P] and its density by [r].  Conservation of tangential velocity, mass, normal
    momentum and total enthalpy.  Units: the upstream density and speed of sound are 1, so the upstream pressure is 1/g and
    the square of the downstream speed of sound is P/r; [W] is the downstream speed. *)
Definition shock_to (g M s th P M1 : R) : Prop :=
  exists r W, 0 < r /\ 0 < W /\ 0 < M1 /\
    let un := M * sin (s * (PI / 180)) in let ut := M * cos (s * (PI / 180)) in
    let vn := W * sin ((s - th) * (PI / 180)) in let vt := W * cos ((s - th) * (PI / 180)) in
    ut = vt /\ un = r * vn /\
    1 / g + un ^ 2 = P / g + r * vn ^ 2 /\
    1 / (g - 1) + M ^ 2 / 2 = P / r / (g - 1) + W ^ 2 / 2 /\
    W ^ 2 = M1 ^ 2 * (P / r).

(** The segment from (x0,y0) to (x1,y1) makes the angle [a], in degrees, with the x axis *)
Definition inclined (x0 y0 x1 y1 a : R) : Prop :=
  exists L, 0 < L /\ x1 - x0 = L * cos (a * (PI / 180)) /\ y1 - y0 = L * sin (a * (PI / 180)).
