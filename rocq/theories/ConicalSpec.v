(** * The Taylor-Maccoll equations and the marching of a conical flow *)
From Coq Require Import Reals.
From Coquelicot Require Import Coquelicot.
Open Scope R_scope.

(** Velocity components along the ray [w] (radians) and normal to it, in units of the limit velocity
    (J.D. Anderson, Modern compressible flow, 10.13 and 10.14), with derivatives [dvr], [dvw]:
    irrotational flow, and mass with momentum conservation *)
Definition taylor_maccoll (g w vr vw dvr dvw : R) : Prop :=
  dvr = vw /\
  (g - 1) / 2 * (1 - vr ^ 2 - vw ^ 2) * (2 * vr + vw * (cos w / sin w) + dvw) - vw * (vr * vw + vw * dvw) = 0.
(** the velocity in units of the limit velocity at Mach number m *)
Definition speed (g m : R) : R := sqrt ((g - 1) / 2 * m ^ 2 / (1 + (g - 1) / 2 * m ^ 2)).

(** states (phi, theta, Mach) reached by accepted steps *)
Inductive marches (step : R -> R * R -> R -> option (R * R * R)) (tol : R) : R * R * R -> R * R * R -> Prop :=
| march_end s : marches step tol s s
| march_step phi th ma h dth dma err s :
    step phi (th, ma) h = Some (dth, dma, err) -> err <= tol ->
    marches step tol (phi + h, th + dth, ma + dma) s -> marches step tol (phi, th, ma) s.
