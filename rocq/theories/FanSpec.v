(** * Steady plane flow of a perfect gas: specification of the centred expansion of Caract-01-expansion.ipynb *)
From Coq Require Import Reals.
Open Scope R_scope.

(** degrees to radians; the Prandtl-Meyer angle and the Mach angle, in degrees *)
Definition rd (a : R) : R := a * PI / 180.
Definition pm_deg (g M : R) : R :=
  (sqrt ((g + 1) / (g - 1)) * atan (sqrt ((g - 1) / (g + 1) * (M ^ 2 - 1))) - atan (sqrt (M ^ 2 - 1))) * (180 / PI).
Definition is_mach_angle (M mu : R) : Prop := 0 < mu <= 90 /\ sin (rd mu) = 1 / M.
(** polar angle of the point at distance r: [polar x y r phi] *)
Definition polar (x y r phi : R) : Prop := 0 < r /\ -180 < phi <= 180 /\ x = r * cos (rd phi) /\ y = r * sin (rd phi).

(** state of an isentropic flow with unit stagnation density and sound speed, from its Mach number *)
Definition T_ratio (g M : R) : R := / (1 + (g - 1) / 2 * M ^ 2).
Definition speed (g M : R) : R := M * sqrt (T_ratio g M).
Definition density (g M : R) : R := Rpower (T_ratio g M) (1 / (g - 1)).
Definition pressure (g M : R) : R := Rpower (T_ratio g M) (g / (g - 1)) / g.

(** the steady Euler equations at a point, for a flow given by its direction (degrees) and Mach number at every point *)
Definition partial_x (f : R -> R -> R) (x y d : R) : Prop := derivable_pt_lim (fun t => f t y) x d.
Definition partial_y (f : R -> R -> R) (x y d : R) : Prop := derivable_pt_lim (fun t => f x t) y d.
Definition steady_euler (g : R) (dir mach : R -> R -> R) (x y : R) : Prop :=
  let rho x y := density g (mach x y) in
  let p x y := pressure g (mach x y) in
  let u x y := speed g (mach x y) * cos (rd (dir x y)) in
  let v x y := speed g (mach x y) * sin (rd (dir x y)) in
  exists rx ry ux uy vx vy px py,
    (partial_x rho x y rx /\ partial_y rho x y ry) /\ (partial_x u x y ux /\ partial_y u x y uy) /\
    (partial_x v x y vx /\ partial_y v x y vy) /\ (partial_x p x y px /\ partial_y p x y py) /\
    (** mass *) rho x y * (ux + vy) + u x y * rx + v x y * ry = 0 /\
    (** momentum *) rho x y * (u x y * ux + v x y * uy) + px = 0 /\ rho x y * (u x y * vx + v x y * vy) + py = 0.

(** one step of the midpoint rule along the direction field [A] (degrees), of length ds *)
Definition midpoint_step (A : R -> R -> R) (ds x y x' y' : R) : Prop :=
  let a := rd (A x y) in
  let b := rd (A (x + ds / 2 * cos a) (y + ds / 2 * sin a)) in
  x' = x + ds * cos b /\ y' = y + ds * sin b.
