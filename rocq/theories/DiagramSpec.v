(** * Small specification for the example diagrams (C103, C104)
    The flow laws (tfun, static_p, mass_flux, impulse, duct_flow) are those of RamjetSpec.v. *)
From Verif Require Import Num M_Polar RamjetSpec.
Open Scope R_scope.

(** the [i]-th of n + 1 equally spaced values from [a] to [b] *)
Definition sample (a b : R) (n i : nat) : R := a + INR i * (b - a) / INR n.
(** a drawn curve has n + 1 points, all finite, and the [i]-th one (x, y) satisfies [P i x y] *)
Definition points_of (d : drawn) (n : nat) (P : nat -> R -> R -> Prop) : Prop :=
  List.length (d_x d) = S n /\ List.length (d_y d) = S n /\
  forall i, (i <= n)%nat -> exists x y, nth_error (d_x d) i = Some (Some x) /\ nth_error (d_y d) i = Some (Some y) /\ P i x y.
Definition on_curve (d : drawn) (i : nat) (x y : R) : Prop := nth_error (d_x d) i = Some (Some x) /\ nth_error (d_y d) i = Some (Some y).
(** a flow of Mach number M in a frictionless duct of constant area becomes one of Mach number M' when its total temperature is multiplied by [T] *)
Definition heats (g T M M' : R) : Prop := exists pi', 0 < pi' /\ duct_flow g T M 1 M' pi'.
(** adiabatic flow in a duct of constant area (with friction): the total temperature and the mass flow are conserved *)
Definition adiabatic_duct (g M pi M' pi' : R) : Prop := mass_flux g M pi = mass_flux g M' pi'.
