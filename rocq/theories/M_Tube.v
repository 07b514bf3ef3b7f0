(** * Model of examples/stability/euler1d.py (class Tube: uniform flow, periodic ends)
    The eigenvalue solver, selection and refinement are in M_Eigen.v; plots are not modelled. *)
From Coq Require Import String.
From Verif Require Import Num M_Isentropic M_Model1D M_Spectral M_Euler.
Open Scope R_scope.
Open Scope num_scope.

(** euler1d.py:10-12, element by element (the state has the default gas) *)
Definition tube_asound : num := Some 100%R.
Definition tube_state (Mach : num) (i : nat) : state :=
  state_init (Some (14/10)%R * Some 1%R) (Mach * tube_asound * Some 1%R) (npowi tube_asound 2 * Some 1%R) None.
Definition tube_base (Mach : num) : estate :=
  let q := tube_state Mach in
  mk_estate (fun i => st_rho (q i)) (fun i => st_u (q i)) (fun i => st_p (q i)) (st_g (q 0%nat)).
(** euler1d.py:9-14 *)
Definition new_tube (n : nat) (Mach : num) (h : heap) : option exn * heap * euler :=
  set_BC (ArgStr "per") (ArgStr "per") h
    (euler_init n (Some (Some 0%R)) (Some (Some 1%R)) (Some (tube_base Mach))).
(** numpy: mean, max and min of an array of n >= 1 elements *)
Definition nmean (n : nat) (v : vec) : num := nsum n v / nofnat n.
Fixpoint nmaximum (n : nat) (v : vec) : num := match n with O => v O | S k => nmax (nmaximum k v) (v (S k)) end.
Fixpoint nminimum (n : nat) (v : vec) : num := match n with O => v O | S k => nmin (nminimum k v) (v (S k)) end.
(** euler1d.py:25-27: the printed theoretical pulsations, in the order u-a, u, u+a *)
Definition tube_theory (n : nat) (Mach : num) : list num :=
  let x := cheb_x n (Some 0%R) (Some 1%R) in
  let um := nmean n (fun i => st_u (tube_state Mach i)) in
  let am := nmean n (fun i => asound (tube_state Mach i)) in
  let L := nmaximum (n - 1) x - nminimum (n - 1) x in
  map (fun a => Some 2%R * npi * a / L) ((am - um) :: um :: (um + am) :: nil).
