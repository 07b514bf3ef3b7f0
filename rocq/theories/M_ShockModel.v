(** * Model of examples/stability/shock.py (class ShockModel: flow between a shock and a wall)

    The solution of the eigenvalue problem and the plots are in M_Eigen.v or not modelled.
    [set_gamma(gam)] with gam = 1.4 (lines 9-10) leaves the default gas as it was. *)
From Coq Require Import String.
From Verif Require Import Num M_Isentropic M_ShockWave M_Model1D M_Spectral M_Euler.
Open Scope R_scope.
Open Scope num_scope.

(** shock.py:31-33; [None]: AssertionError *)
Definition shock_M1 (M1 M0 : option num) : option num :=
  match M1 with
  | Some m => Some m
  | None => match M0 with Some m => Some (downstream_Mn m dgamma) | None => None end
  end.
(** shock.py:35-36 *)
Definition shock_rttot : num := Some 83500%R.
Definition shock_ptot : num := Some 180000%R.
(** shock.py:37; x: the nodes of the differentiation operator *)
Definition shock_velocity (n : nat) (x : vec) (M1 : num) : vec := fun i =>
  Velocity_MachTt M1 shock_rttot (Some 1%R) dgamma * (x i - x (n - 1)%nat) / (x 0%nat - x (n - 1)%nat).
(** shock.py:39-40, element by element *)
Definition shock_state (n : nat) (x : vec) (M1 : num) (i : nat) : state :=
  compute_from_pt_rtt_u (state_init (Some 1%R) (Some 0%R) (Some 1%R) (Some (Some (14/10)%R)))
    shock_ptot shock_rttot (shock_velocity n x M1 i).
Definition shock_base (n : nat) (x : vec) (M1 : num) : estate :=
  let q := shock_state n x M1 in
  mk_estate (fun i => st_rho (q i)) (fun i => st_u (q i)) (fun i => st_p (q i)) (st_g (q 0%nat)).
(** shock.py:42-45: the two dictionaries written in the call.  [dM0dx = None] is represented
    by the absence of the entry: Euler.py:137 and 157 treat both alike. *)
Definition shock_left (dM0dx : option num) : dict :=
  ("type"%string, BStr "RH") :: match dM0dx with Some v => ("dM0dx"%string, BNum v) :: nil | None => nil end.
Definition shock_right : dict := ("type"%string, BStr "sym") :: nil.
(** shock.py:28-45 *)
Definition new_shock_model (n : nat) (length : num) (M1 M0 dM0dx : option num) (h : heap) : (exn + euler) * heap :=
  let e := euler_init n (Some (Some 0%R)) (Some length) None in
  match shock_M1 M1 M0 with
  | None => (inl AssertionErr, h)
  | Some m =>
    let e1 := set_basestate (shock_base n (cheb_x n (Some 0%R) length) m) e in
    let l := List.length h in
    let h1 := (h ++ shock_left dM0dx :: nil) ++ shock_right :: nil in
    match set_BC (ArgDict l) (ArgDict (S l)) h1 e1 with
    | (Some x, h2, _) => (inl x, h2)
    | (None, h2, e2) => (inr e2, h2)
    end
  end.

(** shock.py:12-25: the two printed checks of the linearised ratios: difference quotient at
    M0 with relative step eps, and the expected derivative *)
Definition shock_check_p (M0 eps : num) : num * num :=
  ((Ps_ratio (M0 * (Some 1%R + eps)) dgamma - Ps_ratio M0 dgamma) / (eps * M0),
   Some 4%R * Some (14/10)%R / (Some (14/10)%R + Some 1%R) * M0).
Definition shock_check_rho (M0 eps : num) : num * num :=
  ((Rho_ratio (M0 * (Some 1%R + eps)) dgamma - Rho_ratio M0 dgamma) / (eps * M0),
   Some 4%R / (Some (14/10)%R + Some 1%R) * npowi (Rho_ratio M0 dgamma) 2 / npowi M0 3).
