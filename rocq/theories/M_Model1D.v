(** * Model of aerokit/aero/model1D.py (scalar states; array states element by element) *)
From Verif Require Import Num M_Isentropic M_ShockWave.
Open Scope num_scope.

(** model1D.py:16-31, the attributes of class state *)
Record state := mk_state { st_g : num; st_rho : num; st_u : num; st_p : num }.

(** model1D.py:27-31 with the default [gamma=defg._gamma] bound at import *)
Definition state_init (rho u p : num) (gamma : option num) : state :=
  mk_state (match gamma with Some g => g | None => dgamma end) rho u p.

(** model1D.py:40-41 *)
Definition state_copy (q : state) : state := state_init (st_rho q) (st_u q) (st_p q) (Some (st_g q)).

(** model1D.py:85-87, 89-91, 93-95, 97-99, 101-103 *)
Definition asound (q : state) : num := nsqrt (st_g q * st_p q / st_rho q).
Definition left_acoustic (q : state) : num := st_u q - nsqrt (st_g q * st_p q / st_rho q).
Definition right_acoustic (q : state) : num := st_u q + nsqrt (st_g q * st_p q / st_rho q).
Definition Mach (q : state) : num := st_u q / asound q.
Definition massflow (q : state) : num := st_rho q * st_u q.
(** model1D.py:105-107 *)
Definition Ptot (q : state) : num := st_p q * PtPs_Mach (Mach q) (st_g q).
(** model1D.py:109-111 *)
Definition rTtot (q : state) : num :=
  st_p q / st_rho q + #(1/2) * (st_g q - #1) / st_g q * st_u q ^ 2.

(** model1D.py:43-49 *)
Definition state_RH (q : state) : state :=
  let M := Mach q in
  let R := Rho_ratio M (st_g q) in
  state_init (st_rho q * R) (st_u q / R) (st_p q * Ps_ratio M (st_g q)) (Some (st_g q)).

(** model1D.py:51-55 *)
Definition state_isentropic_Mach (q : state) (M : num) : state :=
  let ps := rTtot q / PtPs_Mach M (st_g q) in
  let rts := rTtot q / TtTs_Mach M (st_g q) in
  state_init (ps / rts) (M * nsqrt (st_g q * rts)) ps None.

(** model1D.py:57-60: the object after the call (re-initialised without gamma) *)
Definition compute_from_pt_rtt_M (q : state) (pt rtt M : num) : state :=
  let ps := pt / PtPs_Mach M (st_g q) in
  let rts := rtt / TtTs_Mach M (st_g q) in
  state_init (ps / rts) (M * nsqrt (st_g q * rts)) ps None.
(** model1D.py:62-67 *)
Definition compute_from_pt_rtt_u (q : state) (pt rtt u : num) : state :=
  let gam := st_g q in
  let gsgmu := gam / (gam - #1) in
  let a2 := gam * rtt - #(1/2) * (gam - #1) * u ^ 2 in
  let ps := pt / (#1 + #(1/2) * u ^ 2 / (gsgmu * rtt - #(1/2) * u ^ 2)) ** gsgmu in
  state_init (gam * ps / a2) u ps None.
(** model1D.py:69-79 *)
Definition compute_from_pt_rtt_p (q : state) (pt rtt p : num) : state :=
  let M := Mach_PtPs (pt / p) (st_g q) in
  let rts := rtt / TtTs_Mach M (st_g q) in
  state_init (p / rts) (M * nsqrt (st_g q * rts)) p None.

(** A state holding arrays of equal length (numpy arrays for rho, u, p; one gamma). *)
Record array_state := mk_astate { as_g : num; as_rho : list num; as_u : list num; as_p : list num }.
(** model1D.py:81-83; [None]: IndexError. Negative indices are not modelled. *)
Definition getitem (q : array_state) (i : nat) : option state :=
  match nth_error (as_rho q) i, nth_error (as_u q) i, nth_error (as_p q) i with
  | Some r, Some u, Some p => Some (state_init r u p None)
  | _, _, _ => None end.
