(** * Model of aerokit/aero/unsteady1D.py *)
From Verif Require Import Num M_Isentropic M_ShockWave M_Model1D.
Open Scope num_scope.

(** unsteady1D.py:35-36 (deepcopy) *)
Definition uq_copy (q : state) : state := q.
(** unsteady1D.py:38-39 *)
Definition copysymmetric (q : state) : state :=
  state_init (st_rho q) (- st_u q) (st_p q) (Some (st_g q)).
(** unsteady1D.py:41-55 *)
Definition rankinehugoniot_from_ushock (q : state) (ushock : num) : state :=
  let loc_Mn := (st_u q - ushock) / asound q in
  let rho_ratio := Rho_ratio loc_Mn (st_g q) in
  state_init (st_rho q * rho_ratio) (ushock + (st_u q - ushock) / rho_ratio)
    (st_p q * Ps_ratio loc_Mn (st_g q)) (Some (st_g q)).
(** unsteady1D.py:57-71 *)
Definition delta_u_expansion (q : state) (p : num) : num :=
  let gmusd := #(1/2) * (st_g q - #1) in
  asound q / gmusd * ((p / st_p q) ** (gmusd / st_g q) - #1).
(** unsteady1D.py:73-87 *)
Definition delta_u_shock (q : state) (p : num) : num :=
  (p - st_p q) * nsqrt (#2 / st_rho q / ((st_g q + #1) * p + (st_g q - #1) * st_p q)).
(** unsteady1D.py:89-97 *)
Definition rho_through_shock (q : state) (p : num) : num :=
  let gmusgpu := (st_g q - #1) / (st_g q + #1) in
  let pratio := p / st_p q in
  st_rho q * (pratio + gmusgpu) / (#1 + gmusgpu * pratio).
(** unsteady1D.py:99-103 *)
Definition rho_through_isentropic (q : state) (p : num) : num :=
  st_rho q * (p / st_p q) ** (#1 / st_g q).
