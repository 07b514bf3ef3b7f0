(** * Model of aerokit/instance/unsteady_inflow.py *)
From Verif Require Import Num M_Isentropic M_MassFlow M_ShockWave M_Model1D M_Unsteady1D.
Open Scope num_scope.

(** unsteady_inflow.py:32-42: the attributes; [None]: not set (reading it is an AttributeError).
    Simplification: the arrays of length one that scipy's fsolve returns are identified with their element. *)
Record inflow := mk_inflow {
  in_qR : state; in_pstar : option num; in_ustar : option num; in_qsL : option state; in_qsR : option state; in_waves : option (list num) }.
(** unsteady_inflow.py:44-45 *)
Definition inflow_init (qinit : state) : inflow := mk_inflow (uq_copy qinit) None None None None None.
(** unsteady_inflow.py:54-70: accessors; [None] is an AttributeError *)
Definition inflow_left_fastest (o : inflow) : option num := match in_waves o with Some l => nth_error l 0 | None => None end.
Definition inflow_right_fastest (o : inflow) : option num := match in_waves o with Some l => nth_error l 4 | None => None end.
Definition inflow_ustar (o : inflow) : option num := in_ustar o.
Definition inflow_pstar (o : inflow) : option num := in_pstar o.
Definition inflow_qstarL (o : inflow) : option state := in_qsL o.
Definition inflow_qstarR (o : inflow) : option state := in_qsR o.
(** unsteady_inflow.py:72-78 *)
Definition delta_uR (q : state) (p : num) : num :=
  nif (p >? st_p q) (delta_u_shock q p) (delta_u_expansion q p).
(** unsteady_inflow.py:80-84 *)
Definition pt0_from_pstar_rtt0 (q : state) (p rtt0 : num) : num :=
  let ustar := st_u q + delta_uR q p in
  let gam := st_g q in
  let gsgmu := gam / (gam - #1) in
  p * (#1 + #(1/2) * ustar ^ 2 / (gsgmu * rtt0 - #(1/2) * ustar ^ 2)) ** gsgmu.
(** unsteady_inflow.py:86-91 *)
Definition inflow_estimate (q : state) (pt0 : num) : num := nsqrt (st_p q * pt0).
(** unsteady_inflow.py:93-109; [fsolve] is scipy.optimize.fsolve. [None]: the comparison of line 100 met a nan. *)
Definition solve_with_pt0_rtt0 (fsolve : solver) (o : inflow) (pt0 rtt0 : num) : option inflow :=
  let q := in_qR o in
  let dpt := fun p => pt0_from_pstar_rtt0 q p rtt0 - pt0 in
  let pstar := fsolve dpt (inflow_estimate q pt0) in
  let ustar := st_u q + delta_uR q pstar in
  let finish := fun qsR =>
    Some (mk_inflow q (Some pstar) (Some ustar)
            (Some (compute_from_pt_rtt_u (uq_copy q) pt0 rtt0 ustar)) (Some qsR) (in_waves o)) in
  nif (pstar >? st_p q)
    (finish (state_init (rho_through_shock q pstar) ustar pstar (Some (st_g q))))
    (finish (state_init (rho_through_isentropic q pstar) ustar pstar (Some (st_g q)))).
(** a history of solve calls on one object *)
Fixpoint solve_all (fsolve : solver) (o : inflow) (l : list (num * num)) : option inflow :=
  match l with
  | [] => Some o
  | (pt0, rtt0) :: l => match solve_with_pt0_rtt0 fsolve o pt0 rtt0 with Some o => solve_all fsolve o l | None => None end
  end.
