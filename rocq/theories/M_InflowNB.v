(** * Model of the computations of notebooks/aero/unsteady_inflow.ipynb, cell 1.
    Not modelled: the figures, and cell 0, which imports [aerokit.aero.unsteady_inflow], a module that does
    not exist (the class is in aerokit.instance.unsteady_inflow; it is the one modelled in M_Inflow.v). *)
From Verif Require Import Num M_Isentropic M_MassFlow M_ShockWave M_Model1D M_Unsteady1D M_Inflow.
Import ListNotations.
Open Scope num_scope.

(** cell 1, second line: [uq.unsteady_state(rho=1., u=M0*np.sqrt(1.4), p=1.)] *)
Definition inb_qi (M0 : num) : state := state_init #1 (M0 * nsqrt #(14/10)) #1 None.
(** one index of the arrays filled by the loop, and of the four curves of the third figure *)
Record inb_row := mk_inb { r_mf0 : num; r_mf1 : num; r_mf2 : num; r_mff : num; r_mffb : num;
  r_ps : num; r_Ms : num; r_M1 : num; r_M2 : num; r_1f : num; r_2f : num; r_1fb : num; r_2fb : num }.
(** the loop body: the object after it, and the row. [None]: the solver failed (nan comparison, see
    M_Inflow.v) or an attribute is missing. *)
Definition inb_body (fsolve : solver) (M0 taux_tt : num) (inlet : inflow) (pi : num) : option (inflow * inb_row) :=
  let qi := inb_qi M0 in
  let rtti := rTtot qi in
  match solve_with_pt0_rtt0 fsolve inlet (pi * Ptot qi) (taux_tt * rtti) with
  | None => None
  | Some o =>
    let qf := compute_from_pt_rtt_p (uq_copy qi) (pi * Ptot qi) (taux_tt * rtti) (st_p qi) in
    let qfb := compute_from_pt_rtt_M (uq_copy qi) (pi * Ptot qi) (taux_tt * rtti) M0 in
    match in_qsR o, in_qsL o with
    | Some sR, Some sL =>
      let mf0 := massflow (in_qR o) in
      let mf1 := massflow sR in
      let mf2 := massflow sL in
      let mff := massflow qf in
      let mffb := massflow qfb in
      let ps := st_p sR / st_p (in_qR o) in
      Some (o, mk_inb mf0 mf1 mf2 mff mffb ps (Mn_Ps_ratio ps dgamma) (Mach sR) (Mach sL)
                 ((mf1 - mf0) / (mff - mf0)) ((mf2 - mf0) / (mff - mf0))
                 ((mf1 - mf0) / (mffb - mf0)) ((mf2 - mf0) / (mffb - mf0)))
    | _, _ => None
    end
  end.
(** the loop over [pi_range] on one inflow object *)
Fixpoint inb_loop (fsolve : solver) (M0 taux_tt : num) (inlet : inflow) (pis : list num) : option (list inb_row) :=
  match pis with
  | [] => Some []
  | pi :: pis =>
    match inb_body fsolve M0 taux_tt inlet pi with
    | None => None
    | Some (o, r) => match inb_loop fsolve M0 taux_tt o pis with Some l => Some (r :: l) | None => None end
    end
  end.
(** cell 1: the whole computation *)
Definition inb_run (fsolve : solver) (M0 taux_tt : num) (pis : list num) : option (list inb_row) :=
  inb_loop fsolve M0 taux_tt (inflow_init (inb_qi M0)) pis.
