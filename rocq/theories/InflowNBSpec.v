(** * C102: what the notebook on unsteady inflow shows *)
From Verif Require Import Num Spec NumSpec M_Isentropic M_ShockWave M_Model1D M_InflowNB.
Open Scope R_scope.

(** What a row of the notebook is expected to show for a total-pressure ratio [pi] above 1: mass flows before
    ([mf0]), behind the transmitted shock ([mf1]), on the inflow side of the contact ([mf2]), at the final state
    of the initial static pressure ([mff]) and of the initial Mach number ([mffb]); the pressure ratio [ps] and
    the Mach number [Ms] of the shock; the Mach numbers on the two sides of the contact; the four normalised
    curves. [rR], [rL] are the densities on the two sides of the contact. *)
Definition row_facts (M0 pi : R) (row : inb_row) : Prop :=
  exists mf0 mf1 mf2 mff mffb ps Ms M1 M2 n1f n2f n1fb n2fb rR rL pt0 ptc,
    row = mk_inb (Some mf0) (Some mf1) (Some mf2) (Some mff) (Some mffb) (Some ps) (Some Ms) (Some M1) (Some M2) (Some n1f) (Some n2f) (Some n1fb) (Some n2fb) /\
    mf0 = M0 * sqrt (14/10) /\ mffb = pi * mf0 /\ mf0 < mf1 < mf2 /\ mf0 < mff /\
    1 < ps /\ 1 < Ms /\ Ps_ratio (Some Ms) (Some (14/10)) = Some ps /\
    (let w := M0 * sqrt (14/10) + Ms * sqrt (14/10) in joined_by_wave 1 (14/10) (mkflow 1 (M0 * sqrt (14/10)) 1) (mkflow rR (mf1 / rR) ps) w w) /\
    1 < rR < rL /\ mf1 / rR = mf2 / rL /\ M0 * sqrt (14/10) < mf1 / rR /\
    PtPs_Mach (Some M0) (Some (14/10)) = Some pt0 /\ PtPs_Mach (Some 1) (Some (14/10)) = Some ptc /\
    Ptot (mk_state (Some (14/10)) (Some rL) (Some (mf1 / rR)) (Some ps)) = Some (pi * pt0) /\
    0 < M1 < M2 /\ M0 < M2 /\ 0 < n1f < n2f /\ 0 < n1fb < n2fb /\
    (M2 <= 1 -> mffb < mf2 /\ 1 < n2fb) /\
    (pi * pt0 <= ptc -> M2 < 1 /\ mf2 < mff /\ n2f < 1).
(** all mass flows, Mach numbers and pressures those of the initial state; the four curves not a number *)
Definition start_facts (M0 : R) (row : inb_row) : Prop :=
  row = mk_inb (Some (M0 * sqrt (14/10))) (Some (M0 * sqrt (14/10))) (Some (M0 * sqrt (14/10))) (Some (M0 * sqrt (14/10))) (Some (M0 * sqrt (14/10)))
    (Some 1) (Some 1) (Some M0) (Some M0) None None None None.
