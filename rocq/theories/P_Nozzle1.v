(** Property theorems of L_Nozzle1.v. Generated by tools/gen.py; statements only, proofs are in L_Nozzle1.v. *)
From Verif Require Import L_Num Spec NumSpec NozzleSpec M_Isentropic M_MassFlow M_ShockWave M_DefaultGas M_Nozzle L_Isentropic L_MassFlow L_Shock L_ShockPt L_Degree L_Oblique L_Oblique2.
From Verif Require Import L_Nozzle1.
Open Scope R_scope.

(** the hypothesis on the root finder used throughout C41-C43 can be met, for every gamma *)
Example C41_solver_exists : forall g, 1 < g -> exists newton, branch_solver g newton.
Proof. exact branch_solver_exists. Qed.

(** For every exit-to-throat area ratio above 1 the three limit pressure ratios exist and 1 < choked-subsonic < shock-at-exit < choked-supersonic (default gas; exact root finder). *)
Theorem C41_order : forall newton s, branch_solver (14/10) newton -> 1 < s ->
  exists n0 nsw n1, NPR_choked_subsonic newton (Some s) = Some n0 /\
    NPR_shock_at_exit newton (Some s) = Some nsw /\ NPR_choked_supersonic newton (Some s) = Some n1 /\
    1 < n0 /\ n0 < nsw /\ nsw < n1.
Proof. exact NPR_order. Qed.
Print Assumptions C41_order.

(** Each limit is the ratio of inlet total to exit static pressure of the regime it names: isentropic flow that is sonic at the throat and subsonic (resp. supersonic) at an exit of that area ratio; and, for shock-at-exit, the supersonic exit flow followed by a normal shock (static pressure multiplied by Ps_ratio). *)
Theorem C41_meaning : forall newton s, branch_solver (14/10) newton -> 1 < s ->
  (exists m, 0 < m < 1 /\ Sigma_Mach (Some m) (Some (14/10)) = Some s /\
     NPR_choked_subsonic newton (Some s) = PtPs_Mach (Some m) (Some (14/10))) /\
  (exists M, 1 < M /\ Sigma_Mach (Some M) (Some (14/10)) = Some s /\
     NPR_choked_supersonic newton (Some s) = PtPs_Mach (Some M) (Some (14/10)) /\
     exists q P, PtPs_Mach (Some M) (Some (14/10)) = Some q /\ Ps_ratio (Some M) (Some (14/10)) = Some P /\
       forall pt ps, 0 < ps -> pt / ps = q -> 
         NPR_shock_at_exit newton (Some s) = Some (pt / (ps * P))).
Proof. exact NPR_meaning. Qed.
Print Assumptions C41_meaning.

(** The internal list used by all other functions has these same three limits, the two isentropic exit Mach numbers, and the Mach number behind the exit shock. *)
Theorem C41_list_agrees : forall newton s,
  NPR0 (NPR_Ms_list newton s) = NPR_choked_subsonic newton s /\
  NPRsw (NPR_Ms_list newton s) = NPR_shock_at_exit newton s /\
  NPR1 (NPR_Ms_list newton s) = NPR_choked_supersonic newton s /\
  l_Msub (NPR_Ms_list newton s) = MachSub_Sigma newton s (Some (14/10)) /\
  l_Msup (NPR_Ms_list newton s) = MachSup_Sigma newton s (Some (14/10)) /\
  l_Msh (NPR_Ms_list newton s) = downstream_Mn (MachSup_Sigma newton s (Some (14/10))) (Some (14/10)).
Proof. exact NPR_list. Qed.
Print Assumptions C41_list_agrees.

(** Below the first limit the exit Mach number is subsonic, below the choked one, and its Pt/Ps is exactly NPR: the exit static pressure is the imposed one. (Every NPR >= 1, every area ratio > 1, whatever the current default gamma.) *)
Theorem C42_unchoked : forall newton cur s n n0 m0, branch_solver (14/10) newton -> 1 < s -> 1 <= n ->
  NPR_choked_subsonic newton (Some s) = Some n0 -> n < n0 ->
  MachSub_Sigma newton (Some s) (Some (14/10)) = Some m0 ->
  exists Ms, Ms_from_AsAc_NPR newton cur (Some s) (Some n) = Some Ms /\ 0 <= Ms < m0 /\ m0 < 1 /\
    PtPs_Mach (Some Ms) (Some (14/10)) = Some n.
Proof. exact Ms_unchoked. Qed.
Print Assumptions C42_unchoked.

(** Between the first two limits (both included) and with the default gas unchanged, the exit flow is subsonic between the choked isentropic Mach number and the Mach number behind an exit shock; and the throat-choked mass flow equals the mass flow through the exit at the imposed static pressure, for every inlet total state and every area: pt/ps = NPR at the exit exactly. *)
Theorem C42_shocked : forall newton s n n0 nsw m0 M0 mh, branch_solver (14/10) newton -> 1 < s ->
  NPR_choked_subsonic newton (Some s) = Some n0 -> NPR_shock_at_exit newton (Some s) = Some nsw -> n0 <= n <= nsw ->
  MachSub_Sigma newton (Some s) (Some (14/10)) = Some m0 -> MachSup_Sigma newton (Some s) (Some (14/10)) = Some M0 ->
  downstream_Mn (Some M0) (Some (14/10)) = Some mh ->
  exists Ms t w1, Ms_from_AsAc_NPR newton (Some (14/10)) (Some s) (Some n) = Some Ms /\ m0 <= Ms <= mh /\ mh < 1 /\
    TtTs_Mach (Some Ms) (Some (14/10)) = Some t /\
    WeightMassFlow (Some 1) (Some 1) (Some (14/10)) = Some w1 /\
    forall r Tt pt Ac, 0 < r -> 0 < Tt -> 0 < pt -> 0 < Ac ->
      let ps := pt / n in let Ts := Tt / t in
      (ps / (r * Ts)) * (Ms * sound (14/10) r Ts) * (s * Ac) = w1 * pt * Ac / sqrt (r * Tt).
Proof. exact Ms_shocked. Qed.
Print Assumptions C42_shocked.

(** Above the shock-at-exit limit the exit flow is the supersonic design flow (Sigma(Ms) = As/Ac, Ms > 1), whatever NPR. *)
Theorem C42_supersonic : forall newton cur s n nsw, branch_solver (14/10) newton -> 1 < s ->
  NPR_shock_at_exit newton (Some s) = Some nsw -> nsw < n ->
  exists Ms, Ms_from_AsAc_NPR newton cur (Some s) (Some n) = Some Ms /\ 1 < Ms /\
    Sigma_Mach (Some Ms) (Some (14/10)) = Some s.
Proof. exact Ms_supersonic. Qed.
Print Assumptions C42_supersonic.

(** With the default gas unchanged the exit Mach number is exactly the choked subsonic one at the first limit (where the unchoked formula gives the same value: no jump), and exactly the Mach number behind an exit shock at the second. *)
Theorem C42_limits : forall newton s n0 nsw m0 M0, branch_solver (14/10) newton -> 1 < s ->
  NPR_choked_subsonic newton (Some s) = Some n0 -> NPR_shock_at_exit newton (Some s) = Some nsw ->
  MachSub_Sigma newton (Some s) (Some (14/10)) = Some m0 -> MachSup_Sigma newton (Some s) (Some (14/10)) = Some M0 ->
  Ms_from_AsAc_NPR newton (Some (14/10)) (Some s) (Some n0) = Some m0 /\
  Mach_PtPs (Some n0) (Some (14/10)) = Some m0 /\
  Ms_from_AsAc_NPR newton (Some (14/10)) (Some s) (Some nsw) = downstream_Mn (Some M0) (Some (14/10)).
Proof. exact Ms_limits. Qed.
Print Assumptions C42_limits.

(** In the shocked range the exit Mach number strictly increases with NPR. *)
Theorem C42_shocked_monotone : forall newton s n0 nsw, branch_solver (14/10) newton -> 1 < s ->
  NPR_choked_subsonic newton (Some s) = Some n0 -> NPR_shock_at_exit newton (Some s) = Some nsw ->
  incr_on (fun n => n0 <= n <= nsw) (fun n => Ms_from_AsAc_NPR newton (Some (14/10)) (Some s) n).
Proof. exact Ms_monotone. Qed.
Print Assumptions C42_shocked_monotone.

(** The shocked formula is only right while the default gas is 1.4: the limits use gamma = 1.4 frozen at import, the formula reads the current default. Whatever the NPR in the open shocked range, if the default gamma has been set to any other value above 1.4, the exit Mach number is strictly below the one that conserves mass. *)
Theorem C42_default_gas_refuted : forall newton cur s n n0 nsw, branch_solver (14/10) newton -> 1 < s -> 14/10 < cur ->
  NPR_choked_subsonic newton (Some s) = Some n0 -> NPR_shock_at_exit newton (Some s) = Some nsw -> n0 <= n <= nsw ->
  exists a b, Ms_from_AsAc_NPR newton (Some cur) (Some s) (Some n) = Some a /\
    Ms_from_AsAc_NPR newton (Some (14/10)) (Some s) (Some n) = Some b /\ a < b.
Proof. exact Ms_default_gas. Qed.
Print Assumptions C42_default_gas_refuted.

(** Madapt equals the exit Mach number when the nozzle is unchoked or shocked; above the supersonic limit it expands isentropically to the imposed pressure (Pt/Ps = NPR); between the last two limits it is the Mach number behind the oblique shock, at the supersonic exit Mach number, that raises the exit pressure to the imposed one (pressure ratio NPR1/NPR, conserving total temperature); at the supersonic limit it is the exit Mach number itself. *)
Theorem C42_adapted_jet : forall newton cur s n n0 nsw n1 M0, branch_solver (14/10) newton -> 1 < s -> 1 <= n ->
  NPR_choked_subsonic newton (Some s) = Some n0 -> NPR_shock_at_exit newton (Some s) = Some nsw ->
  NPR_choked_supersonic newton (Some s) = Some n1 -> MachSup_Sigma newton (Some s) (Some (14/10)) = Some M0 ->
  (n <= nsw -> Madapt_from_AsAc_NPR newton cur (Some s) (Some n) = Ms_from_AsAc_NPR newton cur (Some s) (Some n)) /\
  (n1 < n -> exists Ma, Madapt_from_AsAc_NPR newton cur (Some s) (Some n) = Some Ma /\ M0 < Ma /\
     PtPs_Mach (Some Ma) (Some (14/10)) = Some n) /\
  (nsw < n <= n1 -> exists Ma sigma th T t0 t1 mn, Madapt_from_AsAc_NPR newton cur (Some s) (Some n) = Some Ma /\
     0 < Ma /\ 0 < sigma < 90 /\
     Ps_ratio (Some (M0 * sin (sigma * (PI / 180)))) (Some (14/10)) = Some (n1 / n) /\
     deflection_Mach_sigma (Some M0) (Some sigma) (Some (14/10)) = Some th /\
     downstream_Mn (Some (M0 * sin (sigma * (PI / 180)))) (Some (14/10)) = Some mn /\
     mn = Ma * sin ((sigma - th) * (PI / 180)) /\
     Ts_ratio (Some (M0 * sin (sigma * (PI / 180)))) (Some (14/10)) = Some T /\
     TtTs_Mach (Some M0) (Some (14/10)) = Some t0 /\ TtTs_Mach (Some Ma) (Some (14/10)) = Some t1 /\ t0 = T * t1) /\
  (n = n1 -> Madapt_from_AsAc_NPR newton cur (Some s) (Some n) = Some M0).
Proof. exact Madapt_regimes. Qed.
Print Assumptions C42_adapted_jet.

(** with the ideal solver and As/Ac = 2 the three regimes are non-empty: an unchoked, a shocked and a supersonic NPR exist *)
Example C42_example : exists n0 nsw n1, 
  NPR_choked_subsonic (ideal_newton (14/10)) (Some 2) = Some n0 /\
  NPR_shock_at_exit (ideal_newton (14/10)) (Some 2) = Some nsw /\
  NPR_choked_supersonic (ideal_newton (14/10)) (Some 2) = Some n1 /\
  branch_solver (14/10) (ideal_newton (14/10)) /\
  1 <= (1 + n0) / 2 < n0 /\ n0 <= (n0 + nsw) / 2 <= nsw /\ nsw < n1.
Proof. exact C42_example_lemma. Qed.
