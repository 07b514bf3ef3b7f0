(** Property theorems of L_MassFlow.v. Generated by tools/gen.py; statements only, proofs are in L_MassFlow.v. *)
From Verif Require Import L_Num Spec NumSpec M_Isentropic M_MassFlow L_Isentropic.
From Verif Require Import L_MassFlow.
Open Scope R_scope.

(** A/A* is at least 1, and equal to 1 exactly at Mach 1. *)
Theorem C06_minimum : forall M g, 1 < g -> 0 < M ->
  exists s, Sigma_Mach (Some M) (Some g) = Some s /\ 1 <= s /\ (s = 1 <-> M = 1).
Proof. exact Sigma_minimum. Qed.
Print Assumptions C06_minimum.

(** A/A* strictly decreases on (0,1]. *)
Theorem C06_subsonic_decreasing : forall g, 1 < g ->
  decr_on (fun M => 0 < M <= 1) (fun M => Sigma_Mach M (Some g)).
Proof. exact Sigma_decreasing. Qed.
Print Assumptions C06_subsonic_decreasing.

(** A/A* strictly increases on [1,inf). *)
Theorem C06_supersonic_increasing : forall g, 1 < g ->
  incr_on (fun M => 1 <= M) (fun M => Sigma_Mach M (Some g)).
Proof. exact Sigma_increasing. Qed.
Print Assumptions C06_supersonic_increasing.

(** gamma = 3, M = 2: Sigma = (1/2*(1+4))^1/2 = 5/4 *)
Example C06_example : Sigma_Mach (Some 2) (Some 3) = Some (5/4).
Proof. exact C06_example_lemma. Qed.

(** WeightMassFlow is rho V sqrt(r Tt)/Pt for every perfect-gas static state (ps,Ts), with rho = ps/(r Ts), V = M a, and the library's own Tt/Ts and Pt/Ps. *)
Theorem C07_mass_flow : forall M g r ps Ts, 1 < g -> 0 < r -> 0 < ps -> 0 < Ts ->
  exists w t q, WeightMassFlow (Some M) (Some r) (Some g) = Some w /\
    TtTs_Mach (Some M) (Some g) = Some t /\ PtPs_Mach (Some M) (Some g) = Some q /\
    w = (ps / (r * Ts)) * (M * sound g r Ts) * sqrt (r * (t * Ts)) / (q * ps).
Proof. exact WMF_physical. Qed.
Print Assumptions C07_mass_flow.

(** The mass flow is largest exactly at Mach 1. *)
Theorem C07_mass_flow_maximal : forall M g r, 1 < g -> 0 < M ->
  exists w w1, WeightMassFlow (Some M) (Some r) (Some g) = Some w /\
    WeightMassFlow (Some 1) (Some r) (Some g) = Some w1 /\ 0 < w <= w1 /\ (w = w1 <-> M = 1).
Proof. exact WMF_max. Qed.
Print Assumptions C07_mass_flow_maximal.

(** Sigma is the ratio of the sonic to the local mass flow. *)
Theorem C07_Sigma_is_ratio : forall M g r, 1 < g -> 0 < M ->
  exists w w1, WeightMassFlow (Some M) (Some r) (Some g) = Some w /\
    WeightMassFlow (Some 1) (Some r) (Some g) = Some w1 /\ w <> 0 /\
    Sigma_Mach (Some M) (Some g) = Some (w1 / w).
Proof. exact Sigma_ratio. Qed.
Print Assumptions C07_Sigma_is_ratio.

(** For each sigma > 1 exactly one subsonic Mach number has that area ratio. *)
Theorem C08_unique_subsonic : forall g s, 1 < g -> 1 < s ->
  exists M, (0 < M < 1 /\ Sigma_Mach (Some M) (Some g) = Some s) /\
    forall M', 0 < M' < 1 /\ Sigma_Mach (Some M') (Some g) = Some s -> M' = M.
Proof. exact Sigma_sub_unique. Qed.
Print Assumptions C08_unique_subsonic.

(** For each sigma > 1 exactly one supersonic Mach number has that area ratio. *)
Theorem C08_unique_supersonic : forall g s, 1 < g -> 1 < s ->
  exists M, (1 < M /\ Sigma_Mach (Some M) (Some g) = Some s) /\
    forall M', 1 < M' /\ Sigma_Mach (Some M') (Some g) = Some s -> M' = M.
Proof. exact Sigma_sup_unique. Qed.
Print Assumptions C08_unique_supersonic.

(** Whatever root finder honours its contract (a returned value has residual at most eps), the Mach number returned by MachSub_Sigma, MachSup_Sigma or Mach_Sigma has the requested area ratio within eps. *)
Theorem C08_residual : forall newton eps s g M, solves eps newton ->
  MachSub_Sigma newton (Some s) (Some g) = Some M \/
  MachSup_Sigma newton (Some s) (Some g) = Some M \/
  (exists M0, Mach_Sigma newton (Some s) M0 (Some g) = Some M) ->
  exists s', Sigma_Mach (Some M) (Some g) = Some s' /\ Rabs (s' - s) <= eps.
Proof. exact Mach_Sigma_residual. Qed.
Print Assumptions C08_residual.

(** If the root finder's answer is an exact root on the requested branch, MachSub_Sigma (resp. MachSup_Sigma) undoes Sigma_Mach on that branch. *)
Theorem C08_exact_root : forall newton g M M', solves 0 newton -> 1 < g ->
  (forall s, Sigma_Mach (Some M) (Some g) = Some s -> 0 < M < 1 ->
     MachSub_Sigma newton (Some s) (Some g) = Some M' -> 0 < M' < 1 -> M' = M) /\
  (forall s, Sigma_Mach (Some M) (Some g) = Some s -> 1 < M ->
     MachSup_Sigma newton (Some s) (Some g) = Some M' -> 1 < M' -> M' = M).
Proof. exact Mach_Sigma_exact. Qed.
Print Assumptions C08_exact_root.

(** MachSup_Sigma starts the root finder at or above Mach 1, for every sigma >= 1 and 1 < gamma < 3. *)
Theorem C08_start_supersonic : forall s g, 1 < g < 3 -> 1 <= s ->
  exists m, MachSup_guess (Some s) (Some g) = Some m /\ 1 <= m /\
  forall newton, MachSup_Sigma newton (Some s) (Some g) = Mach_Sigma newton (Some s) (Some m) (Some g).
Proof. exact start_sup. Qed.
Print Assumptions C08_start_supersonic.

(** For 1 < gamma <= 7/5 MachSub_Sigma starts the root finder in (0,1]. *)
Theorem C08_start_subsonic : forall s g, 1 < g <= 14/10 -> 1 <= s ->
  exists m, MachSub_guess (Some s) (Some g) = Some m /\ 0 < m <= 1 /\
  forall newton, MachSub_Sigma newton (Some s) (Some g) = Mach_Sigma newton (Some s) (Some m) (Some g).
Proof. exact start_sub. Qed.
Print Assumptions C08_start_subsonic.

(** For gamma = 1.5 (and others above 1.4) the requested branch is left: MachSub_Sigma starts the root finder at a negative Mach number. *)
Theorem C08_start_subsonic_refuted : exists s g, 1 < g < 3 /\ 1 < s /\
  exists m, MachSub_guess (Some s) (Some g) = Some m /\ m < 0.
Proof. exact start_sub_refuted. Qed.
Print Assumptions C08_start_subsonic_refuted.

(** a solver meeting the contract exists, and returns a Mach number for sigma = 5/4, gamma = 3 when started at the exact root 2 *)
Example C08_example : solves 0 (lazy_newton 0) /\
  Mach_Sigma (lazy_newton 0) (Some (5/4)) (Some 2) (Some 3) = Some 2.
Proof. exact C08_example_lemma. Qed.

(** gamma = 3, M = 2: mass flow the weighted mass flow is sqrt 3 * 2 / 5, the sonic one sqrt 3 / 2, Sigma = 5/4. *)
Example C07_example : WeightMassFlow (Some 2) (Some 287) (Some 3) = Some (2 * sqrt 3 / 5) /\
  WeightMassFlow (Some 1) (Some 287) (Some 3) = Some (sqrt 3 / 2) /\ Sigma_Mach (Some 2) (Some 3) = Some (5/4).
Proof. exact C07_example_lemma. Qed.
