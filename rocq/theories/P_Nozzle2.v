(** Property theorems of L_Nozzle2.v. Generated by tools/gen.py; statements only, proofs are in L_Nozzle2.v. *)
From Verif Require Import L_Num Spec NumSpec NozzleSpec M_Isentropic M_MassFlow M_ShockWave M_DefaultGas M_Nozzle L_Isentropic L_MassFlow L_Shock L_ShockPt L_DefaultGas L_Nozzle1.
From Verif Require Import L_Nozzle2.
Open Scope R_scope.
Open Scope list_scope.

(** Whatever the section law, gamma, NPR, default gas and root finder: if set_NPR succeeds, the Mach, total and static pressure arrays have the length of the section, and at every station Ps = Pt / PtPs(M) - with the nozzle's gamma in the unchoked regime, with gamma = 1.4 in the others. *)
Theorem C43_shape : forall newton cur n NPR M Pt Ps,
  flow_at newton cur n NPR = Some (M, Pt, Ps) ->
  length M = length (nz_AxoAc n) /\ length Pt = length (nz_AxoAc n) /\ length Ps = length (nz_AxoAc n) /\
  exists g, (g = nz_gamma n /\ nlt NPR (NPR0 (nz_lim n)) = Some true \/
             g = Some (14/10) /\ nlt NPR (NPR0 (nz_lim n)) = Some false) /\
   forall i m p, nth_error M i = Some m -> nth_error Pt i = Some p -> nth_error Ps i = Some (ndiv p (PtPs_Mach m g)).
Proof. exact flow_shape. Qed.
Print Assumptions C43_shape.

(** Below the choking limit (and above 1) the nozzle is built, every station is subsonic with total pressure 1, Pt/Ps = PtPs(M) at each station, area times mass flow is the same at all stations, and the exit static pressure is exactly Pt/NPR. Every positive section law whose exit is larger than its throat; any default gas. *)
Theorem C43_unchoked : forall newton st sec c n n0, branch_solver (14/10) newton ->
  (forall a, In a sec -> 0 < a) -> In c sec -> (forall a, In a sec -> c <= a) -> c < last sec 0 ->
  NPR_choked_subsonic newton (Some (last sec 0 / c)) = Some n0 -> 1 < n < n0 ->
  exists st' nz M Pt Ps W, nozzle_init newton st (map (@Some R) sec) None (Some (14/10)) (Some (Some n)) = (st', Some nz) /\
    nz_flow nz = Some (M, Pt, Ps) /\ 0 < W /\
    forall i, (i < length sec)%nat -> exists m ps q w,
      nth_error M i = Some (Some m) /\ nth_error Pt i = Some (Some 1) /\ nth_error Ps i = Some (Some ps) /\
      0 < m < 1 /\ PtPs_Mach (Some m) (Some (14/10)) = Some q /\ ps * q = 1 /\
      WeightMassFlow (Some m) (Some 1) (Some (14/10)) = Some w /\ nth i sec 0 * w * 1 = W /\
      (i = (length sec - 1)%nat -> ps = 1 / n).
Proof. exact profile_unchoked. Qed.
Print Assumptions C43_unchoked.

(** From the shock-at-exit limit on the nozzle is built, sonic or subsonic up to the throat and sonic or supersonic after it, with total pressure 1, Pt/Ps = PtPs(M), and at every station area times mass flow equals that of the sonic throat. *)
Theorem C43_supersonic : forall newton st sec c n nsw, branch_solver (14/10) newton ->
  (forall a, In a sec -> 0 < a) -> In c sec -> (forall a, In a sec -> c <= a) -> c < last sec 0 ->
  NPR_shock_at_exit newton (Some (last sec 0 / c)) = Some nsw -> nsw <= n ->
  exists st' nz M Pt Ps k w1, nozzle_init newton st (map (@Some R) sec) None (Some (14/10)) (Some (Some n)) = (st', Some nz) /\
    nz_flow nz = Some (M, Pt, Ps) /\ nth k sec 0 = c /\ (k < length sec - 1)%nat /\
    WeightMassFlow (Some 1) (Some 1) (Some (14/10)) = Some w1 /\
    forall i, (i < length sec)%nat -> exists m ps q w,
      nth_error M i = Some (Some m) /\ nth_error Pt i = Some (Some 1) /\ nth_error Ps i = Some (Some ps) /\
      0 < m /\ ((i <= k)%nat -> m <= 1) /\ ((k < i)%nat -> 1 <= m) /\
      PtPs_Mach (Some m) (Some (14/10)) = Some q /\ ps * q = 1 /\
      WeightMassFlow (Some m) (Some 1) (Some (14/10)) = Some w /\ nth i sec 0 * w * 1 = c * w1.
Proof. exact profile_supersonic. Qed.
Print Assumptions C43_supersonic.

(** Between the first limit and the shock-at-exit limit (default gas unchanged), whenever set_NPR succeeds there is a station index from which total pressure is a constant loss in (0,1], total pressure being 1 before it; before it the flow is the choked sub/supersonic one; from it on, at every station whose area is at least the sonic area of the shocked flow, the flow is subsonic, Pt/Ps = PtPs(M), and area times mass flow is that of the throat; the exit static pressure is exactly Pt/NPR. *)
Theorem C43_shocked : forall newton st sec c n n0 nsw st' nz M Pt Ps, branch_solver (14/10) newton ->
  (forall a, In a sec -> 0 < a) -> In c sec -> (forall a, In a sec -> c <= a) -> c < last sec 0 ->
  dg_gamma st = Some (14/10) ->
  NPR_choked_subsonic newton (Some (last sec 0 / c)) = Some n0 ->
  NPR_shock_at_exit newton (Some (last sec 0 / c)) = Some nsw -> n0 <= n < nsw ->
  nozzle_init newton st (map (@Some R) sec) None (Some (14/10)) (Some (Some n)) = (st', Some nz) ->
  nz_flow nz = Some (M, Pt, Ps) ->
  exists k ish loss w1, nth k sec 0 = c /\ (k < length sec - 1)%nat /\ (ish < length sec)%nat /\ 0 < loss <= 1 /\
    WeightMassFlow (Some 1) (Some 1) (Some (14/10)) = Some w1 /\
    (forall i, (i < length sec)%nat -> nth_error Pt i = Some (Some (if (i <? ish)%nat then 1 else loss))) /\
    (forall i, (i < length sec)%nat -> (i < ish)%nat \/ c <= nth i sec 0 * loss ->
     exists m ps q w,
      nth_error M i = Some (Some m) /\ nth_error Ps i = Some (Some ps) /\ 0 < m /\
      ((i < ish)%nat -> ((i <= k)%nat -> m <= 1) /\ ((k < i)%nat -> 1 <= m)) /\
      ((ish <= i)%nat -> m <= 1) /\
      PtPs_Mach (Some m) (Some (14/10)) = Some q /\ ps * q = (if (i <? ish)%nat then 1 else loss) /\
      WeightMassFlow (Some m) (Some 1) (Some (14/10)) = Some w /\
      nth i sec 0 * w * (if (i <? ish)%nat then 1 else loss) = c * w1) /\
    nth_error Ps (length sec - 1) = Some (Some (1 / n)) /\
    (forall i, (ish <= i < length sec)%nat -> nth i sec 0 * loss < c -> nth_error M i = Some None).
Proof. exact profile_shocked. Qed.
Print Assumptions C43_shocked.

(** On a coarse grid the profile is not a flow: with three stations (inlet, throat, exit), for every NPR strictly inside the shocked range for which the computed shock Mach number is nearer to the throat's Mach number 1 than to the exit or inlet Mach numbers, the solver is asked at the throat for an area below the sonic area of the shocked flow, and the Mach number stored at the throat is not a number. *)
Theorem C43_coarse_grid_refuted : forall newton st a s n n0 nsw Ms q h mi Msup st' nz M Pt Ps, branch_solver (14/10) newton ->
  1 < a -> 1 < s -> dg_gamma st = Some (14/10) ->
  NPR_choked_subsonic newton (Some s) = Some n0 -> NPR_shock_at_exit newton (Some s) = Some nsw -> n0 < n < nsw ->
  Ms_from_AsAc_NPR newton (Some (14/10)) (Some s) (Some n) = Some Ms ->
  PtPs_Mach (Some Ms) (Some (14/10)) = Some q -> Mn_Pi_ratio (Some (q / n)) (Some (14/10)) = Some h ->
  Sigma_Mach (Some mi) (Some (14/10)) = Some a -> 0 < mi < 1 ->
  Sigma_Mach (Some Msup) (Some (14/10)) = Some s -> 1 < Msup ->
  (mi + 1) / 2 < h < (1 + Msup) / 2 ->
  nozzle_init newton st (Some a :: Some 1 :: Some s :: nil) None (Some (14/10)) (Some (Some n)) = (st', Some nz) ->
  nz_flow nz = Some (M, Pt, Ps) -> nth_error M 1 = Some None.
Proof. exact coarse_grid. Qed.
Print Assumptions C43_coarse_grid_refuted.

(** the section law (2, 1, 3/2, 2) meets the hypotheses on sections; with the ideal solver the unchoked and supersonic ranges are not empty *)
Example C43_example : let sec := 2 :: 1 :: 3/2 :: 2 :: nil in
  (forall a, In a sec -> 0 < a) /\ In 1 sec /\ (forall a, In a sec -> 1 <= a) /\ 1 < last sec 0 /\
  branch_solver (14/10) (ideal_newton (14/10)) /\
  exists n0 nsw, NPR_choked_subsonic (ideal_newton (14/10)) (Some (last sec 0 / 1)) = Some n0 /\
    NPR_shock_at_exit (ideal_newton (14/10)) (Some (last sec 0 / 1)) = Some nsw /\ 1 < (1 + n0) / 2 < n0 /\ n0 < nsw <= nsw + 1.
Proof. exact C43_example_lemma. Qed.

(** Building a nozzle, whatever its arguments and whether it succeeds or raises, leaves the default gamma and r as they were; so does set_NPR, which does not touch them at all. *)
Theorem C44_default_unchanged : forall newton st sec AsoAc g NPR st' r,
  nozzle_init newton st sec AsoAc g NPR = (st', r) ->
  get_gamma st' = get_gamma st /\ get_r st' = get_r st.
Proof. exact init_default_gas. Qed.
Print Assumptions C44_default_unchanged.

(** The user's saved pair is overwritten: after any history, building a nozzle from any non-empty section of numbers replaces the saved pair by the current one, so a later restore_default() gives the pair current at construction, not the pair the user saved. *)
Theorem C44_saved_pair_refuted : forall newton pre st sec AsoAc g NPR st' r, gas_run defgas0 pre = Some st ->
  argmin (map nabs (map (fun a => ndiv (nmul a (if truthy AsoAc then match AsoAc with Some a => a | None => None end
     else ndiv (alast sec) (amin sec))) (alast sec)) sec)) <> None ->
  nozzle_init newton st sec AsoAc g NPR = (st', r) ->
  exists st2, gas_step st' RestoreDefault = Some st2 /\ get_gamma st2 = get_gamma st /\ get_r st2 = get_r st /\
    dg_saved st' = Some (get_r st, get_gamma st).
Proof. exact init_clobbers_saved. Qed.
Print Assumptions C44_saved_pair_refuted.

(** set_gamma(1.3), save, set_gamma(1.4), build a nozzle, restore: the user gets 1.4 instead of the saved 1.3 *)
Example C44_saved_pair_example : exists st st' r st2,
  gas_run defgas0 (SetGamma (Some (13/10)) :: SaveDefault :: SetGamma (Some (14/10)) :: nil) = Some st /\
  nozzle_init (ideal_newton (14/10)) st (Some 2 :: Some 1 :: Some 2 :: nil) None (Some (14/10)) None = (st', r) /\
  gas_step st' RestoreDefault = Some st2 /\ get_gamma st2 = Some (14/10) /\
  (exists st3, gas_step st RestoreDefault = Some st3 /\ get_gamma st3 = Some (13/10)).
Proof. exact clobber_example. Qed.

(** The three limit pressure ratios and the limit Mach numbers stored in a nozzle do not depend on its gamma argument. *)
Theorem C44_gamma_ignored_limits_refuted : forall newton st sec AsoAc g1 g2 st1 st2 n1 n2,
  nozzle_init newton st sec AsoAc g1 None = (st1, Some n1) ->
  nozzle_init newton st sec AsoAc g2 None = (st2, Some n2) -> nz_lim n1 = nz_lim n2.
Proof. exact limits_ignore_gamma. Qed.
Print Assumptions C44_gamma_ignored_limits_refuted.

(** In the choked regimes without shock the static pressure at the throat is computed with gamma = 1.4 whatever the gamma of the nozzle: for every gamma in (1, 1.4) it differs from the static pressure Pt/PtPs(1, gamma) of the sonic flow of that gas. *)
Theorem C44_gamma_ignored_throat_refuted : forall newton st sec c g n nsw, branch_solver (14/10) newton -> branch_solver g newton ->
  1 < g < 14/10 ->
  (forall a, In a sec -> 0 < a) -> In c sec -> (forall a, In a sec -> c <= a) -> c < last sec 0 ->
  NPR_shock_at_exit newton (Some (last sec 0 / c)) = Some nsw -> nsw <= n ->
  exists st' nz M Pt Ps k q, nozzle_init newton st (map (@Some R) sec) None (Some g) (Some (Some n)) = (st', Some nz) /\
    nz_flow nz = Some (M, Pt, Ps) /\ nth k sec 0 = c /\ nth_error M k = Some (Some 1) /\ nth_error Pt k = Some (Some 1) /\
    PtPs_Mach (Some 1) (Some g) = Some q /\ exists ps, nth_error Ps k = Some (Some ps) /\ ps < 1 / q.
Proof. exact throat_ignores_gamma. Qed.
Print Assumptions C44_gamma_ignored_throat_refuted.

(** a root finder meeting the contract for gamma = 4/3 and gamma = 1.4 at the same time exists *)
Example C44_two_gases_example : exists newton, branch_solver (4/3) newton /\ branch_solver (14/10) newton /\ 1 < 4/3 < 14/10.
Proof. exact two_gas_example. Qed.
