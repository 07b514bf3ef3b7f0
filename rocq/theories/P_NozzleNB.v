(** Property theorems of L_NozzleNB.v. Generated by tools/gen.py; statements only, proofs are in L_NozzleNB.v. *)
From Verif Require Import L_Num Spec NumSpec NozzleSpec NozzleNBSpec M_Isentropic M_MassFlow M_ShockWave M_DefaultGas M_Nozzle M_NozzleNB L_Isentropic L_MassFlow L_Shock L_ShockPt L_DefaultGas L_Nozzle1 L_Nozzle2 L_Secant.
From Verif Require Import L_NozzleNB.
Open Scope R_scope.
Open Scope list_scope.

(** The section law of the notebook, for every target ratio above 1, length from 2, number of stations from 2 and exact root finder whose exit Mach number M leaves the wanted inlet Mach number positive: the exit section is the target; every section is at least 1, and 1 exactly at x = 1; sections decrease up to x = 1 and increase from it. *)
Theorem C101_section : forall newton t len n M, branch_solver (14/10) newton -> 1 < t -> 2 <= len -> (2 <= n)%nat ->
  Mach_Sigma newton (Some t) (Some 2) (Some (14/10)) = Some M -> (M - 1) * sin (PI / (2 * (len - 1))) < 1 ->
  exists a : nat -> R, (forall i, (i < n)%nat -> nth_error (nb_grid (Some len) n) i = Some (Some (station len n i)) /\
      nth_error (nb_area newton (Some t) (Some len) n) i = Some (Some (a i))) /\
    length (nb_grid (Some len) n) = n /\ length (nb_area newton (Some t) (Some len) n) = n /\
    station len n 0 = 0 /\ station len n (n - 1) = len /\ a (n - 1)%nat = t /\
    (forall i, (i < n)%nat -> 1 <= a i /\ (a i = 1 <-> station len n i = 1) /\ Sigma_Mach (Some (wanted M len (station len n i))) (Some (14/10)) = Some (a i)) /\
    (forall i j, (i < j < n)%nat -> station len n j <= 1 -> a j < a i) /\
    (forall i j, (i < j < n)%nat -> 1 <= station len n i -> a i < a j).
Proof. exact section_law. Qed.
Print Assumptions C101_section.

(** When the target is so large that the wanted inlet Mach number is negative, the inlet section is negative. *)
Theorem C101_inlet_refuted : forall newton t len n M, 2 <= len -> (2 <= n)%nat ->
  Mach_Sigma newton (Some t) (Some 2) (Some (14/10)) = Some M -> 1 < (M - 1) * sin (PI / (2 * (len - 1))) ->
  exists a, nth_error (nb_area newton (Some t) (Some len) n) 0 = Some (Some a) /\ a < 0.
Proof. exact inlet_negative. Qed.
Print Assumptions C101_inlet_refuted.

(** The supersonic regime recovers the Mach numbers the section was drawn for: at every station the computed Mach number is the wanted one, at the two added points it is the exit one, total pressure is 1, static pressure is total pressure over PtPs of that Mach number - 1/NPR1 at the end -, and section times mass flow is that of the throat. *)
Theorem C101_supersonic : forall newton t len n M, branch_solver (14/10) newton -> 1 < t -> 2 <= len -> (2 <= n)%nat ->
  Mach_Sigma newton (Some t) (Some 2) (Some (14/10)) = Some M -> (M - 1) * sin (PI / (2 * (len - 1))) < 1 ->
  let '(Ma, Pt, Ps) := nb_supersonic newton (nb_grid (Some len) n) (nb_area newton (Some t) (Some len) n) in
  exists w1 n1, WeightMassFlow (Some 1) (Some 1) (Some (14/10)) = Some w1 /\ nb_NPR1 newton (Some t) = Some n1 /\
  forall i, (i < n + 2)%nat -> let m := if (i <? n)%nat then wanted M len (station len n i) else M in
    nth_error Ma i = Some (Some m) /\ nth_error Pt i = Some (Some 1) /\
    exists ps q w, nth_error Ps i = Some (Some ps) /\ PtPs_Mach (Some m) (Some (14/10)) = Some q /\ ps * q = 1 /\
      WeightMassFlow (Some m) (Some 1) (Some (14/10)) = Some w /\
      (forall a, (i < n)%nat -> nth_error (nb_area newton (Some t) (Some len) n) i = Some (Some a) -> a * w = w1) /\
      ((n - 1 <= i)%nat -> t * w = w1 /\ ps * n1 = 1).
Proof. exact supersonic_regime. Qed.
Print Assumptions C101_supersonic.

(** The regime with a shock at the exit: the stations have the wanted Mach numbers and total pressure 1; the two added points have the Mach number behind a normal shock at the exit Mach number, the total pressure behind it, and static pressure exactly 1/NPRsw; section times total pressure times mass flow is that of the throat throughout. *)
Theorem C101_exit_shock : forall newton t len n M, branch_solver (14/10) newton -> 1 < t -> 2 <= len -> (2 <= n)%nat ->
  Mach_Sigma newton (Some t) (Some 2) (Some (14/10)) = Some M -> (M - 1) * sin (PI / (2 * (len - 1))) < 1 ->
  let '(Ma, Pt, Ps) := nb_exit_shock newton (nb_grid (Some len) n) (nb_area newton (Some t) (Some len) n) in
  exists w1 nsw h loss, WeightMassFlow (Some 1) (Some 1) (Some (14/10)) = Some w1 /\ nb_NPRsw newton (Some t) = Some nsw /\
  downstream_Mn (Some M) (Some (14/10)) = Some h /\ 0 < h < 1 /\ Pt_ratio (Some M) (Some (14/10)) = Some loss /\ 0 < loss < 1 /\
  forall i, (i < n + 2)%nat -> let m := if (i <? n)%nat then wanted M len (station len n i) else h in
    let p := if (i <? n)%nat then 1 else loss in
    nth_error Ma i = Some (Some m) /\ nth_error Pt i = Some (Some p) /\
    exists ps q w, nth_error Ps i = Some (Some ps) /\ PtPs_Mach (Some m) (Some (14/10)) = Some q /\ ps * q = p /\
      WeightMassFlow (Some m) (Some 1) (Some (14/10)) = Some w /\
      (forall a, (i < n)%nat -> nth_error (nb_area newton (Some t) (Some len) n) i = Some (Some a) -> a * w = w1) /\
      ((n <= i)%nat -> t * loss * w = w1 /\ ps * nsw = 1).
Proof. exact exit_shock_regime. Qed.
Print Assumptions C101_exit_shock.

(** The subsonic regime of throat Mach number c in (0, 1): at every station the flow is subsonic with a Mach number at most c - equal to c exactly where the section is 1 -, total pressure 1, static pressure 1/PtPs, and section times mass flow is that of the sonic-free throat at c; the two added points repeat the exit. *)
Theorem C101_subsonic : forall newton t len n M c, branch_solver (14/10) newton -> 1 < t -> 2 <= len -> (2 <= n)%nat -> 0 < c < 1 ->
  Mach_Sigma newton (Some t) (Some 2) (Some (14/10)) = Some M -> (M - 1) * sin (PI / (2 * (len - 1))) < 1 ->
  exists Ma Pt Ps wc, nb_subsonic newton (nb_area newton (Some t) (Some len) n) (Some c) = Some (Ma, Pt, Ps) /\
  WeightMassFlow (Some c) (Some 1) (Some (14/10)) = Some wc /\
  forall i a, (i < n + 2)%nat -> nth_error (nb_area newton (Some t) (Some len) n) (Nat.min i (n - 1)) = Some (Some a) ->
    exists m ps q w, nth_error Ma i = Some (Some m) /\ nth_error Pt i = Some (Some 1) /\ 0 < m <= c /\ (m = c <-> a = 1) /\
      nth_error Ps i = Some (Some ps) /\ PtPs_Mach (Some m) (Some (14/10)) = Some q /\ ps * q = 1 /\
      WeightMassFlow (Some m) (Some 1) (Some (14/10)) = Some w /\ a * w = wc.
Proof. exact subsonic_regime. Qed.
Print Assumptions C101_subsonic.

(** The regime with a shock in the diffuser, for every position parameter in [0, 1] (default gas unchanged), whenever the cell completes: the imposed pressure ratio lies between the first two limits; there are a total pressure loss in (0, 1] whose shock Mach number the library's inversion gives as h, and a station - one whose wanted Mach number is nearest to h - such that: before it the Mach numbers are the wanted ones with total pressure 1; from it on total pressure is the loss, and at every station whose section is at least the sonic section of the shocked flow the flow is subsonic and section times total pressure times mass flow is that of the throat (elsewhere the Mach number is not a number); static pressure is total pressure over PtPs; and the two added points have a subsonic Mach number, the throat's mass flow and static pressure exactly 1/NPR. *)
Theorem C101_shocked : forall newton t len n M pos Ma Pt Ps, branch_solver (14/10) newton -> 1 < t -> 2 <= len -> (2 <= n)%nat -> 0 <= pos <= 1 ->
  Mach_Sigma newton (Some t) (Some 2) (Some (14/10)) = Some M -> (M - 1) * sin (PI / (2 * (len - 1))) < 1 ->
  nb_shocked newton (Some (14/10)) (Some t) (nb_NPR newton (Some t) (Some pos)) (nb_grid (Some len) n) (nb_area newton (Some t) (Some len) n) = Some (Ma, Pt, Ps) ->
  exists npr n0 nsw ish loss h w1, nb_NPR newton (Some t) (Some pos) = Some npr /\ nb_NPR0 newton (Some t) = Some n0 /\ nb_NPRsw newton (Some t) = Some nsw /\
    n0 <= npr <= nsw /\ (ish < n)%nat /\ 0 < loss <= 1 /\ Mn_Pt_ratio (Some loss) (Some (14/10)) = Some h /\
    (forall i, (i < n)%nat -> Rabs (wanted M len (station len n ish) - h) <= Rabs (wanted M len (station len n i) - h)) /\
    WeightMassFlow (Some 1) (Some 1) (Some (14/10)) = Some w1 /\
    (forall i, (i < n + 2)%nat -> nth_error Pt i = Some (Some (if (i <? ish)%nat then 1 else loss)) /\
      forall m, nth_error Ma i = Some (Some m) -> exists ps q, nth_error Ps i = Some (Some ps) /\ PtPs_Mach (Some m) (Some (14/10)) = Some q /\ ps * q = (if (i <? ish)%nat then 1 else loss)) /\
    (forall i, (i < ish)%nat -> nth_error Ma i = Some (Some (wanted M len (station len n i)))) /\
    (forall i a, (ish <= i < n)%nat -> nth_error (nb_area newton (Some t) (Some len) n) i = Some (Some a) ->
      (1 <= a * loss -> exists m w, nth_error Ma i = Some (Some m) /\ 0 < m <= 1 /\ WeightMassFlow (Some m) (Some 1) (Some (14/10)) = Some w /\ a * loss * w = w1) /\
      (a * loss < 1 -> nth_error Ma i = Some None)) /\
    (forall i, (n <= i < n + 2)%nat -> exists m w, nth_error Ma i = Some (Some m) /\ 0 < m < 1 /\
      WeightMassFlow (Some m) (Some 1) (Some (14/10)) = Some w /\ t * loss * w = w1 /\ nth_error Ps i = Some (Some (1 / npr))).
Proof. exact shocked_regime. Qed.
Print Assumptions C101_shocked.

(** When x = 1 is one of the stations, the notebook draws the library's nozzle: for every pressure ratio from the first limit up to (not including) the shock-at-exit limit, the nozzle object built on the same section gives exactly the notebook's Mach, total and static pressure arrays without their two added points, and fails when the cell fails; from the shock-at-exit limit on it gives those of the supersonic regime. *)
Theorem C101_library : forall newton st t len n M k npr n0 nsw, branch_solver (14/10) newton -> 1 < t -> 2 <= len -> (2 <= n)%nat ->
  Mach_Sigma newton (Some t) (Some 2) (Some (14/10)) = Some M -> (M - 1) * sin (PI / (2 * (len - 1))) < 1 -> (k < n)%nat -> station len n k = 1 ->
  dg_gamma st = Some (14/10) -> nb_NPR0 newton (Some t) = Some n0 -> nb_NPRsw newton (Some t) = Some nsw -> n0 <= npr ->
  let X := nb_grid (Some len) n in let A := nb_area newton (Some t) (Some len) n in
  (npr < nsw ->
   match snd (nozzle_init newton st A None (Some (14/10)) (Some (Some npr))) with
   | Some nz => exists Ma Pt Ps Ms loss, nz_flow nz = Some (Ma, Pt, Ps) /\
       nb_shocked newton (Some (14/10)) (Some t) (Some npr) X A = Some (Ma ++ Ms :: Ms :: nil, Pt ++ loss :: loss :: nil, Ps ++ Some (1 / npr) :: Some (1 / npr) :: nil)
   | None => nb_shocked newton (Some (14/10)) (Some t) (Some npr) X A = None end) /\
  (nsw <= npr ->
   exists nz Ma Pt Ps ps, snd (nozzle_init newton st A None (Some (14/10)) (Some (Some npr))) = Some nz /\ nz_flow nz = Some (Ma, Pt, Ps) /\
     nb_supersonic newton X A = (Ma ++ Some M :: Some M :: nil, Pt ++ Some 1 :: Some 1 :: nil, Ps ++ ps :: ps :: nil)).
Proof. exact library_agrees. Qed.
Print Assumptions C101_library.

(** When x = 1 is not a station (the notebooks' own 200 and 400 stations on length 8 are such grids), the library's nozzle on the notebook's section is another nozzle: its exit-to-throat ratio is strictly below the target, its choked-subsonic limit strictly above and its choked-supersonic limit strictly below the limits the notebook prints. *)
Theorem C101_grid_refuted : forall newton st t len n M, branch_solver (14/10) newton -> 1 < t -> 2 <= len -> (2 <= n)%nat ->
  Mach_Sigma newton (Some t) (Some 2) (Some (14/10)) = Some M -> (M - 1) * sin (PI / (2 * (len - 1))) < 1 ->
  (forall i, (i < n)%nat -> station len n i <> 1) ->
  exists nz s n0 n1 N0 N1, snd (nozzle_init newton st (nb_area newton (Some t) (Some len) n) None (Some (14/10)) None) = Some nz /\ nz_AsoAc nz = Some s /\ 1 <= s < t /\
    nb_NPR0 newton (Some t) = Some n0 /\ nb_NPR1 newton (Some t) = Some n1 /\
    NPR0 (nz_lim nz) = Some N0 /\ NPR1 (nz_lim nz) = Some N1 /\ n0 < N0 /\ N1 < n1.
Proof. exact grid_misses_throat. Qed.
Print Assumptions C101_grid_refuted.

(** The widget's rescaled section for another exit ratio above 1 has that exit, sections at least 1, and 1 exactly at x = 1; and when x = 1 is not a station (refuting what the widget marks on the figure) the nozzle it draws has a smaller exit-to-throat ratio, a larger choked-subsonic and a smaller choked-supersonic limit than those it marks for the chosen ratio. *)
Theorem C101_widget : forall newton st t s len n M, branch_solver (14/10) newton -> 1 < t -> 1 < s -> 2 <= len -> (2 <= n)%nat ->
  Mach_Sigma newton (Some t) (Some 2) (Some (14/10)) = Some M -> (M - 1) * sin (PI / (2 * (len - 1))) < 1 ->
  let W := nb_rescaled (Some s) (Some t) (nb_area newton (Some t) (Some len) n) in
  (exists a : nat -> R, length W = n /\ (forall i, (i < n)%nat -> nth_error W i = Some (Some (a i)) /\ 1 <= a i /\ (a i = 1 <-> station len n i = 1)) /\ a (n - 1)%nat = s) /\
  ((forall i, (i < n)%nat -> station len n i <> 1) ->
   exists nz s' n0 n1 N0 N1, snd (nozzle_init newton st W None (Some (14/10)) None) = Some nz /\ nz_AsoAc nz = Some s' /\ 1 <= s' < s /\
    NPR0 (NPR_Ms_list newton (Some s)) = Some n0 /\ NPR1 (NPR_Ms_list newton (Some s)) = Some n1 /\
    NPR0 (nz_lim nz) = Some N0 /\ NPR1 (nz_lim nz) = Some N1 /\ n0 < N0 /\ N1 < n1).
Proof. exact widget_section. Qed.
Print Assumptions C101_widget.

(** the notebook's values (target ratio 6, length 8) meet the hypotheses with an exact root finder; neither its 200 nor the widget's 400 stations contain x = 1, while with 201 stations the one of index 25 is at x = 1; and on that length a target with a negative inlet section exists. *)
Example C101_example : exists newton M, branch_solver (14/10) newton /\ Mach_Sigma newton (Some 6) (Some 2) (Some (14/10)) = Some M /\
  (M - 1) * sin (PI / (2 * (8 - 1))) < 1 /\ (forall i, station 8 200 i <> 1) /\ (forall i, station 8 400 i <> 1) /\ station 8 201 25 = 1 /\
  (exists t M', 1 < t /\ Mach_Sigma newton (Some t) (Some 2) (Some (14/10)) = Some M' /\ 1 < (M' - 1) * sin (PI / (2 * (8 - 1)))).
Proof. exact nozzle_nb_example. Qed.

(** a completed run with a shock in the diffuser: for the area ratio of Mach 2, length 8 and any number of stations from 2, some position parameter makes the cell complete, with a shock at Mach 3/2. *)
Example C101_shocked_example : exists newton t pos npr loss, branch_solver (14/10) newton /\ 1 < t /\ 0 <= pos <= 1 /\
  Mach_Sigma newton (Some t) (Some 2) (Some (14/10)) = Some 2 /\ (2 - 1) * sin (PI / (2 * (8 - 1))) < 1 /\
  nb_NPR newton (Some t) (Some pos) = Some npr /\ Pt_ratio (Some (3/2)) (Some (14/10)) = Some loss /\ Mn_Pt_ratio (Some loss) (Some (14/10)) = Some (3/2) /\
  forall n, (2 <= n)%nat -> exists Ma Pt Ps, nb_shocked newton (Some (14/10)) (Some t) (Some npr) (nb_grid (Some 8) n) (nb_area newton (Some t) (Some 8) n) = Some (Ma, Pt, Ps).
Proof. exact nozzle_nb_shocked_example. Qed.

(** a completed set_NPR with a shock in the diffuser: for every section law whose exit-to-throat ratio is the area ratio of Mach 2 and every state of the default gas with gamma 1.4, some pressure ratio between the two limits gives a nozzle with a flow. *)
Example C43_shocked_example : exists newton s2 n n0 nsw, branch_solver (14/10) newton /\ Sigma_Mach (Some 2) (Some (14/10)) = Some s2 /\
  NPR_choked_subsonic newton (Some s2) = Some n0 /\ NPR_shock_at_exit newton (Some s2) = Some nsw /\ n0 <= n < nsw /\
  forall st sec c, (forall a, In a sec -> 0 < a) -> In c sec -> (forall a, In a sec -> c <= a) -> last sec 0 / c = s2 -> dg_gamma st = Some (14/10) ->
  exists st' nz M Pt Ps, nozzle_init newton st (map (@Some R) sec) None (Some (14/10)) (Some (Some n)) = (st', Some nz) /\ nz_flow nz = Some (M, Pt, Ps).
Proof. exact nozzle_shocked_completes. Qed.
