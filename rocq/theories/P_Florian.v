(** Property theorems of L_Florian.v. Generated by tools/gen.py; statements only, proofs are in L_Florian.v. *)
From Verif Require Import L_Num Spec NumSpec M_Isentropic M_MassFlow M_ShockWave M_Model1D M_Unsteady1D M_Riemann M_Florian L_Isentropic L_Shock L_Model1D L_Unsteady L_Riemann1 L_Riemann2 L_GuideVane L_ShockTube.
From Verif Require Import L_Florian.
Open Scope R_scope.

(** For every state of positive density and pressure, the attributes the notebook computes for qL and qR are those of the library's state of air: same speed of sound, Mach number and total pressure, and total temperature equal to rTtot divided by 287.1. *)
Theorem C99_quantities : forall rho u p, 0 < rho -> 0 < p ->
  let s := fl_init (Some u) (Some rho) (Some p) in
  let q := state_init (Some rho) (Some u) (Some p) (Some (Some (14/10))) in
  fl_rho s = st_rho q /\ fl_u s = st_u q /\ fl_p s = st_p q /\
  fl_t s = Some (p / rho / (2871/10)) /\ fl_a s = asound q /\ fl_M s = M_Model1D.Mach q /\ fl_pi s = Ptot q /\ fl_ti s = ndiv (rTtot q) (Some (2871/10)).
Proof. exact florian_quantities. Qed.
Print Assumptions C99_quantities.

(** For all left and right states of positive density and pressure and EVERY pressure (also zero, negative or nan), the velocity jumps, the star velocity and the function handed to the root finder are those of the library's Riemann problem, the starting value is the library's estimate, and for positive pressures the two density formulas are rho_through_shock and rho_through_isentropic. *)
Theorem C99_functions : forall qL qR, positive_state qL -> positive_state qR ->
  let sL := fl_init (Some (f_u qL)) (Some (f_rho qL)) (Some (f_p qL)) in
  let sR := fl_init (Some (f_u qR)) (Some (f_rho qR)) (Some (f_p qR)) in
  let L := obj (14/10) qL in let R := obj (14/10) qR in
  fl_estimation sL sR = pstar_estimate_expansion L R /\
  (forall x, fl_delta sL x = delta_uK L x /\ fl_delta sR x = delta_uK R x /\
     fl_Ustar sL sR x = ustar_from_pstar L R x /\ fl_function sL sR x = riemann_du L R x) /\
  (forall p, 0 < p -> fl_shock sL (Some p) = rho_through_shock L (Some p) /\ fl_isentropic sL (Some p) = rho_through_isentropic L (Some p)).
Proof. exact florian_functions. Qed.
Print Assumptions C99_functions.

(** With exact root finders and without vacuum, the notebook finds the star pressure and velocity of the library's Riemann problem, and the quantities it prints for the two star states (density, temperature, Mach number, total pressure, total temperature) are those of the library's qstarL and qstarR. *)
Theorem C99_same_star : forall newton fsolve qL qR S p, solves 0 newton -> solves 0 fsolve ->
  positive_state qL -> positive_state qR -> no_vacuum (14/10) (14/10) qL qR ->
  let sL := fl_init (Some (f_u qL)) (Some (f_rho qL)) (Some (f_p qL)) in
  let sR := fl_init (Some (f_u qR)) (Some (f_rho qR)) (Some (f_p qR)) in
  riemann_pb newton (obj (14/10) qL) (obj (14/10) qR) = Some S -> fl_solve fsolve sL sR = Some p ->
  r_pstar S = Some p /\ fl_Ustar sL sR (Some p) = r_ustar S /\
  describes (fl_starstate sL (Some p) (r_ustar S)) (r_qsL S) /\ describes (fl_starstate sR (Some p) (r_ustar S)) (r_qsR S).
Proof. exact florian_same_star. Qed.
Print Assumptions C99_same_star.

(** The starting value is the solution when both waves are expansions: for all states without vacuum and a pressure p, at most the two given pressures, that solves the library's Riemann problem, every root finder that keeps a starting value which already is a root returns p. *)
Theorem C99_start : forall fsolve qL qR p, (forall f x, f (Some x) = Some 0 -> fsolve f (Some x) = Some x) ->
  positive_state qL -> positive_state qR -> no_vacuum (14/10) (14/10) qL qR -> 0 < p -> p <= f_p qL -> p <= f_p qR ->
  riemann_du (obj (14/10) qL) (obj (14/10) qR) (Some p) = Some 0 ->
  fl_solve fsolve (fl_init (Some (f_u qL)) (Some (f_rho qL)) (Some (f_p qL))) (fl_init (Some (f_u qR)) (Some (f_rho qR)) (Some (f_p qR))) = Some p.
Proof. exact florian_start. Qed.
Print Assumptions C99_start.

(** two states of density 7/5 and pressure 1 (sound speed 1) that separate at velocities -1 and 1 meet the hypotheses with the star pressure (4/5)^7. *)
Example C99_start_example : exists (fsolve : (num -> num) -> num -> num) qL qR p, (forall f x, f (Some x) = Some 0 -> fsolve f (Some x) = Some x) /\
  positive_state qL /\ positive_state qR /\ no_vacuum (14/10) (14/10) qL qR /\ 0 < p /\ p < f_p qL /\ p < f_p qR /\
  riemann_du (obj (14/10) qL) (obj (14/10) qR) (Some p) = Some 0.
Proof. exact florian_start_example. Qed.

(** With exact root finders, for every imposed total temperature and pressure and tolerances: the body of the search reports exactly when the total temperature and pressure of the library's left star state are strictly within the tolerances, and what it prints is: shock to the right exactly when the star pressure exceeds the right pressure, the two star states, the star pressure and velocity, and the mass flows of the right star state, the left star state and the right state. *)
Theorem C99_report : forall newton fsolve qL qR S p Ti Pi T1 T2, solves 0 newton -> solves 0 fsolve ->
  positive_state qL -> positive_state qR -> no_vacuum (14/10) (14/10) qL qR ->
  let sL := fl_init (Some (f_u qL)) (Some (f_rho qL)) (Some (f_p qL)) in
  let sR := fl_init (Some (f_u qR)) (Some (f_rho qR)) (Some (f_p qR)) in
  riemann_pb newton (obj (14/10) qL) (obj (14/10) qR) = Some S -> fl_solve fsolve sL sR = Some p ->
  exists pt rtt, Ptot (r_qsL S) = Some pt /\ rTtot (r_qsL S) = Some rtt /\
  let out := fl_try fsolve (Some Ti) (Some Pi) (Some T1) (Some T2) sL sR in
  (out <> None <-> Rabs (rtt / (2871/10) - Ti) < T1 /\ Rabs (pt - Pi) < T2) /\
  (forall rep, out = Some rep ->
    (fr_shock rep = true <-> f_p qR < p) /\ describes (fr_right rep) (r_qsR S) /\ describes (fr_left rep) (r_qsL S) /\
    fr_p rep = r_pstar S /\ fr_u rep = r_ustar S /\ fr_debit_choc rep = massflow (r_qsR S) /\
    fr_debit_swave rep = massflow (r_qsL S) /\ fr_debit_0 rep = massflow (obj (14/10) qR)).
Proof. exact florian_report. Qed.
Print Assumptions C99_report.

(** For every root finder, imposed totals, tolerances and right state: the reports printed are exactly those of the first k (among 0..99) that meets the criteria, for each pair (i, j) with i, j in 0..99; the break leaves only the loop over k, so that at most one report is printed per pair, at most 10000 in all. *)
Theorem C99_search : forall fsolve Ti Pi T1 T2 qR,
  (forall rep, In rep (fl_f fsolve Ti Pi T1 T2 qR) <->
    exists i j k, (i < 100)%nat /\ (j < 100)%nat /\ (k < 100)%nat /\
      fl_try fsolve Ti Pi T1 T2 (fl_qL i j k) qR = Some rep /\
      forall k', (k' < k)%nat -> fl_try fsolve Ti Pi T1 T2 (fl_qL i j k') qR = None) /\
  (List.length (fl_f fsolve Ti Pi T1 T2 qR) <= 100 * 100)%nat.
Proof. exact florian_search. Qed.
Print Assumptions C99_search.

(** For all the left states the script tries (0 <= i, j, k < 100) there is no vacuum, and with an exact root finder the star pressure lies strictly between the left pressure and 260000 Pa, below the right pressure: the left wave is always a shock and the right wave always an expansion (the branch printing a shock to the right is never taken), and the total pressure of the left star state is below 280000 Pa. *)
Theorem C99_regime : forall i j k, (i < 100)%nat -> (j < 100)%nat -> (k < 100)%nat ->
  let qL := mkflow (1/100 * INR j + 25/10) (65 + 1/10 * INR i) (200000 + 10 * INR k) in
  let qR := mkflow (428102874756 / 100000000000) (13899118042 / 100000000) (35690884375 / 100000) in
  no_vacuum (14/10) (14/10) qL qR /\
  forall newton S, solves 0 newton -> riemann_pb newton (obj (14/10) qL) (obj (14/10) qR) = Some S ->
    exists p pt w, r_pstar S = Some p /\ f_p qL < p < 260000 /\ p < f_p qR /\
      r_w0 S = Some w /\ r_w1 S = Some w /\ (exists h t, r_w4 S = Some h /\ r_w3 S = Some t /\ t < h) /\
      Ptot (r_qsL S) = Some pt /\ pt < 280000.
Proof. exact florian_regime. Qed.
Print Assumptions C99_regime.

(** The script as written (300 K and 300000 Pa imposed, tolerances 10 K and 100 Pa) prints no solution at all, for every root finder whose results have a residual of at most 1 m/s (in particular for every exact one): no left state of the search range reaches the imposed total pressure. *)
Theorem C99_prints_nothing : forall fsolve, solves 1 fsolve -> fl_main fsolve = nil.
Proof. exact florian_nothing. Qed.
Print Assumptions C99_prints_nothing.

(** the left state of indices (0, 0, 0) meets the hypotheses: there is an exact root finder that solves its problem, for which the library runs too, and with a total pressure imposed at 240000 Pa and wide tolerances (60000 Pa, 1000 K) the body reports; and a root finder of residual at most 1 exists. *)
Example C99_example : exists fsolve p S rep, solves 0 fsolve /\ solves 1 fsolve /\ positive_state (sL0 0 0 0) /\ positive_state sR0 /\ no_vacuum (14/10) (14/10) (sL0 0 0 0) sR0 /\
  fl_qL 0 0 0 = fl_init (Some (f_u (sL0 0 0 0))) (Some (f_rho (sL0 0 0 0))) (Some (f_p (sL0 0 0 0))) /\
  fl_qR = fl_init (Some (f_u sR0)) (Some (f_rho sR0)) (Some (f_p sR0)) /\
  fl_solve fsolve (fl_qL 0 0 0) fl_qR = Some p /\ riemann_pb fsolve (obj (14/10) (sL0 0 0 0)) (obj (14/10) sR0) = Some S /\
  fl_try fsolve (Some 300) (Some 240000) (Some 1000) (Some 60000) (fl_qL 0 0 0) fl_qR = Some rep.
Proof. exact florian_ex. Qed.
