(** * C99: the stand-alone Riemann solver and search of notebooks/unsteady_inflow_Florian.ipynb *)
From Verif Require Import L_Num Spec NumSpec M_Isentropic M_MassFlow M_ShockWave M_Model1D M_Unsteady1D M_Riemann M_Florian L_Isentropic L_Shock L_Model1D L_Unsteady L_Riemann1 L_Riemann2 L_GuideVane L_ShockTube.
Open Scope R_scope.

Notation rg := (2871/10).
Lemma half_sqrt x : 0 < x -> npow (Some x) (Some (1/2)) = Some (sqrt x).
Proof. intros H. rewrite npow_Some by exact H. f_equal. replace (1/2) with (/2) by field. now apply Rpower_sqrt. Qed.
(** the attributes computed for a positive state *)
Definition flq (q : flow) : fl_state := fl_init (Some (f_u q)) (Some (f_rho q)) (Some (f_p q)).
Lemma flq_eval q : positive_state q ->
  fl_u (flq q) = Some (f_u q) /\ fl_rho (flq q) = Some (f_rho q) /\ fl_p (flq q) = Some (f_p q) /\
  fl_a (flq q) = asound (obj air q) /\ fl_M (flq q) = M_Model1D.Mach (obj air q) /\
  fl_pi (flq q) = Ptot (obj air q) /\ fl_ti (flq q) = ndiv (rTtot (obj air q)) (Some rg).
Proof.
  intros Hq. pose proof Hq as [Hr Hp]. pose proof (sound_pos air q ltac:(lra) Hq) as Ha.
  assert (Et : ndiv (Some (f_p q)) (nmul (Some (f_rho q)) (Some rg)) = Some (f_p q / (f_rho q * rg))).
  { ncbn. apply ndiv_Some. apply pos_nz; pos. }
  assert (Ea : fl_asound (Some (f_p q / (f_rho q * rg))) = asound (obj air q)).
  { rewrite asound_eval by (assumption || lra). unfold fl_asound. ncbn. rewrite half_sqrt by pos. f_equal. unfold flow_sound. f_equal. field. lra. }
  assert (EM : fl_Mach (Some (f_u q)) (asound (obj air q)) = M_Model1D.Mach (obj air q)).
  { rewrite asound_eval, Mach_eval by (assumption || lra). unfold fl_Mach. apply ndiv_Some. lra. }
  repeat (split; [reflexivity|]).
  unfold flq, fl_init. rewrite Et. cbv zeta. cbn [fl_a fl_M fl_pi fl_ti]. rewrite Ea, EM.
  split; [reflexivity|]. split; [reflexivity|].
  rewrite Mach_eval, Ptot_eval, rTtot_eval by (assumption || lra). split.
  - unfold fl_Pi. ncbn. rewrite ndiv_Some by lra. rewrite npow_Some by (cbn; nra). ncbn. reflexivity.
  - unfold fl_Ti. ncbn. rewrite ndiv_Some by lra. f_equal. rewrite rTt_tt by (assumption || lra). unfold tt. field. lra.
Qed.
Lemma ndiv_shape a b c d : a / b = c / d -> b <> 0 -> d <> 0 -> ndiv (Some a) (Some b) = ndiv (Some c) (Some d).
Proof. intros E Hb Hd. rewrite !ndiv_Some by assumption. now rewrite E. Qed.
(** the velocity jump is the one of the library, whatever the pressure *)
Lemma delta_eq q x : positive_state q -> fl_delta (flq q) x = delta_uK (obj air q) x.
Proof.
  intros Hq. pose proof Hq as [Hr Hp]. destruct (flq_eval q Hq) as (Eu & Er & Ep & Ea & _).
  unfold fl_delta. rewrite Er, Ep, Ea. cbv zeta. destruct x as [p|]; [|reflexivity].
  unfold delta_uK. cbn [obj st_p]. change (mk_state (Some air) (Some (f_rho q)) (Some (f_u q)) (Some (f_p q))) with (obj air q).
  destruct (Rlt_dec (f_p q) p) as [h|h].
  - rewrite !ngt_true by assumption. cbn [nif]. rewrite delta_u_shock_eval by (assumption || lra). unfold shdu, shD.
    ncbn. rewrite (ndiv_Some 2) by nra. rewrite (ndiv_Some (14/10 - 1)) by lra. ncbn.
    assert (0 < p + (14/10 - 1) / (14/10 + 1) * f_p q) by lra.
    rewrite ndiv_Some by lra. rewrite half_sqrt by pos. ncbn. f_equal. f_equal. f_equal. field. lra.
  - rewrite !ngt_false by lra. cbn [nif]. unfold delta_u_expansion. rewrite asound_eval by (assumption || lra).
    cbn [obj st_g st_p]. ncbn. rewrite !ndiv_Some by lra. ncbn.
    replace (2 * flow_sound air q / (14/10 - 1)) with (flow_sound air q / (1/2 * (14/10 - 1))) by (field; lra).
    replace ((14/10 - 1) / (2 * (14/10))) with (1/2 * (14/10 - 1) / (14/10)) by field. reflexivity.
Qed.
Lemma function_eq qL qR x : positive_state qL -> positive_state qR ->
  fl_function (flq qL) (flq qR) x = riemann_du (obj air qL) (obj air qR) x.
Proof. intros HL HR. unfold fl_function, riemann_du. now rewrite !delta_eq by assumption. Qed.
Lemma Ustar_eq qL qR x : positive_state qL -> positive_state qR ->
  fl_Ustar (flq qL) (flq qR) x = ustar_from_pstar (obj air qL) (obj air qR) x.
Proof. intros HL HR. unfold fl_Ustar, ustar_from_pstar. now rewrite !delta_eq by assumption. Qed.
Lemma estimation_eq qL qR : positive_state qL -> positive_state qR ->
  fl_estimation (flq qL) (flq qR) = pstar_estimate_expansion (obj air qL) (obj air qR).
Proof.
  intros HL HR. destruct (flq_eval qL HL) as (Eu & Er & Ep & Ea & _). destruct (flq_eval qR HR) as (Eu' & Er' & Ep' & Ea' & _).
  unfold fl_estimation, pstar_estimate_expansion. rewrite Eu, Ep, Ea, Eu', Ep', Ea'. rewrite !asound_eval by (assumption || lra).
  cbn [obj st_g st_p st_u].
  assert (Z1 : ((# air - # 1) / (# 2 * # air))%num = Some (1/7)) by (ncbn; rewrite ndiv_Some by lra; f_equal; field).
  assert (Z2 : (# 2 * # air / (# air - # 1))%num = Some 7) by (ncbn; rewrite ndiv_Some by lra; f_equal; field).
  assert (Z3 : (# (1/2) * (# (1/2) * (# air + # air) - # 1) / (# (1/2) * (# air + # air)))%num = Some (1/7)) by (ncbn; rewrite ndiv_Some by lra; f_equal; field).
  assert (Z4 : (# (1/2) * (# air + # air) / (# (1/2) * (# (1/2) * (# air + # air) - # 1)))%num = Some 7) by (ncbn; rewrite ndiv_Some by lra; f_equal; field).
  assert (Z5 : (# (1/2) * (# (1/2) * (# air + # air) - # 1))%num = (# (1/2) * (# air - # 1))%num) by (ncbn; f_equal; field).
  rewrite Z1, Z2, Z3, Z4, Z5. reflexivity.
Qed.
Lemma densities_eq q p : positive_state q -> 0 < p ->
  fl_shock (flq q) (Some p) = rho_through_shock (obj air q) (Some p) /\
  fl_isentropic (flq q) (Some p) = rho_through_isentropic (obj air q) (Some p).
Proof.
  intros Hq Hp. split; reflexivity.
Qed.
Lemma star_totals q : positive_state q ->
  let T := ndiv (Some (f_p q)) (nmul (Some rg) (Some (f_rho q))) in
  let M := fl_Mach (Some (f_u q)) (fl_asound T) in
  T = Some (f_p q / f_rho q / rg) /\ M = M_Model1D.Mach (obj air q) /\ fl_Pi (Some (f_p q)) M = Ptot (obj air q) /\
  fl_Ti T M = ndiv (rTtot (obj air q)) (Some rg).
Proof.
  intros Hq T M. pose proof Hq as [Hr Hp].
  assert (Et : T = ndiv (Some (f_p q)) (nmul (Some (f_rho q)) (Some rg))) by (unfold T; cbn [nmul]; now rewrite (Rmult_comm rg)).
  destruct (flq_eval q Hq) as (_ & _ & _ & Ea & EM & EP & ET). unfold flq, fl_init in *. cbv zeta in *. cbn [fl_a fl_M fl_pi fl_ti] in *.
  rewrite <- Et in *. fold M in EM, EP, ET. split; [|auto]. rewrite Et. ncbn. rewrite ndiv_Some by (apply pos_nz; pos). f_equal. field. lra.
Qed.
Lemma starstate_eval q p u : positive_state q -> 0 < p ->
  let q' := mkflow (srho air q p) u p in
  fl_starstate (flq q) (Some p) (Some u) =
    mk_flstar (Some (f_rho q')) (Some (f_p q' / f_rho q' / rg)) (M_Model1D.Mach (obj air q')) (Ptot (obj air q')) (ndiv (rTtot (obj air q')) (Some rg)).
Proof.
  intros Hq Hp q'. destruct (flq_eval q Hq) as (_ & _ & Ep & _). destruct (densities_eq q p Hq Hp) as [Es Ei].
  pose proof (srho_pos air q p ltac:(lra) Hq Hp) as Hr. assert (Hq' : positive_state q') by (split; assumption).
  assert (E : nif (ngt (Some p) (fl_p (flq q))) (fl_shock (flq q) (Some p)) (fl_isentropic (flq q) (Some p)) = Some (f_rho q')).
  { rewrite Ep, Es, Ei. unfold q', srho. cbn [f_rho]. destruct (Rlt_dec (f_p q) p).
    - rewrite ngt_true by assumption. apply rho_through_shock_eval; [lra|assumption..].
    - rewrite ngt_false by lra. apply rho_through_isentropic_eval; [lra|assumption..]. }
  unfold fl_starstate. rewrite E. cbv zeta. destruct (star_totals q' Hq') as (A & B & C & D).
  cbv zeta in A, B, C, D. cbn [f_p f_u] in A, B, C, D. change (f_p q') with p in A, B, C, D. change (f_u q') with u in B, C, D.
  rewrite C, D, B, A. reflexivity.
Qed.
(** [s] lists density, temperature, Mach number, total pressure and total temperature of [q], for r = 287.1 *)
Definition describes (s : fl_star) (q : state) : Prop :=
  fs_rho s = st_rho q /\ fs_T s = ndiv (ndiv (st_p q) (st_rho q)) (Some rg) /\ fs_M s = M_Model1D.Mach q /\
  fs_Pi s = Ptot q /\ fs_Ti s = ndiv (rTtot q) (Some rg).
Lemma starstate_describes q p u : positive_state q -> 0 < p ->
  describes (fl_starstate (flq q) (Some p) (Some u)) (obj air (mkflow (srho air q p) u p)).
Proof.
  intros Hq Hp. rewrite starstate_eval by assumption. pose proof (srho_pos air q p ltac:(lra) Hq Hp) as Hr.
  unfold describes. cbn [fs_rho fs_T fs_M fs_Pi fs_Ti]. split; [reflexivity|]. split; [|auto].
  cbn [obj st_p st_rho f_p f_rho]. rewrite (ndiv_Some p) by lra. now rewrite ndiv_Some by lra.
Qed.
(** a root of the notebook's function is a root of the library's *)
Lemma fl_root eps fsolve qL qR p : solves eps fsolve -> positive_state qL -> positive_state qR -> fl_solve fsolve (flq qL) (flq qR) = Some p ->
  exists e, riemann_du (obj air qL) (obj air qR) (Some p) = Some e /\ Rabs e <= eps.
Proof. intros Hn HL HR E. destruct (Hn _ _ _ E) as (e & Ee & He). exists e. rewrite function_eq in Ee by assumption. auto. Qed.
Lemma fl_exact fsolve qL qR p : solves 0 fsolve -> positive_state qL -> positive_state qR -> no_vacuum air air qL qR ->
  fl_solve fsolve (flq qL) (flq qR) = Some p -> 0 < p /\ duR air air qL qR p = 0.
Proof.
  intros Hn HL HR Hv E. destruct (fl_root 0 fsolve qL qR p Hn HL HR E) as (e & Ee & He).
  apply (exact_pstar (lazy_newton 0) air air qL qR (Some p)); try assumption; try lra; [apply lazy_newton_solves; lra|].
  unfold lazy_newton. rewrite Ee. destruct (Rle_dec (Rabs e) 0); [reflexivity|contradiction].
Qed.

(*@P C99_quantities: For every state of positive density and pressure, the attributes the notebook computes for qL and qR are those of the library's state of air: same speed of sound, Mach number and total pressure, and total temperature equal to rTtot divided by 287.1. *)
Lemma florian_quantities : forall rho u p, 0 < rho -> 0 < p ->
  let s := fl_init (Some u) (Some rho) (Some p) in
  let q := state_init (Some rho) (Some u) (Some p) (Some (Some (14/10))) in
  fl_rho s = st_rho q /\ fl_u s = st_u q /\ fl_p s = st_p q /\
  fl_t s = Some (p / rho / (2871/10)) /\ fl_a s = asound q /\ fl_M s = M_Model1D.Mach q /\ fl_pi s = Ptot q /\ fl_ti s = ndiv (rTtot q) (Some (2871/10)).
Proof.
  intros rho u p Hr Hp s q. pose proof (flq_eval (mkflow rho u p) (conj Hr Hp)) as (A & B & C & D & E & F & G).
  split; [reflexivity|]. split; [reflexivity|]. split; [reflexivity|]. split; [|auto].
  unfold s, fl_init. cbn [fl_t]. ncbn. rewrite ndiv_Some by (apply pos_nz; pos). f_equal. field. lra.
Qed.
(*@P C99_functions: For all left and right states of positive density and pressure and EVERY pressure (also zero, negative or nan), the velocity jumps, the star velocity and the function handed to the root finder are those of the library's Riemann problem, the starting value is the library's estimate, and for positive pressures the two density formulas are rho_through_shock and rho_through_isentropic. *)
Lemma florian_functions : forall qL qR, positive_state qL -> positive_state qR ->
  let sL := fl_init (Some (f_u qL)) (Some (f_rho qL)) (Some (f_p qL)) in
  let sR := fl_init (Some (f_u qR)) (Some (f_rho qR)) (Some (f_p qR)) in
  let L := obj (14/10) qL in let R := obj (14/10) qR in
  fl_estimation sL sR = pstar_estimate_expansion L R /\
  (forall x, fl_delta sL x = delta_uK L x /\ fl_delta sR x = delta_uK R x /\
     fl_Ustar sL sR x = ustar_from_pstar L R x /\ fl_function sL sR x = riemann_du L R x) /\
  (forall p, 0 < p -> fl_shock sL (Some p) = rho_through_shock L (Some p) /\ fl_isentropic sL (Some p) = rho_through_isentropic L (Some p)).
Proof.
  intros qL qR HL HR sL sR L R. split; [now apply estimation_eq|]. split.
  - intros x. split; [now apply delta_eq|]. split; [now apply delta_eq|]. split; [now apply Ustar_eq|now apply function_eq].
  - intros p Hp. now apply densities_eq.
Qed.
Lemma florian_star_core newton fsolve qL qR S p : solves 0 newton -> solves 0 fsolve -> positive_state qL -> positive_state qR -> no_vacuum air air qL qR ->
  riemann_pb newton (obj air qL) (obj air qR) = Some S -> fl_solve fsolve (flq qL) (flq qR) = Some p ->
  0 < p /\ r_pstar S = Some p /\ (exists u, r_ustar S = Some u /\ fl_Ustar (flq qL) (flq qR) (Some p) = Some u /\
    r_qsL S = obj air (mkflow (srho air qL p) u p) /\ r_qsR S = obj air (mkflow (srho air qR p) u p)).
Proof.
  intros Hn Hf HL HR Hv E Ef. destruct (fl_exact fsolve qL qR p Hf HL HR Hv Ef) as [Hp Hd].
  destruct (riemann_eval newton air air qL qR S Hn ltac:(lra) ltac:(lra) HL HR Hv E) as (p' & Hp' & Hd' & ES).
  assert (p' = p) by (apply (duR_unique air air qL qR); try assumption; lra). subst p'.
  split; [exact Hp|]. rewrite ES. split; [reflexivity|]. exists (f_u qL - fK air qL p). split; [reflexivity|].
  unfold duR in Hd. split; [|split].
  - rewrite Ustar_eq by assumption. unfold ustar_from_pstar. rewrite !delta_uK_eval by (assumption || lra). cbn [obj st_u]. ncbn. f_equal. lra.
  - cbn [r_qsL]. unfold sq. do 2 f_equal. ring.
  - cbn [r_qsR]. unfold sq. do 2 f_equal. lra.
Qed.
(*@P C99_same_star: With exact root finders and without vacuum, the notebook finds the star pressure and velocity of the library's Riemann problem, and the quantities it prints for the two star states (density, temperature, Mach number, total pressure, total temperature) are those of the library's qstarL and qstarR. *)
Lemma florian_same_star : forall newton fsolve qL qR S p, solves 0 newton -> solves 0 fsolve ->
  positive_state qL -> positive_state qR -> no_vacuum (14/10) (14/10) qL qR ->
  let sL := fl_init (Some (f_u qL)) (Some (f_rho qL)) (Some (f_p qL)) in
  let sR := fl_init (Some (f_u qR)) (Some (f_rho qR)) (Some (f_p qR)) in
  riemann_pb newton (obj (14/10) qL) (obj (14/10) qR) = Some S -> fl_solve fsolve sL sR = Some p ->
  r_pstar S = Some p /\ fl_Ustar sL sR (Some p) = r_ustar S /\
  describes (fl_starstate sL (Some p) (r_ustar S)) (r_qsL S) /\ describes (fl_starstate sR (Some p) (r_ustar S)) (r_qsR S).
Proof.
  intros newton fsolve qL qR S p Hn Hf HL HR Hv sL sR E Ef.
  destruct (florian_star_core newton fsolve qL qR S p Hn Hf HL HR Hv E Ef) as (Hp & EP & u & EU & EF & QL & QR).
  split; [exact EP|]. rewrite EU, QL, QR. split; [exact EF|]. split; now apply starstate_describes.
Qed.
(*@P C99_start: The starting value is the solution when both waves are expansions: for all states without vacuum and a pressure p, at most the two given pressures, that solves the library's Riemann problem, every root finder that keeps a starting value which already is a root returns p. *)
Lemma florian_start : forall fsolve qL qR p, (forall f x, f (Some x) = Some 0 -> fsolve f (Some x) = Some x) ->
  positive_state qL -> positive_state qR -> no_vacuum (14/10) (14/10) qL qR -> 0 < p -> p <= f_p qL -> p <= f_p qR ->
  riemann_du (obj (14/10) qL) (obj (14/10) qR) (Some p) = Some 0 ->
  fl_solve fsolve (fl_init (Some (f_u qL)) (Some (f_rho qL)) (Some (f_p qL))) (fl_init (Some (f_u qR)) (Some (f_rho qR)) (Some (f_p qR))) = Some p.
Proof.
  intros fsolve qL qR p Hf HL HR Hv Hp PL PR E. unfold fl_solve. fold (flq qL) (flq qR). rewrite estimation_eq by assumption.
  rewrite (proj1 (two_expansions (14/10) qL qR p ltac:(lra) HL HR Hv Hp PL PR) E). apply Hf.
  pose proof (function_eq qL qR (Some p) HL HR) as F. now rewrite F.
Qed.
(*@E C99_start_example: two states of density 7/5 and pressure 1 (sound speed 1) that separate at velocities -1 and 1 meet the hypotheses with the star pressure (4/5)^7. *)
Lemma florian_start_example : exists (fsolve : (num -> num) -> num -> num) qL qR p, (forall f x, f (Some x) = Some 0 -> fsolve f (Some x) = Some x) /\
  positive_state qL /\ positive_state qR /\ no_vacuum (14/10) (14/10) qL qR /\ 0 < p /\ p < f_p qL /\ p < f_p qR /\
  riemann_du (obj (14/10) qL) (obj (14/10) qR) (Some p) = Some 0.
Proof.
  set (qL := mkflow (14/10) (-1) 1). set (qR := mkflow (14/10) 1 1).
  assert (HL : positive_state qL) by (split; cbn; lra). assert (HR : positive_state qR) by (split; cbn; lra).
  assert (SL : flow_sound air qL = 1) by (unfold flow_sound, qL; cbn; replace (air * 1 / air) with 1 by field; apply sqrt_1).
  assert (SR : flow_sound air qR = 1) by (unfold flow_sound, qR; cbn; replace (air * 1 / air) with 1 by field; apply sqrt_1).
  assert (Hv : no_vacuum air air qL qR) by (unfold no_vacuum; rewrite SL, SR; cbn; lra).
  assert (Hp : Rpower (4/5) 7 < 1) by (rewrite <- (Rpower_O (4/5)) by lra; unfold Rpower; apply exp_increasing;
    assert (ln (4/5) < 0) by (rewrite <- ln_1; apply ln_increasing; lra); lra).
  exists (fun _ x => x), qL, qR, (Rpower (4/5) 7). split; [reflexivity|]. split; [exact HL|]. split; [exact HR|]. split; [exact Hv|].
  split; [apply exp_pos|]. split; [exact Hp|]. split; [exact Hp|].
  apply (two_expansions air qL qR (Rpower (4/5) 7)); try assumption; try lra; try apply exp_pos; try (cbn; lra).
  destruct (estimate_eval air qL qR ltac:(lra) HL HR) as [_ E]. rewrite SL, SR in E. cbn [f_p f_u qL qR] in E.
  rewrite E by lra. f_equal. f_equal.
  - replace (Rpower 1 (1/2 * (air - 1) / air)) with 1 by (symmetry; unfold Rpower; rewrite ln_1, Rmult_0_r; apply exp_0). field.
  - field.
Qed.
Lemma holds_lt x y : holds (nlt (Some x) (Some y)) = true <-> x < y.
Proof. cbn [nlt holds]. destruct (Rlt_dec x y); split; intros; try reflexivity; try discriminate; try assumption; contradiction. Qed.
(*@P C99_report: With exact root finders, for every imposed total temperature and pressure and tolerances: the body of the search reports exactly when the total temperature and pressure of the library's left star state are strictly within the tolerances, and what it prints is: shock to the right exactly when the star pressure exceeds the right pressure, the two star states, the star pressure and velocity, and the mass flows of the right star state, the left star state and the right state. *)
Lemma florian_report : forall newton fsolve qL qR S p Ti Pi T1 T2, solves 0 newton -> solves 0 fsolve ->
  positive_state qL -> positive_state qR -> no_vacuum (14/10) (14/10) qL qR ->
  let sL := fl_init (Some (f_u qL)) (Some (f_rho qL)) (Some (f_p qL)) in
  let sR := fl_init (Some (f_u qR)) (Some (f_rho qR)) (Some (f_p qR)) in
  riemann_pb newton (obj (14/10) qL) (obj (14/10) qR) = Some S -> fl_solve fsolve sL sR = Some p ->
  exists pt rtt, Ptot (r_qsL S) = Some pt /\ rTtot (r_qsL S) = Some rtt /\
  let out := fl_try fsolve (Some Ti) (Some Pi) (Some T1) (Some T2) sL sR in
  (out <> None <-> Rabs (rtt / (2871/10) - Ti) < T1 /\ Rabs (pt - Pi) < T2) /\
  (forall rep, out = Some rep ->
    (fr_shock rep = true <-> f_p qR < p) /\ describes (fr_right rep) (r_qsR S) /\ describes (fr_left rep) (r_qsL S) /\
    fr_p rep = r_pstar S /\ fr_u rep = r_ustar S /\ fr_debit_choc rep = massflow (r_qsR S) /\
    fr_debit_swave rep = massflow (r_qsL S) /\ fr_debit_0 rep = massflow (obj (14/10) qR)).
Proof.
  intros newton fsolve qL qR S p Ti Pi T1 T2 Hn Hf HL HR Hv sL sR E Ef.
  destruct (florian_star_core newton fsolve qL qR S p Hn Hf HL HR Hv E Ef) as (Hp & EP & u & EU & EF & QL & QR).
  set (qs := mkflow (srho air qL p) u p) in *. assert (Hqs : positive_state qs) by (split; [apply srho_pos; try assumption; lra|exact Hp]).
  pose proof (starstate_describes qL p u HL Hp) as DL. pose proof (starstate_describes qR p u HR Hp) as DR.
  assert (EPt : exists pt, Ptot (r_qsL S) = Some pt) by (rewrite QL, Ptot_eval by (assumption || lra); eexists; reflexivity).
  assert (ETt : exists rtt, rTtot (r_qsL S) = Some rtt) by (rewrite QL, rTtot_eval by (assumption || lra); eexists; reflexivity).
  destruct EPt as (pt & EPt). destruct ETt as (rtt & ETt). exists pt, rtt. split; [exact EPt|]. split; [exact ETt|].
  rewrite EU, EP. rewrite QL in EPt, ETt. rewrite QL, QR. cbv zeta. unfold fl_try. fold sL in Ef. unfold sL, sR in *.
  change (fl_init (Some (f_u qL)) (Some (f_rho qL)) (Some (f_p qL))) with (flq qL) in *.
  change (fl_init (Some (f_u qR)) (Some (f_rho qR)) (Some (f_p qR))) with (flq qR) in *.
  rewrite Ef, EF. cbv zeta. pose proof DL as (_ & _ & _ & DP & DT). fold qs in DP, DT. rewrite EPt in DP. rewrite ETt in DT. rewrite ndiv_Some in DT by lra.
  rewrite DP, DT. ncbn. pose proof (holds_lt (Rabs (rtt / (2871/10) - Ti)) T1) as H1. pose proof (holds_lt (Rabs (pt - Pi)) T2) as H2.
  change (nabs (Some ?x)) with (Some (Rabs x)).
  destruct (holds (nlt (Some (Rabs (rtt / (2871/10) - Ti))) (Some T1))); [|split; [split; [congruence|intros [A _]; apply H1 in A; discriminate]|discriminate]].
  destruct (holds (nlt (Some (Rabs (pt - Pi))) (Some T2))); [|split; [split; [congruence|intros [_ A]; apply H2 in A; discriminate]|discriminate]].
  split; [split; [intros _; split; [now apply H1|now apply H2]|discriminate]|].
  intros rep Er. apply Some_inj in Er. subst rep. cbn [fr_shock fr_right fr_left fr_p fr_u fr_debit_choc fr_debit_swave fr_debit_0].
  destruct (flq_eval qR HR) as (Au & Ar & Ap & _). rewrite Ap, Au, Ar.
  split; [apply holds_lt|]. split; [exact DR|]. split; [exact DL|]. split; [reflexivity|]. split; [reflexivity|].
  split; [rewrite (proj1 DR); reflexivity|]. split; [rewrite (proj1 DL); reflexivity|reflexivity].
Qed.
Lemma loop_In {A} (body : nat -> option A) a n r : In r (fl_loop body (seq a n)) <->
  exists k, (a <= k < a + n)%nat /\ body k = Some r /\ forall k', (a <= k' < k)%nat -> body k' = None.
Proof.
  revert a. induction n as [|n IH]; intros a; cbn [seq fl_loop].
  - split; [intros []|intros (k & H & _); lia].
  - destruct (body a) as [x|] eqn:E.
    + split.
      * intros [<-|[]]. exists a. split; [lia|]. split; [exact E|intros; lia].
      * intros (k & Hk & Ek & H). destruct (Nat.eq_dec k a) as [->|N]; [left; congruence|]. rewrite (H a) in E by lia. discriminate.
    + rewrite IH. split.
      * intros (k & Hk & Ek & H). exists k. split; [lia|]. split; [exact Ek|]. intros k' Hk'. destruct (Nat.eq_dec k' a) as [->|N]; [exact E|apply H; lia].
      * intros (k & Hk & Ek & H). exists k. split; [|split; [exact Ek|intros; apply H; lia]]. destruct (Nat.eq_dec k a) as [->|N]; [congruence|lia].
Qed.
Lemma loop_len {A} (body : nat -> option A) ks : (List.length (fl_loop body ks) <= 1)%nat.
Proof. induction ks as [|k ks IH]; cbn [fl_loop]; [cbn; lia|]. destruct (body k); [cbn; lia|exact IH]. Qed.
Lemma flat_len {A B} (f : A -> list B) n l : (forall x, List.length (f x) <= n)%nat -> (List.length (flat_map f l) <= n * List.length l)%nat.
Proof. intros H. induction l as [|x l IH]; cbn [flat_map List.length]; [lia|]. rewrite app_length. specialize (H x). lia. Qed.
(*@P C99_search: For every root finder, imposed totals, tolerances and right state: the reports printed are exactly those of the first k (among 0..99) that meets the criteria, for each pair (i, j) with i, j in 0..99; the break leaves only the loop over k, so that at most one report is printed per pair, at most 10000 in all. *)
Lemma florian_search : forall fsolve Ti Pi T1 T2 qR,
  (forall rep, In rep (fl_f fsolve Ti Pi T1 T2 qR) <->
    exists i j k, (i < 100)%nat /\ (j < 100)%nat /\ (k < 100)%nat /\
      fl_try fsolve Ti Pi T1 T2 (fl_qL i j k) qR = Some rep /\
      forall k', (k' < k)%nat -> fl_try fsolve Ti Pi T1 T2 (fl_qL i j k') qR = None) /\
  (List.length (fl_f fsolve Ti Pi T1 T2 qR) <= 100 * 100)%nat.
Proof.
  intros fsolve Ti Pi T1 T2 qR. split.
  - intros rep. unfold fl_f. rewrite in_flat_map. split.
    + intros (i & Hi & H). apply in_flat_map in H. destruct H as (j & Hj & H). apply in_seq in Hi, Hj. apply loop_In in H.
      destruct H as (k & Hk & E & H). exists i, j, k. repeat (split; [lia|]). split; [exact E|]. intros; apply H; lia.
    + intros (i & j & k & Hi & Hj & Hk & E & H). exists i. split; [apply in_seq; lia|]. apply in_flat_map. exists j. split; [apply in_seq; lia|].
      apply loop_In. exists k. split; [lia|]. split; [exact E|intros; apply H; lia].
  - unfold fl_f. etransitivity; [apply (flat_len _ 100)|rewrite seq_length; lia].
    intros i. etransitivity; [apply (flat_len _ 1); intros j; apply loop_len|rewrite seq_length; lia].
Qed.

(** ** the states of the script *)
Definition sR0 : flow := mkflow (428102874756 / 100000000000) (13899118042 / 100000000) (35690884375 / 100000).
Definition sL0 (i j k : nat) : flow := mkflow (1/100 * INR j + 25/10) (65 + 1/10 * INR i) (200000 + 10 * INR k).
Lemma fl_qR_eq : fl_qR = flq sR0. Proof. reflexivity. Qed.
Lemma fl_qL_eq i j k : fl_qL i j k = flq (sL0 i j k). Proof. reflexivity. Qed.
Lemma sR0_pos : positive_state sR0. Proof. split; cbn; lra. Qed.
Lemma INR_100 i : (i < 100)%nat -> 0 <= INR i <= 99.
Proof. intros H. split; [apply pos_INR|]. replace 99 with (INR 99) by (cbn; lra). apply le_INR. lia. Qed.
Lemma sL0_rng i j k : (i < 100)%nat -> (j < 100)%nat -> (k < 100)%nat ->
  25/10 <= f_rho (sL0 i j k) <= 349/100 /\ 65 <= f_u (sL0 i j k) <= 749/10 /\ 200000 <= f_p (sL0 i j k) <= 200990.
Proof. intros Hi Hj Hk. pose proof (INR_100 i Hi). pose proof (INR_100 j Hj). pose proof (INR_100 k Hk). cbn [sL0 f_rho f_u f_p]. lra. Qed.
Lemma aR_rng : 341 < flow_sound air sR0 < 342.
Proof.
  unfold flow_sound. cbn [sR0 f_p f_rho]. split.
  - rewrite <- (sqrt_pow2 341) by lra. apply sqrt_lt_1; lra.
  - rewrite <- (sqrt_pow2 342) by lra. apply sqrt_lt_1; lra.
Qed.
Lemma root7_le x y : 0 < y -> 0 < x -> x <= y ^ 7 -> Rpower x (1/7) <= y.
Proof.
  intros Hy Hx H. rewrite <- (Rpower_1 y) by exact Hy. replace 1 with (INR 7 * (1/7)) at 2 by (cbn; lra). rewrite <- Rpower_mult.
  apply Rle_Rpower_l; [lra|]. rewrite Rpower_pow by exact Hy. lra.
Qed.
Lemma root7_ge x y : 0 < y -> y ^ 7 <= x -> y <= Rpower x (1/7).
Proof.
  intros Hy H. rewrite <- (Rpower_1 y) by exact Hy. replace 1 with (INR 7 * (1/7)) at 1 by (cbn; lra). rewrite <- Rpower_mult.
  pose proof (pow_lt y 7 Hy). apply Rle_Rpower_l; [lra|]. rewrite Rpower_pow by exact Hy. lra.
Qed.
Lemma fKR_eval p : 0 < p <= f_p sR0 -> fK air sR0 p = 5 * flow_sound air sR0 * (Rpower (p / f_p sR0) (1/7) - 1).
Proof.
  intros H. unfold fK. destruct (Rlt_dec (f_p sR0) p); [lra|]. unfold exdu. replace (1/2 * (air - 1) / air) with (1/7) by field. field.
Qed.
Lemma fKR_low : fK air sR0 200990 < -119.
Proof.
  rewrite fKR_eval by (cbn; lra). pose proof aR_rng as A. set (a := flow_sound air sR0) in *. clearbody a.
  pose proof (root7_le (200990 / f_p sR0) (93/100) ltac:(lra) ltac:(cbn; lra) ltac:(cbn; lra)) as H. nra.
Qed.
Lemma fKR_high : -79 < fK air sR0 260000.
Proof.
  rewrite fKR_eval by (cbn; lra). pose proof aR_rng as A. set (a := flow_sound air sR0) in *. clearbody a.
  pose proof (root7_ge (260000 / f_p sR0) (954/1000) ltac:(lra) ltac:(cbn; lra)) as H.
  assert (K : Rpower (260000 / f_p sR0) (1/7) <= 1) by (apply root7_le; cbn; lra). nra.
Qed.
Lemma fKL_260 q : 25/10 <= f_rho q <= 349/100 -> 200000 <= f_p q <= 200990 -> 53 < fK air q 260000 < 66.
Proof.
  intros Hr Hp. unfold fK. destruct (Rlt_dec (f_p q) 260000); [|lra]. unfold shdu, shD.
  set (D := (air + 1) * 260000 + (air - 1) * f_p q). assert (HD : 704000 <= D <= 704396) by (unfold D; lra). clearbody D.
  assert (L : 81/100000000 < 2 / f_rho q / D).
  { apply (Rmult_lt_reg_r (f_rho q * D)); [apply Rmult_lt_0_compat; lra|]. replace (2 / f_rho q / D * (f_rho q * D)) with 2 by (field; lra). nra. }
  assert (U : 2 / f_rho q / D < 121/100000000).
  { apply (Rmult_lt_reg_r (f_rho q * D)); [apply Rmult_lt_0_compat; lra|]. replace (2 / f_rho q / D * (f_rho q * D)) with 2 by (field; lra). nra. }
  set (X := 2 / f_rho q / D) in *. clearbody X.
  assert (9/10000 < sqrt X) by (rewrite <- (sqrt_pow2 (9/10000)) by lra; apply sqrt_lt_1; lra).
  assert (sqrt X < 11/10000) by (rewrite <- (sqrt_pow2 (11/10000)) by lra; apply sqrt_lt_1; lra).
  nra.
Qed.
Section script.
Context (qL : flow) (Hr : 25/10 <= f_rho qL <= 349/100) (Hu : 65 <= f_u qL <= 749/10) (Hp : 200000 <= f_p qL <= 200990).
Lemma qL_pos : positive_state qL. Proof. split; lra. Qed.
Lemma script_novac : no_vacuum air air qL sR0.
Proof.
  unfold no_vacuum. pose proof (sound_pos air qL ltac:(lra) qL_pos) as A. pose proof aR_rng as B. cbn [f_u sR0].
  assert (0 < 2 * flow_sound air qL / (air - 1)) by pos. lra.
Qed.
Lemma script_range p : 0 < p -> Rabs (duR air air qL sR0 p) <= 1 -> f_p qL < p < 260000.
Proof.
  intros H Hd. assert (Hd' : -1 <= duR air air qL sR0 p <= 1) by (split; [destruct (Rcase_abs (duR air air qL sR0 p)) as [c|c]; [rewrite Rabs_left in Hd by exact c|rewrite Rabs_right in Hd by exact c]; lra|pose proof (Rle_abs (duR air air qL sR0 p)); lra]).
  pose proof qL_pos as Q. unfold duR in Hd'. cbn [f_u sR0] in Hd'. fold sR0 in Hd'.
  split; apply Rnot_le_lt; intros N.
  - pose proof (proj1 (fK_sgn_le air qL p ltac:(lra) Q H) N) as A. pose proof fKR_low as B.
    destruct (Rle_lt_or_eq_dec p 200990 ltac:(lra)) as [c|c].
    + pose proof (fK_incr air sR0 p 200990 ltac:(lra) sR0_pos H c). change (mkflow _ _ _) with sR0 in Hd'. lra.
    + subst p. change (mkflow _ _ _) with sR0 in Hd'. lra.
  - pose proof (fKL_260 qL Hr Hp) as A. pose proof fKR_high as B. change (mkflow _ _ _) with sR0 in Hd'.
    destruct (Rle_lt_or_eq_dec 260000 p N) as [c|c].
    + pose proof (fK_incr air sR0 260000 p ltac:(lra) sR0_pos ltac:(lra) c). pose proof (fK_incr air qL 260000 p ltac:(lra) Q ltac:(lra) c). lra.
    + subst p. lra.
Qed.
Lemma script_total p u : f_p qL < p < 260000 -> u = 1/2 * (f_u sR0 + f_u qL + fK air sR0 p - fK air qL p) -> Rabs (duR air air qL sR0 p) <= 1 ->
  exists pt, Ptot (obj air (mkflow (srho air qL p) u p)) = Some pt /\ pt < 280000.
Proof.
  intros H Eu Hd. pose proof qL_pos as Q. assert (P : 0 < p) by lra.
  assert (Hd' : -1 <= duR air air qL sR0 p <= 1) by (split; [destruct (Rcase_abs (duR air air qL sR0 p)) as [c|c]; [rewrite Rabs_left in Hd by exact c|rewrite Rabs_right in Hd by exact c]; lra|pose proof (Rle_abs (duR air air qL sR0 p)); lra]).
  pose proof (fKL_260 qL Hr Hp) as A. pose proof (fK_incr air qL p 260000 ltac:(lra) Q P ltac:(lra)) as B.
  pose proof (proj2 (fK_sgn air qL p ltac:(lra) Q P) ltac:(lra)) as C. unfold duR in Hd'.
  assert (Hu2 : -2 < u < 76) by lra. clear Eu Hd Hd' A B C.
  assert (Hrho : 0 < srho air qL p <= 43/10).
  { split; [apply srho_pos; [lra|exact Q|exact P]|]. unfold srho. destruct (Rlt_dec (f_p qL) p); [|lra]. rewrite shrho_alt by (assumption || lra). unfold shD.
    set (D := (air + 1) * f_p qL + (air - 1) * p). assert (HD : 0 < D) by (unfold D; lra).
    apply (Rmult_le_reg_r D); [exact HD|]. unfold Rdiv at 1. rewrite Rmult_assoc, Rinv_l by lra. unfold D. nra. }
  set (q := mkflow (srho air qL p) u p). assert (Hq : positive_state q) by (split; [apply Hrho|exact P]).
  rewrite Ptot_eval by (assumption || lra). eexists. split; [reflexivity|]. cbn [q f_p f_u].
  assert (HM : (u / flow_sound air q) ^ 2 <= 9/100).
  { replace ((u / flow_sound air q) ^ 2) with (u ^ 2 / flow_sound air q ^ 2) by (pose proof (sound_pos air q ltac:(lra) Hq); field; lra).
    rewrite sound_sq by (assumption || lra). cbn [q f_p f_rho].
    replace (u ^ 2 / (air * p / srho air qL p)) with (u ^ 2 * srho air qL p / (air * p)) by (field; lra).
    apply (Rmult_le_reg_r (air * p)); [lra|]. unfold Rdiv at 1. rewrite Rmult_assoc, Rinv_l by lra.
    assert (u ^ 2 <= 5776) by nra. assert (0 <= u ^ 2) by apply pow2_ge_0. nra. }
  set (M := u / flow_sound air q) in *. pose proof (tt_ge_1 air M ltac:(lra)) as T1.
  assert (T2 : tt air M <= 1018/1000) by (unfold tt; lra).
  assert (R4 : Rpower (tt air M) (air / (air - 1)) <= tt air M ^ 4).
  { rewrite <- Rpower_pow by lra. apply Rle_Rpower; [exact T1|cbn; lra]. }
  assert (tt air M ^ 4 <= (1018/1000) ^ 4) by (apply pow_incr; lra).
  assert (0 < Rpower (tt air M) (air / (air - 1))) by apply Rpower_pos.
  assert (Rpower (tt air M) (air / (air - 1)) <= 1075/1000) by lra. fold M. nra.
Qed.
End script.
Lemma fl_residual fsolve qL p : solves 1 fsolve -> positive_state qL -> 65 <= f_u qL ->
  fl_solve fsolve (flq qL) (flq sR0) = Some p -> 0 < p /\ Rabs (duR air air qL sR0 p) <= 1.
Proof.
  intros Hn HL Hu E. destruct (fl_root 1 fsolve qL sR0 p Hn HL sR0_pos E) as (e & Ee & He).
  destruct (Rtotal_order p 0) as [h|[h|h]].
  - unfold riemann_du in Ee. rewrite (delta_uK_neg air qL p ltac:(lra) HL h) in Ee. discriminate.
  - subst p. unfold riemann_du in Ee. rewrite (delta_uK_zero air qL ltac:(lra) HL), (delta_uK_zero air sR0 ltac:(lra) sR0_pos) in Ee.
    pose proof (sound_pos air qL ltac:(lra) HL) as A. pose proof aR_rng as B.
    assert (0 < 2 * flow_sound air qL / (air - 1)) by pos. cbn [obj st_u sR0 f_u] in Ee. change (mkflow _ _ _) with sR0 in Ee. cbn [nadd nsub] in Ee. apply Some_inj in Ee.
    exfalso. assert (e < -1) by lra. rewrite Rabs_left in He by lra. lra.
  - split; [lra|]. rewrite riemann_du_eval in Ee by first [assumption|apply sR0_pos|lra]. apply Some_inj in Ee. now rewrite Ee.
Qed.
Lemma try_none fsolve qL : solves 1 fsolve -> 25/10 <= f_rho qL <= 349/100 -> 65 <= f_u qL <= 749/10 -> 200000 <= f_p qL <= 200990 ->
  fl_try fsolve (Some 300) (Some 300000) (Some 10) (Some 100) (flq qL) (flq sR0) = None.
Proof.
  intros Hn Hr Hu Hp. assert (HL : positive_state qL) by (split; lra). unfold fl_try.
  destruct (fl_solve fsolve (flq qL) (flq sR0)) as [p|] eqn:E; [|reflexivity].
  destruct (fl_residual fsolve qL p Hn HL (proj1 Hu) E) as [P D]. pose proof (script_range qL Hr Hu Hp p P D) as R0.
  rewrite Ustar_eq by (assumption || apply sR0_pos). unfold ustar_from_pstar. rewrite !delta_uK_eval by first [assumption|apply sR0_pos|lra].
  cbn [obj st_u]. cbn [nadd nsub nmul]. set (u := 1/2 * (f_u sR0 + f_u qL + fK air sR0 p - fK air qL p)).
  destruct (script_total qL Hr Hu Hp p u R0 eq_refl D) as (pt & EP & HP).
  rewrite starstate_eval by assumption. cbv zeta. cbn [fs_Ti fs_Pi]. destruct (holds _); [|reflexivity].
  rewrite EP. cbn [nsub nabs].
  destruct (holds (nlt (Some (Rabs (pt - 300000))) (Some 100))) eqn:H; [|reflexivity].
  apply holds_lt in H. rewrite Rabs_left in H by lra. lra.
Qed.
(*@P C99_regime: For all the left states the script tries (0 <= i, j, k < 100) there is no vacuum, and with an exact root finder the star pressure lies strictly between the left pressure and 260000 Pa, below the right pressure: the left wave is always a shock and the right wave always an expansion (the branch printing a shock to the right is never taken), and the total pressure of the left star state is below 280000 Pa. *)
Lemma florian_regime : forall i j k, (i < 100)%nat -> (j < 100)%nat -> (k < 100)%nat ->
  let qL := mkflow (1/100 * INR j + 25/10) (65 + 1/10 * INR i) (200000 + 10 * INR k) in
  let qR := mkflow (428102874756 / 100000000000) (13899118042 / 100000000) (35690884375 / 100000) in
  no_vacuum (14/10) (14/10) qL qR /\
  forall newton S, solves 0 newton -> riemann_pb newton (obj (14/10) qL) (obj (14/10) qR) = Some S ->
    exists p pt w, r_pstar S = Some p /\ f_p qL < p < 260000 /\ p < f_p qR /\
      r_w0 S = Some w /\ r_w1 S = Some w /\ (exists h t, r_w4 S = Some h /\ r_w3 S = Some t /\ t < h) /\
      Ptot (r_qsL S) = Some pt /\ pt < 280000.
Proof.
  intros i j k Hi Hj Hk qL qR. destruct (sL0_rng i j k Hi Hj Hk) as (Hr & Hu & Hp). change (sL0 i j k) with qL in *. change qR with sR0.
  pose proof (script_novac qL Hr Hu Hp) as Hv. split; [exact Hv|]. intros newton S Hn E.
  assert (HL : positive_state qL) by (split; lra).
  destruct (riemann_eval newton air air qL sR0 S Hn ltac:(lra) ltac:(lra) HL sR0_pos Hv E) as (p & Pp & Hd & ES).
  assert (D1 : Rabs (duR air air qL sR0 p) <= 1) by (rewrite Hd, Rabs_R0; lra).
  pose proof (script_range qL Hr Hu Hp p Pp D1) as R0.
  assert (EQ : sq (-1) air qL p = mkflow (srho air qL p) (f_u qL - fK air qL p) p) by (unfold sq; f_equal; ring).
  destruct (script_total qL Hr Hu Hp p (f_u qL - fK air qL p) R0 ltac:(unfold duR in Hd; lra) D1) as (pt & EP & HP).
  assert (PR : p < f_p sR0) by (cbn; lra).
  exists p, pt, (wout (-1) air qL p). rewrite ES. cbn [r_pstar r_w0 r_w1 r_w3 r_w4 r_qsL]. rewrite EQ.
  split; [reflexivity|]. split; [exact R0|]. split; [exact PR|]. split; [reflexivity|].
  split; [unfold win, wout; destruct (Rlt_dec (f_p qL) p); [reflexivity|lra]|].
  split; [|split; [exact EP|exact HP]].
  eexists _, _. split; [reflexivity|]. split; [reflexivity|].
  unfold win, wout. destruct (Rlt_dec (f_p sR0) p); [lra|].
  assert (EK : fK air sR0 p = 5 * flow_sound air sR0 * (Rpower (p / f_p sR0) (1/7) - 1)) by (apply fKR_eval; lra).
  assert (EA : flow_sound air (sq 1 air sR0 p) = flow_sound air sR0 * Rpower (p / f_p sR0) (1/7)).
  { unfold sq, srho. destruct (Rlt_dec (f_p sR0) p); [lra|]. rewrite iso_sound by first [lra|apply sR0_pos]. do 2 f_equal. field. }
  rewrite EK, EA. pose proof aR_rng as B. set (a := flow_sound air sR0) in *. clearbody a.
  assert (X : Rpower (p / f_p sR0) (1/7) < 1).
  { apply Rpower_lt_1; [|lra]. assert (0 < f_p sR0) by (cbn; lra). split; [apply Rdiv_lt_0_compat; lra|].
    apply (Rmult_lt_reg_r (f_p sR0)); [assumption|]. unfold Rdiv. rewrite Rmult_assoc, Rinv_l by lra. lra. }
  nra.
Qed.
(*@P C99_prints_nothing: The script as written (300 K and 300000 Pa imposed, tolerances 10 K and 100 Pa) prints no solution at all, for every root finder whose results have a residual of at most 1 m/s (in particular for every exact one): no left state of the search range reaches the imposed total pressure. *)
Lemma florian_nothing : forall fsolve, solves 1 fsolve -> fl_main fsolve = nil.
Proof.
  intros fsolve Hn. unfold fl_main. destruct (fl_f fsolve (Some 300) (Some 300000) (Some 10) (Some 100) fl_qR) as [|rep l] eqn:E; [reflexivity|]. exfalso.
  destruct (proj1 (proj1 (florian_search fsolve (Some 300) (Some 300000) (Some 10) (Some 100) fl_qR) rep)) as (i & j & k & Hi & Hj & Hk & H & _); [rewrite E; now left|].
  rewrite fl_qR_eq, fl_qL_eq in H. destruct (sL0_rng i j k Hi Hj Hk) as (A & B & C). rewrite try_none in H by assumption. discriminate.
Qed.
(*@E C99_example: the left state of indices (0, 0, 0) meets the hypotheses: there is an exact root finder that solves its problem, for which the library runs too, and with a total pressure imposed at 240000 Pa and wide tolerances (60000 Pa, 1000 K) the body reports; and a root finder of residual at most 1 exists. *)
Lemma florian_ex : exists fsolve p S rep, solves 0 fsolve /\ solves 1 fsolve /\ positive_state (sL0 0 0 0) /\ positive_state sR0 /\ no_vacuum (14/10) (14/10) (sL0 0 0 0) sR0 /\
  fl_qL 0 0 0 = fl_init (Some (f_u (sL0 0 0 0))) (Some (f_rho (sL0 0 0 0))) (Some (f_p (sL0 0 0 0))) /\
  fl_qR = fl_init (Some (f_u sR0)) (Some (f_rho sR0)) (Some (f_p sR0)) /\
  fl_solve fsolve (fl_qL 0 0 0) fl_qR = Some p /\ riemann_pb fsolve (obj (14/10) (sL0 0 0 0)) (obj (14/10) sR0) = Some S /\
  fl_try fsolve (Some 300) (Some 240000) (Some 1000) (Some 60000) (fl_qL 0 0 0) fl_qR = Some rep.
Proof.
  destruct (sL0_rng 0 0 0 ltac:(lia) ltac:(lia) ltac:(lia)) as (Hr & Hu & Hp). rewrite fl_qL_eq, fl_qR_eq. set (qL := sL0 0 0 0) in *.
  assert (HL : positive_state qL) by (split; lra). pose proof (script_novac qL Hr Hu Hp) as Hv.
  destruct (star_pressure air air qL sR0 ltac:(lra) ltac:(lra) HL sR0_pos) as [[_ K] _]. destruct (K Hv) as (p & Pp & Ep).
  rewrite riemann_du_eval in Ep by first [assumption|apply sR0_pos|lra]. apply Some_inj in Ep.
  set (fs := pick (p :: nil)). assert (S0 : solves 0 fs) by apply pick_solves.
  assert (Hin : forall r, In r (p :: nil) -> 0 < r) by (intros r [<-|[]]; exact Pp).
  assert (ES : fl_solve fs (flq qL) (flq sR0) = Some p).
  { unfold fl_solve. apply pick_eval; [now left|exact Hin| |].
    - rewrite function_eq by first [assumption|apply sR0_pos]. rewrite riemann_du_eval by first [assumption|apply sR0_pos|lra]. now rewrite Ep.
    - intros r Hr0 E. rewrite function_eq in E by first [assumption|apply sR0_pos]. rewrite riemann_du_eval in E by first [assumption|apply sR0_pos|lra].
      apply Some_inj in E. apply (duR_unique air air qL sR0); try assumption; try apply sR0_pos; lra. }
  pose proof (riemann_run (p :: nil) air air qL sR0 p ltac:(lra) ltac:(lra) HL sR0_pos Pp Ep (or_introl eq_refl) Hin) as ER. fold fs in ER.
  destruct (florian_report fs fs qL sR0 _ p 300 240000 1000 60000 S0 S0 HL sR0_pos Hv ER ES) as (pt & rtt & EP & ET & H). cbv zeta in H.
  change (fl_init (Some (f_u qL)) (Some (f_rho qL)) (Some (f_p qL))) with (flq qL) in H.
  change (fl_init (Some (f_u sR0)) (Some (f_rho sR0)) (Some (f_p sR0))) with (flq sR0) in H.
  destruct H as [H _].
  assert (D1 : Rabs (duR air air qL sR0 p) <= 1) by (rewrite Ep, Rabs_R0; lra).
  pose proof (script_range qL Hr Hu Hp p Pp D1) as R0.
  assert (EQ : sq (-1) air qL p = mkflow (srho air qL p) (f_u qL - fK air qL p) p) by (unfold sq; f_equal; ring).
  destruct (script_total qL Hr Hu Hp p (f_u qL - fK air qL p) R0 ltac:(unfold duR in Ep; lra) D1) as (pt' & EP' & HP).
  cbn [r_qsL] in EP, ET. rewrite EQ in EP, ET. assert (pt' = pt) by congruence. subst pt'.
  set (u := f_u qL - fK air qL p) in *.
  pose proof (srho_pos air qL p ltac:(lra) HL Pp) as HRho.
  assert (Hq : positive_state (mkflow (srho air qL p) u p)) by (split; assumption).
  assert (LP : 200000 < pt).
  { rewrite Ptot_eval in EP by first [exact Hq|lra]. apply Some_inj in EP. cbn [f_p f_u] in EP.
    assert (1 <= Rpower (tt air (u / flow_sound air (mkflow (srho air qL p) u p))) (air / (air - 1))) by (apply Rpower_ge_1; [apply tt_ge_1; lra|lra]). nra. }
  assert (TT : Rabs (rtt / (2871/10) - 300) < 1000).
  { rewrite rTtot_eval in ET by first [exact Hq|lra]. apply Some_inj in ET. cbn [f_p f_u f_rho] in ET.
    assert (RL : 25/10 < srho air qL p).
    { unfold srho. destruct (Rlt_dec (f_p qL) p); [|lra]. pose proof (shrho_gt air qL p ltac:(lra) HL ltac:(lra)). lra. }
    pose proof (fKL_260 qL Hr Hp) as A. pose proof (fK_incr air qL p 260000 ltac:(lra) HL Pp ltac:(lra)) as B.
    pose proof (proj2 (fK_sgn air qL p ltac:(lra) HL Pp) ltac:(lra)) as C.
    assert (U2 : 0 <= u ^ 2 <= 5776) by (assert (-2 < u < 76) by (unfold u; lra); split; [apply pow2_ge_0|nra]).
    assert (PR : 0 < p / srho air qL p < 104000).
    { split; [apply Rdiv_lt_0_compat; lra|]. apply (Rmult_lt_reg_r (srho air qL p)); [exact HRho|]. unfold Rdiv. rewrite Rmult_assoc, Rinv_l by lra. nra. }
    rewrite <- ET. apply Rabs_def1; lra. }
  destruct (fl_try fs (Some 300) (Some 240000) (Some 1000) (Some 60000) (flq qL) (flq sR0)) as [rep|] eqn:EF.
  - exists fs, p. eexists. exists rep. split; [exact S0|]. split; [intros f x r E; destruct (S0 f x r E) as (e & A & B); exists e; split; [exact A|lra]|].
    split; [exact HL|]. split; [apply sR0_pos|]. split; [exact Hv|]. split; [reflexivity|]. split; [reflexivity|]. split; [exact ES|]. split; [exact ER|exact EF].
  - exfalso. apply (proj2 H); [|reflexivity]. split; [exact TT|]. apply Rabs_def1; lra.
Qed.
