(** * C63, C77: thermodynamic fits *)
From Verif Require Import Num L_Num M_Thermo.
From Coquelicot Require Import Coquelicot.
Open Scope R_scope.

(** a module's function of temperature, as a real function on T > 0 *)
Definition computes (f : num -> num) (F : R -> R) : Prop := forall T, 0 < T -> f (Some T) = Some (F T).
(** the reference gas constant of both modules *)
Definition r_ref : R := 28704 / 100.

Definition kc (T : R) : R := r_ref * (447659 / 100000 + (801994 / 100000000 - 18373 / 10000000000 * T) * T).
Definition kh (T : R) : R := r_ref * (-149054 / 1000 + (447659 / 100000 + (400997 / 100000000 - 612432 / 1000000000000 * T) * T) * T).
Definition kp (T : R) : R := (447659 / 100000 * ln T + (801994 / 100000000 - 918648 / 1000000000000 * T) * T) / ln 10.
Lemma Some_inj {A} (x y : A) : Some x = Some y -> x = y.
Proof. now intros [= E]. Qed.
Lemma same_value f F G : computes f F -> computes f G -> forall t, 0 < t -> F t = G t.
Proof. intros A B t P. apply Some_inj. rewrite <- (A t P). now apply B. Qed.
Lemma ln10 : 0 < ln 10.
Proof. rewrite <- ln_1. apply ln_increasing; lra. Qed.
Lemma kc_computes : computes ke_Cp kc. Proof. intros T H. reflexivity. Qed.
Lemma kh_computes : computes ke_Enthalpy kh. Proof. intros T H. reflexivity. Qed.
Lemma kp_computes : computes ke_Phi kp.
Proof. intros T H. unfold ke_Phi. rewrite !nlog_Some by lra. cbn [nsub nmul nadd]. rewrite ndiv_Some; [reflexivity|]. pose proof ln10. lra. Qed.
Lemma kh_derive T : is_derive kh T (kc T + r_ref * (4 / 1000000000000) * T ^ 2).
Proof. unfold kh, kc. auto_derive; [exact I|]. generalize r_ref. intros r. field. Qed.
Lemma kp_derive T : 0 < T -> is_derive kp T ((kc T + r_ref * (4 / 1000000000000) * T ^ 2) / (r_ref * T * ln 10)).
Proof.
  intros P. unfold kp, kc. pose proof ln10 as L. assert (ln 10 <> 0) by lra. generalize dependent (ln 10). intros l L N. auto_derive; [exact P|]. unfold r_ref. field. split; lra.
Qed.

(*@P C63_kerosen_gibbs: ThermoKerosen, for every temperature T > 0: Enthalpy and Phi are defined and differentiable and satisfy dh = T ds exactly, where s = r ln(10) Phi is the entropy function (so an isentropic evolution computed with Phi and the work computed with Enthalpy are consistent), and Pc_eff + Enthalpy is the same constant at all temperatures. *)
Lemma kerosen_gibbs : exists h phi : R -> R, computes ke_Enthalpy h /\ computes ke_Phi phi /\
  (forall T, 0 < T -> exists h' phi' : R, is_derive h T h' /\ is_derive phi T phi' /\ h' = T * (r_ref * ln 10 * phi')) /\
  (exists q, computes (fun T => nadd (ke_Pc_eff T) (ke_Enthalpy T)) (fun _ => q)).
Proof.
  exists kh, kp. split; [exact kh_computes|]. split; [exact kp_computes|]. split.
  - intros T P. eexists _, _. split; [apply kh_derive|]. split; [exact (kp_derive T P)|]. pose proof ln10. unfold r_ref. field. lra.
  - exists (10300 * 4184 + r_ref * (16072 / 10 + - 149054 / 1000)). intros T P. unfold ke_Pc_eff, ke_Enthalpy, ke_Pc_inf, ke_r. cbn [nadd nsub nmul]. f_equal. unfold r_ref. field.
Qed.
(*@P C63_kerosen_cp_partial: ThermoKerosen: the derivative of Enthalpy is Cp to the rounding of the printed coefficients: it differs from Cp by 4e-12 r T^2, less than 5e-3 J/(kg K) up to 2000 K. PARTIAL: it is not exactly Cp at any temperature, see C63_kerosen_cp_refuted. *)
Lemma kerosen_cp : exists h c : R -> R, computes ke_Enthalpy h /\ computes ke_Cp c /\
  forall T, 0 < T -> is_derive h T (c T + r_ref * (4 / 1000000000000) * T ^ 2) /\ (T <= 2000 -> 0 < r_ref * (4 / 1000000000000) * T ^ 2 < 5 / 1000).
Proof.
  exists kh, kc. split; [exact kh_computes|]. split; [exact kc_computes|]. intros T P. split; [apply kh_derive|]. intros B. unfold r_ref. nra.
Qed.
(*@P C63_kerosen_cp_refuted: ThermoKerosen.Cp is not the derivative of Enthalpy, and Phi is not the entropy function of Cp, at any temperature T > 0: the quadratic coefficients 1.8373e-6 and 3 x 6.12432e-7 = 2 x 9.18648e-7 = 1.837296e-6 differ. *)
Lemma kerosen_cp_refuted : forall h c phi : R -> R, computes ke_Enthalpy h -> computes ke_Cp c -> computes ke_Phi phi ->
  forall T, 0 < T -> ~ is_derive h T (c T) /\ ~ is_derive phi T (c T / (r_ref * T * ln 10)).
Proof.
  intros h c phi H C P T T0.
  assert (EC : c T = kc T) by (apply Some_inj; rewrite <- (C T T0); now apply kc_computes).
  assert (NB : locally T (fun t => 0 < t)) by (apply (locally_interval _ T 0 p_infty); cbn; auto).
  pose proof ln10 as L. pose proof (sq_pos T (Rgt_not_eq _ _ T0)) as Q.
  split; intros D.
  - assert (D' : is_derive kh T (c T)).
    { apply (is_derive_ext_loc h); [|exact D]. apply (filter_imp _ _) with (2 := NB). intros t t0. exact (same_value _ _ _ H kh_computes t t0). }
    pose proof (is_derive_unique _ _ _ D') as U1. pose proof (is_derive_unique _ _ _ (kh_derive T)) as U2. unfold r_ref in *. lra.
  - assert (D' : is_derive kp T (c T / (r_ref * T * ln 10))).
    { apply (is_derive_ext_loc phi); [|exact D]. apply (filter_imp _ _) with (2 := NB). intros t t0. exact (same_value _ _ _ P kp_computes t t0). }
    pose proof (is_derive_unique _ _ _ D') as U1. pose proof (is_derive_unique _ _ _ (kp_derive T T0)) as U2. rewrite U1 in U2.
    assert (W : 0 < r_ref * T * ln 10) by (unfold r_ref; apply Rmult_lt_0_compat; [lra|exact L]).
    apply (f_equal (fun x => x * (r_ref * T * ln 10))) in U2. unfold Rdiv in U2. rewrite !Rmult_assoc, Rinv_l, !Rmult_1_r in U2 by (rewrite <- !Rmult_assoc; lra).
    unfold r_ref in *. lra.
Qed.

(** ** real gas *)
Definition vib (T : R) : R := (3090 / T) ^ 2 * exp (3090 / T) / (exp (3090 / T) - 1) ^ 2.
Definition gcr (T : R) : R := 35 / 10 + (-28 / 1000000 + 2240 / 100000000000 * T) * T + vib T.
Definition gh (T : R) : R := r_ref * ((35 / 10 + (-14 / 1000000 + 7467 / 1000000000000 * T) * T) * T + 3090 / (exp (3090 / T) - 1)).
Definition gp (T : R) : R := (35 / 10 * ln T + (-28 / 1000000 + 112 / 10000000000 * T) * T + 3090 / T / (exp (3090 / T) - 1) - ln ((exp (3090 / T) - 1) / exp (3090 / T))) / ln 10.
Lemma ex_gt T : 0 < T -> 1 < exp (3090 / T).
Proof. intros P. rewrite <- exp_0. apply exp_increasing. apply Rdiv_lt_0_compat; lra. Qed.
Lemma vib_pos T : 0 < T -> 0 < vib T.
Proof.
  intros P. pose proof (ex_gt T P) as E. unfold vib. set (a := exp (3090 / T)) in *.
  apply Rdiv_lt_0_compat; [|apply sq_pos; lra]. apply Rmult_lt_0_compat; [|lra]. apply sq_pos. apply Rgt_not_eq. apply Rdiv_lt_0_compat; lra.
Qed.
Lemma cp_bound T : 0 < T -> 349 / 100 < gcr T.
Proof. intros P. pose proof (vib_pos T P). unfold gcr. assert (0 <= (T - 625) ^ 2) by apply sq_nonneg. nra. Qed.
Lemma gc_computes : computes rg_Cp (fun T => r_ref * gcr T).
Proof.
  intros T P. pose proof (ex_gt T P) as E. unfold rg_Cp, rg_r. rewrite ndiv_Some by lra. cbn [nexp nsub nmul nadd npowi]. rewrite ndiv_Some by (apply pow_nonzero; lra). reflexivity.
Qed.
Lemma gh_computes : computes rg_Enthalpy gh.
Proof.
  intros T P. pose proof (ex_gt T P) as E. unfold rg_Enthalpy, rg_r. rewrite (ndiv_Some _ T) by lra. cbn [nexp nsub nmul nadd npowi]. rewrite ndiv_Some by lra. reflexivity.
Qed.
Lemma gp_computes : computes rg_Phi gp.
Proof.
  intros T P. pose proof (ex_gt T P) as E. pose proof ln10. unfold rg_Phi. rewrite (ndiv_Some _ T) by lra. cbn [nexp nsub nmul nadd npowi].
  set (a := exp (3090 / T)) in *. rewrite !ndiv_Some by lra. rewrite !nlog_Some by (try lra; apply Rdiv_lt_0_compat; lra).
  cbn [nsub nmul nadd]. rewrite ndiv_Some by lra. reflexivity.
Qed.
Lemma gh_derive T : 0 < T -> is_derive gh T (r_ref * gcr T + r_ref * (1 / 1000000000000) * T ^ 2).
Proof.
  intros P. pose proof (ex_gt T P) as E. unfold gh, gcr, vib. auto_derive. { repeat split; lra. }
  set (a := exp (3090 / T)) in *. replace (exp (3090 * / T)) with a by reflexivity. clearbody a. unfold r_ref. field. lra.
Qed.
Lemma gp_derive T : 0 < T -> is_derive gp T (gcr T / (T * ln 10)).
Proof.
  intros P. pose proof (ex_gt T P) as E. pose proof ln10 as L. unfold gp, gcr, vib.
  generalize dependent (ln 10). intros l L. auto_derive.
  { repeat split; try lra. apply Rmult_lt_0_compat; [|apply Rinv_0_lt_compat]; change (3090 * / T) with (3090 / T); lra. }
  set (a := exp (3090 / T)) in *. replace (exp (3090 * / T)) with a by reflexivity. clearbody a. field. repeat split; lra.
Qed.
(*@P C63_realgas: ThermoRealGas, for every temperature T > 0: Cp, Gamma and Phi are defined; Gamma = Cp / (Cp - r) with 1 < Gamma < 1.402; and the derivative of Phi is Cp / (r T ln 10), that is Phi is exactly the entropy function of Cp. *)
Lemma realgas : exists c g phi : R -> R, computes rg_Cp c /\ computes rg_Gamma g /\ computes rg_Phi phi /\
  forall T, 0 < T -> g T = c T / (c T - r_ref) /\ 1 < g T < 1402 / 1000 /\ is_derive phi T (c T / (r_ref * T * ln 10)).
Proof.
  exists (fun T => r_ref * gcr T), (fun T => gcr T / (gcr T - 1)), gp. split; [exact gc_computes|]. split.
  { intros T P. pose proof (ex_gt T P) as E. pose proof (cp_bound T P) as B. unfold rg_Gamma. rewrite (ndiv_Some _ T) by lra. cbn [nexp nsub nmul nadd npowi]. rewrite ndiv_Some by (apply pow_nonzero; lra).
    cbv zeta. cbn [nadd nsub]. fold (vib T). fold (gcr T). rewrite ndiv_Some by lra. reflexivity. }
  split; [exact gp_computes|]. intros T P. pose proof (cp_bound T P) as B.
  split; [unfold r_ref; field; lra|]. split.
  { split; [apply Rlt_div_r|apply Rlt_div_l]; lra. }
  replace (r_ref * gcr T / (r_ref * T * ln 10)) with (gcr T / (T * ln 10)); [now apply gp_derive|]. pose proof ln10. unfold r_ref. field. lra.
Qed.
(*@P C63_realgas_enthalpy_partial: ThermoRealGas: the derivative of Enthalpy is Cp to the rounding of the printed coefficients: it differs from Cp by 1e-12 r T^2, less than 3e-3 J/(kg K) up to 3000 K. PARTIAL: it is not exactly Cp at any temperature, see C63_realgas_enthalpy_refuted. *)
Lemma realgas_enthalpy : exists h c : R -> R, computes rg_Enthalpy h /\ computes rg_Cp c /\
  forall T, 0 < T -> is_derive h T (c T + r_ref * (1 / 1000000000000) * T ^ 2) /\ (T <= 3000 -> 0 < r_ref * (1 / 1000000000000) * T ^ 2 < 3 / 1000).
Proof.
  exists gh, (fun T => r_ref * gcr T). split; [exact gh_computes|]. split; [exact gc_computes|]. intros T P. split; [now apply gh_derive|]. intros B. unfold r_ref. nra.
Qed.
(*@P C63_realgas_enthalpy_refuted: ThermoRealGas.Cp is not the derivative of Enthalpy at any temperature T > 0: the cubic coefficient 7.467e-9 is not a third of 2.240e-8. *)
Lemma realgas_enthalpy_refuted : forall h c : R -> R, computes rg_Enthalpy h -> computes rg_Cp c -> forall T, 0 < T -> ~ is_derive h T (c T).
Proof.
  intros h c H C T T0 D. assert (EC : c T = r_ref * gcr T) by (apply Some_inj; rewrite <- (C T T0); now apply gc_computes).
  assert (NB : locally T (fun t => 0 < t)) by (apply (locally_interval _ T 0 p_infty); cbn; auto).
  pose proof (sq_pos T (Rgt_not_eq _ _ T0)) as Q.
  assert (D' : is_derive gh T (c T)).
  { apply (is_derive_ext_loc h); [|exact D]. apply (filter_imp _ _) with (2 := NB). intros t t0. exact (same_value _ _ _ H gh_computes t t0). }
  pose proof (is_derive_unique _ _ _ D') as U1. pose proof (is_derive_unique _ _ _ (gh_derive T T0)) as U2. unfold r_ref in *. lra.
Qed.

(** ** monotonicity: temperature can be recovered from enthalpy or entropy *)
(*@P C77_kerosen_monotone: ThermoKerosen.Enthalpy and ThermoKerosen.Phi are strictly increasing for temperatures in (0, 4850 K]: no two temperatures of that range have the same enthalpy, or the same entropy function. *)
Lemma kerosen_monotone : forall T1 T2, 0 < T1 < T2 -> T2 <= 4850 -> exists h1 h2 p1 p2,
  ke_Enthalpy (Some T1) = Some h1 /\ ke_Enthalpy (Some T2) = Some h2 /\ ke_Phi (Some T1) = Some p1 /\ ke_Phi (Some T2) = Some p2 /\ h1 < h2 /\ p1 < p2.
Proof.
  intros T1 T2 H B. exists (kh T1), (kh T2), (kp T1), (kp T2).
  rewrite (kh_computes T1), (kh_computes T2), (kp_computes T1), (kp_computes T2) by lra. do 4 (split; [reflexivity|]).
  assert (PC : forall T, T1 <= T <= T2 -> 0 < kc T + r_ref * (4 / 1000000000000) * T ^ 2).
  { intros T I. unfold kc, r_ref. assert (0 <= (4850 - T) * T) by (apply Rmult_le_pos; lra). nra. }
  pose proof ln10 as L. split.
  - apply (strict_incr kh (fun T => kc T + r_ref * (4 / 1000000000000) * T ^ 2) T1 T2); [lra|intros; apply kh_derive|intros; apply PC; lra].
  - apply (strict_incr kp (fun T => (kc T + r_ref * (4 / 1000000000000) * T ^ 2) / (r_ref * T * ln 10)) T1 T2); [lra|intros; apply kp_derive; lra|].
    intros T I. apply Rdiv_lt_0_compat; [apply PC; lra|]. unfold r_ref. apply Rmult_lt_0_compat; [lra|exact L].
Qed.
(*@P C77_realgas_monotone: ThermoRealGas.Enthalpy and ThermoRealGas.Phi are strictly increasing on all temperatures T > 0, so temperature is determined by either. *)
Lemma realgas_monotone : forall T1 T2, 0 < T1 < T2 -> exists h1 h2 p1 p2,
  rg_Enthalpy (Some T1) = Some h1 /\ rg_Enthalpy (Some T2) = Some h2 /\ rg_Phi (Some T1) = Some p1 /\ rg_Phi (Some T2) = Some p2 /\ h1 < h2 /\ p1 < p2.
Proof.
  intros T1 T2 H. exists (gh T1), (gh T2), (gp T1), (gp T2).
  rewrite (gh_computes T1), (gh_computes T2), (gp_computes T1), (gp_computes T2) by lra. do 4 (split; [reflexivity|]).
  pose proof ln10 as L. split.
  - apply (strict_incr gh (fun T => r_ref * gcr T + r_ref * (1 / 1000000000000) * T ^ 2) T1 T2); [lra|intros; apply gh_derive; lra|].
    intros T I. pose proof (cp_bound T ltac:(lra)). pose proof (sq_nonneg T). unfold r_ref. lra.
  - apply (strict_incr gp (fun T => gcr T / (T * ln 10)) T1 T2); [lra|intros; apply gp_derive; lra|].
    intros T I. pose proof (cp_bound T ltac:(lra)). apply Rdiv_lt_0_compat; [lra|]. apply Rmult_lt_0_compat; lra.
Qed.
(*@E C77_example: Example: 300 K and 1500 K are in the range of both statements. *)
Lemma monotone_example : 0 < 300 < 1500 /\ 1500 <= 4850.
Proof. lra. Qed.
(*@E C63_example: the fits at 1000 K: Cp = 287.04 (4.47659 + 8.01994 - 1.8373), Enthalpy = 287.04 (-149.054 + 4476.59 + 4009.97 - 612.432). *)
Lemma C63_example_lemma : ke_Cp (Some 1000) = Some (28704/100 * (1065923/100000)) /\
  ke_Enthalpy (Some 1000) = Some (28704/100 * (7725074/1000)) /\ 0 < 1000 <= 2000.
Proof.
  split; [|split; [|lra]]; unfold ke_Cp, ke_Enthalpy, ke_r; ncbn; f_equal; field.
Qed.
