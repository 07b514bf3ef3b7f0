(** * C111: the area relations of article-florian.ipynb *)
From Verif Require Import Num L_Num Spec NumSpec ShockDynSpec M_Isentropic M_MassFlow M_ShockWave M_Polar M_Article L_Isentropic L_MassFlow L_Shock L_Polar.
Open Scope R_scope.
Lemma div_lt x y z : 0 < y -> x < z * y -> x / y < z.
Proof. intros Hy H. apply Rmult_lt_reg_r with y; [exact Hy|]. unfold Rdiv. rewrite Rmult_assoc, Rinv_l by lra. lra. Qed.
Lemma div_gt x y z : 0 < y -> z * y < x -> z < x / y.
Proof. intros Hy H. apply Rmult_lt_reg_r with y; [exact Hy|]. unfold Rdiv. rewrite Rmult_assoc, Rinv_l by lra. lra. Qed.

(** ** closed forms *)
Definition mu2 (g m : R) : R := (1 + 1 / 2 * (g - 1) * m ^ 2) / (g * m ^ 2 - 1 / 2 * (g - 1)).
Definition mu (g m : R) : R := sqrt (mu2 g m).
Definition lam (g m : R) : R := (1 + 2 / (g + 1) * (1 - mu g m ^ 2) / mu g m) * (1 + 2 * mu g m + 1 / m ^ 2).
Lemma mu2_den g m : 1 < g -> 1 < m -> 0 < g * m ^ 2 - 1 / 2 * (g - 1).
Proof. intros. assert (1 < m ^ 2) by nra. nra. Qed.
Lemma mu2_num g m : 1 < g -> 1 < m -> 0 < 1 + 1 / 2 * (g - 1) * m ^ 2.
Proof. intros. assert (1 < m ^ 2) by nra. nra. Qed.
Lemma mu2_range g m : 1 < g -> 1 < m -> (g - 1) / (2 * g) < mu2 g m < 1.
Proof.
  intros Hg Hm. pose proof (mu2_den g m Hg Hm) as D. assert (1 < m ^ 2) by nra. unfold mu2. split.
  - apply Rmult_lt_reg_r with ((g * m ^ 2 - 1 / 2 * (g - 1)) * (2 * g)); [nra|].
    replace ((g - 1) / (2 * g) * ((g * m ^ 2 - 1 / 2 * (g - 1)) * (2 * g))) with ((g - 1) * (g * m ^ 2 - 1 / 2 * (g - 1))) by (field; lra).
    replace ((1 + 1 / 2 * (g - 1) * m ^ 2) / (g * m ^ 2 - 1 / 2 * (g - 1)) * ((g * m ^ 2 - 1 / 2 * (g - 1)) * (2 * g))) with ((1 + 1 / 2 * (g - 1) * m ^ 2) * (2 * g)) by (field; lra). nra.
  - apply Rmult_lt_reg_r with (g * m ^ 2 - 1 / 2 * (g - 1)); [exact D|]. unfold Rdiv at 1. rewrite Rmult_assoc, Rinv_l by lra. nra.
Qed.
Lemma mu_range g m : 1 < g -> 1 < m -> 0 < mu g m < 1.
Proof.
  intros Hg Hm. destruct (mu2_range g m Hg Hm). assert (0 < (g - 1) / (2 * g)) by (apply Rdiv_lt_0_compat; lra). unfold mu. split; [apply sqrt_lt_R0; lra|].
  rewrite <- sqrt_1 at 1. apply sqrt_lt_1_alt. lra.
Qed.
Lemma mu_sq g m : 1 < g -> 1 < m -> mu g m * mu g m = mu2 g m.
Proof. intros Hg Hm. destruct (mu2_range g m Hg Hm). assert (0 < (g - 1) / (2 * g)) by (apply Rdiv_lt_0_compat; lra). apply sqrt_sqrt. lra. Qed.
Lemma mu_eval g m : 1 < g -> 1 < m -> art_mu (Some g) (Some m) = Some (mu g m).
Proof.
  intros Hg Hm. pose proof (mu2_den g m Hg Hm) as D. unfold art_mu, gmusd. ncbn. rewrite ndiv_Some by nra. unfold nsqrt.
  replace ((1 + 1 / 2 * (g - 1) * (m * m)) / (g * (m * m) - 1 / 2 * (g - 1))) with (mu2 g m) by (unfold mu2; f_equal; ring).
  destruct (mu2_range g m Hg Hm). assert (0 < (g - 1) / (2 * g)) by (apply Rdiv_lt_0_compat; lra). destruct (Rle_dec 0 (mu2 g m)); [reflexivity|lra].
Qed.
Lemma steady_eval g m : 1 < g -> art_steady (Some g) (Some m) = Some ((m ^ 2 - 1) / (1 + 1 / 2 * (g - 1) * m ^ 2)).
Proof. intros Hg. unfold art_steady, gmusd. ncbn. rewrite ndiv_Some by nra. do 2 f_equal; ring. Qed.
Lemma lam_eval g m : 1 < g -> 1 < m -> art_lam (Some g) (Some m) = Some (lam g m).
Proof.
  intros Hg Hm. unfold art_lam. rewrite mu_eval by assumption. destruct (mu_range g m Hg Hm). ncbn. rewrite !ndiv_Some by nra. ncbn. rewrite ndiv_Some by lra. ncbn. f_equal. unfold lam. field. repeat split; lra.
Qed.
Lemma unsteady_eval g m : 1 < g -> 1 < m -> art_unsteady (Some g) (Some m) = Some (lam g m / (1 - m ^ 2)).
Proof. intros Hg Hm. unfold art_unsteady. rewrite lam_eval by assumption. ncbn. rewrite ndiv_Some by nra. do 2 f_equal. ring. Qed.
Lemma steady2_eval g m : 1 < g -> 1 < m -> art_steady2 (Some g) (Some m) = art_steady (Some g) (Some (mu g m)).
Proof. intros Hg Hm. unfold art_steady2. rewrite mu_eval by assumption. unfold art_steady, gmusd. ncbn. match goal with |- ndiv (Some ?a) (Some ?b) = ndiv (Some ?c) (Some ?d) => replace a with c by ring; replace b with d by ring; reflexivity end. Qed.

(*@P C111_mu: For every gamma > 1 and every Mach number M > 1, mu is the Mach number behind the shock given by ShockWave.downstream_Mn, between 0 and 1. *)
Lemma mu_downstream : forall gamma M, 1 < gamma -> 1 < M ->
  exists m, art_mu (Some gamma) (Some M) = Some m /\ downstream_Mn (Some M) (Some gamma) = Some m /\ 0 < m < 1.
Proof.
  intros g M Hg HM. exists (mu g M). split; [now apply mu_eval|]. split; [|now apply mu_range].
  unfold downstream_Mn. ncbn. rewrite ndiv_Some by (pose proof (mu2_den g M Hg HM); lra). unfold nsqrt.
  destruct (mu2_range g M Hg HM). assert (0 < (g - 1) / (2 * g)) by (apply Rdiv_lt_0_compat; lra). fold (mu2 g M). destruct (Rle_dec 0 (mu2 g M)); [reflexivity|lra].
Qed.

(*@P C111_steady: The curve "steady" is the slope of ln A against ln M of a steady isentropic duct: for every gamma > 1, with A(M) the area ratio computed by MassFlow.Sigma_Mach, steady(M) = M A'(M) / A(M) at every M > 0, and steady2(M) the same quantity at the Mach number behind the shock. For M > 1, 0 < steady < 2/(gamma-1) and -1 < steady2 < 0. *)
Lemma steady_slope : forall gamma, 1 < gamma -> exists A : R -> R,
  (forall M, 0 < M -> Sigma_Mach (Some M) (Some gamma) = Some (A M) /\ 0 < A M) /\
  (forall M, 0 < M -> exists dA, is_derive A M dA /\ art_steady (Some gamma) (Some M) = Some (M * dA / A M)) /\
  (forall M, 1 < M -> exists m dA, downstream_Mn (Some M) (Some gamma) = Some m /\ is_derive A m dA /\ art_steady2 (Some gamma) (Some M) = Some (m * dA / A m)) /\
  (forall M, 1 < M -> exists s s2, art_steady (Some gamma) (Some M) = Some s /\ art_steady2 (Some gamma) (Some M) = Some s2 /\ 0 < s < 2 / (gamma - 1) /\ -1 < s2 < 0).
Proof.
  intros g Hg. exists (sig g). split; [intros M HM; split; [now apply Sigma_eval|apply sig_pos]|].
  assert (D : forall M, 0 < M -> exists dA, is_derive (sig g) M dA /\ art_steady (Some g) (Some M) = Some (M * dA / sig g M)).
  { intros M HM. exists ((M ^ 2 - 1) / (M * tt g M) * exp (lsig g M)). pose proof (tt_pos g M Hg) as T. split.
    - apply (is_derive_comp exp (lsig g)); [|now apply lsig_derive]. auto_derive; [trivial|ring].
    - rewrite steady_eval by assumption. f_equal. unfold sig. pose proof (exp_pos (lsig g M)). unfold tt in *. field. repeat split; lra. }
  split; [exact D|]. split.
  - intros M HM. destruct (mu_downstream g M Hg HM) as (m & E1 & E2 & H). destruct (D m ltac:(lra)) as (dA & HA & EA). exists m, dA. split; [exact E2|]. split; [exact HA|].
    rewrite steady2_eval by assumption. rewrite mu_eval in E1 by assumption. injection E1 as E1. rewrite E1. exact EA.
  - intros M HM. destruct (mu_range g M Hg HM) as [M0 M1]. eexists. eexists. split; [now apply steady_eval|]. split; [rewrite steady2_eval by assumption; now apply steady_eval|].
    pose proof (mu2_num g M Hg HM) as N. set (w := mu g M) in *. assert (0 < 1 + 1 / 2 * (g - 1) * w ^ 2) by nra. split; split.
    + apply Rdiv_lt_0_compat; nra.
    + apply div_lt; [exact N|].
      replace (2 / (g - 1) * (1 + 1 / 2 * (g - 1) * M ^ 2)) with (2 / (g - 1) + M ^ 2) by (field; lra). assert (0 < 2 / (g - 1)) by (apply Rdiv_lt_0_compat; lra). lra.
    + apply div_gt; [assumption|]. nra.
    + apply div_lt; [assumption|]. nra.
Qed.

(** ** the state behind the shock *)
Section Shock.
Variables g rho1 p1 : R.
Hypothesis Hg : 1 < g.
Hypothesis Hr : 0 < rho1.
Hypothesis Hp : 0 < p1.
Let a1 := sqrt (g * p1 / rho1).
Lemma a1_pos : 0 < a1.
Proof. apply sqrt_lt_R0, Rdiv_lt_0_compat; nra. Qed.
Lemma a1_sq : a1 * a1 = g * p1 / rho1.
Proof. apply sqrt_sqrt. left. apply Rdiv_lt_0_compat; nra. Qed.
Definition br (M : R) : R := rho1 * ((g + 1) * M ^ 2 / (2 + (g - 1) * M ^ 2)).
Definition bu (M : R) : R := a1 * (2 * (M ^ 2 - 1) / ((g + 1) * M)).
Definition bp (M : R) : R := p1 * (1 + 2 * g / (g + 1) * (M ^ 2 - 1)).
Lemma behind M q : 1 < M -> shock_into_rest g rho1 p1 M q -> q = mkflow (br M) (bu M) (bp M).
Proof.
  intros HM [(H1 & H2 & H3) Hc]. fold a1 in H1, H2, H3. destruct q as [r u p]. unfold mass_flux, momentum_flux, frame_enthalpy in *. cbn [f_rho f_u f_p] in *.
  pose proof a1_pos as A0. pose proof a1_sq as A2. assert (M2 : 1 < M ^ 2) by nra. set (D := M * a1) in *. assert (D0 : 0 < D) by (unfold D; nra).
  assert (D2 : D ^ 2 * rho1 = g * p1 * M ^ 2). { unfold D. replace ((M * a1) ^ 2 * rho1) with (M ^ 2 * (a1 * a1) * rho1) by ring. rewrite A2. field. lra. }
  set (t := rho1 / r). assert (R0 : 0 < r) by lra. assert (T0 : 0 < t) by (apply Rdiv_lt_0_compat; lra).
  assert (T1 : t < 1). { unfold t. apply Rmult_lt_reg_r with r; [lra|]. unfold Rdiv. rewrite Rmult_assoc, Rinv_l by lra. lra. }
  assert (Er : rho1 = t * r) by (unfold t; field; lra).
  assert (Eu : u = D * (1 - t)). { apply Rmult_eq_reg_l with r; [|lra]. rewrite Er in H1. nra. }
  assert (Ep : p = p1 + g * p1 * M ^ 2 * (1 - t)).
  { rewrite Eu in H2. assert (p = p1 + rho1 * D ^ 2 - r * (D * (1 - t) - D) ^ 2) by lra. rewrite H. replace (r * (D * (1 - t) - D) ^ 2) with (t * r * D ^ 2 * t) by ring. rewrite <- Er. rewrite (Rmult_comm rho1), D2. ring. }
  assert (Q : t * ((g + 1) * M ^ 2) = 2 + (g - 1) * M ^ 2).
  { rewrite Eu, Ep in H3.
    assert (E : (g * (p1 / rho1)) * ((1 - t) * (- 2 + 2 * g * M ^ 2 * t - (g - 1) * M ^ 2 * (1 + t))) = 0).
    { assert (E2 : D ^ 2 = M ^ 2 * (g * (p1 / rho1))). { unfold D. replace ((M * a1) ^ 2) with (M ^ 2 * (a1 * a1)) by ring. rewrite A2. field. lra. }
      assert (Ei : / r = t / rho1). { unfold t. field. split; lra. }
      assert (X : g / (g - 1) * (p1 / rho1) + M ^ 2 * (g * (p1 / rho1)) / 2 = g / (g - 1) * ((p1 + g * p1 * M ^ 2 * (1 - t)) * (t / rho1)) + M ^ 2 * (g * (p1 / rho1)) * t ^ 2 / 2).
      { rewrite <- E2, <- Ei. replace (D ^ 2 * t ^ 2 / 2) with ((D * (1 - t) - D) ^ 2 / 2) by field. replace (D ^ 2 / 2) with ((0 - D) ^ 2 / 2) by field. exact H3. }
      apply Rmult_eq_reg_r with (/ (2 * (g - 1))); [|apply Rinv_neq_0_compat; lra]. rewrite Rmult_0_l.
      apply (Rplus_eq_reg_r (g / (g - 1) * (p1 / rho1) + M ^ 2 * (g * (p1 / rho1)) / 2)). rewrite X at 2. field. lra. }
    apply Rmult_integral in E. destruct E as [E|E]; [assert (0 < g * (p1 / rho1)) by (apply Rmult_lt_0_compat; [lra|apply Rdiv_lt_0_compat; lra]); lra|].
    apply Rmult_integral in E. destruct E as [E|E]; lra. }
  assert (Et : t = (2 + (g - 1) * M ^ 2) / ((g + 1) * M ^ 2)) by (rewrite <- Q; field; split; nra).
  f_equal.
  - unfold br. replace r with (rho1 / t) by (unfold t; field; split; lra). rewrite Et. field. repeat split; nra.
  - rewrite Eu, Et. unfold bu, D. field. split; nra.
  - rewrite Ep, Et. unfold bp. field. split; nra.
Qed.
Lemma behind_ok M : 1 < M -> shock_into_rest g rho1 p1 M (mkflow (br M) (bu M) (bp M)).
Proof.
  intros HM. pose proof a1_pos. pose proof a1_sq as A2. assert (M2 : 1 < M ^ 2) by nra. unfold shock_into_rest. fold a1. unfold rankine_hugoniot, mass_flux, momentum_flux, frame_enthalpy. cbn [f_rho f_u f_p].
  assert (P : p1 = a1 * a1 * rho1 / g) by (rewrite A2; field; lra). unfold br, bu, bp. split; [split; [|split]|].
  - field. split; nra.
  - rewrite P. field. repeat split; nra.
  - rewrite P. field. repeat split; nra.
  - rewrite <- (Rmult_1_r rho1) at 1. apply Rmult_lt_compat_l; [assumption|]. apply Rmult_lt_reg_r with (2 + (g - 1) * M ^ 2); [nra|].
    unfold Rdiv. rewrite Rmult_assoc, Rinv_l by nra. nra.
Qed.
Lemma behind_sound M : 1 < M -> flow_sound g (mkflow (br M) (bu M) (bp M)) = a1 * (M / ((g + 1) * M ^ 2 / (2 + (g - 1) * M ^ 2)) / mu g M).
Proof.
  intros HM. assert (M2 : 1 < M ^ 2) by nra. destruct (mu_range g M Hg HM) as [K0 _]. pose proof (mu_sq g M Hg HM) as K2. pose proof (mu2_den g M Hg HM). pose proof (mu2_num g M Hg HM). pose proof a1_pos. pose proof a1_sq as A2.
  unfold flow_sound. cbn [f_rho f_p].
  assert (X : 0 < a1 * (M / ((g + 1) * M ^ 2 / (2 + (g - 1) * M ^ 2)) / mu g M)).
  { apply Rmult_lt_0_compat; [assumption|]. apply Rdiv_lt_0_compat; [|assumption]. apply Rdiv_lt_0_compat; [lra|]. apply Rdiv_lt_0_compat; nra. }
  apply sqrt_lem_1; [|lra|].
  - left. apply Rdiv_lt_0_compat; [apply Rmult_lt_0_compat; [lra|]; unfold bp; apply Rmult_lt_0_compat; [assumption|]|unfold br; apply Rmult_lt_0_compat; [assumption|apply Rdiv_lt_0_compat; nra]].
    assert (0 < 2 * g / (g + 1)) by (apply Rdiv_lt_0_compat; lra). nra.
  - transitivity (a1 * a1 * (M / ((g + 1) * M ^ 2 / (2 + (g - 1) * M ^ 2))) ^ 2 / (mu g M * mu g M)); [field; repeat split; nra|].
    rewrite K2, A2. unfold mu2, br, bp. field. repeat split; nra.
Qed.
End Shock.
Lemma lam_alt g M : 1 < g -> 1 < M -> lam g M = (1 + 2 * mu g M * (M ^ 2 - 1) / (2 + (g - 1) * M ^ 2)) * (1 + 2 * mu g M + 1 / M ^ 2).
Proof.
  intros Hg HM. assert (M2 : 1 < M ^ 2) by nra. destruct (mu_range g M Hg HM) as [K0 _]. pose proof (mu_sq g M Hg HM) as K2. pose proof (mu2_den g M Hg HM). pose proof (mu2_num g M Hg HM).
  unfold lam. f_equal. f_equal. apply Rmult_eq_reg_r with (mu g M); [|lra].
  transitivity (2 / (g + 1) * (1 - mu g M * mu g M)); [field; split; nra|]. transitivity (2 * (mu g M * mu g M) * (M ^ 2 - 1) / (2 + (g - 1) * M ^ 2)); [|field; nra].
  rewrite K2. unfold mu2. field. repeat split; nra.
Qed.
(*@P C111_unsteady: The curve "unsteady" is Whitham's area rule for a shock running into a gas at rest: whatever gamma > 1, the gas at rest and the function giving the state behind the shock at every Mach number (any solution of the Rankine-Hugoniot relations), the relation that holds along the u + c characteristics is satisfied right behind the shock of Mach number M > 1 by the area variation d ln A / dM = M unsteady(M), and by no other. *)
Lemma unsteady_rule : forall gamma rho1 p1 Q, 1 < gamma -> 0 < rho1 -> 0 < p1 -> (forall M, 1 < M -> shock_into_rest gamma rho1 p1 M (Q M)) ->
  forall M, 1 < M -> exists L, art_unsteady (Some gamma) (Some M) = Some L /\ forall dlnA, characteristic_rule gamma Q M dlnA <-> dlnA = M * L.
Proof.
  intros g rho1 p1 Q Hg Hr Hp HQ M HM. exists (lam g M / (1 - M ^ 2)). split; [now apply unsteady_eval|]. intros d.
  assert (EQ : forall x, 1 < x -> Q x = mkflow (br g rho1 x) (bu g rho1 p1 x) (bp g p1 x)) by (intros x Hx; apply behind; auto).
  assert (N : locally M (fun x => 1 < x)). { exists (mkposreal (M - 1) ltac:(lra)). intros y Hy. apply Rabs_def2 in Hy. cbn in Hy. unfold minus, plus, opp in Hy; cbn in Hy. lra. }
  pose proof (a1_pos g rho1 p1 Hg Hr Hp) as A0. pose proof (a1_sq g rho1 p1 Hg Hr Hp) as A2. set (a1 := sqrt (g * p1 / rho1)) in *.
  assert (M2 : 1 < M ^ 2) by nra. destruct (mu_range g M Hg HM) as [K0 _]. 
  assert (DP : Derive (fun x => f_p (Q x)) M = p1 * (2 * g / (g + 1) * (2 * M))).
  { rewrite (Derive_ext_loc _ (bp g p1)). - apply is_derive_unique. unfold bp. auto_derive; [trivial|ring]. - revert N. apply filter_imp. intros x Hx. now rewrite EQ. }
  assert (DU : Derive (fun x => f_u (Q x)) M = a1 * (2 / (g + 1) * (1 + 1 / M ^ 2))).
  { rewrite (Derive_ext_loc _ (bu g rho1 p1)). - apply is_derive_unique. unfold bu. fold a1. auto_derive; [nra|]. field. split; nra. - revert N. apply filter_imp. intros x Hx. now rewrite EQ. }
  unfold characteristic_rule. rewrite DP, DU, EQ by exact HM. rewrite (behind_sound g rho1 p1 Hg Hr Hp M HM). fold a1. cbn [f_rho f_u]. unfold br, bu. fold a1.
  rewrite lam_alt by assumption. set (k := mu g M) in *. assert (P : p1 = a1 * a1 * rho1 / g) by (rewrite A2; field; lra). rewrite P. clear P DP DU EQ HQ.
  assert (B : 0 < 2 + (g - 1) * M ^ 2) by nra. assert (C : 0 < k * (M ^ 2 - 1) * 2) by nra.
  set (u := a1 * (2 * (M ^ 2 - 1) / ((g + 1) * M))). set (c := a1 * (M / ((g + 1) * M ^ 2 / (2 + (g - 1) * M ^ 2)) / k)).
  assert (U0 : 0 < u) by (apply Rmult_lt_0_compat; [exact A0|apply Rdiv_lt_0_compat; nra]).
  assert (C0 : 0 < c) by (apply Rmult_lt_0_compat; [exact A0|]; apply Rdiv_lt_0_compat; [apply Rdiv_lt_0_compat; [lra|apply Rdiv_lt_0_compat; nra]|exact K0]).
  set (r := rho1 * ((g + 1) * M ^ 2 / (2 + (g - 1) * M ^ 2))). assert (R0 : 0 < r) by (apply Rmult_lt_0_compat; [exact Hr|apply Rdiv_lt_0_compat; nra]).
  assert (E : a1 * a1 * rho1 / g * (2 * g / (g + 1) * (2 * M)) + r * c * (a1 * (2 / (g + 1) * (1 + 1 / M ^ 2))) + r * c ^ 2 * (u / (u + c)) * (M * ((1 + 2 * k * (M ^ 2 - 1) / (2 + (g - 1) * M ^ 2)) * (1 + 2 * k + 1 / M ^ 2) / (1 - M ^ 2))) = 0).
  { assert (Ec : c = a1 * (2 + (g - 1) * M ^ 2) / ((g + 1) * M * k)) by (unfold c; field; repeat split; nra).
    assert (Eu : u + c = a1 * (2 * k * (M ^ 2 - 1) + 2 + (g - 1) * M ^ 2) / ((g + 1) * M * k)) by (rewrite Ec; unfold u; field; repeat split; nra).
    rewrite Eu, Ec. unfold u, r. field. repeat split; nra. }
  set (K := r * c ^ 2 * (u / (u + c))) in *. assert (KP : 0 < K). { unfold K. apply Rmult_lt_0_compat; [apply Rmult_lt_0_compat; [exact R0|apply pow_lt, C0]|apply Rdiv_lt_0_compat; lra]. }
  split; intros H; [|rewrite H; exact E]. apply Rmult_eq_reg_l with K; lra.
Qed.
(*@P C111_exists: Such states exist at every Mach number: the hypothesis of C111_unsteady is met. *)
Lemma states_exist : forall gamma rho1 p1, 1 < gamma -> 0 < rho1 -> 0 < p1 -> exists Q, forall M, 1 < M -> shock_into_rest gamma rho1 p1 M (Q M).
Proof. intros g r p Hg Hr Hp. exists (fun M => mkflow (br g r M) (bu g r p M) (bp g p M)). intros M HM. now apply behind_ok. Qed.

(** ** the values for gamma = 1.4 *)
Definition lk (k : R) : R := (5 + 6 * k - 5 * k ^ 2) * ((k + 1) ^ 2 * (k + 2)) / (3 * k * (5 + k ^ 2)).
Lemma lam_k M : 1 < M -> lam (14 / 10) M = lk (mu (14 / 10) M).
Proof.
  intros HM. assert (M2 : 1 < M ^ 2) by nra. destruct (mu_range (14 / 10) M ltac:(lra) HM) as [K0 K1]. pose proof (mu_sq (14 / 10) M ltac:(lra) HM) as K2.
  unfold lam, lk. set (k := mu (14 / 10) M) in *.
  assert (X : 1 / M ^ 2 = (7 * k ^ 2 - 1) / (5 + k ^ 2)). { replace (k ^ 2) with (k * k) by ring. rewrite K2. unfold mu2. field. split; nra. }
  rewrite X. field. split; nra.
Qed.
Lemma lk_derive k : 0 < k -> is_derive lk k ((- 50 + 170 * k ^ 2 - 34 * k ^ 3 - 250 * k ^ 4 - 100 * k ^ 5 - 14 * k ^ 6 - 10 * k ^ 7) / (3 * (k * (5 + k ^ 2)) ^ 2)).
Proof. intros Hk. unfold lk. assert (0 < 5 + k ^ 2) by nra. auto_derive; [nra|]. field. split; nra. Qed.
Lemma lk_decr x y : 0 < x -> x < y -> lk y < lk x.
Proof.
  intros Hx Hxy. apply strict_decr with (f' := fun k => (- 50 + 170 * k ^ 2 - 34 * k ^ 3 - 250 * k ^ 4 - 100 * k ^ 5 - 14 * k ^ 6 - 10 * k ^ 7) / (3 * (k * (5 + k ^ 2)) ^ 2)); [assumption| |].
  - intros z Hz. apply lk_derive. lra.
  - intros z Hz. assert (Z : 0 < z) by lra. assert (0 < z * (5 + z ^ 2)) by nra. apply div_lt; [nra|]. rewrite Rmult_0_l.
    pose proof (pow_lt z 3 Z). pose proof (pow_lt z 5 Z). pose proof (pow_lt z 6 Z). pose proof (pow_lt z 7 Z). assert (0 <= (z ^ 2 - 17 / 50) ^ 2) by apply pow2_ge_0. replace (z ^ 4) with (z ^ 2 * z ^ 2) by ring. nra.
Qed.
Lemma mu_decr g x y : 1 < g -> 1 < x -> x < y -> mu g y < mu g x.
Proof.
  intros Hg Hx Hxy. destruct (mu2_range g y Hg ltac:(lra)). assert (0 < (g - 1) / (2 * g)) by (apply Rdiv_lt_0_compat; lra).
  pose proof (mu2_den g x Hg Hx). pose proof (mu2_den g y Hg ltac:(lra)). assert (x ^ 2 < y ^ 2) by nra.
  apply sqrt_lt_1_alt. split; [lra|]. apply Rminus_gt_0_lt.
  replace (mu2 g x - mu2 g y) with ((g + (1 / 2 * (g - 1)) ^ 2) * (y ^ 2 - x ^ 2) / ((g * x ^ 2 - 1 / 2 * (g - 1)) * (g * y ^ 2 - 1 / 2 * (g - 1)))) by (unfold mu2; field; split; lra).
  apply Rdiv_lt_0_compat; [apply Rmult_lt_0_compat; nra|nra].
Qed.
(*@P C111_lambda: For gamma = 1.4 (the value of the notebook), the coefficient lam increases strictly with the Mach number of the shock, from 4 (weak shocks) to a strong shock value below 5.08: the area rule stays close to the one of an acoustic pulse whatever the strength of the shock, and unsteady(M) < 0 < steady(M): a shock accelerates in a converging channel. *)
Lemma lambda_range : 
  (forall M, 1 < M -> exists l u s, art_lam dgamma (Some M) = Some l /\ 4 < l < 508 / 100 /\ art_unsteady dgamma (Some M) = Some u /\ u < 0 /\ art_steady dgamma (Some M) = Some s /\ 0 < s) /\
  (forall M M' l l', 1 < M -> M < M' -> art_lam dgamma (Some M) = Some l -> art_lam dgamma (Some M') = Some l' -> l < l') /\
  (forall eps, 0 < eps -> exists d, 0 < d /\ forall M l, 1 < M < 1 + d -> art_lam dgamma (Some M) = Some l -> Rabs (l - 4) < eps).
Proof.
  unfold dgamma.
  assert (B : forall M, 1 < M -> 4 < lam (14 / 10) M < 508 / 100).
  { intros M HM. rewrite lam_k by exact HM. destruct (mu2_range (14 / 10) M ltac:(lra) HM) as [L _]. destruct (mu_range (14 / 10) M ltac:(lra) HM) as [K0 K1]. pose proof (mu_sq (14 / 10) M ltac:(lra) HM) as K2. rewrite <- K2 in L. set (k := mu (14 / 10) M) in *. split.
    - replace 4 with (lk 1) by (unfold lk; field). apply lk_decr; lra.
    - apply Rlt_trans with (lk (3779 / 10000)); [apply lk_decr; nra|]. unfold lk. lra. }
  split; [|split].
  - intros M HM. destruct (B M HM) as [B1 B2]. eexists. eexists. eexists. split; [apply lam_eval; lra|]. split; [lra|]. split; [apply unsteady_eval; lra|]. split.
    + replace (lam (14 / 10) M / (1 - M ^ 2)) with (- (lam (14 / 10) M / (M ^ 2 - 1))) by (field; split; nra). assert (0 < lam (14 / 10) M / (M ^ 2 - 1)) by (apply Rdiv_lt_0_compat; nra). lra.
    + split; [apply steady_eval; lra|]. apply Rdiv_lt_0_compat; nra.
  - intros M M' l l' HM HM' E E'. rewrite lam_eval in E, E' by lra. injection E as <-. injection E' as <-. rewrite !lam_k by lra. apply lk_decr; [apply mu_range; lra|apply mu_decr; lra].
  - intros eps He.
    assert (CT : continuity_pt (fun M => lk (mu (14 / 10) M)) 1).
    { apply continuity_pt_filterlim. apply (ex_derive_continuous (fun M => lk (mu (14 / 10) M))). unfold lk, mu, mu2. auto_derive.
      replace ((1 + 1 / 2 * (14 / 10 - 1) * (1 * (1 * 1))) * / (14 / 10 * (1 * (1 * 1)) + - (1 / 2 * (14 / 10 - 1)))) with 1 by field. rewrite sqrt_1. repeat split; lra. }
    assert (V1 : lk (mu (14 / 10) 1) = 4). { unfold mu, mu2. replace ((1 + 1 / 2 * (14 / 10 - 1) * 1 ^ 2) / (14 / 10 * 1 ^ 2 - 1 / 2 * (14 / 10 - 1))) with 1 by field. rewrite sqrt_1. unfold lk. field. }
    destruct (CT eps He) as (d & Hd & HC). exists d. split; [exact Hd|]. intros M l HM E. rewrite lam_eval in E by lra. injection E as <-. rewrite lam_k by lra. rewrite <- V1.
    apply (HC M). split; [split; [exact I|lra]|]. unfold dist; cbn. unfold R_dist. rewrite Rabs_pos_eq; lra.
Qed.
(*@P C111_curves: The four curves are drawn over the same 101 Mach numbers from 1.005 to 10, all greater than 1: every ordinate is a number and the properties above apply to every point. *)
Lemma curves_defined : forall d, In d (art_curves dgamma) -> d_x d = linspace (Some (1005 / 1000)) (Some 10) 100 /\ List.length (d_y d) = 101%nat /\
  (forall i, (i <= 100)%nat -> exists x y, nth_error (d_x d) i = Some (Some x) /\ 1 < x <= 10 /\ nth_error (d_y d) i = Some (Some y)).
Proof.
  assert (X : forall i, (i <= 100)%nat -> exists x, nth_error (linspace (Some (1005 / 1000)) (Some 10) 100) i = Some (Some x) /\ 1 < x <= 10).
  { intros i Hi. rewrite linspace_all by lia. eexists. split; [reflexivity|]. unfold spaced. rewrite INR_IZR_INZ. cbn [Z.of_nat Pos.of_succ_nat]. 
    assert (0 <= INR i <= 100). { split; [apply pos_INR|]. replace 100 with (INR 100) by (rewrite INR_IZR_INZ; reflexivity). now apply le_INR. }
    rewrite <- INR_IZR_INZ. replace (INR 100) with 100 by (rewrite INR_IZR_INZ; reflexivity). lra. }
  assert (G : forall f : num -> num, (forall x, 1 < x -> exists y, f (Some x) = Some y) -> let d := mk_drawn Line (linspace (Some (1005 / 1000)) (Some 10) 100) (map f (linspace (Some (1005 / 1000)) (Some 10) 100)) in
    d_x d = linspace (Some (1005 / 1000)) (Some 10) 100 /\ List.length (d_y d) = 101%nat /\
    (forall i, (i <= 100)%nat -> exists x y, nth_error (d_x d) i = Some (Some x) /\ 1 < x <= 10 /\ nth_error (d_y d) i = Some (Some y))).
  { intros f Hf d. subst d. cbn [d_x d_y]. split; [reflexivity|]. split; [rewrite map_length; apply linspace_length|]. intros i Hi. destruct (X i Hi) as (x & E & Bx). destruct (Hf x (proj1 Bx)) as (y & Ey).
    exists x, y. split; [exact E|]. split; [exact Bx|]. rewrite nth_error_map, E. cbn [option_map]. now rewrite Ey. }
  unfold dgamma. intros d [<-|[<-|[<-|[<-|[]]]]]; apply G; intros x Hx; eexists; [apply steady_eval|apply unsteady_eval|rewrite steady2_eval by lra; apply steady_eval|apply mu_eval]; lra.
Qed.
(*@E C111_example: at Mach 2 with gamma = 1.4: mu^2 = 1/3, steady = 5/3, steady2 = -5/8. *)
Lemma article_ex : art_mu dgamma (Some 2) = Some (sqrt (1 / 3)) /\ art_steady dgamma (Some 2) = Some (5 / 3) /\ art_steady2 dgamma (Some 2) = Some (- (5 / 8)).
Proof.
  unfold dgamma. assert (E : mu (14 / 10) 2 = sqrt (1 / 3)) by (unfold mu, mu2; f_equal; field).
  split; [rewrite mu_eval by lra; now rewrite E|]. split; [rewrite steady_eval by lra; f_equal; field|]. rewrite steady2_eval, steady_eval by lra. f_equal. rewrite E. rewrite pow2_sqrt by lra. field.
Qed.
