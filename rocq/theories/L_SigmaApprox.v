(** * Approximations of Sigma *)
From Verif Require Import Num L_Num Spec M_MassFlow M_SigmaApprox L_Isentropic L_MassFlow.
Open Scope R_scope.

Definition rg (g : R) : R := (g + 1) / (g - 1).
Lemma rg_gt g : 1 < g -> 1 < rg g.
Proof. intros H. unfold rg. apply (Rmult_lt_reg_r (g - 1)); [lra|]. replace ((g + 1) / (g - 1) * (g - 1)) with (g + 1) by (field; lra). lra. Qed.
Lemma gpu_eval g : 1 < g -> gpuogmu (Some g) = Some (rg g).
Proof. intros H. unfold gpuogmu. ncbn. rewrite ndiv_Some by lra. reflexivity. Qed.
Lemma sexp_rg g : 1 < g -> sexp g = rg g / 2.
Proof. intros H. unfold sexp, rg. field. lra. Qed.
Lemma exp_ln_le x y : 0 < x -> 0 < y -> ln x <= ln y -> x <= y.
Proof. intros Hx Hy H. rewrite <- (exp_ln x), <- (exp_ln y) by assumption. destruct H as [H|H]; [left; now apply exp_increasing|right; now rewrite H]. Qed.
Lemma ln1p_le x : 0 <= x -> ln (1 + x) <= x.
Proof.
  intros H. destruct H as [H|<-]; [|rewrite Rplus_0_r, ln_1; lra]. rewrite <- (ln_exp x) at 2. left. apply ln_increasing; [lra|].
  apply exp_ineq1. lra.
Qed.

Definition s1 (g M : R) : R := exp (- ln M + rg g / 2 * ln (2 / (g + 1))).
Definition s3 (g M : R) : R := exp (- ln M + rg g / 2 * (2 * ln M - ln (rg g))).
Definition nbh (g M : R) : R := exp ((rg g - 1) / 2 * ln (rg g + M ^ 2) - rg g / 2 * ln (rg g)).
Lemma ln_half g : 1 < g -> ln ((g + 1) / 2) = - ln (2 / (g + 1)).
Proof. intros H. rewrite <- ln_Rinv by pos. f_equal. field. lra. Qed.
Lemma s1_eval g M : 1 < g -> 0 < M -> sig1 (Some M) (Some g) = Some (s1 g M).
Proof.
  intros Hg HM. unfold sig1. rewrite gpu_eval by assumption. ncbn. rewrite !ndiv_Some by lra. rewrite npow_Some by lra.
  pose proof (Rpower_pos ((g + 1) / 2) (rg g / 2)). rewrite ndiv_Some by lra. f_equal. unfold s1. rewrite exp_plus, exp_Ropp, exp_ln by assumption.
  unfold Rpower. rewrite ln_half by assumption. replace (rg g / 2 * - ln (2 / (g + 1))) with (- (rg g / 2 * ln (2 / (g + 1)))) by ring.
  rewrite exp_Ropp. pose proof (exp_pos (rg g / 2 * ln (2 / (g + 1)))). field. split; lra.
Qed.
Lemma nbl_eval g M : 1 < g -> 0 < M -> nb_low (Some M) (Some g) = Some (s1 g M).
Proof.
  intros Hg HM. unfold nb_low. rewrite gpu_eval by assumption. ncbn. rewrite (ndiv_Some 2) by lra. rewrite npow_Some by pos. rewrite ndiv_Some by lra.
  f_equal. unfold s1, Rpower. rewrite exp_plus, exp_Ropp, exp_ln by assumption. replace (1 / 2 * rg g) with (rg g / 2) by field. field. lra.
Qed.
Lemma s3_eval g M : 1 < g -> 0 < M -> sig3 (Some M) (Some g) = Some (s3 g M).
Proof.
  intros Hg HM. unfold sig3. pose proof (rg_gt g Hg). rewrite gpu_eval by assumption. ncbn. rewrite !ndiv_Some by lra. rewrite npow_Some by pos.
  rewrite ndiv_Some by lra. f_equal. unfold s3, Rpower. rewrite exp_plus, exp_Ropp, exp_ln by assumption.
  rewrite ln_div by pos. replace (ln (M ^ 2)) with (2 * ln M) by (replace (M ^ 2) with (M * M) by ring; rewrite ln_mult by assumption; ring). field. lra.
Qed.
Lemma nbh_eval g M : 1 < g -> 0 < M -> nb_high (Some M) (Some g) = Some (nbh g M).
Proof.
  intros Hg HM. unfold nb_high. pose proof (rg_gt g Hg). rewrite gpu_eval by assumption. ncbn. assert (0 < rg g + M * M) by pos.
  rewrite !npow_Some by lra. pose proof (Rpower_pos (rg g) (1 / 2 * rg g)). rewrite ndiv_Some by lra. f_equal.
  unfold nbh, Rpower. replace (M ^ 2) with (M * M) by ring.
  replace ((rg g - 1) / 2 * ln (rg g + M * M) - rg g / 2 * ln (rg g)) with (1 / 2 * (rg g - 1) * ln (rg g + M * M) + - (1 / 2 * rg g * ln (rg g))) by field.
  rewrite exp_plus, exp_Ropp. reflexivity.
Qed.
Lemma lsig_low g M : 1 < g -> 0 < M -> lsig g M = - ln M + rg g / 2 * ln (2 / (g + 1)) + rg g / 2 * ln (tt g M).
Proof. intros Hg HM. unfold lsig. rewrite sexp_rg by assumption. ring. Qed.

(*@P C94_low: For every gas and Mach number, the small-Mach approximation of the example and that of the notebook are the same number; it is below Sigma, and Sigma is at most exp((g+1) M^2 / 4) times it: the relative error is of order M^2. *)
Lemma approx_low : forall g M, 1 < g -> 0 < M -> exists s a,
  Sigma_Mach (Some M) (Some g) = Some s /\ sig1 (Some M) (Some g) = Some a /\ nb_low (Some M) (Some g) = Some a /\
  0 < a < s /\ s <= a * exp ((g + 1) / 4 * M ^ 2).
Proof.
  intros g M Hg HM. exists (sig g M), (s1 g M). split; [now apply Sigma_eval|]. split; [now apply s1_eval|]. split; [now apply nbl_eval|].
  pose proof (rg_gt g Hg) as Hr. pose proof (tt_pos g M Hg) as Ht. assert (HM2 : 0 < M ^ 2) by pos.
  assert (E : sig g M = s1 g M * exp (rg g / 2 * ln (tt g M))) by (unfold sig, s1; rewrite <- exp_plus, <- lsig_low by assumption; reflexivity).
  assert (0 < s1 g M) by apply exp_pos.
  assert (H1 : 0 < ln (tt g M)).
  { rewrite <- ln_1. apply ln_increasing; [lra|]. unfold tt. assert (0 < (g - 1) * M ^ 2) by pos. lra. }
  assert (H2 : ln (tt g M) <= (g - 1) / 2 * M ^ 2).
  { unfold tt. replace (1 / 2 * (g - 1) * M ^ 2) with ((g - 1) / 2 * M ^ 2) by field. apply ln1p_le. pos. }
  split; [split; [assumption|]|].
  - rewrite E. rewrite <- (Rmult_1_r (s1 g M)) at 1. apply Rmult_lt_compat_l; [assumption|]. rewrite <- exp_0. apply exp_increasing. pos.
  - rewrite E. apply Rmult_le_compat_l; [lra|].
    assert (K : rg g / 2 * ln (tt g M) <= (g + 1) / 4 * M ^ 2).
    { replace ((g + 1) / 4 * M ^ 2) with (rg g / 2 * ((g - 1) / 2 * M ^ 2)) by (unfold rg; field; lra). apply Rmult_le_compat_l; lra. }
    destruct K as [K|K]; [left; now apply exp_increasing|right; now rewrite K].
Qed.

(** high Mach numbers: everything relative to s3 *)
Lemma lsig_high g M : 1 < g -> 0 < M ->
  lsig g M = - ln M + rg g / 2 * (2 * ln M - ln (rg g)) + rg g / 2 * ln (1 + (rg g - 1) / M ^ 2).
Proof.
  intros Hg HM. pose proof (rg_gt g Hg) as Hr. assert (HM2 : 0 < M ^ 2) by pos.
  rewrite lsig_low by assumption.
  assert (E : ln (2 / (g + 1)) + ln (tt g M) = 2 * ln M - ln (rg g) + ln (1 + (rg g - 1) / M ^ 2)).
  { replace (2 * ln M) with (ln (M ^ 2)) by (replace (M ^ 2) with (M * M) by ring; rewrite ln_mult by assumption; ring).
    assert (0 < (rg g - 1) / M ^ 2) by pos. pose proof (tt_pos g M Hg).
    rewrite <- ln_div, <- !ln_mult by pos. f_equal. unfold rg, tt. field. split; lra. }
  rewrite !Rplus_assoc, <- !Rmult_plus_distr_l, E. ring.
Qed.
Lemma nbh_high g M : 1 < g -> 0 < M ->
  (rg g - 1) / 2 * ln (rg g + M ^ 2) - rg g / 2 * ln (rg g) = - ln M + rg g / 2 * (2 * ln M - ln (rg g)) + (rg g - 1) / 2 * ln (1 + rg g / M ^ 2).
Proof.
  intros Hg HM. pose proof (rg_gt g Hg) as Hr. assert (HM2 : 0 < M ^ 2) by pos.
  replace (rg g + M ^ 2) with (M ^ 2 * (1 + rg g / M ^ 2)) by (field; lra). assert (0 < rg g / M ^ 2) by pos.
  rewrite ln_mult by pos. replace (M ^ 2) with (M * M) at 1 by ring. rewrite ln_mult by assumption. field.
Qed.
(** the gap between r ln(1+(r-1)y) and (r-1) ln(1+r y) *)
Lemma gap r y : 1 < r -> 0 < y -> 0 < r * ln (1 + (r - 1) * y) - (r - 1) * ln (1 + r * y) <= r * (r - 1) / 2 * y ^ 2.
Proof.
  intros Hr Hy. pose (f := fun t => r * ln (1 + (r - 1) * t) - (r - 1) * ln (1 + r * t)).
  pose (f' := fun t => r * (r - 1) * t / ((1 + (r - 1) * t) * (1 + r * t))).
  assert (D : forall t, 0 <= t -> is_derive f t (f' t)).
  { intros t Ht. assert (0 <= (r - 1) * t) by (apply Rmult_le_pos; lra). assert (0 <= r * t) by (apply Rmult_le_pos; lra).
    unfold f, f'. auto_derive; [lra|]. field. split; lra. }
  assert (F0 : f 0 = 0) by (unfold f; rewrite !Rmult_0_r, Rplus_0_r, ln_1; ring).
  destruct (MVT_cor2 f f' 0 y Hy) as (c & E & Hc); [intros t Ht; apply is_derive_Reals, D; lra|].
  rewrite F0, !Rminus_0_r in E. fold (f y). split.
  - rewrite E. assert (0 < (r - 1) * c) by pos. assert (0 < r * c) by pos. assert (0 < r * (r - 1)) by pos. unfold f'. assert (0 < r - 1) by lra. pos.
  - pose (h := fun t => r * (r - 1) / 2 * t ^ 2 - f t). pose (h' := fun t => r * (r - 1) * t - f' t).
    assert (D2 : forall t, 0 <= t -> is_derive h t (h' t)).
    { intros t Ht. unfold h, h'. apply (is_derive_minus (fun t => r * (r - 1) / 2 * t ^ 2) f); [|now apply D]. auto_derive; [trivial|]. field. }
    destruct (MVT_cor2 h h' 0 y Hy) as (k & E2 & Hk); [intros t Ht; apply is_derive_Reals, D2; lra|].
    assert (H0 : h 0 = 0) by (unfold h; rewrite F0; ring). rewrite H0, !Rminus_0_r in E2.
    assert (0 <= h' k).
    { unfold h', f'. assert (0 < (r - 1) * k) by (apply Rmult_lt_0_compat; lra). assert (0 < r * k) by (apply Rmult_lt_0_compat; lra).
      set (dd := (1 + (r - 1) * k) * (1 + r * k)). assert (1 < dd) by (unfold dd; nra).
      assert (0 < r * (r - 1) * k) by (apply Rmult_lt_0_compat; [apply Rmult_lt_0_compat|]; lra).
      apply Rle_minus_r. rewrite Rplus_0_l. apply (Rmult_le_reg_r dd); [lra|]. replace (r * (r - 1) * k / dd * dd) with (r * (r - 1) * k) by (field; lra). nra. }
    assert (0 <= h y) by (rewrite E2; apply Rmult_le_pos; lra). unfold h in H1. lra.
Qed.

(*@P C94_high: For every gas and Mach number, with r = (g+1)/(g-1): the large-Mach approximation of the example is below that of the notebook, which is below Sigma; Sigma is at most exp(r(r-1)/(2 M^2)) times the first and exp(r(r-1)/(4 M^4)) times the second: the notebook's one is better by two orders. *)
Lemma approx_high : forall g M, 1 < g -> 0 < M -> let r := (g + 1) / (g - 1) in exists s a b,
  Sigma_Mach (Some M) (Some g) = Some s /\ sig3 (Some M) (Some g) = Some a /\ nb_high (Some M) (Some g) = Some b /\
  0 < a < b /\ b < s /\ s <= a * exp (r * (r - 1) / (2 * M ^ 2)) /\ s <= b * exp (r * (r - 1) / (4 * M ^ 4)).
Proof.
  intros g M Hg HM r. exists (sig g M), (s3 g M), (nbh g M). pose proof (rg_gt g Hg) as Hr. assert (HM2 : 0 < M ^ 2) by pos.
  split; [now apply Sigma_eval|]. split; [now apply s3_eval|]. split; [now apply nbh_eval|].
  change r with (rg g). clear r. set (r := rg g) in *.
  assert (E1 : sig g M = s3 g M * exp (r / 2 * ln (1 + (r - 1) / M ^ 2))) by (unfold sig, s3; rewrite <- exp_plus, lsig_high by assumption; reflexivity).
  assert (E2 : nbh g M = s3 g M * exp ((r - 1) / 2 * ln (1 + r / M ^ 2))) by (unfold nbh, s3; rewrite <- exp_plus, nbh_high by assumption; reflexivity).
  assert (P : 0 < s3 g M) by apply exp_pos.
  destruct (gap r (/ M ^ 2) Hr ltac:(pos)) as [G1 G2].
  assert (exp_le : forall a b, a <= b -> exp a <= exp b) by (intros a b [K|K]; [left; now apply exp_increasing|right; now rewrite K]).
  unfold Rdiv at 2 in E1. fold (Rdiv (r - 1) (M ^ 2)) in E1. change ((r - 1) * / M ^ 2) with ((r - 1) / M ^ 2) in *. change (r * / M ^ 2) with (r / M ^ 2) in *.
  split; [split; [assumption|]|split; [|split]].
  - rewrite E2. rewrite <- (Rmult_1_r (s3 g M)) at 1. apply Rmult_lt_compat_l; [assumption|]. rewrite <- exp_0 at 1. apply exp_increasing.
    apply Rmult_lt_0_compat; [lra|]. rewrite <- ln_1. apply ln_increasing; [lra|]. assert (0 < r / M ^ 2) by pos. lra.
  - rewrite E1, E2. apply Rmult_lt_compat_l; [assumption|]. apply exp_increasing. lra.
  - rewrite E1. apply Rmult_le_compat_l; [lra|]. apply exp_le.
    assert (K : ln (1 + (r - 1) / M ^ 2) <= (r - 1) / M ^ 2) by (apply ln1p_le; assert (0 < (r - 1) / M ^ 2) by pos; lra).
    replace (r * (r - 1) / (2 * M ^ 2)) with (r / 2 * ((r - 1) / M ^ 2)) by (field; lra). apply Rmult_le_compat_l; lra.
  - rewrite E1, E2, Rmult_assoc, <- exp_plus. apply Rmult_le_compat_l; [lra|]. apply exp_le.
    replace (r * (r - 1) / (4 * M ^ 4)) with (1 / 2 * (r * (r - 1) / 2 * (/ M ^ 2) ^ 2)) by (field; lra). lra.
Qed.

(** ** near the throat *)
Definition Kt (g c : R) : R := sig g c * (c + 1) / (c * (2 + (g - 1) * c ^ 2)).
Lemma sig_dev g M : 1 < g -> 0 < M -> M <> 1 -> exists c, (Rmin 1 M < c < Rmax 1 M) /\ sig g M - 1 = (M - 1) ^ 2 * Kt g c.
Proof.
  intros Hg HM H1. pose (sig' := fun c => sig g c * (2 * (c ^ 2 - 1) / (c * (2 + (g - 1) * c ^ 2)))).
  assert (Dn : forall c, 0 < c -> 0 < c * (2 + (g - 1) * c ^ 2)).
  { intros c Hc. apply Rmult_lt_0_compat; [assumption|]. assert (0 < c ^ 2) by pos. assert (0 < (g - 1) * c ^ 2) by pos. lra. }
  assert (D : forall c, 0 < c -> is_derive (sig g) c (sig' c)).
  { intros c Hc. unfold sig. evar_last; [apply (is_derive_comp exp (lsig g) c); [apply is_derive_exp|apply lsig_derive; assumption]|].
    unfold sig', sig, scal; cbn. unfold mult; cbn. pose proof (Dn c Hc) as Hd. unfold tt. cbn [pow] in Hd. field_simplify_eq; [ring|]. split; [|lra]. assert (0 < c * c) by pos. assert (0 < (g - 1) * (c * c)) by pos. lra. }
  pose (F := fun t => (sig g M - 1) * (t - 1) ^ 2 - (M - 1) ^ 2 * (sig g t - 1)).
  pose (F' := fun t => (sig g M - 1) * (2 * (t - 1)) - (M - 1) ^ 2 * sig' t).
  assert (DF : forall t, 0 < t -> derivable_pt_lim F t (F' t)).
  { intros t Ht. apply is_derive_Reals. unfold F, F'. apply (is_derive_minus (fun t => (sig g M - 1) * (t - 1) ^ 2) (fun t => (M - 1) ^ 2 * (sig g t - 1))).
    - auto_derive; [trivial|]. ring.
    - apply (is_derive_scal (fun t => sig g t - 1) t ((M - 1) ^ 2)). evar_last; [apply (is_derive_minus (sig g) (fun _ => 1)); [now apply D|apply is_derive_const]|].
      unfold minus, plus, opp, zero; cbn; ring. }
  assert (F1 : F 1 = 0) by (unfold F; rewrite sig_1 by assumption; ring).
  assert (FM : F M = 0) by (unfold F; ring).
  assert (C : exists c, (Rmin 1 M < c < Rmax 1 M) /\ F' c = 0).
  { destruct (Rtotal_order M 1) as [Hl|[He|Hl]]; [|contradiction|].
    - destruct (MVT_cor2 F F' M 1 Hl) as (c & E & Hc); [intros; apply DF; lra|]. exists c. rewrite Rmin_right, Rmax_left by lra. split; [exact Hc|].
      rewrite F1, FM in E. symmetry in E. replace (0 - 0) with 0 in E by ring. apply Rmult_integral in E. destruct E; lra.
    - destruct (MVT_cor2 F F' 1 M Hl) as (c & E & Hc); [intros; apply DF; lra|]. exists c. rewrite Rmin_left, Rmax_right by lra. split; [exact Hc|].
      rewrite F1, FM in E. symmetry in E. replace (0 - 0) with 0 in E by ring. apply Rmult_integral in E. destruct E; lra. }
  destruct C as (c & Hc & E). exists c. split; [exact Hc|].
  assert (Hc0 : 0 < c). { assert (0 < Rmin 1 M) by (apply Rmin_glb_lt; lra). lra. }
  assert (Hc1 : c <> 1). { intros ->. destruct (Rtotal_order M 1) as [Hl|[He|Hl]]; [rewrite Rmin_right, Rmax_left in Hc by lra|contradiction|rewrite Rmin_left, Rmax_right in Hc by lra]; lra. }
  pose proof (Dn c Hc0) as Hd. unfold F', sig' in E. unfold Kt.
  apply (Rmult_eq_reg_r (2 * (c - 1))); [|lra].
  replace ((M - 1) ^ 2 * (sig g c * (c + 1) / (c * (2 + (g - 1) * c ^ 2))) * (2 * (c - 1))) with ((M - 1) ^ 2 * (sig g c * (2 * (c ^ 2 - 1) / (c * (2 + (g - 1) * c ^ 2))))) by (assert (0 < c ^ 2) by pos; assert (0 < (g - 1) * c ^ 2) by pos; field; split; lra).
  lra.
Qed.
Lemma Kt_1 g : 1 < g -> Kt g 1 = 2 / (g + 1).
Proof. intros H. unfold Kt. rewrite sig_1 by assumption. field. lra. Qed.
Lemma Kt_cont g : 1 < g -> continuous (Kt g) 1.
Proof.
  intros H. unfold Kt, Rdiv. apply (continuous_mult (fun c => sig g c * (c + 1)) (fun c => / (c * (2 + (g - 1) * c ^ 2)))).
  - apply (continuous_mult (sig g) (fun c => c + 1)); [apply sig_continuous; lra|]. apply (ex_derive_continuous (fun c => c + 1)). auto_derive. trivial.
  - apply (ex_derive_continuous (fun c => / (c * (2 + (g - 1) * c ^ 2)))). auto_derive. lra.
Qed.

(*@P C94_throat: For every gas, near Mach 1: (Sigma - 1)/(M - 1)^2 tends to 2/(g+1). *)
Lemma throat_limit : forall g, 1 < g -> forall eps, 0 < eps -> exists delta, 0 < delta < 1 /\
  forall M, 0 < Rabs (M - 1) < delta -> exists s, Sigma_Mach (Some M) (Some g) = Some s /\
    Rabs ((s - 1) / (M - 1) ^ 2 - 2 / (g + 1)) < eps.
Proof.
  intros g Hg eps He. destruct (Kt_cont g Hg (ball (Kt g 1) (mkposreal eps He))) as [d Hd]; [exists (mkposreal eps He); intros y Hy; exact Hy|].
  assert (Hdp : 0 < Rmin (pos d) (1/2)) by (apply Rmin_glb_lt; [apply cond_pos|lra]).
  exists (Rmin d (1/2)). split; [split; [assumption|]; pose proof (Rmin_r d (1/2)); lra|].
  intros M [HM1 HM2]. pose proof (Rmin_l d (1/2)) as L1. pose proof (Rmin_r d (1/2)) as L2.
  assert (H1 : M <> 1) by (intros ->; replace (1 - 1) with 0 in HM1 by ring; rewrite Rabs_R0 in HM1; lra).
  assert (HM : 0 < M) by (apply Rabs_def2 in HM2; lra).
  exists (sig g M). split; [now apply Sigma_eval|].
  destruct (sig_dev g M Hg HM H1) as (c & Hc & E). rewrite E.
  replace ((M - 1) ^ 2 * Kt g c / (M - 1) ^ 2) with (Kt g c) by (field; lra). rewrite <- Kt_1 by assumption.
  apply Hd. unfold ball; cbn. unfold AbsRing_ball, abs, minus, plus, opp; cbn.
  apply Rabs_def2 in HM2. assert (Rmin d (1/2) <= d) by assumption.
  destruct (Rle_dec M 1) as [Hl|Hl]; [rewrite Rmin_right, Rmax_left in Hc by lra|rewrite Rmin_left, Rmax_right in Hc by lra]; apply Rabs_def1; lra.
Qed.

(*@P C94_throat_refuted: The expansion drawn by the example near the throat, 1 + (3-g)/(4(g-1)) (M-1)^2, is not the one of Sigma, except for the gas with g^2 + 6 g = 11: for every other gas, (Sigma - expansion)/(M-1)^2 tends to a number different from zero (-1/6 for air). *)
Lemma throat_wrong : forall g, 1 < g -> g ^ 2 + 6 * g <> 11 ->
  exists k, k <> 0 /\ (g = 14/10 -> k = -1/6) /\ forall eps, 0 < eps -> exists delta, 0 < delta < 1 /\
  forall M, 0 < Rabs (M - 1) < delta -> exists s a, Sigma_Mach (Some M) (Some g) = Some s /\ sig2 (Some M) (Some g) = Some a /\
    Rabs ((s - a) / (M - 1) ^ 2 - k) < eps.
Proof.
  intros g Hg Hne. exists (2 / (g + 1) - (3 - g) / 4 / (g - 1)). split; [|split].
  - intros Z. apply Hne. assert (Z2 : (2 / (g + 1) - (3 - g) / 4 / (g - 1)) * (4 * (g + 1) * (g - 1)) = 0) by (rewrite Z; ring).
    replace ((2 / (g + 1) - (3 - g) / 4 / (g - 1)) * (4 * (g + 1) * (g - 1))) with (g ^ 2 + 6 * g - 11) in Z2 by (field; lra). lra.
  - intros ->. field.
  - intros eps He. destruct (throat_limit g Hg eps He) as (d & Hd & Hl). exists d. split; [exact Hd|]. intros M HM.
    destruct (Hl M HM) as (s & Es & Hs). exists s. eexists. split; [exact Es|].
    split; [unfold sig2; ncbn; rewrite !ndiv_Some by lra; reflexivity|].
    assert (H1 : M <> 1) by (intros ->; replace (1 - 1) with 0 in HM by ring; rewrite Rabs_R0 in HM; lra).
    match goal with |- Rabs ?x < _ => replace x with ((s - 1) / (M - 1) ^ 2 - 2 / (g + 1)); [exact Hs|] end. field. repeat split; lra.
Qed.

(*@P C94_guess_refuted: The starting points used to invert Sigma come from that expansion and are therefore not asymptotically exact near the throat: for air, on each side of Mach 1 there is a range of Mach numbers M such that the starting point computed from Sigma(M) misses M by more than one twentieth of its distance to 1. *)
Lemma guess_wrong : exists delta, 0 < delta < 1 /\ forall M, 0 < Rabs (M - 1) < delta -> exists s a b,
  Sigma_Mach (Some M) (Some (14/10)) = Some s /\ MachSup_guess (Some s) (Some (14/10)) = Some a /\ MachSub_guess (Some s) (Some (14/10)) = Some b /\
  (1 < M -> a < M - (M - 1) / 20) /\ (M < 1 -> M + (1 - M) / 20 < b).
Proof.
  destruct (throat_limit (14/10) ltac:(lra) (1/100) ltac:(lra)) as (d & Hd & Hl).
  exists d. split; [exact Hd|]. intros M HM. destruct (Hl M HM) as (s & Es & Hs).
  assert (H1 : M <> 1) by (intros ->; replace (1 - 1) with 0 in HM by ring; rewrite Rabs_R0 in HM; lra).
  assert (Hm : 0 < (M - 1) ^ 2) by (apply pow2_gt_0; lra).
  assert (HM0 : 0 < M) by (destruct HM as [_ HM]; apply Rabs_def2 in HM; lra).
  assert (Hs1 : 1 < s). { rewrite Sigma_eval in Es by lra. injection Es as <-. apply sig_gt_1; lra. }
  assert (Hq : s - 1 < (19/20 * (M - 1)) ^ 2).
  { replace ((19/20 * (M - 1)) ^ 2) with (361/400 * (M - 1) ^ 2) by field. apply Rabs_def2 in Hs.
    apply (Rmult_lt_reg_r (/ (M - 1) ^ 2)); [pos|]. change ((s - 1) * / (M - 1) ^ 2) with ((s - 1) / (M - 1) ^ 2).
    replace (361/400 * (M - 1) ^ 2 * / (M - 1) ^ 2) with (361/400) by (field; lra). lra. }
  assert (Hi : 0 < 1 - 1 / s < s - 1).
  { assert (1 / s < 1) by (apply (Rmult_lt_reg_r s); [lra|]; replace (1 / s * s) with 1 by (field; lra); lra). split; [lra|].
    replace (1 - 1 / s) with ((s - 1) * (1 / s)) by (field; lra). nra. }
  exists s. eexists _, _. split; [exact Es|]. unfold MachSup_guess, MachSub_guess. ncbn. rewrite !ndiv_Some by lra. ncbn.
  rewrite !nsqrt_Some by (apply Rmult_le_pos; lra). ncbn. split; [reflexivity|]. split; [reflexivity|].
  replace (4 * (14/10 - 1) / (3 - 14/10)) with 1 by field. rewrite !Rmult_1_r. split; intros Hside.
  - assert (sqrt (s - 1) < 19/20 * (M - 1)); [|lra]. rewrite <- (sqrt_pow2 (19/20 * (M - 1))) by lra. apply sqrt_lt_1_alt. lra.
  - assert (sqrt (1 - 1 / s) < 19/20 * (1 - M)); [|lra]. rewrite <- (sqrt_pow2 (19/20 * (1 - M))) by lra. apply sqrt_lt_1_alt.
    replace ((19/20 * (1 - M)) ^ 2) with ((19/20 * (M - 1)) ^ 2) by ring. lra.
Qed.

(*@E C94_example: with g = 3 (r = 2) at Mach 2: Sigma = 5/4, the small-Mach approximation is 1/4, the large-Mach one 1, and the notebook's one sqrt(6)/2 = 1.2247. *)
Lemma C94_ex : Sigma_Mach (Some 2) (Some 3) = Some (5/4) /\ sig1 (Some 2) (Some 3) = Some (1/4) /\ sig3 (Some 2) (Some 3) = Some 1 /\
  nb_high (Some 2) (Some 3) = Some (sqrt 6 / 2) /\ 3 ^ 2 + 6 * 3 <> 11 /\ 1 < 3.
Proof.
  split; [exact C06_example_lemma|]. assert (R1 : rg 3 = 2) by (unfold rg; field).
  unfold sig1, sig3, nb_high. rewrite !gpu_eval, !R1 by lra. ncbn. rewrite !ndiv_Some by lra.
  rewrite !npow_Some by lra.
  replace (2 / 2) with 1 by field. replace (1 / 2 * (2 - 1)) with (/ 2) by field. replace (1 / 2 * 2) with 1 by field.
  rewrite !Rpower_1, Rpower_sqrt by lra. rewrite !ndiv_Some by lra.
  split; [f_equal; field|]. split; [f_equal; field|]. split; [|split; lra]. replace (2 + 2 * 2) with 6 by ring. reflexivity.
Qed.
