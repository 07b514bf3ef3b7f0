From Coquelicot Require Import Coquelicot.
From Verif Require Import L_Num Spec NumSpec M_Isentropic M_Degree M_IterSolve M_MassFlow M_Supersonic L_Isentropic L_Degree.
Open Scope R_scope.

Definition cgm (g : R) : R := sqrt ((g + 1) / (g - 1)).
Definition pmb (c b : R) : R := c * atan (b / c) - atan b.
Definition pm (g M : R) : R := deg (pmb (cgm g) (sqrt (M ^ 2 - 1))).

Lemma cgm_sq g : 1 < g -> cgm g ^ 2 = (g + 1) / (g - 1).
Proof. intros; unfold cgm; apply sq_sqrt; left; pos. Qed.
Lemma cgm_gt1 g : 1 < g -> 1 < cgm g.
Proof.
  intros. unfold cgm. rewrite <- sqrt_1 at 1. apply sqrt_lt_1_alt. split; [lra|].
  apply (Rmult_lt_reg_r (g - 1)); [lra|]. replace ((g + 1) / (g - 1) * (g - 1)) with (g + 1) by (field; lra). lra.
Qed.
Lemma PM_eval g M : 1 < g -> 1 <= Rabs M -> PrandtlMeyer_Mach (Some M) (Some g) = Some (pm g M).
Proof.
  intros Hg HM. assert (1 <= M ^ 2). { rewrite pow2_abs_le || (rewrite <- (pow2_abs M)). nra. }
  unfold PrandtlMeyer_Mach. ncbn. rewrite (ndiv_Some (g + 1)) by lra.
  rewrite (nsqrt_Some ((g + 1) / (g - 1))) by (left; pos). rewrite nsqrt_Some by lra.
  rewrite ndiv_Some by (pose proof (cgm_gt1 g Hg); unfold cgm in *; lra). ncbn.
  unfold npi. rewrite ndiv_Some by apply PI_nz. ncbn. reflexivity.
Qed.
Lemma PM_none g M : Rabs M < 1 -> PrandtlMeyer_Mach (Some M) (Some g) = None.
Proof.
  intros HM. assert (M ^ 2 < 1). { rewrite <- (pow2_abs M). pose proof (Rabs_pos M). nra. }
  unfold PrandtlMeyer_Mach. ncbn. rewrite nsqrt_neg by lra.
  destruct (nsqrt _); reflexivity.
Qed.
Lemma PM_None g : PrandtlMeyer_Mach None g = None.
Proof.
  unfold PrandtlMeyer_Mach. cbn [npowi nsub nsqrt]. destruct (nsqrt ((g + Some 1) / (g - Some 1))%num); reflexivity.
Qed.
Lemma pmb_derive c b : 1 < c -> is_derive (pmb c) b (b ^ 2 * (c ^ 2 - 1) / ((c ^ 2 + b ^ 2) * (1 + b ^ 2))).
Proof.
  intros Hc. unfold pmb. auto_derive; [exact I|]. unfold Rsqr. field. repeat split; nra.
Qed.
Lemma pmb_incr c x y : 1 < c -> 0 <= x -> x < y -> pmb c x < pmb c y.
Proof.
  intros Hc Hx Hxy. apply (strict_incr (pmb c) _ x y Hxy (fun b _ => pmb_derive c b Hc)).
  intros b Hb. cbv beta. assert (0 < b) by lra. assert (0 < c ^ 2 - 1) by nra. pos.
Qed.
Lemma pmb_0 c : 1 < c -> pmb c 0 = 0.
Proof. intros; unfold pmb. replace (0 / c) with 0 by (field; lra). rewrite atan_0; ring. Qed.
Lemma pmb_bound c b : 1 < c -> 0 <= b -> pmb c b < (c - 1) * (PI / 2).
Proof.
  intros Hc Hb. destruct Hb as [Hb|<-].
  2:{ rewrite pmb_0 by assumption. pose proof PI_RGT_0. pos. }
  unfold pmb. pose proof (atan_inv (b / c) ltac:(pos)) as E1. pose proof (atan_inv b Hb) as E2.
  assert (atan (/ b) < atan (/ (b / c))).
  { apply atan_increasing. apply Rinv_lt_contravar; [pos|]. apply Rlt_div_l; nra. }
  assert (0 < atan (/ b)). { rewrite <- atan_0. apply atan_increasing; pos. }
  nra.
Qed.
Lemma atan_le_id x : 0 <= x -> atan x <= x.
Proof.
  intros [Hx|<-]; [|rewrite atan_0; lra].
  assert (atan 0 - 0 > atan x - x); [|rewrite atan_0 in *; lra].
  apply (strict_decr (fun z => atan z - z) (fun z => / (1 + z ^ 2) - 1) 0 x Hx).
  - intros z _. auto_derive; [exact I|]. field. nra.
  - intros z Hz. assert (/ (1 + z ^ 2) < / 1); [|lra]. apply Rinv_lt_contravar; nra.
Qed.
Lemma pmb_limit c y : 1 < c -> y < (c - 1) * (PI / 2) -> exists b, 0 < b /\ y < pmb c b.
Proof.
  intros Hc Hy. set (e := (c - 1) * (PI / 2) - y). assert (0 < e) by (unfold e; lra).
  set (b := c * c / e). assert (Hb : 0 < b) by (unfold b; pos). exists b; split; [assumption|].
  pose proof (atan_inv (b / c) ltac:(pos)) as E1. pose proof (atan_inv b Hb) as E2.
  assert (0 < atan (/ b)). { rewrite <- atan_0. apply atan_increasing; pos. }
  assert (atan (/ (b / c)) <= / (b / c)) by (apply atan_le_id; left; pos).
  assert (E : c * / (b / c) = e) by (unfold b; field; lra).
  assert (c * atan (/ (b / c)) <= e) by (rewrite <- E; apply Rmult_le_compat_l; lra).
  unfold pmb, e in *. nra.
Qed.
Lemma beta_sq M : 1 <= M -> sqrt (M ^ 2 - 1) ^ 2 = M ^ 2 - 1.
Proof. intros; apply sq_sqrt; nra. Qed.
Lemma beta_lt x y : 1 <= x -> x < y -> sqrt (x ^ 2 - 1) < sqrt (y ^ 2 - 1).
Proof. intros; apply sqrt_lt_1_alt; nra. Qed.
Lemma pm_incr g x y : 1 < g -> 1 <= x -> x < y -> pm g x < pm g y.
Proof.
  intros Hg Hx Hxy. apply deg_lt, pmb_incr; [now apply cgm_gt1|apply sqrt_pos|now apply beta_lt].
Qed.
Lemma pm_inj g x y : 1 < g -> 1 <= x -> 1 <= y -> pm g x = pm g y -> x = y.
Proof.
  intros Hg Hx Hy E. destruct (Rtotal_order x y) as [H|[H|H]]; [|assumption|].
  - pose proof (pm_incr g x y Hg Hx H); lra.
  - pose proof (pm_incr g y x Hg Hy H); lra.
Qed.
Lemma pm_1 g : 1 < g -> pm g 1 = 0.
Proof.
  intros; unfold pm. replace (1 ^ 2 - 1) with 0 by ring. rewrite sqrt_0, pmb_0 by now apply cgm_gt1. apply deg_0.
Qed.
Lemma pm_abs g M : pm g (Rabs M) = pm g M.
Proof. unfold pm. now rewrite pow2_abs. Qed.

(*@P C20_domain: PrandtlMeyer_Mach has a finite real value exactly when |M| >= 1, and is 0 at M = 1. *)
Lemma pm_domain : forall g M, 1 < g ->
  ((exists w, PrandtlMeyer_Mach (Some M) (Some g) = Some w) <-> 1 <= Rabs M) /\
  PrandtlMeyer_Mach (Some 1) (Some g) = Some 0.
Proof.
  intros g M Hg. split.
  - split.
    + intros [w H]. destruct (Rle_lt_dec 1 (Rabs M)); [assumption|]. rewrite PM_none in H by assumption; discriminate.
    + intros H; rewrite PM_eval by assumption; eauto.
  - rewrite PM_eval by (try rewrite Rabs_R1; lra). now rewrite pm_1.
Qed.
(*@P C20_increasing: PrandtlMeyer_Mach strictly increases for M >= 1. *)
Lemma pm_increasing : forall g, 1 < g -> incr_on (fun M => 1 <= M) (fun M => PrandtlMeyer_Mach M (Some g)).
Proof.
  intros g Hg x y Hx Hy Hxy. exists (pm g x), (pm g y).
  rewrite !PM_eval by (try assumption; rewrite Rabs_pos_eq; lra). repeat split. now apply pm_incr.
Qed.
(*@P C20_range: The values for M >= 1 are exactly the turning angles in [0, 90*(sqrt((gamma+1)/(gamma-1))-1)) degrees, each reached at exactly one M. *)
Lemma pm_range : forall g w, 1 < g ->
  (0 <= w < 90 * (sqrt ((g + 1) / (g - 1)) - 1) <->
   exists M, 1 <= M /\ PrandtlMeyer_Mach (Some M) (Some g) = Some w /\
     forall M', 1 <= M' -> PrandtlMeyer_Mach (Some M') (Some g) = Some w -> M' = M).
Proof.
  intros g w Hg. pose proof (cgm_gt1 g Hg) as Hc. fold (cgm g).
  assert (Edeg : deg ((cgm g - 1) * (PI / 2)) = 90 * (cgm g - 1)) by (unfold deg; field; apply PI_nz).
  split.
  - intros [H0 H1].
    assert (HR : rad w < (cgm g - 1) * (PI / 2)).
    { rewrite <- (rad_deg ((cgm g - 1) * (PI / 2))). apply rad_lt. lra. }
    destruct (pmb_limit (cgm g) (rad w) Hc HR) as [b [Hb Hbw]].
    assert (Hw : 0 <= rad w) by (rewrite <- rad_0; now apply rad_le).
    destruct (IVT_value (pmb (cgm g)) 0 b (rad w) Hb) as [c [Hc1 Hc2]].
    + intros x _. eapply derive_continuous. now apply pmb_derive.
    + rewrite pmb_0 by assumption; lra.
    + set (M := sqrt (c ^ 2 + 1)). assert (HM2 : M ^ 2 = c ^ 2 + 1) by (unfold M; apply sq_sqrt; nra).
      assert (HM0 : 0 <= M) by apply sqrt_pos. assert (HM : 1 <= M) by nra.
      assert (EM : pm g M = w).
      { unfold pm. rewrite HM2. replace (c ^ 2 + 1 - 1) with (c ^ 2) by ring. rewrite sqrt_sq by lra.
        rewrite Hc2. apply deg_rad. }
      exists M. split; [assumption|]. rewrite PM_eval by (try assumption; rewrite Rabs_pos_eq; lra).
      split; [now rewrite EM|]. intros M' HM' E'. rewrite PM_eval in E' by (try assumption; rewrite Rabs_pos_eq; lra).
      injection E' as E'. apply (pm_inj g); lra || assumption.
  - intros [M [HM [E _]]]. rewrite PM_eval in E by (try assumption; rewrite Rabs_pos_eq; lra). injection E as <-.
    split.
    + destruct (Req_dec M 1) as [->|]; [rewrite pm_1 by assumption; lra|].
      rewrite <- (pm_1 g Hg). left; apply pm_incr; lra.
    + rewrite <- Edeg. apply deg_lt. apply pmb_bound; [assumption|apply sqrt_pos].
Qed.
(*@P C20_slope: For M > 1 the slope of PrandtlMeyer_Mach (per degree) is sqrt(M^2-1)/(M(1+(gamma-1)/2 M^2)), the Prandtl-Meyer differential relation. *)
Lemma pm_slope : forall g M, 1 < g -> 1 < M ->
  exists nu, (forall m, 1 <= m -> PrandtlMeyer_Mach (Some m) (Some g) = Some (nu m)) /\
    is_derive nu M (180 / PI * (sqrt (M ^ 2 - 1) / (M * (1 + (g - 1) / 2 * M ^ 2)))).
Proof.
  intros g M Hg HM. exists (pm g). split.
  - intros m Hm; apply PM_eval; [assumption|rewrite Rabs_pos_eq; lra].
  - pose proof (cgm_gt1 g Hg) as Hc. pose proof (cgm_sq g Hg) as Hc2.
    assert (Hb : 0 < M ^ 2 - 1) by nra. assert (Hs : 0 < sqrt (M ^ 2 - 1)) by pos.
    pose proof (sq_sqrt (M ^ 2 - 1) ltac:(lra)) as Hs2.
    unfold pm, deg.
    assert (D : is_derive (fun m => pmb (cgm g) (sqrt (m ^ 2 - 1))) M
      ((M / sqrt (M ^ 2 - 1)) * (sqrt (M ^ 2 - 1) ^ 2 * (cgm g ^ 2 - 1) /
       ((cgm g ^ 2 + sqrt (M ^ 2 - 1) ^ 2) * (1 + sqrt (M ^ 2 - 1) ^ 2))))).
    { apply (is_derive_comp (pmb (cgm g)) (fun m => sqrt (m ^ 2 - 1))).
      - now apply pmb_derive.
      - auto_derive; [lra|]. replace (M * (M * 1)) with (M ^ 2) by ring. unfold Rminus in *. field. lra. }
    evar_last.
    + apply (is_derive_ext (fun m => (180 / PI) * pmb (cgm g) (sqrt (m ^ 2 - 1)))).
      { intros t. apply Rmult_comm. }
      apply is_derive_scal. exact D.
    + cbn -[pow sqrt]. rewrite Hs2, Hc2. set (s := sqrt (M ^ 2 - 1)) in *.
      replace ((M ^ 2 - 1) * ((g + 1) / (g - 1) - 1) / (((g + 1) / (g - 1) + (M ^ 2 - 1)) * (1 + (M ^ 2 - 1))))
        with (s * s / (M ^ 2 * (1 + (g - 1) / 2 * M ^ 2))).
      2:{ replace (s * s) with (M ^ 2 - 1) by (rewrite <- Hs2; ring). field. repeat split; nra. }
      field. repeat split; try apply PI_nz; nra.
Qed.

(** ** C21 *)
Lemma mach_angle_atan M : 1 <= M -> asin (1 / M) = PI / 2 - atan (sqrt (M ^ 2 - 1)).
Proof.
  intros HM. pose proof (atan_bound (sqrt (M ^ 2 - 1))) as Hb.
  assert (0 <= atan (sqrt (M ^ 2 - 1))).
  { destruct (sqrt_pos (M ^ 2 - 1)) as [H|<-]; [rewrite <- atan_0; left; now apply atan_increasing|rewrite atan_0; lra]. }
  rewrite <- (asin_sin (PI / 2 - atan (sqrt (M ^ 2 - 1)))) by lra. f_equal.
  rewrite sin_shift. rewrite cos_atan. unfold Rsqr. replace (1 + sqrt (M ^ 2 - 1) * sqrt (M ^ 2 - 1)) with (M ^ 2).
  - rewrite sqrt_sq by lra. reflexivity.
  - pose proof (beta_sq M HM). nra.
Qed.
(*@P C21_PMFmmu: Mach_PMFmmu applied to (Prandtl-Meyer angle minus Mach angle), both in degrees, gives back M for every M >= 1. *)
Lemma PMFmmu_inverse : forall g M, 1 < g -> 1 <= M ->
  exists nu mu, PrandtlMeyer_Mach (Some M) (Some g) = Some nu /\
    0 < mu <= 90 /\ dsin (Some mu) = Some (1 / M) /\
    Mach_PMFmmu (Some (nu - mu)) (Some g) = Some M.
Proof.
  intros g M Hg HM. exists (pm g M), (deg (asin (1 / M))).
  split; [apply PM_eval; [assumption|rewrite Rabs_pos_eq; lra]|].
  assert (Hi : 0 < 1 / M <= 1). { split; [pos|]. apply Rle_div_l; lra. }
  split.
  { split.
    - rewrite <- deg_0. apply deg_lt. rewrite <- asin_0. apply asin_increasing; lra.
    - rewrite <- deg_PI2. apply deg_le. apply asin_bound. }
  split; [rewrite dsin_eval, rad_deg, sin_asin by lra; reflexivity|].
  pose proof (cgm_gt1 g Hg) as Hc. set (b := sqrt (M ^ 2 - 1)).
  unfold Mach_PMFmmu. ncbn. rewrite (ndiv_Some (g + 1)) by lra.
  rewrite (nsqrt_Some ((g + 1) / (g - 1))) by (left; pos). fold (cgm g).
  rewrite ndiv_Some by lra.
  assert (E : rad ((pm g M - deg (asin (1 / M)) + 90) / cgm g) = atan (b / cgm g)).
  { rewrite mach_angle_atan by assumption. unfold pm, pmb, deg, rad. fold b. field. split; [apply PI_nz|lra]. }
  rewrite dtan_eval; rewrite E.
  2:{ pose proof (atan_bound (b / cgm g)). apply Rgt_not_eq, cos_gt_0; lra. }
  ncbn. rewrite tan_atan. replace (cgm g * (b / cgm g)) with b by (field; lra).
  rewrite nsqrt_Some by (pose proof (pow2_ge_0 b); lra). unfold b. rewrite beta_sq by assumption.
  replace (M ^ 2 - 1 + 1) with (M ^ 2) by ring. rewrite sqrt_sq by lra. reflexivity.
Qed.
(** ** C22 *)
Lemma PM_abs_ge g M w : PrandtlMeyer_Mach (Some M) (Some g) = Some w -> 1 <= Rabs M.
Proof.
  intros H. destruct (Rle_lt_dec 1 (Rabs M)); [assumption|]. rewrite PM_none in H by assumption; discriminate.
Qed.
(*@P C22_residual: Whatever root finder honours its contract, the Mach number returned by Mach_PrandtlMeyer has the requested Prandtl-Meyer angle within the finder's residual. *)
Lemma Mach_PM_residual : forall newton eps g w M, solves eps newton ->
  Mach_PrandtlMeyer newton (Some w) (Some g) = Some M ->
  exists w', PrandtlMeyer_Mach (Some M) (Some g) = Some w' /\ Rabs (w' - w) <= eps.
Proof.
  intros newton eps g w M HN H. destruct (HN _ _ _ H) as [e [He1 He2]]. cbv beta in He1.
  destruct (PrandtlMeyer_Mach (Some M) (Some g)) as [w'|]; [|discriminate]. exists w'; split; [reflexivity|].
  ncbn. injection He1 as He1. now rewrite He1.
Qed.
(*@P C22_inverse: With an exact root finder, Mach_PrandtlMeyer inverts PrandtlMeyer_Mach uniquely (up to the sign of M, on which the function does not depend). *)
Lemma Mach_PM_inverse : forall newton g M w M', solves 0 newton -> 1 < g -> 1 <= M ->
  PrandtlMeyer_Mach (Some M) (Some g) = Some w ->
  Mach_PrandtlMeyer newton (Some w) (Some g) = Some M' -> Rabs M' = M.
Proof.
  intros newton g M w M' HN Hg HM HW H. destruct (Mach_PM_residual _ _ _ _ _ HN H) as [w' [E1 E2]].
  assert (w' = w). { destruct (Req_dec (w' - w) 0); [lra|]. pose proof (Rabs_pos_lt _ H0). lra. } subst w'.
  pose proof (PM_abs_ge _ _ _ E1) as HA. rewrite PM_eval in E1, HW by (try assumption; rewrite Rabs_pos_eq; lra).
  injection E1 as E1. injection HW as HW. apply (pm_inj g); try assumption. rewrite pm_abs. congruence.
Qed.
Lemma ptps_ratio_pos g M : 0 < Rpower (tt g M) (g / (g - 1)). Proof. pos. Qed.
Lemma tt_abs g M : tt g (Rabs M) = tt g M. Proof. unfold tt; now rewrite pow2_abs. Qed.
(** evaluation of both functions *)
Lemma defl_isen_eval g M P D : 1 < g -> 1 <= M -> 0 < P ->
  deflection_Mach_IsentropicPsratio (Some M) (Some P) (Some g) = Some D ->
  exists m2, 1 <= m2 /\ PtPs_Mach (Some M) (Some g) = Some (Rpower (tt g M) (g / (g - 1))) /\
    Rpower (tt g m2) (g / (g - 1)) = Rpower (tt g M) (g / (g - 1)) / P /\ D = pm g m2 - pm g M.
Proof.
  intros Hg HM HP H. unfold deflection_Mach_IsentropicPsratio in H. rewrite PtPs_eval in H by assumption.
  rewrite ndiv_Some in H by lra.
  cbv zeta in H. rewrite (PM_eval g M) in H by (try assumption; rewrite Rabs_pos_eq; lra).
  destruct (Mach_PtPs _ _) as [m2|] eqn:E2; [|rewrite PM_None in H; discriminate H].
  destruct (PrandtlMeyer_Mach (Some m2) (Some g)) as [w2|] eqn:E3; [|discriminate].
  pose proof (PM_abs_ge _ _ _ E3) as HA. rewrite PM_eval in E3 by assumption. injection E3 as <-.
  ncbn. injection H as H.
  set (Q := Rpower (tt g M) (g / (g - 1)) / P) in *. assert (HQ : 0 < Q) by (unfold Q; pose proof (ptps_ratio_pos g M); pos).
  destruct (Rle_lt_dec 1 Q) as [L|L]; [|rewrite Mach_PtPs_none in E2 by lra; discriminate].
  rewrite Mach_PtPs_eval in E2 by assumption. injection E2 as E2.
  assert (0 <= m2) by (rewrite <- E2; apply sqrt_pos). rewrite Rabs_pos_eq in HA by assumption.
  exists m2. split; [assumption|]. split; [now apply PtPs_eval|]. split; [|lra].
  rewrite <- E2. rewrite tt_Mach_TtTs; [apply Rpower_inv_exp; [assumption|now apply gi_inv]|assumption|].
  apply Rpower_ge_1; [assumption|now apply exp_pos_gi].
Qed.
Lemma isen_defl_eval newton g M d P : solves 0 newton -> 1 < g -> 1 <= M ->
  IsentropicPsratio_Mach_deflection newton (Some M) (Some d) (Some g) = Some P ->
  exists m2, 1 <= m2 /\ pm g m2 = pm g M - d /\
    P = Rpower (tt g M) (g / (g - 1)) / Rpower (tt g m2) (g / (g - 1)).
Proof.
  intros HN Hg HM H. unfold IsentropicPsratio_Mach_deflection in H.
  rewrite (PM_eval g M) in H by (try assumption; rewrite Rabs_pos_eq; lra). ncbn. cbv zeta in H.
  rewrite (PtPs_eval M g Hg) in H.
  destruct (Mach_PrandtlMeyer newton _ _) as [m|] eqn:E; [|cbn in H; discriminate].
  destruct (Mach_PM_residual _ _ _ _ _ HN E) as [w' [E1 E2]].
  assert (w' = pm g M - d). { destruct (Req_dec (w' - (pm g M - d)) 0); [lra|]. pose proof (Rabs_pos_lt _ H0). lra. } subst w'.
  pose proof (PM_abs_ge _ _ _ E1) as HA. rewrite PM_eval in E1 by assumption. injection E1 as E1.
  rewrite PtPs_eval in H by assumption. rewrite ndiv_Some in H by (pose proof (ptps_ratio_pos g m); lra).
  injection H as H. exists (Rabs m). rewrite pm_abs, tt_abs. auto.
Qed.
Lemma ptps_inj g x y : 1 < g -> 1 <= x -> 1 <= y ->
  Rpower (tt g x) (g / (g - 1)) = Rpower (tt g y) (g / (g - 1)) -> x = y.
Proof.
  intros Hg Hx Hy E. apply Rpower_inj in E; [|apply tt_pos; assumption|apply tt_pos; assumption|apply pos_nz, exp_pos_gg; assumption].
  destruct (Rtotal_order x y) as [H|[H|H]]; [|assumption|].
  - pose proof (tt_incr g x y Hg ltac:(lra) H); lra.
  - pose proof (tt_incr g y x Hg ltac:(lra) H); lra.
Qed.
(*@P C22_turning_pressure_partial: The two simple-wave functions are inverse of each other only up to the sign of the deflection: IsentropicPsratio_Mach_deflection must be given minus the deflection returned by deflection_Mach_IsentropicPsratio. (Missing from the full claim: the sign, see C22_sign_refuted.) *)
Lemma simple_wave_inverse : forall newton g M P D P', solves 0 newton -> 1 < g -> 1 <= M -> 0 < P ->
  (deflection_Mach_IsentropicPsratio (Some M) (Some P) (Some g) = Some D ->
   IsentropicPsratio_Mach_deflection newton (Some M) (Some (- D)) (Some g) = Some P' -> P' = P) /\
  (IsentropicPsratio_Mach_deflection newton (Some M) (Some D) (Some g) = Some P' ->
   deflection_Mach_IsentropicPsratio (Some M) (Some P') (Some g) = Some (- D)).
Proof.
  intros newton g M P D P' HN Hg HM HP. split.
  - intros H1 H2. destruct (defl_isen_eval _ _ _ _ Hg HM HP H1) as [m [Hm [_ [E1 E2]]]].
    destruct (isen_defl_eval _ _ _ _ _ HN Hg HM H2) as [m' [Hm' [E3 E4]]].
    assert (m' = m) by (apply (pm_inj g); lra || assumption). subst m'. rewrite E4, E1.
    pose proof (ptps_ratio_pos g M). field. lra.
  - intros H2. destruct (isen_defl_eval _ _ _ _ _ HN Hg HM H2) as [m [Hm [E3 E4]]].
    unfold deflection_Mach_IsentropicPsratio. rewrite PtPs_eval by assumption.
    pose proof (ptps_ratio_pos g M). pose proof (ptps_ratio_pos g m).
    rewrite ndiv_Some by (subst P'; pos).
    replace (Rpower (tt g M) (g / (g - 1)) / P') with (Rpower (tt g m) (g / (g - 1))) by (subst P'; field; lra).
    rewrite Mach_PtPs_pt by assumption. rewrite Rabs_pos_eq by lra. cbv zeta.
    rewrite !PM_eval by (try assumption; rewrite Rabs_pos_eq; lra). ncbn. f_equal. lra.
Qed.
(*@P C22_sign_refuted: Feeding the deflection of any genuine simple wave (pressure ratio different from 1) to IsentropicPsratio_Mach_deflection never gives back that pressure ratio: the two functions use opposite sign conventions. *)
Lemma simple_wave_sign : forall newton g M P D, solves 0 newton -> 1 < g -> 1 <= M -> 0 < P -> P <> 1 ->
  deflection_Mach_IsentropicPsratio (Some M) (Some P) (Some g) = Some D ->
  IsentropicPsratio_Mach_deflection newton (Some M) (Some D) (Some g) <> Some P.
Proof.
  intros newton g M P D HN Hg HM HP HP1 H1 H2.
  destruct (defl_isen_eval _ _ _ _ Hg HM HP H1) as [m [Hm [_ [E1 E2]]]].
  destruct (isen_defl_eval _ _ _ _ _ HN Hg HM H2) as [m' [Hm' [E3 E4]]].
  pose proof (ptps_ratio_pos g M) as PM. pose proof (ptps_ratio_pos g m') as Pm.
  assert (E5 : Rpower (tt g m) (g / (g - 1)) = Rpower (tt g m') (g / (g - 1))).
  { rewrite E1, E4. field. lra. }
  apply ptps_inj in E5; try assumption. subst m'.
  assert (m = M) by (apply (pm_inj g); lra || assumption). subst m.
  apply HP1. rewrite E4. field. lra.
Qed.
(*@E C22_example: the hypotheses are met: a solver exists, and from Mach 2 the pressure ratio PtPs(2)/PtPs(3) is a genuine expansion with finite deflection. *)
Lemma C22_example_lemma : solves 0 (lazy_newton 0) /\ exists P D, 0 < P < 1 /\
  deflection_Mach_IsentropicPsratio (Some 2) (Some P) (Some (7/5)) = Some D /\ 0 < D.
Proof.
  split; [apply lazy_newton_solves; lra|].
  set (e := 7/5 / (7/5 - 1)). set (a := Rpower (tt (7/5) 2) e). set (b := Rpower (tt (7/5) 3) e).
  assert (Ha : 0 < a) by (unfold a; pos).
  assert (Hb : a < b). { apply Rpower_lt_base; [apply tt_pos; lra|apply tt_incr; lra|unfold e; lra]. }
  exists (a / b), (pm (7/5) 3 - pm (7/5) 2). split; [split; [pos|apply Rlt_div_l; lra]|]. split.
  - unfold deflection_Mach_IsentropicPsratio. rewrite PtPs_eval by lra. fold e; fold a.
    rewrite ndiv_Some by pos. replace (a / (a / b)) with b by (field; lra). unfold b, e.
    rewrite Mach_PtPs_pt by lra. cbv zeta. rewrite Rabs_pos_eq by lra.
    rewrite !PM_eval by (try rewrite Rabs_pos_eq; lra). ncbn. f_equal. ring.
  - pose proof (pm_incr (7/5) 2 3). lra.
Qed.
(*@E C20_example: gamma = 5/3, M = 2: the Prandtl-Meyer angle is 2 atan(sqrt 3 / 2) - 60 degrees. *)
Lemma C20_example_lemma : PrandtlMeyer_Mach (Some 2) (Some (5/3)) = Some ((2 * atan (sqrt 3 / 2) - PI / 3) * (180 / PI)).
Proof.
  assert (C : cgm (5/3) = 2).
  { unfold cgm. replace ((5/3 + 1) / (5/3 - 1)) with (2 ^ 2) by field. apply sqrt_sq; lra. }
  rewrite PM_eval by (try rewrite Rabs_right; lra). f_equal. unfold pm, pmb. rewrite C. replace (2 ^ 2 - 1) with 3 by ring.
  replace (sqrt 3) with (tan (PI / 3)) at 2 by apply tan_PI3. pose proof PI_RGT_0. rewrite atan_tan by lra. unfold deg. field. lra.
Qed.
(*@E C21_example: gamma = 5/3, M = 2: the Mach angle is 30 degrees, and Mach_PMFmmu of the Prandtl-Meyer angle minus 30 is 2. *)
Lemma C21_example_lemma : Mach_PMFmmu (Some ((2 * atan (sqrt 3 / 2) - PI / 3) * (180 / PI) - 30)) (Some (5/3)) = Some 2.
Proof.
  destruct (PMFmmu_inverse (5/3) 2 ltac:(lra) ltac:(lra)) as (nu & mu & E1 & Hm & E2 & E3).
  rewrite C20_example_lemma in E1. injection E1 as <-. replace 30 with mu; [assumption|].
  rewrite dsin_eval in E2. injection E2 as E2. rewrite <- sin_PI6 in E2. pose proof PI_RGT_0. assert (Hq : 0 < mu < 90 -> 0 < rad mu < PI / 2) by (intros; rewrite <- rad_90, <- rad_0; split; apply rad_lt; lra).
  destruct Hm as [Hm0 [Hm1|Hm1]].
  2:{ exfalso. revert E2. rewrite Hm1, rad_90, sin_PI2, sin_PI6. lra. }
  specialize (Hq (conj Hm0 Hm1)). assert (rad mu = PI / 6).
  { rewrite <- (asin_sin (rad mu)), <- (asin_sin (PI / 6)) by lra. now f_equal. }
  rewrite <- (deg_rad mu), H0. unfold deg. field. lra.
Qed.
