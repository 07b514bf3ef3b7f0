From Coquelicot Require Import Coquelicot.
From Verif Require Import L_Num Spec NumSpec M_Degree M_IterSolve M_ShockWave L_Degree L_Shock L_Oblique L_Oblique2 L_Secant.
Open Scope R_scope.

Definition dN (g M s : R) : R := (g - 1) * M ^ 2 * sin s ^ 2 + 2.
Definition dD (g M s : R) : R := (g + 1) * M ^ 2 * (sin s * cos s).
(** explicit Lipschitz constant of the deflection with respect to the shock angle *)
Definition sigma_lip (g M : R) : R :=
  1 + ((g - 1) * M ^ 2 * ((g + 1) * M ^ 2) + ((g - 1) * M ^ 2 + 2) * ((g + 1) * M ^ 2)) / 4.
Lemma dfl_ND g M s : 1 < g -> 0 < M -> 0 < s < PI / 2 -> dfl g M s = s - atan (dN g M s / dD g M s).
Proof.
  intros Hg HM Hs. destruct (quad_trig _ Hs) as [H1 [H2 H3]]. unfold dfl, bet. f_equal. f_equal.
  unfold tan, rhor, dN, dD. field. repeat split; try lra; try nra.
Qed.
Lemma dfl_ND_derive g M s : 1 < g -> 0 < M -> 0 < s < PI / 2 ->
  is_derive (fun s => s - atan (dN g M s / dD g M s)) s
    (1 - (2 * (g - 1) * M ^ 2 * (sin s * cos s) * dD g M s - dN g M s * ((g + 1) * M ^ 2 * (cos s ^ 2 - sin s ^ 2)))
         / (dN g M s ^ 2 + dD g M s ^ 2)).
Proof.
  intros Hg HM Hs. destruct (quad_trig _ Hs) as [H1 [H2 H3]].
  assert (HD : 0 < dD g M s) by (unfold dD; pos). assert (HN : 0 < dN g M s) by (unfold dN; pos).
  unfold dN, dD in *. auto_derive.
  - lra.
  - unfold Rsqr. replace (sin s * (sin s * 1)) with (sin s ^ 2) by ring. replace (M * (M * 1)) with (M ^ 2) by ring.
    field. repeat split; try lra. nra.
Qed.
Lemma slope_bound g M s : 1 < g -> 0 < M -> 0 < s < PI / 2 ->
  Rabs (1 - (2 * (g - 1) * M ^ 2 * (sin s * cos s) * dD g M s - dN g M s * ((g + 1) * M ^ 2 * (cos s ^ 2 - sin s ^ 2)))
         / (dN g M s ^ 2 + dD g M s ^ 2)) <= sigma_lip g M.
Proof.
  intros Hg HM Hs. destruct (quad_trig _ Hs) as [H1 [H2 H3]]. pose proof (sc2 s) as Hsc.
  set (S := sin s) in *. set (C := cos s) in *.
  assert (HSC : 0 <= S * C <= 1) by nra. assert (HS2 : 0 <= S ^ 2 <= 1) by nra.
  assert (HC2 : -1 <= C ^ 2 - S ^ 2 <= 1) by nra.
  assert (Hm : 0 < M ^ 2) by pos.
  set (p := (g - 1) * M ^ 2). set (q := (g + 1) * M ^ 2). assert (0 < p) by (unfold p; pos). assert (0 < q) by (unfold q; pos).
  assert (HN : 2 <= dN g M s <= p + 2) by (unfold dN; fold S; fold p; nra).
  assert (HD : 0 <= dD g M s <= q / 2). { unfold dD; fold S C q. assert (S * C <= 1/2) by (pose proof (pow2_ge_0 (S - C)); lra). split; [pos|]. replace (q / 2) with (q * (1/2)) by field. apply Rmult_le_compat_l; lra. }
  unfold sigma_lip. fold p q.
  replace (2 * (g - 1) * M ^ 2) with (2 * p) by (unfold p; ring).
  set (N := dN g M s) in *. set (D := dD g M s) in *.
  assert (Hden : 4 <= N ^ 2 + D ^ 2) by nra.
  set (X := 2 * p * (S * C) * D - N * (q * (C ^ 2 - S ^ 2))).
  assert (HX : Rabs X <= p * q + (p + 2) * q).
  { apply Rabs_le. unfold X.
    assert (A1 : 0 <= 2 * p * (S * C) * D <= p * q).
    { split; [pos|].
      assert (2 * p * (S * C) <= 2 * p) by (rewrite <- (Rmult_1_r (2 * p)) at 2; apply Rmult_le_compat_l; lra).
      replace (p * q) with (2 * p * (q / 2)) by field. apply Rmult_le_compat; [pos|lra|lra|lra]. }
    assert (A2 : - ((p + 2) * q) <= N * (q * (C ^ 2 - S ^ 2)) <= (p + 2) * q).
    { assert (- q <= q * (C ^ 2 - S ^ 2) <= q) by nra. split; nra. }
    lra. }
  replace (1 - X / (N ^ 2 + D ^ 2)) with (1 + - (X / (N ^ 2 + D ^ 2))) by ring.
  eapply Rle_trans; [apply Rabs_triang|]. rewrite Rabs_R1, Rabs_Ropp. apply Rplus_le_compat_l.
  unfold Rdiv at 1. rewrite Rabs_mult, Rabs_inv. rewrite (Rabs_pos_eq (N ^ 2 + D ^ 2)) by lra.
  unfold Rdiv. apply Rmult_le_compat; [apply Rabs_pos|left; apply Rinv_0_lt_compat; lra|assumption|].
  apply Rinv_le_contravar; lra.
Qed.
Lemma dfl_lip_lt g M a b : 1 < g -> 0 < M -> 0 < a -> a < b -> b < PI / 2 ->
  Rabs (dfl g M b - dfl g M a) <= sigma_lip g M * Rabs (b - a).
Proof.
  intros Hg HM Ha Hab Hb.
  destruct (MVT_cor2 (fun s => s - atan (dN g M s / dD g M s))
    (fun s => 1 - (2 * (g - 1) * M ^ 2 * (sin s * cos s) * dD g M s - dN g M s * ((g + 1) * M ^ 2 * (cos s ^ 2 - sin s ^ 2)))
         / (dN g M s ^ 2 + dD g M s ^ 2)) a b Hab) as [c [E Hc]].
  { intros c Hc. apply is_derive_Reals. apply (dfl_ND_derive g M c Hg HM). lra. }
  rewrite !dfl_ND by (assumption || lra). cbv beta in E. rewrite E, Rabs_mult. apply Rmult_le_compat_r; [apply Rabs_pos|].
  apply slope_bound; lra.
Qed.
Lemma dfl_lip g M a b : 1 < g -> 0 < M -> 0 < a < PI / 2 -> 0 < b < PI / 2 ->
  Rabs (dfl g M a - dfl g M b) <= sigma_lip g M * Rabs (a - b).
Proof.
  intros Hg HM Ha Hb. destruct (Rtotal_order a b) as [L|[->|L]].
  - rewrite (Rabs_minus_sym a b), Rabs_minus_sym. apply dfl_lip_lt; lra.
  - replace (dfl g M b - dfl g M b) with 0 by ring. replace (b - b) with 0 by ring. rewrite Rabs_R0; lra.
  - apply dfl_lip_lt; lra.
Qed.
Lemma defl_lip_deg g M : 1 < g -> 0 < M -> forall a b u v, 0 < a < 90 -> 0 < b < 90 ->
  deflection_Mach_sigma (Some M) (Some a) (Some g) = Some u ->
  deflection_Mach_sigma (Some M) (Some b) (Some g) = Some v -> Rabs (u - v) <= sigma_lip g M * Rabs (a - b).
Proof.
  intros Hg HM a b u v Ha Hb Hu Hv. rewrite defl_eval in Hu, Hv by lra. injection Hu as <-. injection Hv as <-.
  pose proof (dfl_lip g M _ _ Hg HM (rad_quadrant a Ha) (rad_quadrant b Hb)) as K.
  rewrite <- deg_sub. rewrite <- rad_sub in K. unfold deg, rad in *.
  rewrite Rabs_mult in K |- *. pose proof PI_RGT_0. assert (0 < 180 / PI) by pos. assert (0 < PI / 180) by pos.
  rewrite (Rabs_pos_eq (PI / 180)) in K by lra. rewrite (Rabs_pos_eq (180 / PI)) by lra.
  apply (Rmult_le_compat_r (180 / PI)) in K; [|lra].
  replace (sigma_lip g M * (Rabs (a - b) * (PI / 180)) * (180 / PI)) with (sigma_lip g M * Rabs (a - b)) in K by (field; lra).
  exact K.
Qed.
Lemma sigma_lip_pos g M : 1 < g -> 0 < M -> 0 <= sigma_lip g M.
Proof. intros; unfold sigma_lip. left. pos. Qed.
(*@P C28_deflection_partial: When the solver behind sigma_Mach_deflection ends normally from a start above 0.01, having stayed in (0,90) degrees, the returned angle is r*sign(deflection) where the deflection of the shock at r equals |deflection| within an explicit multiple (depending on gamma and M only) of the solver tolerance. (Missing from the full claim: convergence of the iteration itself, and zero deflection, see C28_zero_refuted.) *)
Lemma sigma_residual : forall g M d init sig0 rs, 1 < g -> 0 < M -> d <> 0 ->
  match init with Some i => i | None => nadd (dasin (ndiv (Some 1) (Some M))) (Some d) end = Some sig0 -> 1/100 < sig0 ->
  (forall a, In (Some a) (s_evals (secant_run_of (fun s => deflection_Mach_sigma (Some M) s (Some g)) (Some (Rabs d)) (Some sig0) secant_tol)) -> 0 < a < 90) ->
  s_warned (secant_run_of (fun s => deflection_Mach_sigma (Some M) s (Some g)) (Some (Rabs d)) (Some sig0) secant_tol) = false ->
  sigma_Mach_deflection (Some M) (Some d) init (Some g) = Some rs ->
  exists r, rs = r * Rsign d /\ (0 < r < 90 -> 
   exists th, deflection_Mach_sigma (Some M) (Some r) (Some g) = Some th /\
    Rabs (th - Rabs d) <= 2 * sigma_lip g M * Rmax (1/100000) (1/100000 * r)).
Proof.
  intros g M d init sig0 rs Hg HM Hd Hi H0 HD HW HR.
  set (f := fun s => deflection_Mach_sigma (Some M) s (Some g)) in *.
  assert (E : sigma_Mach_deflection (Some M) (Some d) init (Some g) = nmul (secant_solve f (Some (Rabs d)) (Some sig0)) (Some (Rsign d))).
  { unfold sigma_Mach_deflection. cbv zeta. rewrite <- Hi. destruct init; reflexivity. }
  rewrite E in HR. clear E.
  destruct (secant_solve f (Some (Rabs d)) (Some sig0)) as [r|] eqn:R; [|discriminate]. cbn [nmul] in HR. injection HR as HR.
  exists r. split; [auto|]. intros Hr. rewrite secant_solve_run in R.
  assert (HE : (2 <= length (s_evals (secant_run_of f (Some (Rabs d)) (Some sig0) secant_tol)))%nat).
  { apply secant_start. rewrite Rabs_pos_eq; lra. }
  destruct (secant_residual f (fun a => 0 < a < 90) (sigma_lip g M) (Rabs d) sig0 (1/100000) r (sigma_lip_pos g M Hg HM)
    (defl_lip_deg g M Hg HM) HD HW R HE) as (b & v & _ & _ & _ & K).
  exists (deg (dfl g M (rad r))). split; [apply defl_eval; lra|].
  specialize (K _ Hr (defl_eval M r g Hg ltac:(lra) Hr)). rewrite (Rabs_pos_eq r) in K by lra. exact K.
Qed.
(*@P C28_sign: With an explicit starting angle, opposite deflections give opposite shock angles. *)
Lemma sigma_odd : forall g M d i rs, d <> 0 ->
  sigma_Mach_deflection (Some M) (Some d) (Some i) (Some g) = Some rs ->
  sigma_Mach_deflection (Some M) (Some (- d)) (Some i) (Some g) = Some (- rs).
Proof.
  intros g M d i rs Hd. unfold sigma_Mach_deflection. cbv zeta. cbn [nabs nsign]. rewrite Rabs_Ropp.
  destruct (secant_solve _ _ i) as [r|]; [|discriminate]. cbn [nmul]. intros H; injection H as <-. f_equal.
  unfold Rsign. destruct (Rlt_dec 0 d), (Rlt_dec d 0), (Rlt_dec 0 (-d)), (Rlt_dec (-d) 0); try lra.
Qed.
(*@P C28_zero_refuted: For zero deflection sigma_Mach_deflection never returns the Mach wave angle: any finite result is 0, whatever the Mach number, start and gamma; and it does return 0 for Mach 2. *)
Lemma sigma_zero : (forall M init g rs, sigma_Mach_deflection M (Some 0) init g = Some rs -> rs = 0) /\
  sigma_Mach_deflection (Some 2) (Some 0) None (Some (7/5)) = Some 0 /\
  dasin (ndiv (Some 1) (Some 2)) = Some 30.
Proof.
  assert (S0 : Rsign 0 = 0) by (unfold Rsign; destruct (Rlt_dec 0 0); [lra|reflexivity]).
  assert (D30 : dasin (ndiv (Some 1) (Some 2)) = Some 30).
  { rewrite ndiv_Some by lra. rewrite dasin_eval by lra. f_equal. replace (1/2) with (sin (PI / 6)) by (rewrite sin_PI6; reflexivity).
    rewrite asin_sin by (pose proof PI_RGT_0; lra). unfold deg. field. apply PI_nz. }
  split; [|split; [|exact D30]].
  - intros M init g rs. unfold sigma_Mach_deflection. cbv zeta. cbn [nsign nabs].
    destruct (secant_solve _ _ _); [|discriminate]. cbn [nmul]. intros H; injection H as <-. rewrite S0; ring.
  - unfold sigma_Mach_deflection. cbv zeta. rewrite D30. cbn [nabs nsign nadd]. rewrite Rabs_R0, S0.
    replace (30 + 0) with 30 by ring.
    set (f := fun s => deflection_Mach_sigma (Some 2) s (Some (7/5))).
    assert (F1 : f (Some 30) = Some 0). { unfold f. replace (7/5) with (14/10) by lra. exact C15_example_lemma. }
    assert (Hr : 0 < rad (30 * (999/1000)) < PI / 2) by (apply rad_quadrant; lra).
    assert (F2 : f (Some (30 * (999/1000))) = Some (deg (dfl (7/5) 2 (rad (30 * (999/1000)))))) by (unfold f; apply defl_eval; lra).
    set (v := deg (dfl (7/5) 2 (rad (30 * (999/1000))))) in *.
    assert (Hv : v < 0).
    { unfold v. rewrite <- deg_0. apply deg_lt. apply (dfl_sign (7/5) 2); try lra.
      assert (sin (rad (30 * (999/1000))) < sin (rad 30)).
      { pose proof (rad_quadrant 30 ltac:(lra)). apply sin_increasing_1; try lra. apply rad_lt; lra. }
      replace (rad 30) with (PI / 6) in H by (unfold rad; field). rewrite sin_PI6 in H. lra. }
    destruct (secant_exact_step f 0 30 30 0 v) as [A _]; try assumption; try lra.
    + rewrite Rabs_pos_eq; lra.
    + field. lra.
    + rewrite A. cbn [nmul]. f_equal; ring.
Qed.
(*@E C28_example: the hypotheses of C28_deflection_partial are met, e.g. at Mach 2 from the angle of maximum deflection: the run evaluates that angle and 0.999 times it, and returns the latter, whose deflection was requested. *)
Lemma sigma_ex : exists s0 d, 45 < s0 < 90 /\ 0 < d < 90 /\
  s_evals (secant_run_of (fun s => deflection_Mach_sigma (Some 2) s (Some (7/5))) (Some (Rabs d)) (Some s0) secant_tol) = [Some s0; Some (s0 * (999/1000))] /\
  s_warned (secant_run_of (fun s => deflection_Mach_sigma (Some 2) s (Some (7/5))) (Some (Rabs d)) (Some s0) secant_tol) = false /\
  sigma_Mach_deflection (Some 2) (Some d) (Some (Some s0)) (Some (7/5)) = Some (s0 * (999/1000)).
Proof.
  destruct (max_deflection (7/5) 2 ltac:(lra) ltac:(lra)) as (sm & dm & mu & E1 & E2 & E3 & E4 & E5 & E6).
  assert (Emu : mu = 30). { destruct sigma_zero as [_ [_ K]]. rewrite K in E2. congruence. } subst mu.
  assert (Hsm : 45 < sm).
  { unfold sigma_DevMax in E1. cbv zeta in E1. ncbn. rewrite !(ndiv_Some 4) in E1 by lra.
    rewrite (ndiv_Some 1) in E1 by lra. rewrite (ndiv_Some _ (7/5)) in E1 by lra. rewrite (ndiv_Some _ (2 ^ 2)) in E1 by lra.
    ncbn. rewrite nsqrt_Some in E1 by lra. ncbn.
    match type of E1 with context [nsqrt (Some (?c * (?a + sqrt ?b)))] => set (X := c * (a + sqrt b)) in E1; assert (HX : 1/2 < X) end.
    { unfold X. match goal with |- context [sqrt ?b] => replace b with 28 by lra end.
      assert (5 < sqrt 28). { rewrite <- (sqrt_sq 5) by lra. apply sqrt_lt_1_alt; lra. } lra. }
    rewrite nsqrt_Some in E1 by lra.
    destruct (Rle_lt_dec (sqrt X) 1) as [L|L].
    2:{ unfold dasin in E1. rewrite asin_none in E1 by lra. discriminate. }
    rewrite dasin_eval in E1 by (pose proof (sqrt_pos X); lra). injection E1 as <-.
    replace 45 with (deg (PI / 4)) by (unfold deg; field; apply PI_nz). apply deg_lt.
    rewrite <- (asin_sin (PI / 4)) by (pose proof PI_RGT_0; lra). apply asin_increasing; [|rewrite sin_PI4|assumption].
    - rewrite sin_PI4. assert (0 < 1 / sqrt 2) by (assert (0 < sqrt 2) by pos; pos). lra.
    - replace (1 / sqrt 2) with (sqrt (1/2)). { apply sqrt_lt_1_alt; lra. }
      unfold Rdiv. rewrite !Rmult_1_l. now rewrite sqrt_inv by lra. }
  set (f := fun s => deflection_Mach_sigma (Some 2) s (Some (7/5))) in *.
  destruct (E6 (sm * (999/1000)) ltac:(lra) ltac:(lra)) as [d [Ed Hd]].
  assert (Hpos : 0 < d < 90).
  { change (f (Some (sm * (999/1000))) = Some d) in Ed. unfold f in Ed. rewrite defl_eval in Ed by lra. injection Ed as <-.
    pose proof (rad_quadrant (sm * (999/1000)) ltac:(lra)) as Q. apply deg_quadrant.
    split; [apply (dfl_sign (7/5) 2); try lra|apply dfl_bound; lra].
    assert (1/2 < sin (rad (sm * (999/1000)))); [|lra]. rewrite <- sin_PI6. apply sin_increasing_1; try (pose proof PI_RGT_0; lra).
    replace (PI / 6) with (rad 30) by (unfold rad; field). apply rad_lt; lra. }
  exists sm, d. split; [lra|]. split; [exact Hpos|]. rewrite (Rabs_pos_eq d) by lra.
  destruct (secant_root f d sm dm ltac:(rewrite Rabs_pos_eq; lra) E5 ltac:(lra) Ed) as [A [B C]].
  split; [exact B|]. split; [exact C|]. unfold sigma_Mach_deflection. cbv zeta. cbn [nabs nsign].
  rewrite (Rabs_pos_eq d) by lra. fold f. rewrite A. unfold Rsign. destruct (Rlt_dec 0 d); [|lra]. cbn [nmul]. f_equal; ring.
Qed.
