(** * C28: negative deflections beyond the Mach angle; examples for the default start *)
From Coq Require Import List Lra Lia.
From Coquelicot Require Import Coquelicot.
From Verif Require Import L_Num Spec NumSpec M_Degree M_IterSolve M_ShockWave L_Degree L_Shock L_Oblique L_Oblique2 L_WeakStrong L_Secant L_Secant2 L_Sigma L_Sigma2 L_Sigma3.
Open Scope R_scope.

(** the deflection is an odd function of the shock angle *)
Lemma Fd_neg g M s : 1 < g -> 0 < M -> 0 < s < 90 -> deflection_Mach_sigma (Some M) (Some (- s)) (Some g) = Some (- Fd g M s).
Proof.
  intros Hg HM Hs. pose proof (rad_quadrant s Hs) as Hr. destruct (quad_trig _ Hr) as [H1 [H2 H3]].
  assert (RN : rad (- s) = - rad s) by (unfold rad; ring).
  assert (E := Fd_eval g M s Hg HM Hs). unfold deflection_Mach_sigma in *. revert E. ncbn. fold (rad s) (rad (- s)). rewrite RN, sin_neg.
  rewrite !ntan_Some by (rewrite ?cos_neg; lra). replace (M * - sin (rad s)) with (- (M * sin (rad s))) by ring. rewrite !Rho_eval by assumption.
  assert (EN : rhor g (- (M * sin (rad s))) = rhor g (M * sin (rad s))) by (unfold rhor; f_equal; ring). rewrite EN. ncbn.
  assert (HR : 0 < rhor g (M * sin (rad s))).
  { apply rhor_pos; [assumption|]. apply Rmult_integral_contrapositive; split; lra. }
  unfold Ratan2. destruct (Rlt_dec 0 (rhor g (M * sin (rad s)))); [|lra]. intros E. injection E as E. f_equal.
  rewrite <- E, tan_neg. replace (- tan (rad s) / rhor g (M * sin (rad s))) with (- (tan (rad s) / rhor g (M * sin (rad s)))) by (field; lra).
  rewrite atan_opp. ring.
Qed.
(*@P C28_negative_refuted: The clause about the sign fails for large negative deflections. Let d < 0 turn the flow by more than the Mach angle mu, so that the default start mu + d is negative, and let the deflection th0 at the mirrored start be at most d. Then sigma_Mach_deflection returns, instead of minus the weak shock angle, a positive angle z below the Mach angle, where no shock exists and the formula happens to give a deflection th with th0 <= th <= d. *)
Lemma sigma_negative : forall g M d mu th0, 1 < g -> 1 < M -> dasin (ndiv (Some 1) (Some M)) = Some mu ->
  d < 0 -> 1/100 < - d - mu < 90 -> deflection_Mach_sigma (Some M) (Some (- d - mu)) (Some g) = Some th0 -> th0 <= d ->
  exists z th, sigma_Mach_deflection (Some M) (Some d) None (Some g) = Some z /\ - d - mu <= z < mu /\
    deflection_Mach_sigma (Some M) (Some z) (Some g) = Some th /\ th0 <= th <= d.
Proof.
  intros g M d mu th0 Hg HM Emu Hd Hs E0 Ht0. set (s0 := - d - mu) in *.
  destruct (slope_sides g M Hg HM) as (sm & dm & mu' & E1 & _ & E3 & M0 & M1 & M2 & _ & Sm & F0 & SP & SN). rewrite Emu in E3. injection E3 as <-.
  rewrite Fd_eval in E0 by lra. injection E0 as E0.
  assert (LM : s0 < mu).
  { apply Rnot_le_lt. intros [N| N]; [|rewrite <- N in E0; lra].
    destruct (deflection_sign g M s0 Hg HM ltac:(lra)) as (mu' & th & A1 & A2 & A3 & _). rewrite Emu in A1. injection A1 as <-. apply A3 in N.
    rewrite Fd_eval in A2 by lra. injection A2 as A2. lra. }
  destruct (IVT_value (Fd g M) s0 mu d LM) as (r & Hr & Er).
  { intros x Hx. apply Fd_cont; lra. } { lra. }
  assert (Rm : r < mu). { destruct (proj2 Hr) as [L|L]; [exact L|]. rewrite L in Er. lra. }
  destruct (below_root (Fd g M) (fun s => sl g M (rad s)) (s0 * (999/1000)) r 1) as [K1 K2]; try lra.
  { intros z Hz. apply Fd_derive; lra. }
  { intros z Hz. rewrite Rmult_1_l. apply SP; lra. }
  { intros a b Ha Hab Hb. rewrite !Rmult_1_l. left. apply slr_decr; lra. }
  assert (Flip : forall a, beside (- r) 1 (r - s0 * (999/1000)) a -> beside r (-1) (r - s0 * (999/1000)) (- a)) by (unfold beside; intros; lra).
  assert (EA : forall a, Rabs (a - - r) = Rabs (- a - r)) by (intros; rewrite <- Rabs_Ropp; f_equal; ring).
  assert (EF : forall a, Rabs (- Fd g M (- a) - - d) = Rabs (Fd g M (- a) - Fd g M r)) by (intros; rewrite Er, <- Rabs_Ropp; f_equal; ring).
  assert (Ax : s0 = Rabs d - mu) by (rewrite Rabs_left; unfold s0; lra).
  destruct (secant_one_sided (fun s => deflection_Mach_sigma (Some M) s (Some g)) (fun a => - Fd g M (- a)) (- r) 1 (r - s0 * (999/1000)) (- d) (- s0)) as (z & Z1 & Z2 & Z3).
  { now left. }
  { rewrite Rabs_left; lra. }
  { intros z Hz. unfold beside in Hz. rewrite <- (Ropp_involutive z) at 1. apply Fd_neg; lra. }
  { now rewrite Ropp_involutive, Er. }
  { intros a b Ha Hb Na Nb. pose proof (K1 (- a) (- b) (Flip a Ha) (Flip b Hb) ltac:(lra) ltac:(lra)) as K. rewrite Er in K. lra. }
  { intros a b Ha Hb Hab. rewrite !EF, !EA. rewrite !EA in Hab. apply K2; auto. }
  { unfold beside. lra. } { unfold beside. lra. }
  assert (Zs : s0 <= - z <= r).
  { unfold beside in Z2. split; [|lra].
    destruct (secant_evals (fun s => deflection_Mach_sigma (Some M) s (Some g)) (Some (- d)) (Some (- s0)) secant_tol) as [_ Hh]. destruct (s_evals _) as [|h l]; [discriminate|]. injection Hh as ->.
    apply List.Forall_inv in Z3. destruct Z3 as (a & Ea & Ba & Da). injection Ea as <-. rewrite !Rabs_pos_eq in Da by lra. lra. }
  assert (Hi : nadd (dasin (ndiv (Some 1) (Some M))) (Some d) = Some (- s0)) by (rewrite Emu; cbn [nadd]; f_equal; unfold s0; ring).
  assert (Sd : Rsign d = -1) by (unfold Rsign; destruct (Rlt_dec 0 d); [lra|]; destruct (Rlt_dec d 0); lra).
  exists (- z), (Fd g M (- z)). split.
  { rewrite (solve_is g M d None (- s0) Hi), Sd, (Rabs_left d) by lra.
    transitivity (Some (z * -1)); [exact (f_equal (fun x => nmul x (Some (-1))) Z1)|]. f_equal. ring. }
  split; [lra|]. split; [apply Fd_eval; lra|].
  assert (MONO : forall a b, s0 <= a <= b -> b <= r -> Fd g M a <= Fd g M b).
  { intros a b Ha Hb. destruct (Req_dec a b) as [->|N]; [lra|]. destruct (Fd_mvt g M a b) as (u & Hu & Eu); try lra. pose proof (SP u ltac:(lra)). nra. }
  split; [rewrite <- E0; apply MONO; lra|rewrite <- Er; apply MONO; lra].
Qed.
Lemma mu3 : exists mu, dasin (ndiv (Some 1) (Some 3)) = Some mu /\ 0 < mu /\ 2 * mu + 1 < 45 /\ sin (rad mu) = 1 / 3 /\ tan (rad mu) = 1 / sqrt 8.
Proof.
  destruct (mach_angle_range 3 ltac:(lra)) as (mu & Emu & Hmu & Sm). exists mu. split; [exact Emu|]. split; [lra|]. pose proof PI_RGT_0 as PI0.
  assert (Q := rad_quadrant mu Hmu). destruct (quad_trig _ Q) as [S0 [C0 _]]. pose proof (sc2 (rad mu)) as SC. rewrite Sm in SC.
  assert (S8 : 0 < sqrt 8) by (apply sqrt_lt_R0; lra). assert (Q8 : sqrt 8 * sqrt 8 = 8) by (apply sqrt_sqrt; lra).
  assert (Cm : cos (rad mu) = sqrt 8 / 3). { apply Rsqr_inj; [lra|left; pos|]. unfold Rsqr. replace (sqrt 8 / 3 * (sqrt 8 / 3)) with (sqrt 8 * sqrt 8 / 9) by field. rewrite Q8. lra. }
  split; [|split; [exact Sm|unfold tan; rewrite Sm, Cm; field; lra]].
  set (x := PI / 4 - 2 * rad mu). assert (Sx : 1 / 10 < sin x).
  { unfold x. rewrite sin_minus, sin_PI4, cos_PI4, sin_2a, cos_2a_sin, Sm, Cm.
    assert (B8 : sqrt 8 < 283/100). { rewrite <- (sqrt_pow2 (283/100)) by lra. apply sqrt_lt_1_alt. lra. }
    assert (S2 : 14/10 < sqrt 2 < 142/100). { split; [rewrite <- (sqrt_pow2 (14/10)) by lra|rewrite <- (sqrt_pow2 (142/100)) by lra]; apply sqrt_lt_1_alt; lra. }
    assert (I2 : 70/100 < 1 / sqrt 2). { apply Rmult_lt_reg_r with (sqrt 2); [lra|]. replace (1 / sqrt 2 * sqrt 2) with 1 by (field; lra). lra. }
    set (i := 1 / sqrt 2) in *. nra. }
  assert (Lx : 1 / 10 < x).
  { apply Rnot_le_lt. intros N. destruct (Rle_lt_dec 0 x) as [P|P]; [pose proof (sin_le x P); lra|].
    assert (sin x < 0); [|lra]. assert (Hx : - PI < x) by (unfold x; lra). rewrite <- (Ropp_involutive x), sin_neg. assert (0 < sin (- x)) by (apply sin_gt_0; lra). lra. }
  unfold x, rad in Lx. pose proof PI_4. assert (0 < (45 - 2 * mu - 1) * PI); [|nra].
  replace ((45 - 2 * mu - 1) * PI) with (180 * (PI / 4 - 2 * (mu * (PI / 180))) - PI) by field. lra.
Qed.
(** at Mach 3 and gamma = 1.4 every deflection up to 45 - mu is attached *)
Lemma attached3 mu d : dasin (ndiv (Some 1) (Some 3)) = Some mu -> 0 < mu -> 2 * mu + 1 < 45 -> tan (rad mu) = 1 / sqrt 8 -> 0 < d <= 45 - mu ->
  exists sigma, 0 < sigma < 90 /\ deflection_Mach_sigma (Some 3) (Some sigma) (Some (7/5)) = Some d.
Proof.
  intros Emu M0 M1 Tm Hd. pose proof PI_RGT_0 as PI0.
  destruct (slope_sides (7/5) 3 ltac:(lra) ltac:(lra)) as (sm & dm & mu' & _ & _ & E3 & _ & _ & _ & _ & _ & F0 & _). rewrite Emu in E3. injection E3 as <-.
  assert (F45 : 45 - mu < Fd (7/5) 3 45).
  { unfold Fd. assert (R45 : rad 45 = PI / 4) by (unfold rad; field). rewrite R45.
    assert (T : dN (7/5) 3 (PI / 4) / dD (7/5) 3 (PI / 4) = 38/108).
    { unfold dN, dD. rewrite sin_PI4, cos_PI4. assert (0 < sqrt 2) by (apply sqrt_lt_R0; lra). assert (Q2 : sqrt 2 * sqrt 2 = 2) by (apply sqrt_sqrt; lra).
      replace ((1 / sqrt 2) ^ 2) with (1 / (sqrt 2 * sqrt 2)) by (field; lra). replace (1 / sqrt 2 * (1 / sqrt 2)) with (1 / (sqrt 2 * sqrt 2)) by (field; lra). rewrite Q2. field. }
    rewrite T. assert (S8 : 0 < sqrt 8) by (apply sqrt_lt_R0; lra).
    assert (B8 : sqrt 8 < 284/100). { rewrite <- (sqrt_pow2 (284/100)) by lra. apply sqrt_lt_1_alt. lra. }
    assert (A : atan (38/108) < rad mu).
    { rewrite <- (atan_tan (rad mu)). 2:{ assert (Q := rad_quadrant mu ltac:(lra)). lra. }
      apply atan_increasing. rewrite Tm. apply Rmult_lt_reg_r with (sqrt 8); [lra|]. replace (1 / sqrt 8 * sqrt 8) with 1 by (field; lra). lra. }
    replace (45 - mu) with (deg (PI / 4 - rad mu)) by (unfold deg, rad; field; lra). apply deg_lt. lra. }
  destruct (IVT_value (Fd (7/5) 3) mu 45 d) as (c & Hc & Ec); try lra.
  { intros x Hx. apply Fd_cont; lra. }
  exists c. split; [lra|]. rewrite Fd_eval by lra. now rewrite Ec.
Qed.
(*@E C28_negative_example: At Mach 3 and gamma = 1.4, turning by d = -(mu + 1/2) degrees (about -20): a shock of that deflection exists, the hypotheses of C28_negative_refuted hold, and the function returns a positive angle below the Mach angle. *)
Lemma sigma_negative_ex : exists d mu th0 sigma z, dasin (ndiv (Some 1) (Some 3)) = Some mu /\ d = - (mu + 1/2) /\
  0 < sigma < 90 /\ deflection_Mach_sigma (Some 3) (Some sigma) (Some (7/5)) = Some (Rabs d) /\
  1/100 < - d - mu < 90 /\ deflection_Mach_sigma (Some 3) (Some (- d - mu)) (Some (7/5)) = Some th0 /\ th0 <= d /\
  sigma_Mach_deflection (Some 3) (Some d) None (Some (7/5)) = Some z /\ 0 < z < mu.
Proof.
  destruct mu3 as (mu & Emu & M0 & M1 & Sm & Tm). pose proof PI_RGT_0 as PI0. pose proof PI_4 as PI4.
  destruct (attached3 mu (mu + 1/2) Emu M0 M1 Tm ltac:(lra)) as (sigma & Hs & Es).
  assert (Eh : - - (mu + 1/2) - mu = 1/2) by lra.
  assert (T0 : Fd (7/5) 3 (1/2) <= - (mu + 1/2)).
  { unfold Fd. set (x := rad (1/2)). assert (Hx : 0 < x < PI / 2) by (apply rad_quadrant; lra). destruct (quad_trig _ Hx) as [S0 [C0 _]].
    assert (Sx : sin x <= 4/360). { apply Rle_trans with x; [apply sin_le; lra|]. unfold x, rad. lra. }
    pose proof (COS_bound x). assert (1 <= dN (7/5) 3 x / dD (7/5) 3 x).
    { unfold dN, dD. set (D := (7/5 + 1) * 3 ^ 2 * (sin x * cos x)). assert (P : 0 < sin x * cos x) by nra. assert (P2 : sin x * cos x <= 4/360) by nra.
      assert (D0 : 0 < D) by (unfold D; lra). apply Rmult_le_reg_r with D; [exact D0|]. unfold Rdiv at 1. rewrite Rmult_assoc, Rinv_l by lra.
      assert (D <= 2) by (unfold D; lra). assert (0 <= (7/5 - 1) * 3 ^ 2 * sin x ^ 2) by (assert (0 < sin x ^ 2) by pos; lra). lra. }
    assert (A : PI / 4 <= atan (dN (7/5) 3 x / dD (7/5) 3 x)).
    { rewrite <- atan_1. destruct H0 as [L|L]; [left; now apply atan_increasing|right; now rewrite <- L]. }
    apply Rle_trans with (deg (x - PI / 4)).
    - unfold deg. apply Rmult_le_compat_r; [left; pos|lra].
    - unfold x, deg, rad. replace ((1 / 2 * (PI / 180) - PI / 4) * (180 / PI)) with (1/2 - 45) by (field; lra). lra. }
  destruct (sigma_negative (7/5) 3 (- (mu + 1/2)) mu (Fd (7/5) 3 (1/2))) as (z & th & Z1 & Z2 & _); try rewrite Eh; try lra.
  { exact Emu. } { apply Fd_eval; lra. }
  rewrite Eh in Z2. exists (- (mu + 1/2)), mu, (Fd (7/5) 3 (1/2)), sigma, z. rewrite Eh, Rabs_left, Ropp_involutive by lra.
  split; [exact Emu|]. split; [reflexivity|]. split; [exact Hs|]. split; [exact Es|]. split; [lra|]. split; [apply Fd_eval; lra|]. split; [exact T0|]. split; [exact Z1|lra].
Qed.
(*@E C28_default_example: At Mach 3 and gamma = 1.4, where (3 - gamma) M^2 > 4, the deflection of 20 degrees meets the hypotheses of C28_default. *)
Lemma sigma_default_ex : exists d mu w sm sigma, 0 < d < 90 /\ 4 < (3 - 7/5) * 3 ^ 2 /\ 0 < sigma < 90 /\ deflection_Mach_sigma (Some 3) (Some sigma) (Some (7/5)) = Some d /\
  dasin (ndiv (Some 1) (Some 3)) = Some mu /\ weaksigma_Mach_deflection (Some 3) (Some d) (Some (7/5)) = Some w /\ sigma_DevMax (Some 3) (Some (7/5)) = Some sm /\ 1/100 < mu + d /\ d = 20.
Proof.
  destruct mu3 as (mu & Emu & M0 & M1 & Sm & Tm).
  destruct (attached3 mu 20 Emu M0 M1 Tm ltac:(lra)) as (sigma & Hs & Es).
  destruct (weak_strong_sides (7/5) 3 20 sigma ltac:(lra) ltac:(lra) ltac:(lra) Hs Es) as (mu' & w & s & sm & E1 & E2 & E3 & E4 & _).
  exists 20, mu, w, sm, sigma. split; [lra|]. split; [lra|]. split; [exact Hs|]. split; [exact Es|]. split; [exact Emu|]. split; [exact E2|]. split; [exact E4|]. split; [lra|reflexivity].
Qed.

Lemma secant_loop_S k f y tol ox oy nx : secant_loop (S k) f y tol ox oy nx =
  match ngt (nabs (nsub nx ox)) (nmax tol (nmul tol (nabs nx))) with
  | Some true => let ny := f nx in let x' := nadd nx (nmul (ndiv (nsub nx ox) (nsub ny oy)) (nsub y ny)) in
      let run := secant_loop k f y tol nx ny x' in mk_secant (s_result run) (nx :: s_evals run) (s_warned run)
  | Some false => mk_secant nx nil false
  | None => mk_secant None nil false
  end.
Proof. reflexivity. Qed.
(** equal values at the two starting points *)
Lemma flat_loop j (f : num -> num) y x v : 1 / 100 < x -> f (Some (999 / 1000 * x)) = Some v ->
  s_result (secant_loop (S (S j)) f (Some y) secant_tol (Some x) (Some v) (Some (999 / 1000 * x))) = None.
Proof.
  intros Hx E. rewrite secant_loop_S. unfold secant_tol at 1 2. cbn [nsub nabs nmul nmax].
  rewrite (Rabs_pos_eq (999 / 1000 * x)) by lra. rewrite Rabs_left by lra. rewrite ngt_true by (unfold Rmax; destruct (Rle_dec _ _); lra).
  cbv zeta. cbn [s_result]. rewrite E. cbn [nsub]. rewrite Rminus_eq_0, ndiv_zero by reflexivity. cbn [nmul nadd].
  rewrite secant_loop_S. reflexivity.
Qed.
Lemma secant_flat (f : num -> num) y x v : 1 / 100 < x -> f (Some x) = Some v -> f (Some (999 / 1000 * x)) = Some v -> secant_solve f (Some y) (Some x) = None.
Proof.
  intros Hx E1 E2. rewrite secant_solve_run. unfold secant_run_of. change 19%nat with (S (S 17)). generalize 17%nat. intros j. cbn [s_result nmul].
  replace (x * (999 / 1000)) with (999 / 1000 * x) by ring. rewrite E1. now apply flat_loop.
Qed.
(*@P C28_between_refuted: Started between the weak and the strong angle the search can fail outright: for every gamma > 1 and M > 1 (whose angle of maximum deflection sm is between 0.01 and 89.91 degrees) there is a starting angle s next to sm, with the deflection th > 0, such that sigma_Mach_deflection started there has no finite result for any deflection; for every deflection d below th this start lies strictly between the two shock angles that solve the problem. *)
Lemma sigma_between : forall g M sm, 1 < g -> 1 < M -> sigma_DevMax (Some M) (Some g) = Some sm -> 1 / 100 < sm < 8991 / 100 ->
  exists s th, 999/1000 * s < sm < s /\ s < 90 /\ 0 < th /\ deflection_Mach_sigma (Some M) (Some s) (Some g) = Some th /\
  (forall d, sigma_Mach_deflection (Some M) (Some d) (Some (Some s)) (Some g) = None) /\
  forall d, 0 < d < th -> exists w st, weaksigma_Mach_deflection (Some M) (Some d) (Some g) = Some w /\ strongsigma_Mach_deflection (Some M) (Some d) (Some g) = Some st /\ w < s < st.
Proof.
  intros g M sm Hg HM Esm Hsm. destruct (slope_sides g M Hg HM) as (sm' & dm & mu & E1 & _ & E3 & M0 & M1 & M2 & _ & Sm & F0 & SP & SN).
  rewrite Esm in E1. injection E1 as <-.
  assert (Up : forall a b, 0 < a -> a < b -> b <= sm -> Fd g M a < Fd g M b).
  { intros a b A B C. destruct (Fd_mvt g M a b Hg ltac:(lra) A B ltac:(lra)) as (c & Hc & Ec). pose proof (SP c ltac:(lra)). nra. }
  assert (Dn : forall a b, sm <= a -> a < b -> b < 90 -> Fd g M b < Fd g M a).
  { intros a b A B C. destruct (Fd_mvt g M a b Hg ltac:(lra) ltac:(lra) B C) as (c & Hc & Ec). pose proof (SN c ltac:(lra)). nra. }
  set (k := 999 / 1000). set (b := sm / k). assert (Eb : k * b = sm) by (unfold b, k; field). assert (Hb : sm < b < 90) by (unfold b, k; lra).
  destruct (IVT_value (fun x => Fd g M (k * x) - Fd g M x) sm b 0) as (s & Hs & Es); [lra| | |].
  { intros x Hx. apply (continuous_minus (fun x => Fd g M (k * x)) (Fd g M)); [|apply Fd_cont; lra].
    apply (continuous_comp (fun x => k * x) (Fd g M)); [|apply Fd_cont; unfold k; lra].
    apply (ex_derive_continuous (fun x => k * x)). auto_derive. exact I. }
  { rewrite Eb. pose proof (Dn sm b ltac:(lra) ltac:(lra) ltac:(lra)). pose proof (Up (k * sm) sm ltac:(unfold k; lra) ltac:(unfold k; lra) ltac:(lra)). lra. }
  assert (N1 : s <> sm). { intros ->. pose proof (Up (k * sm) sm ltac:(unfold k; lra) ltac:(unfold k; lra) ltac:(lra)). lra. }
  assert (N2 : s <> b). { intros ->. rewrite Eb in Es. pose proof (Dn sm b ltac:(lra) ltac:(lra) ltac:(lra)). lra. }
  assert (Ks : k * s < sm) by (rewrite <- Eb; unfold k; lra).
  exists s, (Fd g M s). split; [fold k; lra|]. split; [lra|].
  assert (P : 0 < Fd g M s).
  { destruct (deflection_sign g M s Hg HM ltac:(lra)) as (mu' & th & A1 & A2 & A3 & _). rewrite E3 in A1. injection A1 as <-.
    rewrite Fd_eval in A2 by lra. injection A2 as A2. rewrite A2. apply A3. lra. }
  split; [exact P|]. split; [apply Fd_eval; lra|]. split.
  - intros d. rewrite (solve_is g M d (Some (Some s)) s eq_refl).
    rewrite (secant_flat _ (Rabs d) s (Fd g M s)); [reflexivity|lra|apply Fd_eval; lra|]. fold k. rewrite (Fd_eval g M (k * s)) by (unfold k in *; lra). f_equal. lra.
  - intros d Hd.
    assert (D90 : Fd g M s < 90).
    { apply Rlt_trans with (deg (rad s)); [|rewrite deg_rad; lra]. unfold Fd. apply deg_lt. pose proof (rad_quadrant s ltac:(lra)) as Hr. destruct (quad_trig _ Hr) as [H1 [H2 H3]].
      assert (0 < dN g M (rad s) / dD g M (rad s)). { unfold dN, dD. assert (0 < M ^ 2) by (apply pow_lt; lra). assert (0 < sin (rad s) * cos (rad s)) by (apply Rmult_lt_0_compat; lra). apply Rdiv_lt_0_compat; [|apply Rmult_lt_0_compat; [apply Rmult_lt_0_compat|]; lra]. assert (0 <= (g - 1) * M ^ 2 * sin (rad s) ^ 2) by (apply Rmult_le_pos; [apply Rmult_le_pos; lra|apply pow2_ge_0]). lra. }
      pose proof (atan_increasing _ _ H) as A. rewrite atan_0 in A. lra. }
    assert (Km : mu < k * s). { apply Rnot_le_lt. intros [N|N]; [pose proof (Up (k * s) mu ltac:(unfold k; lra) N ltac:(lra))|rewrite N in Es]; lra. }
    destruct (IVT_value (Fd g M) mu (k * s) d Km) as (c & Hc & Ec). { intros x Hx. apply Fd_cont; lra. } { lra. }
    assert (Dc : deflection_Mach_sigma (Some M) (Some c) (Some g) = Some d) by (rewrite Fd_eval by lra; now rewrite Ec).
    destruct (weak_strong_sides g M d c Hg HM ltac:(lra) ltac:(lra) Dc) as (mu' & w & st & sm' & B1 & B2 & B3 & B4 & B5 & B6 & B7 & B8).
    rewrite Esm in B4. injection B4 as <-.
    destruct (weak_strong g M d Hg HM ltac:(lra)) as [K _]. destruct K as (w' & st' & W1 & W2 & W3 & W4 & W5 & W6 & W7); [exists c; split; [lra|exact Dc]|].
    rewrite B2 in W1. injection W1 as <-. rewrite B3 in W2. injection W2 as <-. rewrite Fd_eval in W7 by lra. injection W7 as W7.
    exists w, st. split; [exact B2|]. split; [exact B3|]. split; [lra|].
    apply Rnot_le_lt. intros [N|N]; [|rewrite N in W7; lra]. destruct B7 as [B7|B7]; [pose proof (Dn st s ltac:(lra) N ltac:(lra)); lra|subst st; pose proof (Dn sm s ltac:(lra) N ltac:(lra)); lra].
Qed.
(*@E C28_between_example: For gamma = 3 and Mach 2 the angle of maximum deflection is 60 degrees, so the hypotheses of C28_between_refuted hold. *)
Lemma sigma_between_ex : 1 < 3 /\ 1 < 2 /\ sigma_DevMax (Some 2) (Some 3) = Some 60 /\ 1 / 100 < 60 < 8991 / 100.
Proof. destruct C19_example_lemma as (E & _). split; [lra|]. split; [lra|]. split; [exact E|lra]. Qed.
