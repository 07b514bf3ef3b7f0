(** * C91: an instance of the reflexion *)
From Verif Require Import L_Num Spec NumSpec PolarSpec WedgeSpec M_Isentropic M_MassFlow M_Degree M_IterSolve M_ShockWave M_Supersonic M_Wedge L_Isentropic L_Degree L_Shock L_Oblique L_Oblique2 L_WeakStrong L_Secant L_Sigma L_Sigma2 L_Sigma3 L_Sigma4 L_Polar L_Sonic L_DevMax L_Wedge.
Open Scope R_scope.

Lemma one_degree x : 1 / 10 < x -> 1 < deg (atan x).
Proof.
  intros H. pose proof PI_RGT_0. pose proof PI_4. rewrite <- (deg_rad 1). apply deg_lt. rewrite <- (atan_tan (rad 1)) by (unfold rad; lra). apply atan_increasing.
  assert (S : sin (rad 1) <= rad 1) by (apply sin_le; unfold rad; lra). assert (C : 1/2 < cos (rad 1)) by (rewrite <- cos_PI3; apply cos_decreasing_1; unfold rad; lra).
  unfold tan. apply Rle_lt_trans with (rad 1 / (1/2)); [|unfold rad; lra].
  apply (Rmult_le_reg_r (cos (rad 1))); [lra|]. unfold Rdiv at 1. rewrite Rmult_assoc, Rinv_l by lra. assert (0 < rad 1) by (unfold rad; lra). nra.
Qed.
Lemma cos_rad1 : 9/10 < cos (rad 1).
Proof.
  pose proof PI_RGT_0. pose proof PI_4. pose proof (sc2 (rad 1)) as SC. assert (C : 1/2 < cos (rad 1)) by (rewrite <- cos_PI3; apply cos_decreasing_1; unfold rad; lra).
  assert (S : sin (rad 1) <= rad 1) by (apply sin_le; unfold rad; lra). assert (S0 : 0 < sin (rad 1)) by (apply sin_gt_0; unfold rad; lra). assert (S1 : sin (rad 1) <= 1/40) by (unfold rad in *; lra).
  assert (sin (rad 1) * sin (rad 1) <= 1/40 * (1/40)) by (apply Rmult_le_compat; lra). apply Rnot_le_lt. intros N. assert (cos (rad 1) * cos (rad 1) <= 9/10 * (9/10)) by (apply Rmult_le_compat; lra). lra.
Qed.
Lemma dfl30 : 1 < deg (dfl (7/5) 3 (PI / 6)).
Proof.
  pose proof PI_RGT_0. rewrite dfl_tdf by lra. apply one_degree. rewrite sin_PI6, tan_PI6. unfold tdf, rhor.
  assert (S : 17/10 < sqrt 3 < 174/100). { split; [rewrite <- (sqrt_pow2 (17/10)) by lra|rewrite <- (sqrt_pow2 (174/100)) by lra]; apply sqrt_lt_1_alt; lra. } assert (Q : sqrt 3 ^ 2 = 3) by (apply sq_sqrt; lra).
  replace ((1 / sqrt 3) ^ 2) with (1 / sqrt 3 ^ 2) by (field; lra). rewrite Q. set (t := sqrt 3) in *.
  match goal with |- _ < ?y => replace y with (75 / 191 / t) by (field; lra) end.
  apply (Rmult_lt_reg_r t); [lra|]. replace (75 / 191 / t * t) with (75/191) by (field; lra). lra.
Qed.
Lemma dfl60 : 1 < deg (dfl (7/5) (14/10) (PI / 3)).
Proof.
  pose proof PI_RGT_0. rewrite dfl_tdf by lra. apply one_degree. rewrite sin_PI3, tan_PI3. unfold tdf, rhor.
  assert (S : 17/10 < sqrt 3 < 174/100). { split; [rewrite <- (sqrt_pow2 (17/10)) by lra|rewrite <- (sqrt_pow2 (174/100)) by lra]; apply sqrt_lt_1_alt; lra. } assert (Q : sqrt 3 ^ 2 = 3) by (apply sq_sqrt; lra).
  replace ((14 / 10 * (sqrt 3 / 2)) ^ 2) with (49/100 * sqrt 3 ^ 2) by field. rewrite Q. set (t := sqrt 3) in *. lra.
Qed.
Lemma wedge_core : exists dm mu P1 M1 dm1 mu1, dev_Max (Some 3) (Some (7/5)) = Some dm /\ 1 <= dm /\ dasin (ndiv (Some 1) (Some 3)) = Some mu /\ 1/100 < mu + 1 /\
  w_p (shock_cell (Some 3) (Some 1) (Some (7/5))) = Some P1 /\ 0 < P1 /\ w_M (shock_cell (Some 3) (Some 1) (Some (7/5))) = Some M1 /\ 14/10 < M1 < 15 /\
  dev_Max (Some M1) (Some (7/5)) = Some dm1 /\ 1 <= dm1 /\ dasin (ndiv (Some 1) (Some M1)) = Some mu1 /\ 1/100 < mu1 + 1.
Proof.
  pose proof PI_RGT_0 as PI0. pose proof PI_4 as PI4. destruct mu3 as (mu & Emu & Mu0 & Mu1 & Sm & Tm).
  destruct (slope_sides (7/5) 3 ltac:(lra) ltac:(lra)) as (sm & dm & mu' & E1 & E2 & E3 & H0 & H1 & H2 & FM & SM & F0 & SP & SN). rewrite Emu in E3. injection E3 as <-.
  assert (D1 : 1 < dm). { eapply Rlt_le_trans; [apply dfl30|]. apply (devmax_ge (7/5) 3 (PI / 6) dm); try lra; [rewrite sin_PI6; lra|assumption]. }
  destruct (attached_of (7/5) 3 1 dm ltac:(lra) ltac:(lra) E2 ltac:(lra)) as (Hd9 & sg & Hsg & Esg).
  destruct (weak_strong_sides (7/5) 3 1 sg ltac:(lra) ltac:(lra) Hd9 Hsg Esg) as (mu' & w & s & sm' & Q1 & Q2 & Q3 & Q4 & B1 & B2 & B3 & B4). rewrite Emu in Q1. injection Q1 as <-. rewrite E1 in Q4. injection Q4 as <-.
  destruct (sigma_default_weak (7/5) 3 1 mu w sm sg ltac:(lra) ltac:(lra) Hd9 Hsg Esg Emu Q2 E1 ltac:(lra)) as (z & th & Z1 & Z2 & Z3 & Z4 & Z5).
  assert (R30 : rad 30 = PI / 6) by (unfold rad; field).
  assert (F30 : 1 < Fd (7/5) 3 30).
  { assert (E := Fd_eval (7/5) 3 30 ltac:(lra) ltac:(lra) ltac:(lra)). rewrite defl_eval in E by lra. injection E as <-. rewrite R30. apply dfl30. }
  assert (W30 : w <= 30).
  { apply Rnot_lt_le. intros L. destruct (weak_strong (7/5) 3 1 ltac:(lra) ltac:(lra) Hd9) as [K _]. destruct K as (w' & s' & W1 & W2 & W3 & W4 & W5 & W6 & W7); [now exists sg|]. rewrite Q2 in W1. injection W1 as <-.
    rewrite Fd_eval in W6 by lra. injection W6 as W6. destruct (Fd_mvt (7/5) 3 30 w) as (u & Hu & Eu); try lra. pose proof (SP u ltac:(lra)). nra. }
  assert (Z30 : z <= 30) by (destruct Z2 as [_ Z2]; apply Rle_trans with (1 := Z2); apply Rmax_lub; lra).
  assert (Mu15 : 15 <= mu). { assert (sin (rad mu) <= rad mu) by (apply sin_le; unfold rad; apply Rmult_le_pos; lra). rewrite Sm in *. unfold rad in *. nra. }
  assert (Hz : 0 < z < 90) by lra.
  destruct (cell_angle (7/5) 3 1 dm mu ltac:(lra) ltac:(lra) E2 ltac:(lra) Emu ltac:(lra)) as (z' & Y1 & Y2 & Y3 & _). rewrite Z1 in Y1. injection Y1 as <-.
  destruct (cell_at (7/5) 3 1 z ltac:(lra) ltac:(lra) Hz Y3 Z1) as (_ & C2 & _ & C4 & _). cbv zeta in C2, C4. pose proof (psr_pos (7/5) _ ltac:(lra) Y3) as PP.
  destruct (behind_eval (7/5) 3 z ltac:(lra) ltac:(lra) Hz Y3) as (_ & BB & _). rewrite BB, m1_normal in C4 by (lra || now apply rad_quadrant).
  pose proof (rad_quadrant z Hz) as Rz. pose proof (rad_quadrant (z - 1) ltac:(lra)) as Rz1.
  assert (Sz : 0 < sin (rad z) <= 1/2). { split; [apply sin_gt_0; lra|]. rewrite <- sin_PI6, <- R30. apply sin_incr_1; try lra; try (rewrite R30; lra). now apply rad_le. }
  assert (Sz1 : 0 < sin (rad (z - 1)) < 1/2). { split; [apply sin_gt_0; lra|]. rewrite <- sin_PI6, <- R30. apply sin_increasing_1; try lra; try (rewrite R30; lra). apply rad_lt. lra. }
  assert (N2 : 0 <= (3 * sin (rad z)) ^ 2 <= 9/4) by (split; nra).
  pose proof (sdom_den (7/5) _ ltac:(lra) Y3) as SD. set (n2 := (3 * sin (rad z)) ^ 2) in *.
  assert (MD : 49/100 <= md2 (7/5) (3 * sin (rad z))).
  { unfold md2, tt. fold n2. apply (Rmult_le_reg_r (7 / 5 * n2 - 1 / 2 * (7 / 5 - 1))); [lra|].
    match goal with |- _ <= ?a / ?b * ?b => replace (a / b * b) with a by (field; lra) end. lra. }
  assert (SQ : 7/10 <= sqrt (md2 (7/5) (3 * sin (rad z)))). { rewrite <- (sqrt_pow2 (7/10)) by lra. apply sqrt_le_1_alt. lra. }
  set (q := sqrt (md2 (7/5) (3 * sin (rad z)))) in *. set (M1 := q / sin (rad (z - 1))).
  assert (HM1 : 14/10 < M1). { unfold M1. apply (Rmult_lt_reg_r (sin (rad (z - 1)))); [lra|]. replace (q / sin (rad (z - 1)) * sin (rad (z - 1))) with q by (field; lra). lra. }
  assert (N34 : 1/2 <= n2).
  { unfold n2. destruct Z2 as [Z2 _]. pose proof (sin_999 (rad mu) (rad_quadrant mu ltac:(lra))) as S1. assert (S2 : sin (999/1000 * rad mu) <= sin (rad z)).
    { replace (999/1000 * rad mu) with (rad (999/1000 * mu)) by (unfold rad; ring). pose proof (rad_quadrant (999/1000 * mu) ltac:(lra)). apply sin_incr_1; try lra. apply rad_le. lra. }
    rewrite Sm in S1. clear - S1 S2. assert (1/4 * (1/4) <= sin (rad z) * sin (rad z)) by (apply Rmult_le_compat; lra). lra. }
  assert (MD2 : md2 (7/5) (3 * sin (rad z)) <= 9/4).
  { unfold md2, tt. fold n2. apply (Rmult_le_reg_r (7 / 5 * n2 - 1 / 2 * (7 / 5 - 1))); [lra|].
    match goal with |- ?a / ?b * ?b <= _ => replace (a / b * b) with a by (field; lra) end. lra. }
  assert (SQ2 : q <= 3/2). { unfold q. rewrite <- (sqrt_pow2 (3/2)) by lra. apply sqrt_le_1_alt. lra. }
  assert (S10 : 1/10 < sin (rad (z - 1))).
  { rewrite rad_sub, sin_minus. assert (A1 : sin (rad 1) <= rad 1) by (apply sin_le; unfold rad; lra). assert (A0 : 0 < sin (rad 1)) by (apply sin_gt_0; unfold rad; lra).
    pose proof cos_rad1 as A2.
    assert (A3 : 23/100 < sin (rad z)). { unfold n2 in N34. clear - N34 Sz. apply Rnot_le_lt. intros N. assert (sin (rad z) * sin (rad z) <= 23/100 * (23/100)) by (apply Rmult_le_compat; lra). lra. } pose proof (COS_bound (rad z)). assert (rad 1 <= 1/40) by (unfold rad; lra).
    assert (cos (rad z) * sin (rad 1) <= 1 * sin (rad 1)) by (apply Rmult_le_compat_r; lra). assert (23/100 * (9/10) <= sin (rad z) * cos (rad 1)) by (apply Rmult_le_compat; lra). lra. }
  assert (HM2 : M1 < 15).
  { unfold M1. apply (Rmult_lt_reg_r (sin (rad (z - 1)))); [lra|]. replace (q / sin (rad (z - 1)) * sin (rad (z - 1))) with q by (field; lra). lra. }
  rewrite ndiv_Some in C4 by lra. fold M1 in C4.
  destruct (devmax_is (7/5) M1 ltac:(lra) ltac:(lra)) as (s1 & dm1 & _ & _ & Ed & _). destruct (mach_angle M1 ltac:(lra)) as (Em & Hm).
  exists dm, mu, (psr (7/5) (3 * sin (rad z))), M1, dm1, (deg (asin (1 / M1))). split; [exact E2|]. split; [lra|]. split; [exact Emu|]. split; [lra|]. split; [exact C2|]. split; [exact PP|]. split; [exact C4|]. split; [lra|]. split; [exact Ed|]. split.
  - left. eapply Rlt_trans; [apply dfl60|]. eapply Rlt_le_trans; [apply deg_lt, (dfl_incr (7/5) (14/10) M1 (PI / 3)); lra|]. apply (devmax_ge (7/5) M1 (PI / 3) dm1); try lra; try assumption. rewrite sin_PI3.
    assert (S : 17/10 < sqrt 3). { rewrite <- (sqrt_pow2 (17/10)) by lra. apply sqrt_lt_1_alt; lra. } nra.
  - split; [exact Em|lra].
Qed.
(*@E C91_example: gamma = 1.4, M = 3, d = 1 degree: both shocks are attached, the Mach number behind the first exceeds 1.4, and all the hypotheses of C91_reflexion (hence of C91_shock) hold. *)
Lemma wedge_ex : exists dm mu M1 dm1 mu1, dev_Max (Some 3) (Some (7/5)) = Some dm /\ 1 <= dm /\ dasin (ndiv (Some 1) (Some 3)) = Some mu /\ 1/100 < mu + 1 /\
  (forall yend, w_M (rf_1 (reflexion_cells (Some 3) (Some 1) yend (Some (7/5)))) = Some M1) /\ 14/10 < M1 /\
  dev_Max (Some M1) (Some (7/5)) = Some dm1 /\ 1 <= dm1 /\ dasin (ndiv (Some 1) (Some M1)) = Some mu1 /\ 1/100 < mu1 + 1.
Proof.
  destruct wedge_core as (dm & mu & P1 & M1 & dm1 & mu1 & A1 & A2 & A3 & A4 & A5 & A6 & A7 & A8 & A9 & A10 & A11 & A12).
  exists dm, mu, M1, dm1, mu1. repeat (split; [assumption|]). split; [intros; exact A7|]. split; [lra|]. repeat (split; [assumption|]). assumption.
Qed.
