(** * C106: the shock reflexion of the documentation *)
From Verif Require Import L_Num Spec NumSpec PolarSpec WedgeSpec M_Isentropic M_MassFlow M_Degree M_IterSolve M_ShockWave M_Supersonic M_Wedge M_DocShock L_Isentropic L_Degree L_Shock L_Oblique L_Oblique2 L_WeakStrong L_Secant L_Sigma L_Sigma2 L_Sigma3 L_Polar L_Sonic L_DevMax L_Wedge.
Open Scope R_scope.

Lemma narcsin_gt1 x : 1 < x -> narcsin (Some x) = None.
Proof. intros H. unfold narcsin. destruct (Rle_dec (-1) x); destruct (Rle_dec x 1); try reflexivity; lra. Qed.
Lemma devmax_subsonic g M : 1 < g -> 0 < M < 1 -> dev_Max (Some M) (Some g) = None.
Proof.
  intros Hg HM. assert (HM2 : 0 < M ^ 2 < 1) by nra.
  set (b := (g + 1) * M ^ 2 - 4). set (c := (g + 1) * M ^ 2 + 2).
  set (z := M ^ 2 * M ^ 2 + 2 * (g - 1) * (4 / (g + 1)) * M ^ 2 + 4 * (4 / (g + 1))).
  set (r := (g + 1) * sqrt z).
  assert (Hin : 0 < z).
  { unfold z. assert (0 < 4 / (g + 1)) by (apply Rdiv_lt_0_compat; lra). assert (0 < 2 * (g - 1) * (4 / (g + 1)) * M ^ 2) by (repeat apply Rmult_lt_0_compat; lra). nra. }
  assert (Hr2 : r ^ 2 = b ^ 2 + 8 * g * c).
  { unfold r. rewrite Rpow_mult_distr, sq_sqrt by lra. unfold z, b, c. field; lra. }
  assert (Hrp : 0 < r) by (unfold r; apply Rmult_lt_0_compat; [lra|now apply sqrt_lt_R0]).
  assert (K : 4 * g * M ^ 2 < b + r).
  { destruct (Rle_lt_dec (4 * g * M ^ 2 - b) 0) as [L|L]; [lra|].
    assert (Q : (4 * g * M ^ 2 - b) ^ 2 < r ^ 2).
    { rewrite Hr2. assert (F1 : 0 < (g - 1) * M ^ 2) by (apply Rmult_lt_0_compat; lra).
      assert (F2 : 0 < 8 * g * ((1 - M ^ 2) * ((g - 1) * M ^ 2 + 2))) by (repeat apply Rmult_lt_0_compat; lra).
      apply Rminus_gt_0_lt. replace (b ^ 2 + 8 * g * c - (4 * g * M ^ 2 - b) ^ 2) with (8 * g * ((1 - M ^ 2) * ((g - 1) * M ^ 2 + 2))) by (unfold b, c; ring). exact F2. }
    assert (4 * g * M ^ 2 - b < r) by (apply Rnot_le_lt; intros H; nra). lra. }
  unfold dev_Max. replace (sigma_DevMax (Some M) (Some g)) with (@None R); [reflexivity|]. symmetry.
  unfold sigma_DevMax. cbv zeta. ncbn. rewrite !ndiv_Some; try lra; [|apply Rgt_not_eq, Rdiv_lt_0_compat; lra]. ncbn.
  fold z. rewrite nsqrt_Some by lra. cbn [nadd nsub nmul]. 
  match goal with |- dasin (nsqrt (Some ?w)) = _ => assert (W : 1 < w) end.
  { match goal with |- 1 < ?w => replace w with ((b + r) / (4 * g * M ^ 2)) by (unfold b, r; field; lra) end.
    assert (P : 0 < 4 * g * M ^ 2) by nra. apply (Rmult_lt_reg_r (4 * g * M ^ 2)); [exact P|]. replace ((b + r) / (4 * g * M ^ 2) * (4 * g * M ^ 2)) with (b + r) by (field; lra). lra. }
  rewrite nsqrt_Some by lra. unfold dasin. rewrite narcsin_gt1; [reflexivity|].
  pose proof (sqrt_lt_1 1 _ Rle_0_1 (Rlt_le _ _ (Rlt_trans _ _ _ Rlt_0_1 W)) W) as Q. rewrite sqrt_1 in Q. exact Q.
Qed.

(** when the cell announces nothing, it is the cell of the reflexion notebook *)
Lemma doc_second_regular M1 d g : match ngt d (dev_Max M1 g) with Some true => False | _ => True end -> doc_second M1 d g = (false, shock_cell M1 d g).
Proof. intros H. unfold doc_second. cbv zeta. destruct (ngt d (dev_Max M1 g)) as [[|]|]; [easy| |]; reflexivity. Qed.

(*@P C106_regular: The documentation's reflexion, when the deflection d is attached both for the incoming Mach number and for the Mach number M1 > 1 computed behind the first shock: nothing is announced and every result is defined; there are two oblique shocks of ratios P1 and P2, from M to m1 and from M1 to m2, with p2p0 = P1 P2 and M1 sin(z1-d) = m1 sin(z1-th1); without solver warnings the flow behind the second is parallel to the wall again within the sum of the two solver tolerances, and when these are smaller than d, 1 < p1p0 < p2p0. *)
Lemma doc_regular : forall g M d dm mu M1 dm1 mu1, 1 < g -> 1 < M -> dev_Max (Some M) (Some g) = Some dm -> 0 < d <= dm ->
  dasin (ndiv (Some 1) (Some M)) = Some mu -> 1/100 < mu + d ->
  let f := doc_reflexion_cells (Some M) (Some d) (Some g) in
  w_M (dr_1 f) = Some M1 -> 1 < M1 -> dev_Max (Some M1) (Some g) = Some dm1 -> d <= dm1 -> dasin (ndiv (Some 1) (Some M1)) = Some mu1 -> 1/100 < mu1 + d ->
  dr_irregular f = false /\
  exists z1 th1 P1 m1 z2 th2 P2 m2, w_sig (dr_1 f) = Some z1 /\ w_p (dr_1 f) = Some P1 /\ shock_to g M z1 th1 P1 m1 /\ M1 * sin ((z1 - d) * (PI / 180)) = m1 * sin ((z1 - th1) * (PI / 180)) /\
    w_sig (dr_2 f) = Some z2 /\ w_p (dr_2 f) = Some P2 /\ shock_to g M1 z2 th2 P2 m2 /\ dr_p2p0 f = Some (P1 * P2) /\
    let e1 := 2 * sigma_lip g M * Rmax (1/100000) (1/100000 * z1) in let e2 := 2 * sigma_lip g M1 * Rmax (1/100000) (1/100000 * z2) in
    (s_warned (secant_run_of (fun s => deflection_Mach_sigma (Some M) s (Some g)) (Some d) (Some (mu + d)) secant_tol) = false ->
     s_warned (secant_run_of (fun s => deflection_Mach_sigma (Some M1) s (Some g)) (Some d) (Some (mu1 + d)) secant_tol) = false ->
     Rabs (th1 - d) <= e1 /\ Rabs (th2 - d) <= e2 /\ Rabs (th1 - th2) <= e1 + e2 /\ (e1 < d -> e2 < d -> 1 < P1 < P1 * P2)).
Proof.
  intros g M d dm mu M1 dm1 mu1 Hg HM E Hd Emu H0 f EM HM1 E' Hd' Emu' H0'.
  change (dr_1 f) with (shock_cell (Some M) (Some d) (Some g)) in EM.
  assert (S : doc_second (Some M1) (Some d) (Some g) = (false, shock_cell (Some M1) (Some d) (Some g))).
  { apply doc_second_regular. rewrite E'. unfold ngt. rewrite nlt_false by lra. exact I. }
  destruct (wedge_reflexion g M d (Some 0) dm mu M1 dm1 mu1 Hg HM E Hd Emu H0 EM HM1 E' Hd' Emu' H0') as (z1 & th1 & P1 & q1 & z2 & th2 & P2 & q2 & W1 & W2 & W3 & W4 & W5 & W6 & W7 & W8 & W9).
  unfold reflexion_cells in W1, W2, W5, W6, W8. cbv zeta in W1, W2, W5, W6, W8. cbn [rf_1 rf_2 rf_p2p0] in W1, W2, W5, W6, W8. rewrite EM in W5, W6, W8.
  assert (F : f = mk_doc_reflexion (shock_cell (Some M) (Some d) (Some g)) false (shock_cell (Some M1) (Some d) (Some g)) (nmul (w_p (shock_cell (Some M1) (Some d) (Some g))) (w_p (shock_cell (Some M) (Some d) (Some g))))).
  { unfold f, doc_reflexion_cells. cbv zeta. rewrite EM, S. reflexivity. }
  rewrite F. cbn [dr_1 dr_2 dr_irregular dr_p2p0]. split; [reflexivity|].
  exists z1, th1, P1, q1, z2, th2, P2, q2. repeat (split; [assumption|]). exact W9.
Qed.

(*@P C106_subsonic: When the flow behind the first shock is subsonic there is no maximum deflection: the test is silently passed, the irregular reflexion is not announced, and the angle, pressure, Mach number of the second region and p2p0 are all undefined. *)
Lemma doc_subsonic_reflexion : forall g M d M1, 1 < g -> 0 < M1 < 1 ->
  let f := doc_reflexion_cells (Some M) (Some d) (Some g) in w_M (dr_1 f) = Some M1 ->
  dr_irregular f = false /\ w_sig (dr_2 f) = None /\ w_p (dr_2 f) = None /\ w_M (dr_2 f) = None /\ dr_p2p0 f = None.
Proof.
  intros g M d M1 Hg HM1 f EM. change (dr_1 f) with (shock_cell (Some M) (Some d) (Some g)) in EM.
  assert (S : doc_second (Some M1) (Some d) (Some g) = (false, shock_cell (Some M1) (Some d) (Some g))).
  { apply doc_second_regular. rewrite devmax_subsonic by assumption. exact I. }
  destruct (wedge_no_reflexion g M d None M1 Hg ltac:(lra) EM) as [A _]. destruct (A ltac:(lra)) as (A1 & A2 & A3 & A4 & _).
  unfold reflexion_cells in A1, A2, A3, A4. cbv zeta in A1, A2, A3, A4. cbn [rf_1 rf_2 rf_p2p0] in A1, A2, A3, A4. rewrite EM in A1, A2, A3, A4.
  unfold f, doc_reflexion_cells. cbv zeta. rewrite EM, S. cbn [fst snd dr_irregular dr_2 dr_p2p0]. repeat split; assumption.
Qed.

(*@P C106_irregular_refuted: When the flow behind the first shock is supersonic but cannot be turned by d, the irregular reflexion is announced and the second shock is put at the sonic angle: the pressure ratio is that of a shock behind which the flow is exactly sonic, but which turns it by dev_Sonic(M1) only, less than d. The Mach number printed for that region is never the right one, 1: it is computed as if the flow were turned by d, and is larger than 1 when d is below the shock angle, undefined when they are equal, and negative above. *)
Lemma doc_irregular : forall g M1 d dm1, 1 < g -> 1 < M1 -> dev_Max (Some M1) (Some g) = Some dm1 -> dm1 < d < 90 ->
  exists ss ds P, let c := snd (doc_second (Some M1) (Some d) (Some g)) in
    fst (doc_second (Some M1) (Some d) (Some g)) = true /\ w_sig c = Some ss /\ dev_Sonic (Some M1) (Some g) = Some ds /\ 0 < ds < d /\
    w_p c = Some P /\ shock_to g M1 ss ds P 1 /\
    (d < ss -> exists m, w_M c = Some m /\ 1 < m) /\ (d = ss -> w_M c = None) /\ (ss < d -> exists m, w_M c = Some m /\ m < 0).
Proof.
  intros g M d dm Hg HM E Hd.
  destruct (sonic_limit g M Hg HM) as (mu & ss & ds & sm & dm' & th & m & E1 & E2 & E3 & E4 & E5 & O1 & O2 & Hth & _ & Hss & _).
  rewrite E in E5. injection E5 as <-.
  assert (Hmu : 0 < mu). { destruct (mach_angle_range M HM) as (mu' & Q & Hq & _). rewrite E1 in Q. injection Q as <-. lra. }
  destruct (sonic_shock g M Hg HM) as (ss' & ds' & mn & P & mn1 & B1 & B2 & B3 & B4 & B5 & B6 & B7 & B8 & B9 & _).
  rewrite E2 in B1. injection B1 as <-. rewrite E3 in B5. injection B5 as <-.
  destruct (Hth ss ltac:(lra)) as (T1 & T2 & P' & T3 & T4). rewrite B6 in T1. injection T1 as T1. rewrite <- T1, Hss in T4.
  assert (D : dsin (Some ss) = Some (sin (ss * (PI / 180)))) by apply dsin_eval.
  rewrite D in T3. cbn [nmul] in T3. rewrite <- B3, B9 in T3. injection T3 as <-.
  unfold doc_second. cbv zeta. rewrite E. unfold ngt. rewrite nlt_true by lra. rewrite E2, D. cbn [nmul nsub]. rewrite <- B3, B9, B7. cbn [fst snd w_sig w_p w_M].
  exists ss, ds, P. split; [reflexivity|]. split; [reflexivity|]. split; [exact E3|]. split; [lra|]. split; [reflexivity|]. split; [exact T4|].
  rewrite dsin_eval. rewrite Rmult_1_l in B8. fold (rad (ss - ds)) in B8.
  assert (S1 : 0 < sin (rad (ss - ds))). 
  { assert (0 < ss - ds). { destruct (shock_at g M ss Hg ltac:(lra) B2) as (Q & _). rewrite B6 in Q. injection Q as Q. pose proof (bet_bound g M (rad ss) Hg ltac:(lra) (rad_quadrant _ B2)) as [B _].
      rewrite Q. unfold dfl. apply deg_lt in B. rewrite deg_0 in B. replace (deg (rad ss - bet g M (rad ss))) with (ss - deg (bet g M (rad ss))); [lra|]. unfold deg, rad. field. apply PI_neq0. }
    pose proof (rad_quadrant (ss - ds) ltac:(lra)). apply sin_gt_0; lra. }
  split; [|split].
  - intros L. pose proof (rad_quadrant (ss - d) ltac:(lra)) as R1. assert (S2 : 0 < sin (rad (ss - d))) by (apply sin_gt_0; lra).
    rewrite ndiv_Some by lra. eexists; split; [reflexivity|]. rewrite B8. apply (Rmult_lt_reg_r (sin (rad (ss - d)))); [exact S2|].
    unfold Rdiv. rewrite Rmult_assoc, Rinv_l, Rmult_1_l, Rmult_1_r by lra. assert (A1 : rad (ss - ds) <= PI / 2) by (rewrite <- rad_90; apply rad_le; lra).
    assert (A2 : rad (ss - d) < rad (ss - ds)) by (apply rad_lt; lra). apply sin_increasing_1; lra.
  - intros ->. replace (ss - ss) with 0 by ring. replace (rad 0) with 0 by (symmetry; apply rad_0). rewrite sin_0. unfold ndiv. destruct (Req_EM_T 0 0); [reflexivity|lra].
  - intros L. pose proof (rad_quadrant (d - ss) ltac:(lra)) as R1. assert (S2 : 0 < sin (rad (d - ss))) by (apply sin_gt_0; lra).
    replace (ss - d) with (- (d - ss)) by ring. rewrite rad_opp, sin_neg. rewrite ndiv_Some by lra. eexists; split; [reflexivity|]. rewrite B8.
    apply Ropp_lt_cancel. rewrite Ropp_0. replace (- (sin (rad (ss - ds)) / - sin (rad (d - ss)))) with (sin (rad (ss - ds)) / sin (rad (d - ss))) by (field; lra). now apply Rdiv_lt_0_compat.
Qed.

(*@E C106_example: the irregular case occurs: for gamma = 3 and M1 = 2 the deflection of 30 degrees is out of reach, and as it is below the sonic shock angle a supersonic Mach number is printed behind a sonic shock *)
Lemma doc_irregular_example : exists dm1 m, dev_Max (Some 2) (Some 3) = Some dm1 /\ dm1 < 30 /\
  fst (doc_second (Some 2) (Some 30) (Some 3)) = true /\ w_M (snd (doc_second (Some 2) (Some 30) (Some 3))) = Some m /\ 1 < m.
Proof.
  destruct (devmax_incr 3 (3/2) 2 ltac:(lra) ltac:(lra) ltac:(lra)) as (d0 & dm & _ & E & H0 & H1).
  assert (A : asin (1 / 3) * (180 / PI) < 30).
  { replace 30 with (asin (1 / 2) * (180 / PI)) by (rewrite asin_half; field; apply PI_neq0).
    apply Rmult_lt_compat_r; [apply Rdiv_lt_0_compat; [lra|apply PI_RGT_0]|]. apply asin_increasing; lra. }
  destruct (doc_irregular 3 2 30 dm ltac:(lra) ltac:(lra) E ltac:(lra)) as (ss & ds & P & I1 & I2 & I3 & I4 & I5 & I6 & I7 & _).
  destruct (sonic_limit 3 2 ltac:(lra) ltac:(lra)) as (mu & ss' & ds' & sm & dm' & th & m & E1 & E2 & _ & _ & _ & O1 & _).
  destruct I7 as (q & Q1 & Q2).
  - assert (ss = ss').
    { revert I2. unfold doc_second. cbv zeta. rewrite E. unfold ngt. rewrite nlt_true by lra. rewrite E2. cbn [snd w_sig]. intros Q. injection Q as <-. reflexivity. }
    subst ss'. assert (mu = 30). { destruct (mach_angle 2 ltac:(lra)) as [Q _]. rewrite E1 in Q. injection Q as ->. rewrite asin_half. unfold deg. field. apply PI_neq0. }
    lra.
  - exists dm, q. split; [exact E|]. split; [lra|]. split; [exact I1|]. split; [exact Q1|exact Q2].
Qed.
