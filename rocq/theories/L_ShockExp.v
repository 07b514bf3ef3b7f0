(** * C92: shock, expansion and tail shock around a triangular obstacle *)
From Verif Require Import L_Num Spec NumSpec PolarSpec WedgeSpec M_Isentropic M_MassFlow M_Degree M_IterSolve M_ShockWave M_Supersonic M_Wedge L_Isentropic L_Degree L_Shock L_Oblique L_Oblique2 L_WeakStrong L_Secant L_Sigma L_Sigma2 L_Sigma3 L_Sigma4 L_Polar L_Supersonic L_Fan5 L_Sonic L_DevMax L_Wedge L_Wedge2.
Open Scope R_scope.

Lemma ptk_incr g x y : 1 < g -> 0 <= x -> x < y -> Rpower (tt g x) (g / (g - 1)) < Rpower (tt g y) (g / (g - 1)).
Proof. intros Hg Hx Hxy. apply Rlt_Rpower_l; [now apply exp_pos_gg|]. split; [apply tt_pos; assumption|now apply tt_incr]. Qed.
(*@P C92_fan: The expansion of the shock-expansion notebook, from any region behind the first shock with Mach number M1 >= 1 and pressure P1, whatever the residual eps of the Newton solver: if it returns M2 >= 1, the Prandtl-Meyer angle has grown by the turn a1 - a2 within eps; p2p0 is defined and the total pressure is exactly the same on both sides of the fan; and if the turn is larger than eps the flow accelerates and its pressure falls - so the pressure pushes more on the front face than on the rear face. *)
Lemma shex_fan : forall newton eps g M0 a1 a2 P1 M1 M2, solves eps newton -> 1 < g ->
  let x := shock_expansion_cells newton M0 (Some a1) (Some a2) (Some g) in
  w_p (sx_1 x) = Some P1 -> 0 < P1 -> w_M (sx_1 x) = Some M1 -> 1 <= M1 -> sx_M2 x = Some M2 -> 1 <= M2 ->
  exists w1 w2 p2, PrandtlMeyer_Mach (Some M1) (Some g) = Some w1 /\ PrandtlMeyer_Mach (Some M2) (Some g) = Some w2 /\ sx_om2 x = Some (w1 + (a1 - a2)) /\
    Rabs (w2 - (w1 + (a1 - a2))) <= eps /\ sx_p2p0 x = Some p2 /\ 0 < p2 /\
    p2 * Rpower (1 + (g - 1) / 2 * M2 ^ 2) (g / (g - 1)) = P1 * Rpower (1 + (g - 1) / 2 * M1 ^ 2) (g / (g - 1)) /\
    (eps < a1 - a2 -> M1 < M2 /\ p2 < P1).
Proof.
  intros newton eps g M0 a1 a2 P1 M1 M2 HN Hg x EP HP EM HM1 E2 HM2. unfold x, shock_expansion_cells in *. cbv zeta in *. cbn [sx_1 sx_om2 sx_M2 sx_p2p0] in *. rewrite EM in *. rewrite EP.
  assert (A1 := PM_eval g M1 Hg ltac:(rewrite Rabs_pos_eq; lra)). assert (A2 := PM_eval g M2 Hg ltac:(rewrite Rabs_pos_eq; lra)). rewrite A1 in *.
  exists (pm g M1), (pm g M2), (P1 * (Rpower (tt g M1) (g / (g - 1)) / Rpower (tt g M2) (g / (g - 1)))).
  split; [reflexivity|]. split; [exact A2|]. split; [cbn [nsub]; f_equal; ring|].
  cbn [nsub] in E2. destruct (Mach_PM_residual newton eps g _ M2 HN E2) as (w' & W1 & W2). rewrite A2 in W1. injection W1 as <-.
  split; [replace (pm g M1 + (a1 - a2)) with (pm g M1 - (a2 - a1)) by ring; exact W2|].
  assert (Q1 : 0 < Rpower (tt g M1) (g / (g - 1))) by apply exp_pos. assert (Q2 : 0 < Rpower (tt g M2) (g / (g - 1))) by apply exp_pos.
  split. { unfold IsentropicPsratio_Mach_deflection. cbv zeta. rewrite A1. cbn [nsub]. rewrite E2. rewrite !PtPs_eval by assumption. rewrite ndiv_Some by lra. reflexivity. }
  split; [apply Rmult_lt_0_compat; [assumption|pos]|].
  replace (1 + (g - 1) / 2 * M2 ^ 2) with (tt g M2) by (unfold tt; field). replace (1 + (g - 1) / 2 * M1 ^ 2) with (tt g M1) by (unfold tt; field).
  split; [field; lra|]. intros L. apply Rabs_le_between in W2.
  assert (ML : M1 < M2). { apply Rnot_le_lt. intros [N|N]; [pose proof (pm_incr g M2 M1 Hg HM2 N)|rewrite N in *]; lra. }
  split; [exact ML|]. pose proof (ptk_incr g M1 M2 Hg ltac:(lra) ML).
  rewrite <- (Rmult_1_r P1) at 2. apply Rmult_lt_compat_l; [exact HP|]. apply (Rmult_lt_reg_r (Rpower (tt g M2) (g / (g - 1)))); [exact Q2|]. unfold Rdiv at 1. rewrite Rmult_assoc, Rinv_l; lra.
Qed.
(*@P C92_vacuum: There is a limit to the expansion: if the Prandtl-Meyer angle asked for exceeds 90 (sqrt((gamma+1)/(gamma-1)) - 1) degrees by more than the solver's residual (or reaches it, for an exact solver), then M2, p2p0 and everything behind the fan are undefined. *)
Lemma shex_vacuum : forall newton eps g M0 a1 a2 M1 w1, solves eps newton -> 1 < g ->
  let x := shock_expansion_cells newton M0 (Some a1) (Some a2) (Some g) in
  w_M (sx_1 x) = Some M1 -> PrandtlMeyer_Mach (Some M1) (Some g) = Some w1 -> 90 * (sqrt ((g + 1) / (g - 1)) - 1) + eps <= w1 + (a1 - a2) ->
  sx_M2 x = None /\ sx_p2p0 x = None /\ w_sig (sx_3 x) = None /\ w_p (sx_3 x) = None /\ w_M (sx_3 x) = None /\ sx_p3p0 x = None.
Proof.
  intros newton eps g M0 a1 a2 M1 w1 HN Hg x EM EW L. unfold x, shock_expansion_cells in *. cbv zeta in *. cbn [sx_1 sx_om2 sx_M2 sx_p2p0 sx_3 sx_p3p0] in *. rewrite EM, EW. cbn [nsub].
  assert (N : Mach_PrandtlMeyer newton (Some (w1 - (a2 - a1))) (Some g) = None).
  { destruct (Mach_PrandtlMeyer newton (Some (w1 - (a2 - a1))) (Some g)) as [M2|] eqn:E; [exfalso|reflexivity].
    destruct (Mach_PM_residual newton eps g _ M2 HN E) as (w2 & W1 & W2). apply Rabs_le_between in W2.
    assert (H1 : 1 <= Rabs M2) by (apply (pm_domain g M2 Hg); now exists w2).
    rewrite PM_eval in W1 by assumption. injection W1 as W1. rewrite <- pm_abs in W1.
    assert (B := pmb_bound (cgm g) (sqrt (Rabs M2 ^ 2 - 1)) (cgm_gt1 g Hg) (sqrt_pos _)). apply deg_lt in B. fold (pm g (Rabs M2)) in B.
    replace (deg ((cgm g - 1) * (PI / 2))) with (90 * (cgm g - 1)) in B by (unfold deg; field; apply PI_nz). fold (cgm g) in L. lra. }
  rewrite N.
  assert (P2 : IsentropicPsratio_Mach_deflection newton (Some M1) (Some (a2 - a1)) (Some g) = None).
  { unfold IsentropicPsratio_Mach_deflection. cbv zeta. rewrite EW. cbn [nsub]. rewrite N. rewrite PtPs_eval by assumption.
    replace (PtPs_Mach None (Some g)) with (@None R); [reflexivity|]. unfold PtPs_Mach. ncbn. rewrite ndiv_Some by lra. reflexivity. }
  rewrite P2.
  assert (S : sigma_Mach_deflection None (Some (0 - a2)) None (Some g) = None).
  { unfold sigma_Mach_deflection. cbv zeta. replace (nadd (dasin (ndiv (Some 1) None)) (Some (0 - a2))) with (@None R) by reflexivity.
    unfold secant_solve, secant_run_of. cbv zeta. cbn [nmul s_result]. rewrite secant_loop_None. reflexivity. }
  assert (C : shock_cell None (Some (0 - a2)) (Some g) = mk_shocked None None None).
  { unfold shock_cell. rewrite S. cbv zeta. replace (dsin None) with (@None R) by reflexivity. cbn [nmul nsub].
    replace (Ps_ratio None (Some g)) with (@None R); [|unfold Ps_ratio; ncbn; rewrite ndiv_Some by lra; reflexivity].
    replace (downstream_Mn None (Some g)) with (@None R) by reflexivity. reflexivity. }
  rewrite C. cbn [w_sig w_p w_M]. split; [reflexivity|]. destruct (w_p (shock_cell M0 (Some a1) (Some g))); repeat split; reflexivity.
Qed.
(*@P C92_tail: The tail shock: when the flow M2 > 1 behind the fan can be turned back by -a2 > 0, the angle and the pressure behind are defined and belong to an oblique shock, p3p0 is the product of the three pressure ratios, and without a solver warning the flow leaves parallel to the axis again within the solver tolerance. *)
Lemma shex_tail : forall newton g M0 a1 a2 M2 dm mu, 1 < g ->
  let x := shock_expansion_cells newton M0 (Some a1) (Some a2) (Some g) in
  sx_M2 x = Some M2 -> 1 < M2 -> dev_Max (Some M2) (Some g) = Some dm -> 0 < - a2 <= dm -> dasin (ndiv (Some 1) (Some M2)) = Some mu -> 1/100 < mu - a2 ->
  exists z th P3 m3, w_sig (sx_3 x) = Some z /\ 0 < z < 90 /\ w_p (sx_3 x) = Some P3 /\ shock_to g M2 z th P3 m3 /\
    (forall p2, sx_p2p0 x = Some p2 -> sx_p3p0 x = Some (p2 * P3)) /\
    (- a2 < z -> exists M3, w_M (sx_3 x) = Some M3 /\ M3 * sin ((z + a2) * (PI / 180)) = m3 * sin ((z - th) * (PI / 180))) /\
    (s_warned (secant_run_of (fun s => deflection_Mach_sigma (Some M2) s (Some g)) (Some (- a2)) (Some (mu - a2)) secant_tol) = false ->
      Rabs (a2 + th) <= 2 * sigma_lip g M2 * Rmax (1/100000) (1/100000 * z)) /\
    (0 < th -> 1 < P3 /\ m3 * sin ((z - th) * (PI / 180)) < 1 < M2 * sin (z * (PI / 180))).
Proof.
  intros newton g M0 a1 a2 M2 dm mu Hg x E2 H2 E Ha Emu H0.
  destruct (cell_angle g M2 (- a2) dm mu Hg H2 E Ha Emu ltac:(lra)) as (z & Z1 & Z2 & Z3 & Z4).
  destruct (cell_at g M2 (- a2) z Hg ltac:(lra) Z2 Z3 Z1) as (C1 & C2 & C3 & C4 & C5).
  assert (X3 : sx_3 x = shock_cell (Some M2) (Some (- a2)) (Some g)).
  { replace (- a2) with (0 - a2) by ring. rewrite <- E2. reflexivity. }
  assert (XP : sx_p3p0 x = nmul (sx_p2p0 x) (w_p (sx_3 x))) by (unfold x, shock_expansion_cells; cbv zeta; cbn [sx_p3p0 sx_p2p0 sx_3]; reflexivity).
  rewrite XP, X3. exists z, (Fd g M2 z), (psr g (M2 * sin (rad z))), (m1 g M2 (rad z)).
  split; [exact C1|]. split; [exact Z2|]. split; [exact C2|]. split; [exact C3|]. split; [intros p2 Ep; rewrite Ep, C2; reflexivity|].
  split. { intros L. assert (S : 0 < sin (rad (z - - a2))) by (pose proof (rad_quadrant (z - - a2) ltac:(lra)); apply sin_gt_0; lra). rewrite ndiv_Some in C4 by lra.
    eexists. split; [exact C4|]. fold (rad (z + a2)). fold (rad (z - Fd g M2 z)). replace (z - - a2) with (z + a2) in * by ring. field. lra. }
  split. { intros W. replace (a2 + Fd g M2 z) with (Fd g M2 z - - a2) by ring. apply Z4. unfold sigma_run. replace (mu + - a2) with (mu - a2) by ring. exact W. }
  intros T. destruct (C5 T) as (A & B & C). split; [exact B|]. split; [exact C|exact A].
Qed.
(*@P C92_loss: Total pressure across the shocks: for every shock angle with a supersonic normal Mach number, the static pressure ratio times the isentropic pt/p of the Mach number behind is strictly less than the pt/p in front. With C92_fan, where it is conserved, the total pressure only falls at the two shocks. *)
Lemma shock_loss : forall g M s th, 1 < g -> 0 < M -> 0 < s < 90 -> 1 < M * sin (s * (PI / 180)) -> deflection_Mach_sigma (Some M) (Some s) (Some g) = Some th ->
  exists P m, Ps_ratio (nmul (Some M) (dsin (Some s))) (Some g) = Some P /\ ndiv (downstream_Mn (nmul (Some M) (dsin (Some s))) (Some g)) (dsin (Some (s - th))) = Some m /\
    shock_to g M s th P m /\ P * Rpower (1 + (g - 1) / 2 * m ^ 2) (g / (g - 1)) < Rpower (1 + (g - 1) / 2 * M ^ 2) (g / (g - 1)).
Proof.
  intros g M s th Hg HM Hs Hn E. fold (rad s) in Hn. assert (D : sdom g (M * sin (rad s))) by (apply sdom_ge1; lra).
  rewrite Fd_eval in E by assumption. injection E as <-. destruct (behind_eval g M s Hg HM Hs D) as (B1 & B2 & B3).
  rewrite (dsin_eval s). cbn [nmul]. exists (psr g (M * sin (rad s))), (m1 g M (rad s)). split; [now apply Ps_eval|]. split; [exact B3|]. split; [now apply shock_to_eval|].
  destruct (m1_energy g M (rad s) Hg HM (rad_quadrant s Hs) D) as [Hm He]. set (n := M * sin (rad s)) in *. set (m := m1 g M (rad s)) in *.
  replace (1 + (g - 1) / 2 * m ^ 2) with (tt g m) by (unfold tt; field). replace (1 + (g - 1) / 2 * M ^ 2) with (tt g M) by (unfold tt; field).
  rewrite <- He. pose proof (tsr_pos g n Hg D) as T0. pose proof (tt_pos g m Hg) as T1. rewrite <- Rpower_mult_distr by assumption.
  apply Rmult_lt_compat_r; [apply exp_pos|]. pose proof (psr_pos g n Hg D) as P0. assert (R0 : 0 < rhor g n) by (apply rhor_pos; lra).
  pose proof (dS_incr g 1 n Hg ltac:(lra) ltac:(apply sdom_ge1; lra) Hn) as S. rewrite dS_1 in S by assumption. unfold dS in S.
  rewrite <- (exp_ln (psr g n)) at 1 by assumption. unfold Rpower. apply exp_increasing. unfold tsr. unfold Rdiv at 2. rewrite ln_mult, ln_Rinv by (try apply Rinv_0_lt_compat; assumption).
  apply (Rmult_lt_reg_l (g - 1)); [lra|]. replace ((g - 1) * (g / (g - 1) * (ln (psr g n) + - ln (rhor g n)))) with (g * (ln (psr g n) - ln (rhor g n))) by (field; lra). lra.
Qed.
(*@P C92_walls: The drawn geometry: for angles 0 < a1 < 90 and -90 < a2 < 0 the obstacle's faces are inclined at a1 and a2 and end on the axis, and the tail shock starts from the very corner where the rear face ends; the two Mach lines that bound the expansion start at the top corner, are inclined at a1 plus the Mach angle of M1 and a2 plus the Mach angle of M2, and the second lies below the first whenever 1 < M1 < M2: the fan opens. *)
Lemma shex_walls : forall L a1 a2, 0 < L -> 0 < a1 < 90 -> -90 < a2 < 0 -> exists h x3,
  wall_corners (Some L) (Some a1) (Some a2) = [(Some 0, Some 0); (Some L, Some h); (Some x3, Some 0)] /\ 0 < h /\ inclined 0 0 L h a1 /\ inclined L h x3 0 a2 /\
  (L = 1 -> tail_foot (Some a1) (Some a2) = Some x3) /\
  (forall M1 M2 dx, 1 < M1 -> M1 < M2 -> 0 < dx -> exists mu1 mu2, dasin (ndiv (Some 1) (Some M1)) = Some mu1 /\ dasin (ndiv (Some 1) (Some M2)) = Some mu2 /\ 0 < mu2 < mu1 /\
    (a1 + mu1 < 90 -> exists y1 y2, fan_line (Some a1) (Some M1) (Some dx) (Some L, Some h) = (Some (L + dx), Some y1) /\ fan_line (Some a2) (Some M2) (Some dx) (Some L, Some h) = (Some (L + dx), Some y2) /\
       inclined L h (L + dx) y1 (a1 + mu1) /\ inclined L h (L + dx) y2 (a2 + mu2) /\ y2 < y1)).
Proof.
  intros L a1 a2 HL H1 H2. pose proof (rad_quadrant a1 H1) as R1. pose proof (rad_quadrant (- a2) ltac:(lra)) as R2. rewrite rad_opp in R2.
  destruct (quad_trig _ R1) as [S1 [C1 T1]]. destruct (quad_trig _ R2) as [S2 [C2 T2]]. rewrite sin_neg, cos_neg, tan_neg in *.
  assert (Q : forall a, -90 < a < 90 -> - (PI / 2) < rad a < PI / 2 /\ 0 < cos (rad a)).
  { intros a Ha. assert (B : - (PI / 2) < rad a < PI / 2). { rewrite <- rad_90, <- rad_opp. replace (-(90)) with (-90) by lra. split; apply rad_lt; lra. } split; [exact B|]. apply cos_gt_0; lra. }
  assert (I : forall x y dx a, 0 < dx -> -90 < a < 90 -> inclined x y (x + dx) (y + dx * tan (rad a)) a).
  { intros x y dx a Hdx Ha. destruct (Q a Ha) as [_ Ca]. exists (dx / cos (rad a)). fold (rad a). split; [apply Rdiv_lt_0_compat; assumption|]. split; [field; lra|unfold tan; field; lra]. }
  exists (L * tan (rad a1)), (L - L * tan (rad a1) / tan (rad a2)). split.
  { unfold wall_corners. cbv zeta. rewrite !dtan_eval by lra. cbn [nmul]. rewrite ndiv_Some by lra. reflexivity. }
  split; [apply Rmult_lt_0_compat; lra|]. split.
  { assert (Z := I 0 0 L a1 HL ltac:(lra)). rewrite !Rplus_0_l in Z. exact Z. }
  split.
  { set (h := L * tan (rad a1)). assert (h0 : 0 < h) by (apply Rmult_lt_0_compat; lra). assert (Hx : 0 < - h / tan (rad a2)).
    { replace (- h / tan (rad a2)) with (h / - tan (rad a2)) by (field; lra). apply Rdiv_lt_0_compat; lra. }
    assert (Z := I L h (- h / tan (rad a2)) a2 Hx ltac:(lra)). replace (h + - h / tan (rad a2) * tan (rad a2)) with 0 in Z by (field; lra). replace (L + - h / tan (rad a2)) with (L - h / tan (rad a2)) in Z by (field; lra). exact Z. }
  split.
  { intros ->. unfold tail_foot. rewrite !dtan_eval by lra. rewrite ndiv_Some by lra. cbn [nsub]. f_equal. field. lra. }
  intros M1 M2 dx HM1 HM2 Hdx. destruct (mach_angle M1 HM1) as [E1 B1]. destruct (mach_angle M2 ltac:(lra)) as [E2 B2].
  set (mu1 := deg (asin (1 / M1))) in *. set (mu2 := deg (asin (1 / M2))) in *.
  assert (Lm : mu2 < mu1).
  { apply deg_lt. assert (J1 : 0 < 1 / M2) by pos. assert (J2 : 1 / M2 < 1 / M1). { apply Rmult_lt_compat_l; [lra|]. apply Rinv_lt_contravar; [nra|exact HM2]. }
    assert (J3 : 1 / M1 < 1). { apply (Rmult_lt_reg_r M1); [lra|]. unfold Rdiv; rewrite Rmult_assoc, Rinv_l; lra. } apply asin_increasing; lra. }
  exists mu1, mu2. split; [exact E1|]. split; [exact E2|]. split; [lra|]. intros L9. set (h := L * tan (rad a1)).
  exists (h + dx * tan (rad (a1 + mu1))), (h + dx * tan (rad (a2 + mu2))).
  unfold fan_line. rewrite E1, E2. cbn [fst snd nadd]. destruct (Q (a1 + mu1) ltac:(lra)) as [V1 W1]. destruct (Q (a2 + mu2) ltac:(lra)) as [V2 W2].
  rewrite !dtan_eval by lra. split; [reflexivity|]. split; [reflexivity|]. split; [apply I; lra|]. split; [apply I; lra|].
  apply Rplus_lt_compat_l, Rmult_lt_compat_l; [exact Hdx|]. apply tan_increasing; try lra. apply rad_lt. lra.
Qed.
Lemma two_degrees x : 1 / 10 < x -> 2 < deg (atan x).
Proof.
  intros H. pose proof PI_RGT_0. pose proof PI_4. rewrite <- (deg_rad 2). apply deg_lt. rewrite <- (atan_tan (rad 2)) by (unfold rad; lra). apply atan_increasing.
  assert (S : sin (rad 2) <= rad 2) by (apply sin_le; unfold rad; lra). assert (C : 1/2 < cos (rad 2)) by (rewrite <- cos_PI3; apply cos_decreasing_1; unfold rad; lra).
  unfold tan. apply Rle_lt_trans with (rad 2 / (1/2)); [|unfold rad; lra].
  apply (Rmult_le_reg_r (cos (rad 2))); [lra|]. unfold Rdiv at 1. rewrite Rmult_assoc, Rinv_l by lra. assert (0 < rad 2) by (unfold rad; lra). nra.
Qed.
(*@E C92_example: gamma = 1.4, M = 3, faces inclined at 1 and -1 degrees, with an exact root finder: the hypotheses of C92_fan and C92_tail hold. *)
Lemma shex_ex : exists newton P1 M1 M2 dm mu, solves 0 newton /\
  let x := shock_expansion_cells newton (Some 3) (Some 1) (Some (-1)) (Some (7/5)) in
  w_p (sx_1 x) = Some P1 /\ 0 < P1 /\ w_M (sx_1 x) = Some M1 /\ 1 <= M1 /\ sx_M2 x = Some M2 /\ 1 < M2 /\ 0 < 1 - (-1) /\
  dev_Max (Some M2) (Some (7/5)) = Some dm /\ 0 < - (-1) <= dm /\ dasin (ndiv (Some 1) (Some M2)) = Some mu /\ 1/100 < mu - (-1).
Proof.
  destruct wedge_core as (dm & mu & P1 & M1 & dm1 & mu1 & A1 & A2 & A3 & A4 & A5 & A6 & A7 & A8 & A9 & A10 & A11 & A12).
  set (g := 7/5) in *. assert (Hg : 1 < g) by (unfold g; lra). pose proof PI_RGT_0 as PI0.
  set (c := cgm g). assert (Hc : 14/10 + 1 < c). { unfold c, cgm. rewrite <- (sqrt_pow2 (14/10 + 1)) by lra. apply sqrt_lt_1_alt. unfold g. lra. }
  set (b := sqrt (M1 ^ 2 - 1)). assert (Hb : 0 < b < 15). { unfold b. split; [apply sqrt_lt_R0; nra|]. rewrite <- (sqrt_pow2 15) by lra. apply sqrt_lt_1_alt. nra. }
  assert (Top : 0 <= pm g M1 + 2 < 90 * (c - 1)).
  { split; [pose proof (pm_1 g Hg); pose proof (pm_incr g 1 M1 Hg ltac:(lra) ltac:(lra)); lra|]. unfold pm, pmb. fold b. fold c.
    assert (Ab : atan b = PI / 2 - atan (1 / b)). { pose proof (atan_inv b ltac:(lra)) as Q. rewrite Rinv_r_simpl_l || idtac. replace (1 / b) with (/ b) by (field; lra). lra. }
    assert (Ac : atan (b / c) = PI / 2 - atan (c / b)). { assert (0 < b / c) by (apply Rdiv_lt_0_compat; lra). pose proof (atan_inv (b / c) ltac:(lra)) as Q. replace (/ (b / c)) with (c / b) in Q by (field; lra). lra. }
    rewrite Ab, Ac. replace (c * (PI / 2 - atan (c / b)) - (PI / 2 - atan (1 / b))) with ((c - 1) * (PI / 2) - (c * atan (c / b) - atan (1 / b))) by ring. rewrite deg_sub.
    replace (deg ((c - 1) * (PI / 2))) with (90 * (c - 1)) by (unfold deg; field; lra).
    assert (L1 : 2 < deg (atan (c / b))). { apply two_degrees. apply (Rmult_lt_reg_r b); [lra|]. replace (c / b * b) with c by (field; lra). lra. }
    assert (L2 : atan (1 / b) < atan (c / b)). { apply atan_increasing. apply Rmult_lt_compat_r; [apply Rinv_0_lt_compat; lra|lra]. }
    assert (L3 : 2 < deg (c * atan (c / b) - atan (1 / b))); [|lra].
    apply Rlt_trans with (deg (atan (c / b))); [exact L1|]. apply deg_lt. assert (0 < atan (c / b)). { rewrite <- atan_0. apply atan_increasing. apply Rdiv_lt_0_compat; lra. } nra. }
  destruct (proj1 (pm_range g (pm g M1 + 2) Hg) Top) as (M2 & Hm2 & Em2 & _). rewrite PM_eval in Em2 by (try assumption; rewrite Rabs_pos_eq; lra). injection Em2 as Em2.
  assert (L12 : M1 < M2). { apply Rnot_le_lt. intros [N|N]; [pose proof (pm_incr g M2 M1 Hg Hm2 N)|rewrite N in Em2]; lra. }
  destruct (devmax_is g M2 Hg ltac:(lra)) as (s2 & dm2 & _ & _ & Ed & _). destruct (mach_angle M2 ltac:(lra)) as (Em & Hm).
  exists (cand_newton (M2 :: nil)), P1, M1, M2, dm2, (deg (asin (1 / M2))). split; [apply cand_solves|]. unfold shock_expansion_cells. cbv zeta. cbn [sx_1 sx_M2]. rewrite A7.
  split; [exact A5|]. split; [exact A6|]. split; [reflexivity|]. split; [lra|]. split.
  { rewrite PM_eval by (try assumption; rewrite Rabs_pos_eq; lra). cbn [nsub]. apply cand_pm; [assumption|lra|lra|now left|]. intros r [<-|[]]. lra. }
  split; [lra|]. split; [lra|]. split; [exact Ed|]. split.
  - split; [lra|]. replace (- (-1)) with 1 by lra. left. eapply Rlt_trans; [apply dfl60|]. eapply Rlt_le_trans; [apply deg_lt, (dfl_incr (7/5) (14/10) M2 (PI / 3)); lra|]. apply (devmax_ge (7/5) M2 (PI / 3) dm2); try lra; try assumption. rewrite sin_PI3.
    assert (S : 17/10 < sqrt 3). { rewrite <- (sqrt_pow2 (17/10)) by lra. apply sqrt_lt_1_alt; lra. } nra.
  - split; [exact Em|lra].
Qed.
