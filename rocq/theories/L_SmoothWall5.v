From Coquelicot Require Import Coquelicot.
From Verif Require Import L_Num Spec NumSpec M_Degree M_IterSolve M_MassFlow M_Isentropic M_Supersonic M_Fan M_SmoothWall FanSpec L_Isentropic L_Degree L_Supersonic L_Supersonic2 L_Fan L_Fan2 L_Fan3 L_SmoothWall L_SmoothWall2 L_SmoothWall3 L_SmoothWall4.
Open Scope R_scope.

(*@P C90_focus: The characteristics drawn by plot_CP_focus, for every wall and wall point xw, eps > 0: the segment starts at the wall point and follows the characteristic of slope r1 there. If the characteristic from xw + eps has a larger slope r2, the segment ends at the point where the two characteristics cross, which lies on both lines, and is downstream of xw exactly when the wall rises by less than r2 eps between the two points; otherwise the segment ends at the abscissa xmax. *)
Lemma focus_ends : forall newton g om0 ywall xw eps xmax r1 r2 y1 y2, 0 < eps ->
  ywall (Some xw) = Some y1 -> ywall (Some (xw + eps)) = Some y2 ->
  cp_slope newton (Some g) (Some om0) ywall (Some xw) = Some r1 -> cp_slope newton (Some g) (Some om0) ywall (Some (xw + eps)) = Some r2 ->
  exists xi yi, focus_segment newton (Some g) (Some om0) ywall (Some xmax) (Some eps) (Some xw) = Some [(Some xw, Some y1); (Some xi, Some yi)] /\
    yi - y1 = r1 * (xi - xw) /\ (r1 < r2 -> yi - y2 = r2 * (xi - (xw + eps)) /\ (xw < xi <-> y2 - y1 < r2 * eps)) /\ (r2 <= r1 -> xi = xmax).
Proof.
  intros newton g om0 ywall xw eps xmax r1 r2 y1 y2 He E1 E2 R1 R2. unfold focus_segment. cbv zeta.
  change (nadd (Some xw) (Some eps)) with (Some (xw + eps)). rewrite R1, R2, E1, E2. unfold nlt, nif. destruct (Rlt_dec r1 r2) as [L|L].
  - unfold xy_intersect_rate. cbn [fst]. ncbn. rewrite ndiv_Some by lra. ncbn. eexists _, _. split; [reflexivity|]. split; [ring|]. split; [|lra]. intros _. split; [field; lra|].
    set (q := (- y2 + y1 + (xw + eps) * r2 - xw * r1) / (r2 - r1)).
    assert (Eq : (q - xw) * (r2 - r1) = r2 * eps - (y2 - y1)) by (unfold q; field; lra). split; intros H.
    + assert (0 < (q - xw) * (r2 - r1)) by (apply Rmult_lt_0_compat; lra). lra.
    + apply Rnot_le_lt. intros C. nra.
  - ncbn. eexists _, _. split; [reflexivity|]. split; [ring|]. split; [lra|]. intros _. reflexivity.
Qed.
(*@P C90_intersect: xy_intersect_rate returns the common point of the two lines through (x1,y1) with slope r1 and (x2,y2) with slope r2, for all different slopes; for equal slopes it has no value. *)
Lemma intersect : forall x1 y1 r1 x2 y2 r2,
  (r1 <> r2 -> exists x y, xy_intersect_rate (Some x1) (Some y1) (Some r1) (Some x2) (Some y2) (Some r2) = (Some x, Some y) /\ y - y1 = r1 * (x - x1) /\ y - y2 = r2 * (x - x2)) /\
  (r1 = r2 -> xy_intersect_rate (Some x1) (Some y1) (Some r1) (Some x2) (Some y2) (Some r2) = (None, None)).
Proof.
  intros. unfold xy_intersect_rate. ncbn. split.
  - intros N. rewrite ndiv_Some by lra. ncbn. eexists _, _. split; [reflexivity|]. split; [ring|field; lra].
  - intros ->. replace (r2 - r2) with 0 by ring. unfold ndiv. destruct (Req_EM_T 0 0); [reflexivity|lra].
Qed.
(*@P C90_focus_slope: With an exact root finder the slope used by plot_CP_focus at a wall point is the tangent of the C+ angle (flow angle plus Mach angle) that flow_prop gives for the Mach number at that wall point, and the flow angle there is the wall's. *)
Lemma focus_slope : forall newton g om0 ywall xw m, solves 0 newton ->
  mach_wall newton (Some g) (Some om0) ywall (Some xw) = Some m ->
  let q := wall_flow_prop (Some g) (Some om0) (Some m) in
  p_ang q = wall_angle ywall (Some xw) /\ cp_slope newton (Some g) (Some om0) ywall (Some xw) = dtan (p_plus q).
Proof.
  intros newton g om0 ywall xw m HN E q. assert (A : p_ang q = wall_angle ywall (Some xw)).
  { unfold mach_wall in E. destruct (wall_angle ywall (Some xw)) as [a|] eqn:Ea.
    - cbn [nsub] in E. destruct (Mach_PM_residual newton 0 g _ m HN E) as (w & W1 & W2). unfold q, wall_flow_prop. cbv zeta. cbn [p_ang]. rewrite W1. cbn [nsub]. f_equal.
      apply Rabs_le_between in W2. lra.
    - cbn [nsub] in E. destruct (HN _ _ _ E) as (e & H1 & _). cbv beta in H1. destruct (PrandtlMeyer_Mach (Some m) (Some g)); discriminate H1. }
  split; [exact A|]. unfold cp_slope. rewrite E, <- A. reflexivity.
Qed.
Lemma mu_lt90 M : 1 < M -> 0 < mua M < 90.
Proof.
  intros HM. destruct (mua_spec M ltac:(lra)) as [Hm Hs]. split; [lra|]. destruct (Rle_lt_or_eq_dec _ _ (proj2 Hm)) as [|Q]; [assumption|]. exfalso.
  rewrite Q, rd_rad, rad_90, sin_PI2 in Hs. assert (M = 1); [|lra]. apply (Rmult_eq_reg_r (1 / M)); [|apply Rgt_not_eq; pos]. rewrite <- Hs at 2. field. lra.
Qed.
Lemma mua_decr a b : 1 <= a -> a < b -> mua b < mua a.
Proof.
  intros H1 H2. unfold mua. apply deg_lt. apply asin_increasing; [pose proof (inv_M b ltac:(lra)); lra|apply Rmult_lt_compat_l; [lra|apply Rinv_lt_contravar; nra]|pose proof (inv_M a H1); lra].
Qed.
(*@P C90_compression_refuted: Over a compressing ramp the answer is not determined, and is wrong downstream of the focus. For every gamma > 1, M0 > 1 and ramp angle 0 < ang below the Mach angle of M0, M1 being the Mach number after the turn (1 <= M1, ang + mu1 < 90): there is a point above the wall, downstream of the ramp, that lies both on the characteristic from the wall point -1 upstream, where the flow is the undisturbed one, and on the characteristic from the wall point 2 downstream of the ramp, where the flow is at Mach M1 < M0 and turned by ang. With exact root finders mach returns M0, if anything, at this point, as if the ramp was not there, although M1 is equally reproduced by a turn of its loop, with foot 2. *)
Lemma compression : forall g M0 M1 ang mu0 mu1, 1 < g -> 1 < M0 -> 1 <= M1 -> is_mach_angle M0 mu0 -> is_mach_angle M1 mu1 ->
  0 < ang < mu0 -> ang + mu1 < 90 -> pm_deg g M1 = pm_deg g M0 - ang ->
  exists x y y2, M1 < M0 /\ 2 < x /\ ywall_ramp (Some ang) (Some 2) = Some y2 /\ y2 < y /\
    y = tan (rd mu0) * (x + 1) /\ y - y2 = tan (rd (ang + mu1)) * (x - 2) /\
    forall newton fsolve, solves 0 newton -> solves 0 fsolve ->
      (forall fuel m, mach_at fuel newton fsolve (Some g) (Some M0) (wall_om0 (Some g) (Some M0)) (ywall_ramp (Some ang)) (Some x) (Some y) = Some m -> m = M0) /\
      (forall m mw xw, mach_turn newton fsolve (Some g) (wall_om0 (Some g) (Some M0)) (ywall_ramp (Some ang)) (Some x) (Some y) (Some M1) = (Some m, mw, xw) ->
         xw = Some 2 /\ (mw = Some M1 /\ m = M1 \/ mw = Some (- M1))).
Proof.
  intros g M0 M1 ang mu0 mu1 Hg HM0 HM1 Hmu0 Hmu1 Ha Hc E1. rewrite !pm_deg_pm in E1 by lra.
  apply mua_uniq in Hmu0; [|lra]. apply mua_uniq in Hmu1; [|lra]. subst mu0 mu1.
  assert (L10 : M1 < M0). { apply Rnot_le_lt. intros [C|C]; [pose proof (pm_incr g M0 M1 Hg ltac:(lra) C)|rewrite C in E1]; lra. }
  pose proof (mua_decr M1 M0 HM1 L10) as Dmu. destruct (mu_lt90 M0 HM0) as [P0 P1]. destruct (mua_spec M1 HM1) as [P2 _].
  set (t0 := tan (rad (mua M0))). set (t1 := tan (rad (ang + mua M1))). set (T := tan (rad ang)).
  assert (T0 : 0 < t0) by (unfold t0; rewrite <- tan_rad0; apply tan_lt; lra).
  assert (T01 : t0 < t1) by (unfold t0, t1; apply tan_lt; lra).
  assert (TT : T < t0) by (unfold T, t0; apply tan_lt; lra). assert (TT0 : 0 < T) by (unfold T; rewrite <- tan_rad0; apply tan_lt; lra).
  set (y2 := 3 / 2 * T).
  assert (EY : ywall_ramp (Some ang) (Some 2) = Some y2).
  { rewrite ramp_eval by lra. unfold rampf, sqp, y2. fold T. f_equal. rewrite !Rmax_right by lra. field. }
  assert (ER : rampf ang 2 = y2) by (rewrite ramp_eval in EY by lra; now injection EY).
  set (x := (t0 + 2 * t1 - y2) / (t1 - t0)). set (y := t0 * (x + 1)).
  assert (EX : x * (t1 - t0) = t0 + 2 * t1 - y2) by (unfold x; field; lra).
  assert (Hx : 2 < x). { apply Rnot_le_lt. intros C. assert (x * (t1 - t0) <= 2 * (t1 - t0)) by (apply Rmult_le_compat_r; lra). unfold y2 in *. lra. }
  assert (L2 : y - y2 = t1 * (x - 2)) by (unfold y; lra).
  exists x, y, y2. split; [exact L10|]. split; [exact Hx|]. split; [exact EY|]. split; [assert (0 < t1 * (x - 2)) by (apply Rmult_lt_0_compat; lra); lra|].
  rewrite !rd_rad. fold t0 t1. split; [reflexivity|]. split; [exact L2|]. intros newton fsolve HN HF. split.
  - intros fuel m E. eapply (loop_flat newton fsolve g M0 ang x y fuel m); try eassumption; [lra|]. fold t0. unfold y. apply Rmult_le_compat_l; lra.
  - intros m mw xw ET. unfold wall_om0 in ET. rewrite PM_eval in ET by (try assumption; rewrite Rabs_pos_eq; lra).
    apply turn_exact in ET; [|assumption|assumption|assumption|assumption|lra].
    destruct ET as [mwr [xr [a [-> [-> [Em [Hab [EF [EA EP]]]]]]]]].
    replace (pm g M0 - pm g M1 + mua M1) with (ang + mua M1) in EF by lra. fold t1 in EF.
    assert (xr = 2) as ->.
    { destruct (Rtotal_order xr 2) as [L|[L|L]]; [exfalso|exact L|exfalso].
      - pose proof (rampf_slope ang xr 2 ltac:(lra)) as S. fold T in S. rewrite ER, Rmax_right in S by lra. assert (T * (2 - xr) < t1 * (2 - xr)) by (apply Rmult_lt_compat_r; lra). lra.
      - pose proof (rampf_slope ang 2 xr ltac:(lra)) as S. fold T in S. rewrite ER, Rmax_right in S by lra. assert (T * (xr - 2) < t1 * (xr - 2)) by (apply Rmult_lt_compat_r; lra). lra. }
    split; [reflexivity|]. destruct (ramp_angle ang 2 ltac:(lra)) as [_ [_ RA]]. rewrite RA in EA by lra. injection EA as <-.
    rewrite <- E1, <- (pm_abs g mwr) in EP. apply pm_inj in EP; try assumption. unfold Rabs in EP. destruct Rcase_abs in EP.
    + right. f_equal. lra.
    + left. subst mwr. split; [reflexivity|lra].
Qed.
(*@E C90_example: gamma = 7/5, M0 = 2 as in the notebook. Far above the ramp of -20 degrees mach returns 2 in two turns, with exact root finders; from Mach 2 the flow can be turned by some expansion angle ang in (-90, 0), to Mach 3, and compressed by some angle 0 < ang < mu0, to Mach M1 with ang + mu1 < 90; and on the bump the wall angle at the top is 0. *)
Lemma C90_example_lemma : (exists newton fsolve, solves 0 newton /\ solves 0 fsolve /\
    mach_at 2 newton fsolve (Some (7/5)) (Some 2) (wall_om0 (Some (7/5)) (Some 2)) (ywall_ramp (Some (-20))) (Some (-1)) (Some 1) = Some 2) /\
  (exists ang, -90 < ang < 0 /\ pm_deg (7/5) 3 = pm_deg (7/5) 2 - ang) /\
  (exists ang M1 mu0 mu1, 1 <= M1 /\ is_mach_angle 2 mu0 /\ is_mach_angle M1 mu1 /\ 0 < ang < mu0 /\ ang + mu1 < 90 /\ pm_deg (7/5) M1 = pm_deg (7/5) 2 - ang) /\
  wall_angle ywall_bump (Some 0) = Some 0.
Proof.
  assert (Hg : 1 < 7 / 5) by lra. set (g := 7 / 5) in *.
  assert (MU2 : mua 2 = 30). { unfold mua. replace (1 / 2) with (sin (PI / 6)) by apply sin_PI6. pose proof PI_RGT_0. rewrite asin_sin by lra. unfold deg. field. apply PI_neq0. }
  repeat apply conj.
  - set (om0 := pm g 2).
    assert (EO : wall_om0 (Some g) (Some 2) = Some om0) by (unfold wall_om0; now rewrite PM_eval by (try assumption; rewrite Rabs_pos_eq; lra)).
    set (t := tan (rad 30)). assert (Ht : 0 < t) by (unfold t; rewrite <- tan_rad0; apply tan_lt; lra).
    set (xr := -1 - 1 / t).
    assert (Hxr : xr < -1) by (unfold xr; assert (0 < 1 / t) by pos; lra).
    assert (TU : mach_turn supn supn (Some g) (Some om0) (ywall_ramp (Some (-20))) (Some (-1)) (Some 1) (Some 2) = (Some 2, Some 2, Some xr)).
    { unfold mach_turn. cbv zeta. rewrite PM_eval by (try assumption; rewrite Rabs_pos_eq; lra). rewrite ndiv_Some by lra. rewrite dasin_eval by lra. fold (mua 2). rewrite MU2.
      change (nadd (nsub (Some om0) (Some (pm g 2))) (Some 30)) with (Some (om0 - pm g 2 + 30)). replace (om0 - pm g 2 + 30) with 30 by (unfold om0; ring).
      rewrite dtan_eval by (apply Rgt_not_eq, cos_wall; lra). fold t. rewrite (supn_root _ _ xr).
      - assert (EW : mach_wall supn (Some g) (Some om0) (ywall_ramp (Some (-20))) (Some xr) = Some 2).
        { unfold mach_wall. destruct (ramp_angle (-20) xr ltac:(lra)) as [RA _]. rewrite RA by lra. change (nsub (Some om0) (Some 0)) with (Some (om0 - 0)). rewrite Rminus_0_r.
          assert (P0 : 0 <= om0) by (unfold om0; rewrite <- (pm_1 g Hg); left; apply pm_incr; lra).
          destruct (supn_pm g 2 Hg ltac:(lra) om0) as [m [Hm [Em ES]]]; [fold om0; lra|]. rewrite ES. f_equal. apply (pm_inj g); try assumption; lra. }
        rewrite EW. ncbn. do 3 f_equal. lra.
      - rewrite ramp_eval by lra. rewrite rampf_neg by lra. ncbn. f_equal. unfold xr. field. lra.
      - intros s q Hs. rewrite ramp_eval by lra. ncbn. intros H. injection H as <-.
        assert (rampf (-20) s <= 0). { pose proof (rampf_slope (-20) (Rmin 0 s) s (Rmin_r _ _)) as S. rewrite (rampf_neg _ (Rmin 0 s) (Rmin_l _ _)) in S.
          rewrite Rmax_left in S by (rewrite <- tan_rad0; apply tan_le; lra). lra. }
        assert (t * (xr - -1) = -1) by (unfold xr; field; lra). assert (t * xr < t * s) by (apply Rmult_lt_compat_l; lra). lra. }
    exists supn, supn. split; [apply supn_solves|]. split; [apply supn_solves|]. rewrite EO. unfold mach_at. cbn [mach_loop].
    rewrite abs_gt, Rminus_0_r, Rabs_pos_eq by lra. destruct Rlt_dec; [|lra]. rewrite TU. rewrite abs_gt, Rminus_diag_eq, Rabs_R0 by reflexivity. destruct Rlt_dec; [lra|reflexivity].
  - exists (pm_deg g 2 - pm_deg g 3). rewrite !pm_deg_pm by lra. pose proof (pm_incr g 2 3 Hg ltac:(lra) ltac:(lra)). split; [|ring].
    destruct (MVT_cor2 (pm g) (dpm g) 2 3 ltac:(lra)) as [c [Ec Hc]]. { intros c Hc. apply is_derive_Reals, pm_derive; lra. }
    pose proof (dpm_bound g c Hg ltac:(lra)) as B. assert (180 / PI < 90). { pose proof PI2_3_2. apply Rlt_div_l; [pose proof PI_RGT_0; lra|]. lra. } nra.
  - assert (exists M1, 1 < M1 < 2 /\ pm g 2 - pm g M1 < 30 /\ mua M1 < 60) as [M1 [B1 [B2 B3]]].
    { exists (19/10). split; [lra|]. split.
      - destruct (MVT_cor2 (pm g) (dpm g) (19/10) 2 ltac:(lra)) as [c [Ec Hc]]. { intros c Hc. apply is_derive_Reals, pm_derive; lra. }
        pose proof (dpm_bound g c Hg ltac:(lra)) as B. assert (180 / PI < 90). { pose proof PI2_3_2. apply Rlt_div_l; [pose proof PI_RGT_0; lra|]. lra. } nra.
      - destruct (mu_lt90 (19/10) ltac:(lra)) as [Q1 Q2]. destruct (mua_spec (19/10) ltac:(lra)) as [_ Hs]. rewrite rd_rad in Hs. apply Rnot_le_lt. intros C.
        assert (sin (rad 60) <= sin (rad (mua (19/10)))). { apply sin_incr_1; unfold rad in *; pose proof PI_RGT_0; nra. }
        assert (sin (rad 60) = sqrt 3 / 2). { replace (rad 60) with (PI / 3) by (unfold rad; field). apply sin_PI3. }
        assert (17/10 < sqrt 3). { apply Rsqr_incrst_0; [|lra|apply sqrt_pos]. rewrite Rsqr_sqrt by lra. unfold Rsqr. lra. } lra. }
    exists (pm g 2 - pm g M1), M1, (mua 2), (mua M1). pose proof (pm_incr g M1 2 Hg ltac:(lra) ltac:(lra)). rewrite !pm_deg_pm by lra.
    repeat apply conj; try lra; try (apply mua_spec; lra).
  - destruct walls as [B _]. unfold wall_angle, wall_eps. ncbn. rewrite !B. ncbn. rewrite ndiv_Some by lra. rewrite datan_eval.
    replace (0 - 1/10000) with (- (1/10000)) by ring. replace (0 + 1/10000) with (1/10000) by ring.
    replace ((- (1/10000)) ^ 2) with ((1/10000) ^ 2) by ring. rewrite Rminus_diag_eq by reflexivity. unfold Rdiv. rewrite Rmult_0_l, atan_0, deg_0. reflexivity.
Qed.
