From Coquelicot Require Import Coquelicot.
From Verif Require Import L_Num Spec NumSpec M_Degree M_IterSolve M_MassFlow M_Isentropic M_Supersonic M_Fan M_SmoothWall FanSpec L_Isentropic L_Degree L_Supersonic L_Fan L_Fan2 L_Fan3.
Open Scope R_scope.

Lemma wfp_eval g om0 m : 1 < g -> 1 <= m ->
  wall_flow_prop (Some g) (Some om0) (Some m) =
  {| p_ang := Some (om0 - pm g m); p_plus := Some (om0 - pm g m + mua m); p_minus := Some (om0 - pm g m - mua m) |}.
Proof.
  intros Hg Hm. unfold wall_flow_prop. rewrite PM_eval by (try assumption; rewrite Rabs_pos_eq; lra). rewrite ndiv_Some by lra.
  rewrite dasin_eval by (pose proof (inv_M m Hm); lra). reflexivity.
Qed.
(** ** derivatives along the Mach number *)
Section State.
Variables (g om0 M : R).
Hypothesis Hg : 1 < g. Hypothesis HM : 1 < M.
Let T := tt g M. Let th := rad (om0 - pm g M). Let mu := rad (mua M).
Lemma T_pos : 0 < T. Proof using Hg. now apply tt_pos. Qed.
Lemma tratio_tt m : T_ratio g m = / tt g m.
Proof. unfold T_ratio, tt. f_equal. f_equal. unfold Rdiv. ring. Qed.
Lemma density_D : is_derive (density g) M (- density g M * M / T).
Proof using Hg HM.
  pose proof T_pos. unfold density, Rpower. apply (is_derive_ext (fun m => exp (1 / (g - 1) * ln (/ tt g m)))).
  { intros t. now rewrite tratio_tt. }
  rewrite tratio_tt. fold T. unfold tt. assert (E : 1 + 1 / 2 * (g - 1) * M ^ 2 = T) by reflexivity.
  auto_derive.
  - cbn [pow] in E. rewrite E. split; [lra|]. split; [|exact I]. pos.
  - cbn [pow] in E. rewrite E. field. lra.
Qed.
Lemma pressure_D : is_derive (pressure g) M (- g * pressure g M * M / T).
Proof using Hg HM.
  pose proof T_pos. unfold pressure, Rpower. apply (is_derive_ext (fun m => exp (g / (g - 1) * ln (/ tt g m)) / g)).
  { intros t. now rewrite tratio_tt. }
  rewrite tratio_tt. fold T. unfold tt. assert (E : 1 + 1 / 2 * (g - 1) * M ^ 2 = T) by reflexivity.
  auto_derive.
  - cbn [pow] in E. rewrite E. split; [lra|]. split; [|exact I]. pos.
  - cbn [pow] in E. rewrite E. field. lra.
Qed.
Lemma speed_D : is_derive (speed g) M (speed g M / (M * T)).
Proof using Hg HM.
  pose proof T_pos as HT. unfold speed. apply (is_derive_ext (fun m => m * sqrt (/ tt g m))).
  { intros t. now rewrite tratio_tt. }
  rewrite tratio_tt. fold T. unfold tt. assert (E : 1 + 1 / 2 * (g - 1) * M ^ 2 = T) by reflexivity.
  assert (Hs : 0 < sqrt (/ T)) by (apply sqrt_lt_R0; pos). assert (Hs2 : sqrt (/ T) ^ 2 = / T) by (apply sq_sqrt; left; pos).
  auto_derive.
  - cbn [pow] in E. rewrite E. split; [lra|]. split; [|exact I]. pos.
  - cbn [pow] in E. rewrite E. set (s := sqrt (/ T)) in *.
    assert (ET : T = / s ^ 2) by (rewrite Hs2; field; lra). rewrite ET in E |- *.
    replace (M * (M * 1)) with (M ^ 2) in E by ring.
    assert (EM : (g - 1) * M ^ 2 = 2 * (/ s ^ 2 - 1)) by lra.
    transitivity (s - (g - 1) * M ^ 2 * s ^ 3 / 2); [field; lra|]. rewrite EM. field. lra.
Qed.
Lemma theta_D : is_derive (fun m => rd (om0 - pm g m)) M (- (sqrt (M ^ 2 - 1) / (M * T))).
Proof using Hg HM.
  apply (is_derive_ext (fun m => rad om0 - rad (pm g m))). { intros t. now rewrite rd_rad, rad_sub. }
  evar_last; [apply (is_derive_minus (fun _ => rad om0) (fun m => rad (pm g m))); [apply is_derive_const|now apply pm_rad_derive]|].
  unfold minus, plus, opp, zero; cbn. fold T. ring.
Qed.
Lemma u_D : is_derive (fun m => speed g m * cos (rd (om0 - pm g m))) M (speed g M / T * sin (th + mu)) /\
            is_derive (fun m => speed g m * sin (rd (om0 - pm g m))) M (- (speed g M / T) * cos (th + mu)).
Proof using Hg HM.
  pose proof T_pos as HT. destruct (mu_trig M ltac:(lra)) as [S C]. fold mu in S, C. set (b := sqrt (M ^ 2 - 1)) in *.
  assert (Et : rd (om0 - pm g M) = th) by apply rd_rad. split.
  - evar_last.
    + apply (is_derive_mult (speed g) (fun m => cos (rd (om0 - pm g m)))); [exact speed_D| |intros; apply Rmult_comm].
      apply (is_derive_comp cos (fun m => rd (om0 - pm g m))); [apply is_derive_cos|exact theta_D].
    + unfold plus, mult, scal; cbn -[pow]. unfold mult; cbn -[pow]. rewrite Et, sin_plus. fold b. rewrite <- C.
      transitivity (speed g M / (M * T) * (M * sin mu * cos th + M * cos mu * sin th)); [rewrite S; field; lra|field; lra].
  - evar_last.
    + apply (is_derive_mult (speed g) (fun m => sin (rd (om0 - pm g m)))); [exact speed_D| |intros; apply Rmult_comm].
      apply (is_derive_comp sin (fun m => rd (om0 - pm g m))); [apply is_derive_sin|exact theta_D].
    + unfold plus, mult, scal; cbn -[pow]. unfold mult; cbn -[pow]. rewrite Et, cos_plus. fold b. rewrite <- C.
      transitivity (speed g M / (M * T) * (M * sin mu * sin th - M * cos mu * cos th)); [rewrite S; field; lra|field; lra].
Qed.
Lemma p_rho : g * pressure g M = density g M * / T.
Proof using Hg HM.
  pose proof T_pos. unfold pressure, density. rewrite tratio_tt. fold T. replace (g / (g - 1)) with (1 / (g - 1) + 1) by (field; lra).
  rewrite Rpower_plus, Rpower_1 by pos. field. lra.
Qed.
Lemma V2 : speed g M ^ 2 = M ^ 2 / T.
Proof using Hg HM. pose proof T_pos. unfold speed. rewrite Rpow_mult_distr, sq_sqrt; rewrite tratio_tt; fold T; [reflexivity|left; pos]. Qed.
(** the algebra *)
Lemma wave_algebra Mx My : let C := cos (th + mu) in let S := sin (th + mu) in Mx * C + My * S = 0 ->
  let V := speed g M in let rho := density g M in
  let u := V * cos th in let v := V * sin th in
  let u' := V / T * S in let v' := - (V / T) * C in let r' := - rho * M / T in let p' := - g * pressure g M * M / T in
  rho * (u' * Mx + v' * My) + u * (r' * Mx) + v * (r' * My) = 0 /\
  rho * (u * (u' * Mx) + v * (u' * My)) + p' * Mx = 0 /\ rho * (u * (v' * Mx) + v * (v' * My)) + p' * My = 0.
Proof using Hg HM.
  intros C S E V rho u v u' v' r' p'. pose proof T_pos as HT. destruct (mu_trig M ltac:(lra)) as [Sm Cm]. fold mu in Sm, Cm.
  assert (Ec : cos th = C * cos mu + S * sin mu). { unfold C, S. rewrite <- cos_minus. f_equal. ring. }
  assert (Es : sin th = S * cos mu - C * sin mu). { unfold C, S. rewrite <- sin_minus. f_equal. ring. }
  pose proof (sin2_cos2 (th + mu)) as SC. unfold Rsqr in SC. fold C S in SC.
  assert (EU : M * (u * Mx + v * My) = V * (S * Mx - C * My)).
  { unfold u, v. rewrite Ec, Es. transitivity (V * (M * cos mu * (Mx * C + My * S) + M * sin mu * (S * Mx - C * My))); [ring|]. rewrite E, Sm. ring. }
  assert (EU' : u * Mx + v * My = V * (S * Mx - C * My) / M). { apply (Rmult_eq_reg_l M); [|lra]. rewrite EU. field. lra. }
  pose proof V2 as HV. fold V in HV. pose proof p_rho as HP. fold rho in HP.
  assert (Ep : p' = - rho * M / T ^ 2). { unfold p'. replace (- g * pressure g M) with (- (g * pressure g M)) by ring. rewrite HP. field. lra. }
  split; [|split].
  - transitivity (rho * (u' * Mx + v' * My) + r' * (u * Mx + v * My)); [ring|]. rewrite EU'. unfold u', v', r'. field. split; lra.
  - transitivity (rho * u' * (u * Mx + v * My) + p' * Mx); [ring|]. rewrite EU', Ep. unfold u'.
    transitivity (rho / (T * M) * (V ^ 2 * S * (S * Mx - C * My) - M ^ 2 / T * Mx)); [field; split; lra|]. rewrite HV.
    transitivity (rho * M / T ^ 2 * (S * (S * Mx - C * My) - (S * S + C * C) * Mx)); [rewrite SC; field; split; lra|].
    transitivity (rho * M / T ^ 2 * (- C) * (Mx * C + My * S)); [field; lra|]. rewrite E. ring.
  - transitivity (rho * v' * (u * Mx + v * My) + p' * My); [ring|]. rewrite EU', Ep. unfold v'.
    transitivity (rho / (T * M) * (- V ^ 2 * C * (S * Mx - C * My) - M ^ 2 / T * My)); [field; split; lra|]. rewrite HV.
    transitivity (rho * M / T ^ 2 * (- C * (S * Mx - C * My) - (S * S + C * C) * My)); [rewrite SC; field; split; lra|].
    transitivity (rho * M / T ^ 2 * (- S) * (Mx * C + My * S)); [field; lra|]. rewrite E. ring.
Qed.
End State.

Definition near2 (r x y x' y' : R) : Prop := Rabs (x' - x) < r /\ Rabs (y' - y) < r.
Lemma near_x r x y (P : R -> R -> Prop) : 0 < r -> (forall x' y', near2 r x y x' y' -> P x' y') -> locally x (fun t => P t y).
Proof. intros Hr H. exists (mkposreal r Hr). intros t Ht. apply H. split; [exact Ht|rewrite Rminus_diag_eq, Rabs_R0 by reflexivity; exact Hr]. Qed.
Lemma near_y r x y (P : R -> R -> Prop) : 0 < r -> (forall x' y', near2 r x y x' y' -> P x' y') -> locally y (fun t => P x t).
Proof. intros Hr H. exists (mkposreal r Hr). intros t Ht. apply H. split; [rewrite Rminus_diag_eq, Rabs_R0 by reflexivity; exact Hr|exact Ht]. Qed.
Lemma simple_wave g om0 mach dir x y Mx My r : 1 < g -> 1 < mach x y -> 0 < r -> (forall x' y', near2 r x y x' y' -> dir x' y' = om0 - pm g (mach x' y')) ->
  partial_x mach x y Mx -> partial_y mach x y My ->
  Mx * cos (rad (dir x y + mua (mach x y))) + My * sin (rad (dir x y + mua (mach x y))) = 0 ->
  steady_euler g dir mach x y.
Proof.
  intros Hg HM Hr Hd Dx Dy E. set (M := mach x y) in *.
  assert (Hd0 : dir x y = om0 - pm g M) by (apply Hd; split; rewrite Rminus_diag_eq, Rabs_R0 by reflexivity; exact Hr).
  rewrite Hd0, rad_add in E.
  assert (CX : forall F d, is_derive F M d -> partial_x (fun x y => F (mach x y)) x y (d * Mx)).
  { intros F d HF. unfold partial_x in *. apply is_derive_Reals. evar_last.
    - apply (is_derive_comp F (fun t => mach t y)); [exact HF|apply is_derive_Reals; exact Dx].
    - unfold scal; cbn; unfold mult; cbn. ring. }
  assert (CY : forall F d, is_derive F M d -> partial_y (fun x y => F (mach x y)) x y (d * My)).
  { intros F d HF. unfold partial_y in *. apply is_derive_Reals. evar_last.
    - apply (is_derive_comp F (fun t => mach x t)); [exact HF|apply is_derive_Reals; exact Dy].
    - unfold scal; cbn; unfold mult; cbn. ring. }
  destruct (u_D g om0 M Hg HM) as [Du Dv]. pose proof (density_D g M Hg HM) as Dr. pose proof (pressure_D g M Hg HM) as Dp.
  destruct (wave_algebra g om0 M Hg HM Mx My E) as [A1 [A2 A3]].
  unfold steady_euler. cbv zeta.
  eexists _, _, _, _, _, _, _, _.
  split; [split; [exact (CX _ _ Dr)|exact (CY _ _ Dr)]|].
  assert (EXT : forall (F : R -> R) d (G : R -> R -> R), (forall x' y', near2 r x y x' y' -> F (mach x' y') = G x' y') -> is_derive F M d -> partial_x G x y (d * Mx) /\ partial_y G x y (d * My)).
  { intros F d G HE HF. split.
    - unfold partial_x. apply is_derive_Reals. apply (is_derive_ext_loc (fun t => F (mach t y))); [apply (near_x r x y (fun a b => F (mach a b) = G a b) Hr HE)|].
      apply is_derive_Reals. exact (CX F d HF).
    - unfold partial_y. apply is_derive_Reals. apply (is_derive_ext_loc (fun t => F (mach x t))); [apply (near_y r x y (fun a b => F (mach a b) = G a b) Hr HE)|].
      apply is_derive_Reals. exact (CY F d HF). }
  split; [apply (EXT _ _ _ (fun x y Hn => f_equal2 Rmult eq_refl (f_equal (fun d => cos (rd d)) (eq_sym (Hd x y Hn)))) Du)|].
  split; [apply (EXT _ _ _ (fun x y Hn => f_equal2 Rmult eq_refl (f_equal (fun d => sin (rd d)) (eq_sym (Hd x y Hn)))) Dv)|].
  split; [split; [exact (CX _ _ Dp)|exact (CY _ _ Dp)]|].
  rewrite Hd0. fold M. rewrite rd_rad. split; [exact A1|]. split; [exact A2|exact A3].
Qed.

(** ** the walls and their angle *)
(*@P C90_wall_angle: The wall angle of the notebook, for every wall which is a differentiable curve: it is the angle, strictly between -90 and 90 degrees, of the tangent of the wall at some point less than 1e-4 away. *)
Lemma wall_angle_tangent : forall ywall yw dyw x, (forall s, ywall (Some s) = Some (yw s)) ->
  (forall s, x - 1/10000 <= s <= x + 1/10000 -> derivable_pt_lim yw s (dyw s)) ->
  exists a xi, wall_angle ywall (Some x) = Some a /\ -90 < a < 90 /\ x - 1/10000 < xi < x + 1/10000 /\ tan (rd a) = dyw xi.
Proof.
  intros ywall yw dyw x HE HD.
  destruct (MVT_cor2 yw dyw (x - 1/10000) (x + 1/10000) ltac:(lra) HD) as [xi [EV Hxi]].
  exists (deg (atan (dyw xi))), xi. unfold wall_angle, wall_eps. ncbn. rewrite !HE. ncbn. rewrite ndiv_Some by lra. rewrite datan_eval. split.
  { do 3 f_equal. rewrite EV. field. }
  split; [|split; [exact Hxi|rewrite rd_rad, rad_deg; apply tan_atan]].
  pose proof (atan_bound (dyw xi)) as [B1 B2]. split.
  - replace (-90) with (deg (- (PI / 2))) by (rewrite deg_opp, deg_PI2; ring). apply deg_lt. lra.
  - rewrite <- deg_PI2. apply deg_lt. lra.
Qed.

Definition sqp (x : R) : R := Rmax 0 x ^ 2.
Lemma sqp_D x : derivable_pt_lim sqp x (2 * Rmax 0 x).
Proof.
  intros e He. exists (mkposreal e He). intros h Hh Hb. cbn [pos] in Hb.
  assert (K : Rabs (sqp (x + h) - sqp x - 2 * Rmax 0 x * h) <= h ^ 2).
  { unfold sqp, Rmax. repeat destruct Rle_dec; apply Rabs_le; nra. }
  replace ((sqp (x + h) - sqp x) / h - 2 * Rmax 0 x) with ((sqp (x + h) - sqp x - 2 * Rmax 0 x * h) / h) by (field; assumption).
  unfold Rdiv. rewrite Rabs_mult, Rabs_inv by assumption. assert (0 < Rabs h) by now apply Rabs_pos_lt.
  apply Rle_lt_trans with (Rabs h); [|exact Hb]. apply (Rmult_le_reg_r (Rabs h)); [assumption|].
  rewrite Rmult_assoc, Rinv_l, Rmult_1_r by lra. replace (Rabs h * Rabs h) with (h ^ 2) by (rewrite <- (pow2_abs h); ring). exact K.
Qed.
Definition rampf (ang x : R) : R := tan (rad ang) / 2 * (sqp x - sqp (x - 1)).
Lemma cos_wall a : -90 < a < 90 -> 0 < cos (rad a).
Proof.
  intros Ha. apply cos_gt_0; [replace (- (PI / 2)) with (rad (-90)) by (unfold rad; field)|rewrite <- rad_90]; apply rad_lt; lra.
Qed.
Lemma ramp_eval ang x : -90 < ang < 90 -> ywall_ramp (Some ang) (Some x) = Some (rampf ang x).
Proof.
  intros Ha. pose proof (cos_wall ang Ha). unfold ywall_ramp. rewrite dtan_eval by lra. set (t := tan (rad ang)).
  unfold nlt, rampf, sqp, nif. fold t. ncbn. rewrite ndiv_Some by lra. unfold Rmax.
  destruct (Rlt_dec x 0); [|destruct (Rlt_dec x 1)]; repeat destruct Rle_dec; try lra; ncbn; f_equal; field.
Qed.
Lemma rampf_D ang x : derivable_pt_lim (rampf ang) x (tan (rad ang) * Rmax 0 (Rmin x 1)).
Proof.
  unfold rampf. replace (tan (rad ang) * Rmax 0 (Rmin x 1)) with (tan (rad ang) / 2 * (2 * Rmax 0 x - 2 * Rmax 0 (x - 1))).
  2:{ unfold Rmax, Rmin. repeat destruct Rle_dec; try lra; try (replace x with 1 by lra; field); field. }
  apply (derivable_pt_lim_scal (fun x => sqp x - sqp (x - 1))). apply (derivable_pt_lim_minus sqp (fun x => sqp (x - 1))); [apply sqp_D|].
  replace (2 * Rmax 0 (x - 1)) with (2 * Rmax 0 (x - 1) * 1) by ring.
  apply (derivable_pt_lim_comp (fun x => x - 1) sqp); [|apply sqp_D]. apply is_derive_Reals. auto_derive; [exact I|ring].
Qed.
(*@P C90_walls: The walls of the notebook are defined everywhere and differentiable everywhere, including at the ends of the curved part of the ramp. The bump is (1/10) exp(-4 x^2). The ramp of any angle in (-90, 90) is flat at height 0 for x <= 0, has the slope tan(angle) x for 0 <= x <= 1, and is straight with the full angle from x = 1 on. *)
Lemma walls : (forall x, ywall_bump (Some x) = Some (1 / 10 * exp (- (4 * x ^ 2)))) /\
  (forall ang, -90 < ang < 90 -> exists yw, (forall x, ywall_ramp (Some ang) (Some x) = Some (yw x)) /\ (forall x, x <= 0 -> yw x = 0) /\
    forall x, derivable_pt_lim yw x (tan (rd ang) * Rmax 0 (Rmin x 1))).
Proof.
  split.
  - intros x. unfold ywall_bump. rewrite ndiv_Some by lra. ncbn. do 3 f_equal. field.
  - intros ang Ha. exists (rampf ang). split; [intros; now apply ramp_eval|]. split.
    + intros x Hx. unfold rampf, sqp, Rmax. repeat destruct Rle_dec; try lra; try (replace x with 0 by lra; field); field.
    + intros x. rewrite rd_rad. apply rampf_D.
Qed.
(*@P C90_ramp_angle: On the ramp the wall angle is exact: 0 for x <= -1e-4; with tangent tan(angle) x for 1e-4 <= x <= 1 - 1e-4; and the full angle for x >= 1 + 1e-4. *)
Lemma ramp_angle : forall ang x, -90 < ang < 90 ->
  (x <= - (1/10000) -> wall_angle (ywall_ramp (Some ang)) (Some x) = Some 0) /\
  (1/10000 <= x <= 1 - 1/10000 -> exists a, wall_angle (ywall_ramp (Some ang)) (Some x) = Some a /\ -90 < a < 90 /\ tan (rd a) = tan (rd ang) * x) /\
  (1 + 1/10000 <= x -> wall_angle (ywall_ramp (Some ang)) (Some x) = Some ang).
Proof.
  intros ang x Ha. unfold wall_angle, wall_eps. ncbn. rewrite !ramp_eval by assumption. ncbn. rewrite ndiv_Some by lra. rewrite datan_eval.
  assert (K : forall q, - (PI / 2) < q < PI / 2 -> -90 < deg q < 90).
  { intros q Hq. replace (-90) with (deg (- (PI / 2))) by (rewrite deg_opp, deg_PI2; ring). rewrite <- deg_PI2. split; apply deg_lt; lra. }
  assert (V : forall v v', (rampf ang (x + 1/10000) - rampf ang (x - 1/10000)) / (2 * (1/10000)) = v -> v = v' ->
     Some (deg (atan ((rampf ang (x + 1/10000) - rampf ang (x - 1/10000)) / (2 * (1/10000))))) = Some (deg (atan v'))) by (intros; congruence).
  set (t := tan (rad ang)). split; [|split].
  - intros Hx. rewrite (V _ 0 eq_refl); [now rewrite atan_0, deg_0|]. unfold rampf, sqp, Rmax. repeat destruct Rle_dec; try lra; try (replace x with (- (1/10000)) by lra; field); field.
  - intros Hx. exists (deg (atan (t * x))). split; [|split; [apply K; pose proof (atan_bound (t * x)); lra|rewrite !rd_rad, rad_deg; fold t; apply tan_atan]].
    apply (V _ _ eq_refl). unfold rampf, sqp, Rmax. fold t. repeat destruct Rle_dec; try lra; try (replace x with (1 - 1/10000) by lra; field); field.
  - intros Hx. rewrite (V _ t eq_refl).
    + unfold t. rewrite atan_tan; [now rewrite deg_rad|]. replace (- (PI / 2)) with (rad (-90)) by (unfold rad; field). rewrite <- rad_90.
      split; apply rad_lt; lra.
    + unfold rampf, sqp, Rmax. fold t. repeat destruct Rle_dec; try lra; try (replace x with (1 + 1/10000) by lra; field); field.
Qed.
(** ** the Mach number at the wall *)
(*@P C90_slip: At the wall the flow follows the wall: with a root finder of tolerance eps and any wall, wherever the Mach number at the wall is found and at least 1, the flow direction that flow_prop gives for it is the wall angle within eps. *)
Lemma wall_slip : forall newton eps g om0 ywall x m a, solves eps newton -> 1 < g -> 1 <= m ->
  mach_wall newton (Some g) (Some om0) ywall (Some x) = Some m -> wall_angle ywall (Some x) = Some a ->
  exists th, p_ang (wall_flow_prop (Some g) (Some om0) (Some m)) = Some th /\ Rabs (th - a) <= eps.
Proof.
  intros newton eps g om0 ywall x m a HN Hg Hm EM EA. unfold mach_wall in EM. rewrite EA in EM. change (nsub (Some om0) (Some a)) with (Some (om0 - a)) in EM.
  apply (Mach_PM_residual newton eps) in EM; [|assumption]. destruct EM as [w [Ew Hw]]. rewrite PM_eval in Ew by (try assumption; rewrite Rabs_pos_eq; lra).
  injection Ew as <-. rewrite wfp_eval by assumption. eexists. split; [reflexivity|]. cbn [p_ang].
  replace (om0 - pm g m - a) with (- (pm g m - (om0 - a))) by ring. now rewrite Rabs_Ropp.
Qed.
Lemma mach_loop_last fuel newton fsolve g om0 ywall x y : forall m mw r, mach_loop fuel newton fsolve g om0 ywall x y m mw = Some r ->
  (ngt (nabs (nsub m mw)) (Some (1/1000000)) = Some false /\ r = r /\ m = Some r) \/
  exists m' mw' xw, mach_turn newton fsolve g om0 ywall x y m' = (Some r, mw', xw) /\ ngt (nabs (nsub (Some r) mw')) (Some (1/1000000)) = Some false.
Proof.
  induction fuel as [|fuel IH]; intros m mw r; cbn [mach_loop]; destruct (ngt (nabs (nsub m mw)) (Some (1/1000000))) as [[|]|] eqn:EG; try discriminate.
  - intros ->. left. auto.
  - destruct (mach_turn newton fsolve g om0 ywall x y m) as [[m1 mw1] xw] eqn:ET. intros H. apply IH in H. destruct H as [[H1 [_ ->]]|H]; [|now right].
    right. now exists m, mw1, xw.
  - intros ->. left. auto.
Qed.

(*@P C90_residual: What mach(x, y) returns, for every wall, point and start M0 >= 1, when its loop ends, with root finders of tolerances eps (Prandtl-Meyer) and eps' (foot): the mean m of two Mach numbers m' and mw less than 2e-6 apart; the straight line through (x, y) of slope tan(C+), C+ being the characteristic angle that flow_prop gives for m', meets the wall at the foot xw with residual at most eps'; and mw is the Mach number at the wall there: its Prandtl-Meyer angle is om0 minus the wall angle within eps. *)
Lemma mach_residual : forall fuel newton fsolve eps eps' g M0 om0 ywall yw x y m, solves eps newton -> solves eps' fsolve -> 1 <= M0 ->
  ywall None = None -> (forall s, ywall (Some s) = Some (yw s)) ->
  mach_at fuel newton fsolve (Some g) (Some M0) (Some om0) ywall (Some x) (Some y) = Some m ->
  exists m' mw xw a w c, m = (m' + mw) / 2 /\ Rabs (m' - mw) <= 2 / 1000000 /\
    p_plus (wall_flow_prop (Some g) (Some om0) (Some m')) = Some c /\ Rabs (y - yw xw + tan (rd c) * (xw - x)) <= eps' /\
    wall_angle ywall (Some xw) = Some a /\ PrandtlMeyer_Mach (Some mw) (Some g) = Some w /\ Rabs (w - (om0 - a)) <= eps.
Proof.
  intros fuel newton fsolve eps eps' g M0 om0 ywall yw x y m HN HF H0 HNone HY E. unfold mach_at in E. apply mach_loop_last in E.
  destruct E as [[E _]|E].
  { exfalso. unfold ngt, nlt in E. cbn in E. rewrite Rminus_0_r, Rabs_pos_eq in E by lra. destruct Rlt_dec; [discriminate|lra]. }
  destruct E as [m' [mw [xw [ET EG]]]]. unfold mach_turn in ET. cbv zeta in ET.
  destruct m' as [m'|].
  2:{ exfalso. apply (f_equal (fun p => fst (fst p))) in ET. discriminate. }
  set (thp := nadd (nsub (Some om0) (PrandtlMeyer_Mach (Some m') (Some g))) (dasin (ndiv (Some 1) (Some m')))) in *.
  set (f := fun xw => nadd (nsub (Some y) (ywall xw)) (nmul (dtan thp) (nsub xw (Some x)))) in *.
  match type of ET with (_, mach_wall _ _ _ _ ?F, _) = _ => set (xf := F) in * end.
  pose proof (f_equal (fun p => fst (fst p)) ET) as E1. pose proof (f_equal (fun p => snd (fst p)) ET) as E2. cbn [fst snd] in E1, E2. clear ET.
  rewrite E2 in E1.
  assert (Emw : exists r, mw = Some r). { destruct mw as [r|]; [eauto|]. discriminate. }
  destruct Emw as [mwr ->].
  destruct xf as [xr|] eqn:EX.
  2:{ exfalso. unfold mach_wall, Mach_PrandtlMeyer in E2. apply HN in E2. destruct E2 as [e [Ee _]]. unfold wall_angle in Ee.
      change (nadd None wall_eps) with (@None R) in Ee. change (nsub None wall_eps) with (@None R) in Ee. rewrite HNone in Ee.
      change (nsub (PrandtlMeyer_Mach (Some mwr) (Some g)) None = Some e) in Ee. destruct (PrandtlMeyer_Mach (Some mwr) (Some g)); discriminate Ee. }
  unfold xf in EX. apply HF in EX. destruct EX as [e [Ee He]].
  unfold mach_wall in E2. destruct (wall_angle ywall (Some xr)) as [a|] eqn:EA.
  2:{ exfalso. unfold Mach_PrandtlMeyer in E2. apply HN in E2. destruct E2 as [e' [Ee' _]]. change (nsub (PrandtlMeyer_Mach (Some mwr) (Some g)) None = Some e') in Ee'. destruct (PrandtlMeyer_Mach (Some mwr) (Some g)); discriminate Ee'. }
  apply (Mach_PM_residual newton eps) in E2; [|assumption]. destruct E2 as [w [Ew Hw]].
  assert (Et : exists t, dtan thp = Some t /\ Rabs (y - yw xr + t * (xr - x)) <= eps').
  { change (nadd (nsub (Some y) (ywall (Some xr))) (nmul (dtan thp) (nsub (Some xr) (Some x))) = Some e) in Ee. rewrite HY in Ee.
    destruct (dtan thp) as [t|]; [|discriminate Ee]. exists t. split; [reflexivity|]. cbn in Ee. injection Ee as Ee. rewrite Ee. exact He. }
  destruct Et as [t [Et Ht]].
  assert (EC : exists c, thp = Some c /\ t = tan (rad c)).
  { destruct thp as [c|]; [|discriminate Et]. exists c. split; [reflexivity|]. unfold dtan, ntan, nradians in Et. cbn in Et.
    destruct Req_EM_T in Et; [discriminate|]. injection Et as <-. unfold rad. reflexivity. }
  destruct EC as [c [EC ->]].
  exists m', mwr, xr, a, w, c.
  cbn in E1. injection E1 as E1. rewrite <- E1 in EG |- *. split; [field|]. split.
  { unfold ngt, nlt in EG. cbn in EG. destruct Rlt_dec as [|H]; [discriminate|]. apply Rnot_lt_le in H.
    replace (m' - mwr) with (2 * (1 / 2 * (m' + mwr) - mwr)) by field. rewrite Rabs_mult, (Rabs_pos_eq 2) by lra. lra. }
  split; [exact EC|]. split.
  { rewrite rd_rad. exact Ht. }
  split; [exact EA|]. split; [exact Ew|exact Hw].
Qed.
