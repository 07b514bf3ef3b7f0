(** * C96: the choked guide vane of notebooks/Riemann-GuideVane.py *)
From Verif Require Import L_Num Spec NumSpec M_Isentropic M_Degree M_MassFlow M_ShockWave M_Model1D M_Unsteady1D M_Riemann M_GuideVane L_Isentropic L_Degree L_MassFlow L_Shock L_Model1D L_Unsteady L_Riemann1 L_Riemann2 L_Oblique NozzleSpec L_Nozzle1.
Open Scope R_scope.

Notation air := (14/10).
Definition PP (M : R) : R := Rpower (tt air M) (air / (air - 1)).
Lemma PP_pos M : 0 < PP M. Proof. apply Rpower_pos. Qed.
Lemma PP_eval M : PtPs_Mach (Some M) dgamma = Some (PP M).
Proof. apply PtPs_eval; lra. Qed.
Definition gp0 (M p0c : R) : R := p0c * PP 1 / PP M.
Definition gpt (p0c : R) : R := p0c * PP 1.
Definition grt (M p0c : R) : R := gp0 M p0c * tt air M.
Lemma gp0_pos M p0c : 0 < p0c -> 0 < gp0 M p0c.
Proof. intros. pose proof (PP_pos 1). pose proof (PP_pos M). unfold gp0. pos. Qed.
Lemma gpt_pos p0c : 0 < p0c -> 0 < gpt p0c.
Proof. intros. pose proof (PP_pos 1). unfold gpt. pos. Qed.
Lemma grt_pos M p0c : 0 < p0c -> 0 < grt M p0c.
Proof. intros. pose proof (gp0_pos M p0c H). pose proof (tt_pos air M ltac:(lra)). unfold grt. pos. Qed.

Lemma q0_eval M p0c : 0 < p0c -> gv_q0 (Some M) (Some p0c) = obj air (tq air (gpt p0c) (grt M p0c) M).
Proof.
  intros Hp. pose proof (gp0_pos M p0c Hp) as H0. pose proof (tt_pos air M ltac:(lra)) as Ht.
  assert (E : gv_p0 (Some M) (Some p0c) = Some (gp0 M p0c)).
  { unfold gv_p0, gv_Pt0. rewrite !PP_eval. ncbn. rewrite ndiv_Some by (apply Rgt_not_eq, PP_pos). reflexivity. }
  unfold gv_q0. rewrite E. unfold gv_gam, state_init. ncbn. rewrite ndiv_Some by lra.
  rewrite nsqrt_Some by (apply Rlt_le; pos). ncbn. unfold obj, tq. cbn [f_rho f_u f_p]. fold (PP M).
  assert (E1 : gpt p0c / PP M = gp0 M p0c) by reflexivity. rewrite E1.
  assert (E2 : grt M p0c / tt air M = gp0 M p0c) by (unfold grt; field; lra). rewrite E2.
  unfold dgamma. f_equal; f_equal; [|]; try (field; lra). f_equal. f_equal. field.
Qed.
Lemma q1f_eval M p0c r : 0 < p0c -> 0 < r ->
  gv_q1f (gv_q0 (Some M) (Some p0c)) (Some r) = obj air (tq air (gpt p0c * r) (grt M p0c) M).
Proof.
  intros Hp Hr. rewrite q0_eval by assumption. pose proof (grt_pos M p0c Hp). pose proof (tt_pos air M ltac:(lra)).
  unfold gv_q1f, obj, state_init, tq. cbn [st_rho st_u st_p f_rho f_u f_p]. ncbn. fold (PP M). pose proof (PP_pos M).
  unfold dgamma. f_equal; f_equal; field; lra.
Qed.
Definition m10 (M r : R) : R := sqrt ((Rpower (PP M * r) ((air - 1) / air) - 1) * 2 / (air - 1)).
Lemma PP_ge1 M : 1 <= PP M.
Proof. unfold PP. apply Rpower_ge_1; [apply tt_ge_1; lra|apply exp_pos_gg; lra]. Qed.
Lemma m10_PP M r : 1 <= PP M * r -> PP (m10 M r) = PP M * r.
Proof.
  intros H. unfold PP at 1, m10. rewrite tt_Mach_TtTs; [|lra|apply Rpower_ge_1; [exact H|apply exp_pos_gi; lra]].
  apply Rpower_inv_exp; [lra|apply gi_inv; lra].
Qed.
Lemma m10_pos M r : 0 <= m10 M r. Proof. apply sqrt_pos. Qed.
Lemma m10_gt M r : 0 <= M -> 1 < r -> M < m10 M r.
Proof.
  intros HM Hr. pose proof (PP_ge1 M) as H1. assert (H : 1 <= PP M * r) by nra. pose proof (m10_PP M r H) as E. pose proof (m10_pos M r).
  apply Rnot_le_lt. intros L.
  assert (PP (m10 M r) <= PP M).
  { unfold PP. pose proof (tt_pos air (m10 M r) ltac:(lra)). apply Rle_Rpower_l; [left; apply exp_pos_gg; lra|]. split; [exact H2|]. unfold tt. nra. }
  nra.
Qed.
Lemma tt_of_p pt rtt M : f_p (tq air pt rtt M) = pt / PP M. Proof. reflexivity. Qed.
Lemma q10_eval M p0c r : 0 < p0c -> 1 <= PP M * r ->
  gv_q10 (Some M) (gv_q0 (Some M) (Some p0c)) (Some r) = obj air (tq air (gpt p0c * r) (grt M p0c) (m10 M r)) /\
  gv_M10 (gv_q0 (Some M) (Some p0c)) (Some r) = Some (m10 M r).
Proof.
  intros Hp Hr. rewrite q0_eval by assumption. pose proof (grt_pos M p0c Hp) as Hg. pose proof (gpt_pos p0c Hp) as Hpt. pose proof (gp0_pos M p0c Hp) as H0.
  pose proof (tt_pos air M ltac:(lra)) as Ht. pose proof (tt_pos air (m10 M r) ltac:(lra)) as Ht1. pose proof (PP_pos M) as HP. pose proof (PP_pos (m10 M r)) as HP1.
  destruct (tq_total air (gpt p0c) (grt M p0c) M ltac:(lra) Hpt Hg) as (_ & EP & _).
  assert (E10 : gv_M10 (obj air (tq air (gpt p0c) (grt M p0c) M)) (Some r) = Some (m10 M r)).
  { unfold gv_M10. rewrite EP. unfold obj, st_p, tq at 1. cbn [f_p]. fold (PP M). ncbn. rewrite ndiv_Some by (apply Rgt_not_eq; pos).
    replace (gpt p0c * r / (gpt p0c / PP M)) with (PP M * r) by (field; lra). unfold dgamma. rewrite Mach_PtPs_eval; [reflexivity|lra|exact Hr]. }
  split; [|exact E10].
  assert (Ep : gpt p0c * r / PP (m10 M r) = gp0 M p0c) by (rewrite m10_PP by exact Hr; unfold gpt, gp0; field; split; [lra|]; intros ->; lra).
  assert (Hrho : f_rho (tq air (gpt p0c) (grt M p0c) M) = 1).
  { unfold tq. cbn [f_rho]. fold (PP M). unfold grt, gpt, gp0. pose proof (PP_pos 1). field. lra. }
  set (Q := obj air (tq air (gpt p0c) (grt M p0c) M)) in *.
  assert (X : nsqrt (Some (air * (gp0 M p0c) / (gp0 M p0c / (gp0 M p0c * tt air M / tt air (m10 M r))))) = Some (sqrt (air * (grt M p0c / tt air (m10 M r))))).
  { rewrite nsqrt_Some by (apply Rlt_le; pos). f_equal. f_equal. unfold grt. field. lra. }
  assert (Y : ndiv (nmul (ndiv (st_p Q) (st_rho Q)) (Some (tt air M))) (Some (tt air (m10 M r))) = Some (gp0 M p0c * tt air M / tt air (m10 M r))).
  { unfold Q, obj. cbn [st_p st_rho]. rewrite Hrho, tt_of_p, ndiv_Some by lra. ncbn. rewrite ndiv_Some by lra. f_equal. unfold gp0, gpt. field. lra. }
  unfold gv_q10. rewrite E10. cbv zeta. rewrite EP, PP_eval. unfold dgamma. rewrite !TtTs_eval, Y.
  assert (Z : ndiv (nmul (Some (gpt p0c)) (Some r)) (Some (PP (m10 M r))) = Some (gp0 M p0c)) by (ncbn; rewrite ndiv_Some by lra; now rewrite Ep).
  rewrite Z. rewrite !(ndiv_Some (gp0 M p0c)) by (apply Rgt_not_eq; pos). unfold gv_gam.
  assert (W : ndiv (nmul (Some air) (Some (gp0 M p0c))) (Some (gp0 M p0c / (gp0 M p0c * tt air M / tt air (m10 M r)))) = Some (air * gp0 M p0c / (gp0 M p0c / (gp0 M p0c * tt air M / tt air (m10 M r))))) by (ncbn; rewrite ndiv_Some by (apply Rgt_not_eq; pos); reflexivity).
  rewrite W, X. ncbn. unfold state_init, obj, tq. cbn [f_rho f_u f_p]. fold (PP (m10 M r)). rewrite Ep. reflexivity.
Qed.
Lemma tq_mass pt rtt M : 0 < pt -> 0 < rtt -> f_rho (tq air pt rtt M) * f_u (tq air pt rtt M) = pt / sqrt rtt * wmf air M.
Proof.
  intros Hp Hr. pose proof (tt_pos air M ltac:(lra)) as Ht. pose proof (PP_pos M). assert (HT : 0 < rtt / tt air M) by pos.
  rewrite <- (wmf_physical air 1 M (pt / PP M) (rtt / tt air M)) by (lra || pos).
  unfold sound. rewrite !Rmult_1_l, Rmult_1_r. replace (tt air M * (rtt / tt air M)) with rtt by (field; lra).
  fold (PP M). unfold tq. cbn [f_rho f_u]. fold (PP M). assert (0 < sqrt rtt) by (now apply sqrt_lt_R0). field. repeat split; lra.
Qed.
Lemma state_of_totals q pt rtt M : positive_state q -> M_Model1D.Mach (obj air q) = Some M -> Ptot (obj air q) = Some pt -> rTtot (obj air q) = Some rtt ->
  q = tq air pt rtt M.
Proof.
  intros Hq E1 E2 E3. rewrite Mach_eval in E1 by (lra || assumption). rewrite Ptot_eval in E2 by (lra || assumption). rewrite rTtot_eval, rTt_tt in E3 by (lra || assumption).
  apply Some_inj in E1, E2, E3. rewrite E1 in *. fold (PP M) in E2. pose proof (tt_pos air M ltac:(lra)) as Ht. pose proof (PP_pos M).
  pose proof (sound_pos air q ltac:(lra) Hq) as Ha. destruct Hq as [Hr Hp].
  assert (Ep : pt / PP M = f_p q) by (rewrite <- E2; field; lra).
  assert (Er : rtt / tt air M = f_p q / f_rho q) by (rewrite <- E3; field; lra).
  unfold tq. fold (PP M). rewrite Ep, Er. destruct q as [rh u p]; cbn [f_rho f_u f_p] in *. f_equal.
  - field. lra.
  - rewrite <- E1. unfold flow_sound in *. cbn [f_rho f_p] in *. replace (air * (p / rh)) with (air * p / rh) by (field; lra). field. lra.
Qed.

(*@P C96_upstream: For every vane angle between -90 and 90 degrees, every throat pressure and every exact root finder: the upstream Mach number is positive, the upstream state has that Mach number, and a sonic throat flow with the same total pressure and total temperature (there is one, and it has the given throat pressure) carries exactly the same mass flow once its section is reduced by the cosine of the angle: the vane is choked. *)
Lemma gv_upstream : forall newton alpha p0c M, solves 0 newton -> -90 < alpha < 90 -> 0 < p0c ->
  gv_M0 newton (Some alpha) = Some M ->
  0 < M /\ exists q pt rtt, gv_q0 (Some M) (Some p0c) = obj (14/10) q /\ positive_state q /\
    M_Model1D.Mach (obj (14/10) q) = Some M /\ Ptot (obj (14/10) q) = Some pt /\ rTtot (obj (14/10) q) = Some rtt /\
    (exists qc, positive_state qc /\ M_Model1D.Mach (obj (14/10) qc) = Some 1 /\ Ptot (obj (14/10) qc) = Some pt /\ rTtot (obj (14/10) qc) = Some rtt) /\
    (forall qc, positive_state qc -> M_Model1D.Mach (obj (14/10) qc) = Some 1 -> Ptot (obj (14/10) qc) = Some pt -> rTtot (obj (14/10) qc) = Some rtt ->
      f_p qc = p0c /\ f_rho q * f_u q = cos (alpha * (PI / 180)) * (f_rho qc * f_u qc)).
Proof.
  intros newton al p0c M Hn Ha Hp E. fold (rad al).
  assert (Hc : 0 < cos (rad al)).
  { apply cos_gt_0; unfold rad; pose proof PI_RGT_0; nra. }
  unfold gv_M0, gv_AoAc in E. rewrite dcos_eval in E. unfold dgamma in E. rewrite (ndiv_Some 1) in E by lra.
  destruct (Mach_Sigma_residual newton 0 _ _ _ Hn (or_intror (or_intror (ex_intro _ _ E)))) as (s & Es & Hs).
  assert (s = 1 / cos (rad al)).
  { pose proof (Rabs_pos (s - 1 / cos (rad al))). destruct (Req_dec (s - 1 / cos (rad al)) 0) as [z|z]; [lra|]. pose proof (Rabs_pos_lt _ z); lra. }
  subst s.
  assert (HM : 0 < M).
  { unfold Sigma_Mach in Es. change (nadd (Some 1) (nmul (nmul (Some (1/2)) (nsub (Some air) (Some 1))) (npowi (Some M) 2))) with (Some (tt air M)) in Es.
    change (nadd (Some air) (Some 1)) with (Some (air + 1)) in Es. change (nsub (Some air) (Some 1)) with (Some (air - 1)) in Es.
    rewrite (ndiv_Some 2) in Es by lra. pose proof (tt_pos air M ltac:(lra)). ncbn. rewrite (ndiv_Some (1/2 * (air + 1))) in Es by lra.
    rewrite npow_Some in Es by pos. set (P := Rpower _ _) in Es. assert (HP : 0 < P) by apply Rpower_pos.
    destruct (Req_dec M 0) as [h|h]; [rewrite (ndiv_zero _ M h) in Es; discriminate|].
    rewrite ndiv_Some in Es by assumption. apply Some_inj in Es. destruct (Rlt_dec 0 M) as [k|k]; [exact k|exfalso].
    assert (0 < 1 / cos (rad al)) by pos. assert (0 < - M) by lra. assert (0 < P / - M) by pos.
    replace (P / - M) with (- (P / M)) in H2 by (field; lra). lra. }
  split; [exact HM|]. rewrite Sigma_eval in Es by lra. apply Some_inj in Es. rewrite sig_wmf in Es by lra.
  pose proof (gpt_pos p0c Hp) as Hpt. pose proof (grt_pos M p0c Hp) as Hg. rewrite q0_eval by assumption.
  exists (tq air (gpt p0c) (grt M p0c) M), (gpt p0c), (grt M p0c).
  destruct (tq_total air (gpt p0c) (grt M p0c) M ltac:(lra) Hpt Hg) as (T1 & T2 & T3).
  split; [reflexivity|]. split; [apply tq_pos; lra|]. split; [exact T1|]. split; [exact T2|]. split; [exact T3|]. split.
  - exists (tq air (gpt p0c) (grt M p0c) 1). split; [apply tq_pos; lra|]. apply tq_total; lra.
  - intros qc Hq E1 E2 E3. pose proof (state_of_totals qc _ _ _ Hq E1 E2 E3) as ->. split.
    + rewrite tt_of_p. unfold gpt. pose proof (PP_pos 1). field. lra.
    + rewrite !tq_mass by assumption. pose proof (wmf_pos air M ltac:(lra) HM). assert (E4 : wmf air 1 * cos (rad al) = wmf air M).
      { replace (wmf air 1) with (wmf air 1 / wmf air M * wmf air M) by (field; lra). rewrite Es. field. lra. }
      rewrite <- E4. field. apply Rgt_not_eq, sqrt_lt_R0. exact Hg.
Qed.

(*@P C96_subsonic: With a root finder that stays on the side of Mach 1 it starts from: for every vane angle strictly between -90 and 90 degrees the upstream Mach number exists; it is 1 for a straight vane (angle 0) and strictly between 0 and 1 for every other angle - the flow upstream of the choked vane is subsonic. *)
Lemma gv_subsonic : forall newton alpha, branch_solver (14/10) newton -> -90 < alpha < 90 ->
  exists M, gv_M0 newton (Some alpha) = Some M /\ 0 < M /\ (alpha = 0 -> M = 1) /\ (alpha <> 0 -> M < 1).
Proof.
  intros newton al [HN _] Ha.
  assert (Hc : 0 < cos (rad al)). { apply cos_gt_0; unfold rad; pose proof PI_RGT_0; nra. }
  assert (Hs : 1 <= 1 / cos (rad al)).
  { apply (Rmult_le_reg_r (cos (rad al))); [exact Hc|]. match goal with |- _ <= ?a / ?b * ?b => replace (a / b * b) with a by (field; lra) end.
    pose proof (COS_bound (rad al)). lra. }
  destruct (HN _ (2/10) Hs ltac:(lra)) as (M & E & HM & ES & H1 & _). exists M. split.
  { unfold gv_M0, gv_AoAc, Mach_Sigma. rewrite dcos_eval, ndiv_Some by lra. exact E. }
  split; [exact HM|]. split.
  - intros ->. rewrite Sigma_eval in ES by lra. apply Some_inj in ES. apply (sig_sonic_unique air); [lra|exact HM|]. rewrite ES.
    unfold rad. rewrite Rmult_0_l, cos_0. lra.
  - intros N. apply H1; [|lra]. apply (Rmult_lt_reg_r (cos (rad al))); [exact Hc|].
    match goal with |- _ < ?a / ?b * ?b => replace (a / b * b) with a by (field; lra) end. rewrite Rmult_1_l.
    assert (C : forall t, 0 < t < PI / 2 -> cos t < 1). { intros t Ht. rewrite <- cos_0. pose proof PI_RGT_0. apply cos_decreasing_1; lra. }
    unfold rad in *. pose proof PI_RGT_0. destruct (Rlt_or_le 0 al) as [p|p].
    + apply C. split; [apply Rmult_lt_0_compat; lra|]. nra.
    + rewrite <- cos_neg. apply C. split; nra.
Qed.

(*@P C96_same_mach: The final state of the first hypothesis, for every Mach number, throat pressure and total pressure ratio r > 0: same Mach number and total temperature as upstream, total pressure and mass flow multiplied by r. *)
Lemma gv_same_mach : forall M p0c r, 0 < p0c -> 0 < r ->
  exists q q1 pt rtt, gv_q0 (Some M) (Some p0c) = obj (14/10) q /\ gv_q1f (obj (14/10) q) (Some r) = obj (14/10) q1 /\
    positive_state q /\ positive_state q1 /\
    Ptot (obj (14/10) q) = Some pt /\ Ptot (obj (14/10) q1) = Some (pt * r) /\
    M_Model1D.Mach (obj (14/10) q) = Some M /\ M_Model1D.Mach (obj (14/10) q1) = Some M /\
    rTtot (obj (14/10) q) = Some rtt /\ rTtot (obj (14/10) q1) = Some rtt /\
    f_rho q1 * f_u q1 = f_rho q * f_u q * r.
Proof.
  intros M p0c r Hp Hr. pose proof (gpt_pos p0c Hp) as Hpt. pose proof (grt_pos M p0c Hp) as Hg. assert (Hpr : 0 < gpt p0c * r) by pos.
  exists (tq air (gpt p0c) (grt M p0c) M), (tq air (gpt p0c * r) (grt M p0c) M), (gpt p0c), (grt M p0c).
  split; [now apply q0_eval|]. split; [rewrite <- q0_eval by assumption; now apply q1f_eval|].
  destruct (tq_total air (gpt p0c) (grt M p0c) M ltac:(lra) Hpt Hg) as (T1 & T2 & T3).
  destruct (tq_total air (gpt p0c * r) (grt M p0c) M ltac:(lra) Hpr Hg) as (U1 & U2 & U3).
  repeat (split; [first [exact T1|exact T2|exact T3|exact U1|exact U2|exact U3|apply tq_pos; lra]|]).
  rewrite !tq_mass by assumption. field. apply Rgt_not_eq, sqrt_lt_R0. exact Hg.
Qed.

Lemma tq_u_sq pt rtt M : 0 < rtt -> f_u (tq air pt rtt M) ^ 2 = 7 * rtt * (1 - / tt air M).
Proof.
  intros Hr. pose proof (tt_pos air M ltac:(lra)) as Ht. unfold tq. cbn [f_u]. rewrite Rpow_mult_distr, sq_sqrt by (apply Rlt_le; pos).
  unfold tt in *. field. lra.
Qed.
(*@P C96_same_pressure: The final state of the second hypothesis, for every positive Mach number, throat pressure and total pressure ratio r > 1: same static pressure and total temperature as upstream, total pressure multiplied by r, and both a higher Mach number (the one computed by the script) and a higher velocity. *)
Lemma gv_same_pressure : forall M p0c r, 0 < M -> 0 < p0c -> 1 < r ->
  exists q q1 pt rtt M1, gv_q0 (Some M) (Some p0c) = obj (14/10) q /\ gv_q10 (Some M) (obj (14/10) q) (Some r) = obj (14/10) q1 /\
    positive_state q /\ positive_state q1 /\ f_p q1 = f_p q /\
    Ptot (obj (14/10) q) = Some pt /\ Ptot (obj (14/10) q1) = Some (pt * r) /\
    gv_M10 (obj (14/10) q) (Some r) = Some M1 /\ M < M1 /\
    M_Model1D.Mach (obj (14/10) q) = Some M /\ M_Model1D.Mach (obj (14/10) q1) = Some M1 /\
    rTtot (obj (14/10) q) = Some rtt /\ rTtot (obj (14/10) q1) = Some rtt /\ 0 < f_u q < f_u q1.
Proof.
  intros M p0c r HM Hp Hr. pose proof (gpt_pos p0c Hp) as Hpt. pose proof (grt_pos M p0c Hp) as Hg. assert (Hpr : 0 < gpt p0c * r) by pos.
  pose proof (PP_ge1 M) as HP. assert (HPr : 1 <= PP M * r) by nra. pose proof (m10_gt M r ltac:(lra) Hr) as Hm.
  destruct (q10_eval M p0c r Hp HPr) as [E1 E2]. pose proof (m10_PP M r HPr) as E3.
  exists (tq air (gpt p0c) (grt M p0c) M), (tq air (gpt p0c * r) (grt M p0c) (m10 M r)), (gpt p0c), (grt M p0c), (m10 M r).
  split; [now apply q0_eval|]. rewrite q0_eval in E1, E2 by assumption. split; [exact E1|].
  destruct (tq_total air (gpt p0c) (grt M p0c) M ltac:(lra) Hpt Hg) as (T1 & T2 & T3).
  destruct (tq_total air (gpt p0c * r) (grt M p0c) (m10 M r) ltac:(lra) Hpr Hg) as (U1 & U2 & U3).
  split; [apply tq_pos; lra|]. split; [apply tq_pos; lra|]. split; [rewrite !tt_of_p, E3; field; lra|].
  split; [exact T2|]. split; [exact U2|]. split; [exact E2|]. split; [exact Hm|]. split; [exact T1|]. split; [exact U1|]. split; [exact T3|]. split; [exact U3|].
  pose proof (tt_pos air M ltac:(lra)) as Ht. pose proof (tt_incr air M (m10 M r) ltac:(lra) ltac:(lra) Hm) as Ht1.
  assert (P0 : 0 < f_u (tq air (gpt p0c) (grt M p0c) M)) by (unfold tq; cbn [f_u]; apply Rmult_lt_0_compat; [exact HM|apply sqrt_lt_R0; pos]).
  assert (P1 : 0 < f_u (tq air (gpt p0c * r) (grt M p0c) (m10 M r))) by (unfold tq; cbn [f_u]; apply Rmult_lt_0_compat; [lra|apply sqrt_lt_R0; pos]).
  split; [exact P0|]. apply Rsqr_incrst_0; [|lra|lra]. rewrite !Rsqr_pow2, !tq_u_sq by assumption.
  apply Rmult_lt_compat_l; [lra|]. assert (/ tt air (m10 M r) < / tt air M) by (apply Rinv_lt_contravar; [pos|exact Ht1]). lra.
Qed.

Lemma fK_zero g q : 1 < g -> positive_state q -> fK g q (f_p q) = 0.
Proof. intros Hg Hq. unfold fK. destruct (Rlt_dec (f_p q) (f_p q)); [lra|]. now apply exdu_0. Qed.
Lemma fK_sgn g q p : 1 < g -> positive_state q -> 0 < p -> (p < f_p q -> fK g q p < 0) /\ (f_p q < p -> 0 < fK g q p).
Proof.
  intros Hg Hq Hp. pose proof (fK_zero g q Hg Hq) as Z. split; intros H.
  - pose proof (fK_incr g q p (f_p q) Hg Hq Hp H). lra.
  - pose proof (fK_incr g q (f_p q) p Hg Hq (proj2 Hq) H). lra.
Qed.
Lemma riemann_ex g qL qR : 1 < g -> positive_state qL -> positive_state qR -> no_vacuum g g qL qR ->
  exists newton S, solves 0 newton /\ riemann_pb newton (obj g qL) (obj g qR) = Some S.
Proof.
  intros Hg HL HR Hv. destruct (star_pressure g g qL qR Hg Hg HL HR) as [[_ K] _]. destruct (K Hv) as (p & Hp & E).
  set (newton := fun (f : num -> num) (_ : num) => lazy_newton 0 f (Some p)).
  assert (En : newton (riemann_du (obj g qL) (obj g qR)) (pstar_estimate_expansion (obj g qL) (obj g qR)) = Some p).
  { unfold newton, lazy_newton. rewrite E. rewrite Rabs_R0. destruct (Rle_dec 0 0); [reflexivity|lra]. }
  pose proof E as Hd. rewrite riemann_du_eval in Hd by assumption. apply Some_inj in Hd. unfold duR in Hd.
  exists newton. unfold riemann_pb, uq_copy. rewrite En.
  assert (Eu : ustar_from_pstar (obj g qL) (obj g qR) (Some p) = Some (f_u qL - fK g qL p)).
  { unfold ustar_from_pstar. rewrite !delta_uK_eval by assumption. cbn [obj st_u]; ncbn. f_equal. lra. }
  rewrite Eu.
  assert (E1 : f_u qL - fK g qL p = f_u qL + -1 * fK g qL p) by lra.
  assert (E2 : f_u qL - fK g qL p = f_u qR + 1 * fK g qR p) by lra.
  pose proof (star_side_eval (-1) g qL p Hg HL Hp (or_intror eq_refl)) as SL.
  pose proof (star_side_eval 1 g qR p Hg HR Hp (or_introl eq_refl)) as SR.
  rewrite <- E1 in SL. rewrite <- E2 in SR. rewrite SL, SR. eexists. split; [|reflexivity].
  intros f x0 r Hr. apply (lazy_newton_solves 0 ltac:(lra) f (Some p) r Hr).
Qed.
Lemma no_vac g qL qR : 1 < g -> positive_state qL -> positive_state qR -> f_u qR <= f_u qL -> no_vacuum g g qL qR.
Proof.
  intros Hg HL HR H. unfold no_vacuum. pose proof (sound_pos g qL ltac:(lra) HL). pose proof (sound_pos g qR ltac:(lra) HR).
  assert (0 < 2 * flow_sound g qL / (g - 1)) by pos. assert (0 < 2 * flow_sound g qR / (g - 1)) by pos. lra.
Qed.

(*@P C96_first_problem: First hypothesis, for every positive Mach number, throat pressure, ratio r > 1 and exact root finder: whenever the Riemann problem is solved, the star pressure lies strictly between the upstream pressure and r times it, the star velocity is higher than the upstream one, the wave going to the vane is a Rankine-Hugoniot shock and the other an isentropic expansion; and the state left by the expansion has a Mach number strictly higher than the upstream Mach number, the only one the choked vane accepts: the imposed final state is not reached. *)
Lemma gv_first : forall newton M p0c r S, solves 0 newton -> 0 < M -> 0 < p0c -> 1 < r ->
  gv_pb1 newton (Some M) (Some p0c) (Some r) = Some S ->
  exists q p u rL rR w M',
    gv_q0 (Some M) (Some p0c) = obj (14/10) q /\ r_pstar S = Some p /\ r_ustar S = Some u /\
    f_p q < p < f_p q * r /\ f_u q < u /\
    r_qsL S = obj (14/10) (mkflow rL u p) /\ r_qsR S = obj (14/10) (mkflow rR u p) /\
    entropy_fn (14/10) (mkflow rL u p) = entropy_fn (14/10) (mkflow (f_rho q * r) (f_u q) (f_p q * r)) /\
    rankine_hugoniot (14/10) w q (mkflow rR u p) /\ r_w3 S = Some w /\ r_w4 S = Some w /\
    M_Model1D.Mach (r_qsL S) = Some M' /\ M < M'.
Proof.
  intros newton M p0c r S Hn HM Hp Hr E. pose proof (gpt_pos p0c Hp) as Hpt. pose proof (grt_pos M p0c Hp) as Hg. assert (Hpr : 0 < gpt p0c * r) by pos.
  unfold gv_pb1 in E. rewrite q1f_eval in E by lra. rewrite q0_eval in E |- * by assumption.
  set (q := tq air (gpt p0c) (grt M p0c) M) in *. set (q1 := tq air (gpt p0c * r) (grt M p0c) M) in *.
  assert (Hq : positive_state q) by (apply tq_pos; lra). assert (Hq1 : positive_state q1) by (apply tq_pos; lra).
  assert (Eu : f_u q1 = f_u q) by reflexivity. pose proof (PP_pos M) as HP. pose proof (tt_pos air M ltac:(lra)) as Ht.
  assert (Ep : f_p q1 = f_p q * r) by (unfold q, q1; rewrite !tt_of_p; field; lra).
  assert (Er : f_rho q1 = f_rho q * r) by (unfold q, q1, tq; cbn [f_rho]; fold (PP M); field; lra).
  assert (Hv : no_vacuum air air q1 q) by (apply no_vac; try assumption; lra).
  destruct (riemann_eval newton air air q1 q S Hn ltac:(lra) ltac:(lra) Hq1 Hq Hv E) as (p & Hp0 & Hd & ->). unfold duR in Hd. rewrite Eu in Hd.
  destruct (fK_sgn air q p ltac:(lra) Hq Hp0) as [A1 A2]. destruct (fK_sgn air q1 p ltac:(lra) Hq1 Hp0) as [B1 B2].
  pose proof (fK_zero air q ltac:(lra) Hq) as Z. pose proof (fK_zero air q1 ltac:(lra) Hq1) as Z1. pose proof (proj2 Hq) as Hpq.
  assert (H1 : f_p q < p).
  { destruct (Rtotal_order p (f_p q)) as [h|[h|h]]; [|rewrite h in *|exact h].
    - specialize (A1 h). rewrite Ep in B1. specialize (B1 ltac:(nra)). lra.
    - rewrite Ep in B1. specialize (B1 ltac:(nra)). lra. }
  specialize (A2 H1).
  assert (H2 : p < f_p q * r).
  { rewrite <- Ep. destruct (Rtotal_order p (f_p q1)) as [h|[h|h]]; [exact h|rewrite h in *; lra|specialize (B2 h); lra]. }
  pose proof (joined 1 air q p ltac:(lra) Hq Hp0 (or_introl eq_refl)) as J.
  pose proof (joined (-1) air q1 p ltac:(lra) Hq1 Hp0 (or_intror eq_refl)) as J1.
  destruct J as [(_ & J2 & J3)|(J2 & _)]; [|unfold sq in J2; cbn [f_p] in J2; lra].
  destruct J1 as [(J4 & _)|(_ & J4 & J5 & _)]; [unfold sq in J4; cbn [f_p] in J4; rewrite Ep in J4; lra|].
  pose proof (sq_pos (-1) air q1 p ltac:(lra) Hq1 Hp0) as HsL.
  assert (EM : f_u q / flow_sound air q1 = M) by (rewrite <- Eu; apply tq_Mach; lra).
  pose proof (sound_pos air q1 ltac:(lra) Hq1) as Ha1. pose proof (sound_pos air _ ltac:(lra) HsL) as Ha.
  exists q, p, (f_u q1 - fK air q1 p), (srho air q1 p), (srho air q p), (win 1 air q p), ((f_u q1 - fK air q1 p) / flow_sound air (sq (-1) air q1 p)).
  cbn [r_pstar r_ustar r_w3 r_w4 r_qsL r_qsR].
  assert (X1 : f_u q1 - fK air q1 p = f_u q1 + -1 * fK air q1 p) by lra.
  assert (X2 : f_u q1 - fK air q1 p = f_u q + 1 * fK air q p) by lra.
  split; [reflexivity|]. split; [reflexivity|]. split; [reflexivity|]. split; [lra|]. split; [lra|].
  split; [rewrite X1; reflexivity|]. split; [rewrite X2; reflexivity|].
  split. { rewrite X1. unfold sq in J4. rewrite J4. unfold entropy_fn. cbn [f_p f_rho]. now rewrite Ep, Er. }
  split. { rewrite X2. rewrite <- J2. exact J3. }
  split; [reflexivity|]. split; [now rewrite J2|].
  split. { rewrite Mach_eval by (lra || exact HsL). unfold sq at 1. cbn [f_u]. now rewrite X1. }
  unfold riemann_invariant in J5. unfold sq at 1 in J5. cbn [f_u] in J5.
  assert (Hlt : flow_sound air (sq (-1) air q1 p) < flow_sound air q1) by lra.
  assert (Hu : 0 < f_u q). { replace (f_u q) with (M * flow_sound air q1) by (rewrite <- EM; field; lra). pos. }
  rewrite <- EM. apply Rlt_trans with (f_u q / flow_sound air (sq (-1) air q1 p)).
  - unfold Rdiv. apply Rmult_lt_compat_l; [exact Hu|]. apply Rinv_lt_contravar; [pos|exact Hlt].
  - unfold Rdiv. apply Rmult_lt_compat_r; [now apply Rinv_0_lt_compat|lra].
Qed.

(*@P C96_second_problem: Second hypothesis, same quantifiers: the star pressure is higher than the common pressure, so that two shocks leave the interface, and the star velocity lies strictly between the upstream velocity and the imposed one. *)
Lemma gv_second : forall newton M p0c r S, solves 0 newton -> 0 < M -> 0 < p0c -> 1 < r ->
  gv_pb2 newton (Some M) (Some p0c) (Some r) = Some S ->
  exists q q1 p u rL rR wL wR,
    gv_q0 (Some M) (Some p0c) = obj (14/10) q /\ gv_q10 (Some M) (obj (14/10) q) (Some r) = obj (14/10) q1 /\
    r_pstar S = Some p /\ r_ustar S = Some u /\ f_p q < p /\ f_u q < u < f_u q1 /\
    r_qsL S = obj (14/10) (mkflow rL u p) /\ r_qsR S = obj (14/10) (mkflow rR u p) /\
    rankine_hugoniot (14/10) wL q1 (mkflow rL u p) /\ rankine_hugoniot (14/10) wR q (mkflow rR u p) /\
    r_w0 S = Some wL /\ r_w1 S = Some wL /\ r_w3 S = Some wR /\ r_w4 S = Some wR.
Proof.
  intros newton M p0c r S Hn HM Hp Hr E.
  destruct (gv_same_pressure M p0c r HM Hp Hr) as (q & q1 & pt & rtt & M1 & E0 & E1 & Hq & Hq1 & Ep & _ & _ & _ & _ & _ & _ & _ & _ & Hu).
  unfold gv_pb2 in E. rewrite E0, E1 in E.
  assert (Hv : no_vacuum air air q1 q) by (apply no_vac; try assumption; lra).
  destruct (riemann_eval newton air air q1 q S Hn ltac:(lra) ltac:(lra) Hq1 Hq Hv E) as (p & Hp0 & Hd & ->). unfold duR in Hd.
  destruct (fK_sgn air q p ltac:(lra) Hq Hp0) as [A1 A2]. destruct (fK_sgn air q1 p ltac:(lra) Hq1 Hp0) as [B1 B2]. rewrite Ep in B1, B2.
  pose proof (fK_zero air q ltac:(lra) Hq) as Z. pose proof (fK_zero air q1 ltac:(lra) Hq1) as Z1. rewrite Ep in Z1.
  assert (H1 : f_p q < p).
  { destruct (Rtotal_order p (f_p q)) as [h|[h|h]]; [specialize (A1 h); specialize (B1 h); lra|rewrite h in *; lra|exact h]. }
  specialize (A2 H1). specialize (B2 H1).
  pose proof (joined 1 air q p ltac:(lra) Hq Hp0 (or_introl eq_refl)) as J.
  pose proof (joined (-1) air q1 p ltac:(lra) Hq1 Hp0 (or_intror eq_refl)) as J1.
  destruct J as [(_ & J2 & J3)|(J2 & _)]; [|unfold sq in J2; cbn [f_p] in J2; lra].
  destruct J1 as [(_ & J4 & J5)|(J4 & _)]; [|unfold sq in J4; cbn [f_p] in J4; lra].
  exists q, q1, p, (f_u q1 - fK air q1 p), (srho air q1 p), (srho air q p), (win (-1) air q1 p), (win 1 air q p).
  cbn [r_pstar r_ustar r_w0 r_w1 r_w3 r_w4 r_qsL r_qsR].
  assert (X1 : f_u q1 - fK air q1 p = f_u q1 + -1 * fK air q1 p) by lra.
  assert (X2 : f_u q1 - fK air q1 p = f_u q + 1 * fK air q p) by lra.
  split; [exact E0|]. split; [exact E1|]. split; [reflexivity|]. split; [reflexivity|]. split; [exact H1|]. split; [lra|].
  split; [rewrite X1; reflexivity|]. split; [rewrite X2; reflexivity|].
  split. { rewrite X1. rewrite <- J4. exact J5. }
  split. { rewrite X2. rewrite <- J2. exact J3. }
  split; [now rewrite J4|]. split; [reflexivity|]. split; [reflexivity|now rewrite J2].
Qed.

(*@E C96_example: the script's own case (50 degrees, throat pressure 1e5, ratio 1.4) meets the hypotheses, with exact root finders, an upstream subsonic Mach number and solved problems; and there is a root finder that stays on the side of Mach 1 it starts from. *)
Lemma C96_ex : (exists nb, branch_solver (14/10) nb) /\ exists newton M n1 S1 n2 S2, solves 0 newton /\ solves 0 n1 /\ solves 0 n2 /\
  gv_M0 newton (Some 50) = Some M /\ 0 < M < 1 /\
  gv_pb1 n1 (Some M) (Some 100000) (Some (14/10)) = Some S1 /\ gv_pb2 n2 (Some M) (Some 100000) (Some (14/10)) = Some S2.
Proof.
  split; [apply branch_solver_exists; lra|].
  pose proof (rad_quadrant 50 ltac:(lra)) as Hq. destruct (quad_trig _ Hq) as (Hs & Hc & _).
  assert (Hs1 : 1 < 1 / cos (rad 50)).
  { assert (Hc1 : cos (rad 50) < 1) by (pose proof (sin2_cos2 (rad 50)); unfold Rsqr in *; nra).
    apply (Rmult_lt_reg_r (cos (rad 50))); [exact Hc|]. match goal with |- _ < ?a / ?b * ?b => replace (a / b * b) with a by (field; lra) end. lra. }
  destruct (sig_sub_exists air _ ltac:(lra) Hs1) as (M & HM & EM).
  destruct (gv_same_mach M 100000 (14/10) ltac:(lra) ltac:(lra)) as (q & q1 & pt & rtt & E0 & E1 & Pq & Pq1 & _).
  destruct (gv_same_pressure M 100000 (14/10) ltac:(lra) ltac:(lra) ltac:(lra)) as (q' & q2 & pt' & rtt' & M1 & E0' & E2 & Pq' & Pq2 & _ & _ & _ & _ & _ & _ & _ & _ & _ & Hu).
  assert (Hu1 : f_u q <= f_u q1).
  { pose proof E1 as K. unfold gv_q1f in K. apply (f_equal st_u) in K. unfold state_init, obj in K. cbn [st_u] in K. apply Some_inj in K. lra. }
  destruct (riemann_ex air q1 q ltac:(lra) Pq1 Pq (no_vac air q1 q ltac:(lra) Pq1 Pq Hu1)) as (n1 & S1 & Hn1 & ES1).
  destruct (riemann_ex air q2 q' ltac:(lra) Pq2 Pq' (no_vac air q2 q' ltac:(lra) Pq2 Pq' ltac:(lra))) as (n2 & S2 & Hn2 & ES2).
  exists (fun f _ => lazy_newton 0 f (Some M)), M, n1, S1, n2, S2.
  split; [intros f x0 r Hr; apply (lazy_newton_solves 0 ltac:(lra) f (Some M) r Hr)|]. split; [exact Hn1|]. split; [exact Hn2|]. split.
  - unfold gv_M0, gv_AoAc, Mach_Sigma, lazy_newton. rewrite dcos_eval, ndiv_Some by lra. unfold dgamma. rewrite Sigma_eval by lra. rewrite EM. ncbn.
    rewrite Rminus_diag_eq by reflexivity. rewrite Rabs_R0. destruct (Rle_dec 0 0); [reflexivity|lra].
  - split; [exact HM|]. split; [unfold gv_pb1; rewrite E0, E1; exact ES1|unfold gv_pb2; rewrite E0', E2; exact ES2].
Qed.
