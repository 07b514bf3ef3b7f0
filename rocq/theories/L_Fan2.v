From Coquelicot Require Import Coquelicot.
From Verif Require Import L_Num Spec NumSpec M_Degree M_IterSolve M_MassFlow M_Isentropic M_Supersonic M_Fan FanSpec L_Isentropic L_Degree L_Supersonic L_Fan.
Open Scope R_scope.

Lemma cos_atan_pos z : 0 < cos (atan z).
Proof. pose proof (atan_bound z). apply cos_gt_0; lra. Qed.
Lemma atan_x_derive F x y d : 0 < x -> is_derive F (atan (y / x)) d ->
  is_derive (fun t => F (atan (y / t))) x (d * (- y / (x ^ 2 + y ^ 2))).
Proof.
  intros Hx HF. evar_last.
  - apply (is_derive_comp F (fun t => atan (y / t))); [exact HF|]. auto_derive; [lra|reflexivity].
  - cbn. unfold scal; cbn; unfold mult; cbn. rewrite Rmult_comm. f_equal. unfold Rsqr. field. split; nra.
Qed.
Lemma atan_y_derive F x y d : 0 < x -> is_derive F (atan (y / x)) d ->
  is_derive (fun t => F (atan (t / x))) y (d * (x / (x ^ 2 + y ^ 2))).
Proof.
  intros Hx HF. evar_last.
  - apply (is_derive_comp F (fun t => atan (t / x))); [exact HF|]. auto_derive; [lra|reflexivity].
  - cbn. unfold scal; cbn; unfold mult; cbn. rewrite Rmult_comm. f_equal. unfold Rsqr. field. split; nra.
Qed.
(** a field that is a function of the polar angle on x > 0 *)
Definition conical (f : R -> R -> R) (F : R -> R) : Prop := forall x y, 0 < x -> f x y = F (atan (y / x)).
Lemma conical_px f F x y d : conical f F -> 0 < x -> is_derive F (atan (y / x)) d -> partial_x f x y (d * (- y / (x ^ 2 + y ^ 2))).
Proof.
  intros HC Hx HF. apply is_derive_Reals. apply is_derive_ext_loc with (fun t => F (atan (y / t))); [|now apply atan_x_derive].
  exists (mkposreal x Hx). intros t Ht. symmetry. apply HC. unfold ball in Ht; cbn in Ht; unfold AbsRing_ball, minus, plus, opp, abs in Ht; cbn in Ht.
  apply Rabs_def2 in Ht. lra.
Qed.
Lemma conical_py f F x y d : conical f F -> 0 < x -> is_derive F (atan (y / x)) d -> partial_y f x y (d * (x / (x ^ 2 + y ^ 2))).
Proof.
  intros HC Hx HF. apply is_derive_Reals. apply is_derive_ext with (fun t => F (atan (t / x))); [|now apply atan_y_derive].
  intros t. symmetry. now apply HC.
Qed.
Lemma conical_euler g dir mach D M x y r' u' v' p' :
  conical dir D -> conical mach M -> 0 < x ->
  let P := atan (y / x) in let s := sin P in let c := cos P in
  let rho := fun P => density g (M P) in let p := fun P => pressure g (M P) in
  let u := fun P => speed g (M P) * cos (rd (D P)) in let v := fun P => speed g (M P) * sin (rd (D P)) in
  is_derive rho P r' -> is_derive u P u' -> is_derive v P v' -> is_derive p P p' ->
  rho P * (- u' * s + v' * c) + (- u P * s + v P * c) * r' = 0 ->
  rho P * (- u P * s + v P * c) * u' - s * p' = 0 -> rho P * (- u P * s + v P * c) * v' + c * p' = 0 ->
  steady_euler g dir mach x y.
Proof.
  intros HD HM Hx P s c rho p u v Dr Du Dv Dp E1 E2 E3.
  assert (Hc : 0 < c) by apply cos_atan_pos.
  assert (Hy : y = x * s / c). { unfold s, c. transitivity (x * tan P); [unfold P; rewrite tan_atan; field; lra|unfold tan, c; field; apply Rgt_not_eq, Hc]. }
  set (R2 := x ^ 2 + y ^ 2). assert (HR : 0 < R2) by (unfold R2; nra). set (q := x / (c * R2)).
  assert (Qx : x / R2 = c * q) by (unfold q; field; split; lra). assert (Qy : - y / R2 = - s * q) by (unfold q; rewrite Hy at 1; field; split; lra).
  assert (Cr : conical (fun x y => density g (mach x y)) rho) by (intros a b Hab; unfold rho; now rewrite HM).
  assert (Cp : conical (fun x y => pressure g (mach x y)) p) by (intros a b Hab; unfold p; now rewrite HM).
  assert (Cu : conical (fun x y => speed g (mach x y) * cos (rd (dir x y))) u) by (intros a b Hab; unfold u; now rewrite HM, HD by assumption).
  assert (Cv : conical (fun x y => speed g (mach x y) * sin (rd (dir x y))) v) by (intros a b Hab; unfold v; now rewrite HM, HD by assumption).
  unfold steady_euler. cbv zeta.
  exists (r' * (- y / R2)), (r' * (x / R2)), (u' * (- y / R2)), (u' * (x / R2)), (v' * (- y / R2)), (v' * (x / R2)), (p' * (- y / R2)), (p' * (x / R2)).
  split; [split; [exact (conical_px _ _ x y r' Cr Hx Dr)|exact (conical_py _ _ x y r' Cr Hx Dr)]|].
  split; [split; [exact (conical_px _ _ x y u' Cu Hx Du)|exact (conical_py _ _ x y u' Cu Hx Du)]|].
  split; [split; [exact (conical_px _ _ x y v' Cv Hx Dv)|exact (conical_py _ _ x y v' Cv Hx Dv)]|].
  split; [split; [exact (conical_px _ _ x y p' Cp Hx Dp)|exact (conical_py _ _ x y p' Cp Hx Dp)]|].
  rewrite Qx, Qy. rewrite (HM x y Hx), (HD x y Hx). fold P. fold (rho P). fold (u P). fold (v P).
  split; [|split].
  - transitivity (q * (rho P * (- u' * s + v' * c) + (- u P * s + v P * c) * r')); [ring|rewrite E1; ring].
  - transitivity (q * (rho P * (- u P * s + v P * c) * u' - s * p')); [ring|rewrite E2; ring].
  - transitivity (q * (rho P * (- u P * s + v P * c) * v' + c * p')); [ring|rewrite E3; ring].
Qed.

(** ** inside the fan: closed forms; t = (T0 - P)/k *)
Lemma T_ratio_mf g t : 1 < g -> cos t <> 0 -> T_ratio g (mf g t) = 2 / (g + 1) * (cos t) ^ 2.
Proof.
  intros Hg Ht. unfold T_ratio. rewrite mf_sq, Rpow_mult_distr, cgm_sq by assumption. unfold tan.
  replace (1 + (g - 1) / 2 * ((g + 1) / (g - 1) * (sin t / cos t) ^ 2 + 1)) with ((g + 1) / 2 * ((sin t) ^ 2 + (cos t) ^ 2) / (cos t) ^ 2) by (field; split; lra).
  pose proof (sin2_cos2 t) as S. unfold Rsqr in S. replace ((sin t) ^ 2 + (cos t) ^ 2) with 1 by lra. field. split; lra.
Qed.
Definition Aa (g : R) : R := sqrt (2 / (g + 1)).
Lemma Aa_sq g : 1 < g -> Aa g ^ 2 = 2 / (g + 1). Proof. intros. apply sq_sqrt. left; pos. Qed.
Lemma Aa_pos g : 1 < g -> 0 < Aa g. Proof. intros. unfold Aa. pos. Qed.
Lemma sound_mf g t : 1 < g -> 0 < cos t -> sqrt (T_ratio g (mf g t)) = Aa g * cos t.
Proof.
  intros Hg Ht. rewrite T_ratio_mf by lra. rewrite <- (Aa_sq g Hg). replace (Aa g ^ 2 * cos t ^ 2) with ((Aa g * cos t) ^ 2) by ring.
  apply sqrt_sq. pose proof (Aa_pos g Hg). nra.
Qed.
Lemma mu_trig M : 1 <= M -> M * sin (rad (mua M)) = 1 /\ M * cos (rad (mua M)) = sqrt (M ^ 2 - 1).
Proof.
  intros HM. unfold mua. rewrite rad_deg. pose proof (inv_M M HM). split; [rewrite sin_asin by lra; field; lra|].
  rewrite cos_asin by lra. unfold Rsqr. rewrite <- (sqrt_sq M) at 1 by lra. assert (1 / M * (1 / M) <= 1) by nra. rewrite <- sqrt_mult; [|nra|lra].
  f_equal. field. lra.
Qed.
Lemma u_closed g t P : 1 < g -> 0 <= t < PI / 2 ->
  speed g (mf g t) * cos (P - rad (mua (mf g t))) = Aa g * (cgm g * sin t * cos P + cos t * sin P) /\
  speed g (mf g t) * sin (P - rad (mua (mf g t))) = Aa g * (cgm g * sin t * sin P - cos t * cos P).
Proof.
  intros Hg Ht. assert (Hc : 0 < cos t) by (apply cos_gt_0; lra). unfold speed. rewrite sound_mf by assumption.
  destruct (mu_trig (mf g t) (mf_ge1 g t)) as [S C]. rewrite mf_beta in C by assumption. rewrite cos_minus, sin_minus.
  set (m := mf g t) in *. set (cm := cos (rad (mua m))) in *. set (sm := sin (rad (mua m))) in *.
  assert (T : cgm g * sin t = cgm g * tan t * cos t) by (unfold tan; field; lra). rewrite T.
  split; rewrite <- C; [transitivity (Aa g * cos t * (m * cm * cos P + m * sm * sin P))|transitivity (Aa g * cos t * (m * cm * sin P - m * sm * cos P))];
    [ring|rewrite S; ring|ring|rewrite S; ring].
Qed.
Lemma fan_derivs g T0 P : 1 < g -> let k := cgm g in let t := fun P => (T0 - P) / k in
  0 < t P < PI / 2 ->
  let rho := density g (mf g (t P)) in let p := pressure g (mf g (t P)) in
  let ct := cos (t P) in let st := sin (t P) in
  is_derive (fun P => density g (mf g (t P))) P (rho * (2 / (g - 1) * (st / (k * ct)))) /\
  is_derive (fun P => pressure g (mf g (t P))) P (p * (2 * g / (g - 1) * (st / (k * ct)))) /\
  p = rho * (Aa g * ct) ^ 2 / g /\
  is_derive (fun P => Aa g * (k * sin (t P) * cos P + cos (t P) * sin P)) P (Aa g * st * sin P * (1 / k - k)) /\
  is_derive (fun P => Aa g * (k * sin (t P) * sin P - cos (t P) * cos P)) P (Aa g * st * cos P * (k - 1 / k)).
Proof.
  intros Hg k t Ht rho p ct st. pose proof (cgm_gt1 g Hg) as Hk. fold k in Hk.
  assert (Hc : 0 < ct) by (apply cos_gt_0; lra).
  assert (Et : forall Q, 0 < t Q < PI / 2 -> T_ratio g (mf g (t Q)) = 2 / (g + 1) * (cos (t Q)) ^ 2).
  { intros Q HQ. apply T_ratio_mf; [assumption|]. apply Rgt_not_eq, cos_gt_0; lra. }
  assert (Hloc : locally P (fun Q => 0 < t Q < PI / 2)).
  { assert (Ct : continuous t P) by (apply (ex_derive_continuous t P); unfold t; auto_derive; lra).
    apply (Ct (fun z => 0 < z < PI / 2)). apply (open_and (fun z => 0 < z) (fun z => z < PI / 2)); [apply open_gt|apply open_lt|exact Ht]. }
  assert (HA : 0 < 2 / (g + 1)) by pos.
  assert (Dpow : forall e, is_derive (fun Q => Rpower (2 / (g + 1) * (cos (t Q)) ^ 2) e) P (Rpower (2 / (g + 1) * ct ^ 2) e * (2 * e * (st / (k * ct))))).
  { intros e. unfold Rpower, t. auto_derive; fold (t P); fold ct; fold st.
    - change ((T0 + - P) * / k) with (t P). fold ct. pos.
    - change ((T0 + - P) * / k) with (t P). fold ct st. replace (ct * (ct * 1)) with (ct ^ 2) by ring. set (E := exp _). field. repeat split; lra. }
  split; [|split; [|split; [|split]]].
  - apply is_derive_ext_loc with (fun Q => Rpower (2 / (g + 1) * (cos (t Q)) ^ 2) (1 / (g - 1))).
    + revert Hloc. apply filter_imp. intros Q HQ. unfold density. now rewrite Et.
    + evar_last; [apply Dpow|]. unfold rho, density. rewrite Et by assumption. fold ct. unfold Rdiv. ring.
  - apply is_derive_ext_loc with (fun Q => Rpower (2 / (g + 1) * (cos (t Q)) ^ 2) (g / (g - 1)) / g).
    + revert Hloc. apply filter_imp. intros Q HQ. unfold pressure. now rewrite Et.
    + evar_last; [unfold Rdiv at 1; apply (is_derive_ext (fun Q => / g * Rpower (2 / (g + 1) * (cos (t Q)) ^ 2) (g / (g - 1)))); [intros; apply Rmult_comm|apply is_derive_scal; apply Dpow]|].
      unfold p, pressure. rewrite Et by assumption. fold ct. unfold Rdiv. ring.
  - unfold p, rho, pressure, density. rewrite Et by assumption. fold ct.
    replace (g / (g - 1)) with (1 / (g - 1) + 1) by (field; lra). rewrite Rpower_plus, Rpower_1 by pos. rewrite Rpow_mult_distr, Aa_sq by assumption. unfold Rdiv. ring.
  - unfold t. auto_derive; [exact I|]. change ((T0 + - P) * / k) with (t P). fold ct st. field. lra.
  - unfold t. auto_derive; [exact I|]. change ((T0 + - P) * / k) with (t P). fold ct st. field. lra.
Qed.
Lemma atan2_pos x y : 0 < x -> Ratan2 y x = atan (y / x).
Proof. intros. unfold Ratan2. destruct (Rlt_dec 0 x); [reflexivity|lra]. Qed.
Lemma agree_fields newton g m0 a m1 c : solves 0 newton -> 1 < g -> 1 <= m0 -> a < 0 ->
  c = init_case newton (Some g) (Some m0) (Some a) -> M1 c = Some m1 -> 0 < m1 -> forall dir mach,
  (forall x y, 0 < x -> exists mu, is_mach_angle (mach x y) mu /\ flow_prop (Some g) c (Some x) (Some y) =
      Some {| p_ang := Some (dir x y); p_plus := Some (dir x y + mu); p_minus := Some (dir x y - mu) |}) ->
  conical dir (fun P => dirf g m0 m1 (deg P)) /\ conical mach (fun P => machf g m0 m1 (deg P)).
Proof.
  intros HN Hg Hm0 Ha Hc HM1 Hm1 dir mach H.
  assert (E : forall x y, 0 < x -> dir x y = dirf g m0 m1 (deg (atan (y / x))) /\ mach x y = machf g m0 m1 (deg (atan (y / x)))).
  { intros x y Hx. destruct (H x y Hx) as [mu [Hmu E]]. rewrite (flow_prop_eval newton g m0 a m1 c) in E by assumption.
    rewrite atan2_pos in E by assumption. set (phi := deg (atan (y / x))) in *. unfold answer in E. injection E as E1 E2 E3.
    assert (mu = mua (machf g m0 m1 phi)) by lra. split; [congruence|]. apply mach_uniq with mu; [assumption|]. subst mu. apply mua_spec, mf_ge1. }
  split; intros x y Hx; now apply E.
Qed.
Lemma polar_half x y r phi : polar x y r phi -> 0 < x -> phi = deg (atan (y / x)).
Proof. intros Hp Hx. rewrite <- (polar_atan2 x y r phi Hp), atan2_pos by assumption. reflexivity. Qed.
Lemma locally_between l h P : l < P < h -> locally P (fun Q => l < Q < h).
Proof. intros H. apply (open_and (fun z => l < z) (fun z => z < h)); [apply open_gt|apply open_lt|exact H]. Qed.

(*@P C89_euler: The flow drawn by the notebook is a solution of the steady Euler equations: whatever fields of direction and Mach number agree with flow_prop downstream of the corner (x > 0), with density, pressure and velocity those of the isentropic flow at that Mach number and direction, mass and momentum are conserved at every point off the two limiting Mach lines - before, inside and behind the fan. *)
Lemma fan_euler : forall newton g m0 a m1 c mu0 mu1, solves 0 newton -> 1 < g -> 1 <= m0 -> a < 0 ->
  c = init_case newton (Some g) (Some m0) (Some a) -> M1 c = Some m1 -> 0 < m1 ->
  is_mach_angle m0 mu0 -> is_mach_angle m1 mu1 -> forall dir mach,
  (forall x y, 0 < x -> exists mu, is_mach_angle (mach x y) mu /\ flow_prop (Some g) c (Some x) (Some y) =
      Some {| p_ang := Some (dir x y); p_plus := Some (dir x y + mu); p_minus := Some (dir x y - mu) |}) ->
  forall x y r phi, 0 < x -> polar x y r phi -> phi <> mu0 -> phi <> a + mu1 -> steady_euler g dir mach x y.
Proof.
  intros newton g m0 a m1 c mu0 mu1 HN Hg Hm0 Ha Hc HM1 Hm1 Hmu0 Hmu1 dir mach Hag x y r phi Hx Hp N0 N1.
  destruct (case_m1 _ _ _ _ _ _ HN Hg Hm0 Ha Hc HM1 Hm1) as [L1 EM1].
  apply mua_uniq in Hmu0; [|assumption]. apply mua_uniq in Hmu1; [|assumption]. subst mu0 mu1.
  destruct (agree_fields newton g m0 a m1 c HN Hg Hm0 Ha Hc HM1 Hm1 dir mach Hag) as [HD HM].
  pose proof (polar_half _ _ _ _ Hp Hx) as Ephi. set (P := atan (y / x)) in *.
  pose proof (edges_ord _ _ _ _ _ _ HN Hg Hm0 Ha Hc HM1 Hm1) as Eo.
  (* a uniform region *)
  assert (Uni : forall l h M th, rad l < P < rad h -> (forall q, l <= q <= h -> machf g m0 m1 q = M /\ dirf g m0 m1 q = th) -> steady_euler g dir mach x y).
  { intros l h M th HP Hq.
    assert (HL : locally P (fun Q => machf g m0 m1 (deg Q) = M /\ dirf g m0 m1 (deg Q) = th)).
    { generalize (locally_between (rad l) (rad h) P HP). apply filter_imp. intros Q [Q1 Q2]. apply Hq.
      apply deg_lt in Q1. apply deg_lt in Q2. rewrite deg_rad in *. lra. }
    assert (DC : forall F : R -> R -> R, is_derive (fun Q => F (machf g m0 m1 (deg Q)) (dirf g m0 m1 (deg Q))) P 0).
    { intros F. apply is_derive_ext_loc with (fun _ => F M th); [|apply is_derive_Reals, derivable_pt_lim_const].
      revert HL. apply filter_imp. intros Q [-> ->]. reflexivity. }
    apply (conical_euler g dir mach _ _ x y 0 0 0 0 HD HM Hx).
    - exact (DC (fun m _ => density g m)).
    - exact (DC (fun m d => speed g m * cos (rd d))).
    - exact (DC (fun m d => speed g m * sin (rd d))).
    - exact (DC (fun m _ => pressure g m)).
    - ring.
    - ring.
    - ring. }
  assert (EP : P = rad phi) by (rewrite Ephi; symmetry; apply rad_deg).
  destruct (Rlt_le_dec (mua m0) phi) as [L|L].
  { apply (Uni (mua m0) (phi + 1) m0 0); [rewrite EP; split; apply rad_lt; lra|]. intros q Hq. apply (machf_up newton g m0 a m1 c); try assumption; lra. }
  destruct (Rlt_le_dec phi (a + mua m1)) as [L'|L'].
  { apply (Uni (phi - 1) (a + mua m1) m1 a); [rewrite EP; split; apply rad_lt; lra|]. intros q Hq. apply (machf_down newton g m0 a m1 c); try assumption; lra. }
  assert (Hin : a + mua m1 < phi < mua m0) by (split; lra).
  set (k := cgm g). pose proof (cgm_gt1 g Hg) as Hk. fold k in Hk. set (T0 := rad (pm g m0 + 90)).
  set (t := fun P : R => (T0 - P) / k).
  assert (Etw : forall q, tw g (pm g m0 - deg q) = t q).
  { intros q. unfold tw, t, T0. fold k. f_equal. replace (pm g m0 - deg q + 90) with (pm g m0 + 90 - deg q) by ring. now rewrite rad_sub, rad_deg. }
  assert (HL : locally P (fun Q => machf g m0 m1 (deg Q) = mf g (t Q) /\ rd (dirf g m0 m1 (deg Q)) = Q - rad (mua (mf g (t Q))) /\ 0 <= t Q < PI / 2)).
  { assert (HP : rad (a + mua m1) < P < rad (mua m0)) by (rewrite EP; split; apply rad_lt; lra).
    generalize (locally_between _ _ P HP). apply filter_imp. intros Q [Q1 Q2]. apply deg_lt in Q1. apply deg_lt in Q2. rewrite deg_rad in *.
    assert (B : a + mua m1 <= deg Q <= mua m0) by lra.
    assert (Em : machf g m0 m1 (deg Q) = mf g (t Q)). { unfold machf. now rewrite (tcl_in newton g m0 a m1 c), Etw by assumption. }
    split; [exact Em|]. split.
    - pose proof (machf_in newton g m0 a m1 c HN Hg Hm0 Ha Hc HM1 Hm1 _ B) as E. rewrite Em in E. rewrite rd_rad.
      replace (dirf g m0 m1 (deg Q)) with (deg Q - mua (mf g (t Q))) by lra. now rewrite rad_sub, rad_deg.
    - rewrite <- Etw, <- (tcl_in newton g m0 a m1 c) by assumption. now apply (tcl_range' newton g m0 a m1 c). }
  assert (Ht : 0 < t P < PI / 2).
  { rewrite <- Etw, <- Ephi. split.
    - apply Rle_lt_trans with (ti g m0); [apply ti_range; assumption|]. rewrite <- (edge0 g m0) by assumption. apply tw_lt; lra.
    - apply Rlt_trans with (ti g m1); [|apply ti_range; assumption]. rewrite <- (edge1 newton g m0 a m1 c) by assumption. apply tw_lt; lra. }
  destruct (fan_derivs g T0 P Hg Ht) as [Dr [Dp [Ep [Du Dv]]]]. fold k in Dr, Dp, Du, Dv, Ep. change ((T0 - P) / k) with (t P) in Ep. change (fun P => (T0 - P) / cgm g) with t in *.
  destruct (locally_singleton _ _ HL) as [Em [Ed _]].
  destruct (u_closed g (t P) P Hg ltac:(lra)) as [EU EV].
  set (ct := cos (t P)) in *. set (st := sin (t P)) in *.
  assert (Hct : 0 < ct) by (apply cos_gt_0; lra).
  pose proof (sin2_cos2 P) as SC. unfold Rsqr in SC.
  pose proof (cgm_sq g Hg) as K2. fold k in K2, EU, EV. pose proof (Aa_pos g Hg) as HA.
  eapply (conical_euler g dir mach _ _ x y _ _ _ _ HD HM Hx); cbv beta zeta; fold P.
  - apply is_derive_ext_loc with (fun Q => density g (mf g (t Q))); [|exact Dr]. revert HL. apply filter_imp. intros Q [-> _]. reflexivity.
  - apply is_derive_ext_loc with (fun Q => Aa g * (k * sin (t Q) * cos Q + cos (t Q) * sin Q)); [|exact Du]. revert HL. apply filter_imp.
    intros Q [-> [-> HQ]]. symmetry. now apply u_closed.
  - apply is_derive_ext_loc with (fun Q => Aa g * (k * sin (t Q) * sin Q - cos (t Q) * cos Q)); [|exact Dv]. revert HL. apply filter_imp.
    intros Q [-> [-> HQ]]. symmetry. now apply u_closed.
  - apply is_derive_ext_loc with (fun Q => pressure g (mf g (t Q))); [|exact Dp]. revert HL. apply filter_imp. intros Q [-> _]. reflexivity.
  - change ((T0 - P) / k) with (t P). fold ct st. rewrite Em, Ed, EU, EV. set (rho := density g (mf g (t P))).
    transitivity (rho * Aa g * st / k * ((k ^ 2 - 1) * (sin P * sin P + cos P * cos P) - 2 / (g - 1) * (sin P * sin P + cos P * cos P))); [field; repeat split; lra|].
    rewrite K2, SC. field. lra.
  - change ((T0 - P) / k) with (t P). fold ct st. rewrite Em, Ed, EU, EV, Ep. set (rho := density g (mf g (t P))).
    transitivity (rho * Aa g ^ 2 * st * ct / k * sin P * ((k ^ 2 - 1) * (sin P * sin P + cos P * cos P) - 2 / (g - 1))); [field; repeat split; lra|].
    rewrite K2, SC. field. lra.
  - change ((T0 - P) / k) with (t P). fold ct st. rewrite Em, Ed, EU, EV, Ep. set (rho := density g (mf g (t P))).
    transitivity (rho * Aa g ^ 2 * st * ct / k * cos P * (- (k ^ 2 - 1) * (sin P * sin P + cos P * cos P) + 2 / (g - 1))); [field; repeat split; lra|].
    rewrite K2, SC. field. lra.
Qed.
(*@E C89_fields: the hypothesis of C89_euler is met in every such case: there are fields of direction and Mach number that agree with flow_prop on x > 0. *)
Lemma fan_fields : forall newton g m0 a m1 c, solves 0 newton -> 1 < g -> 1 <= m0 -> a < 0 ->
  c = init_case newton (Some g) (Some m0) (Some a) -> M1 c = Some m1 -> 0 < m1 -> exists dir mach,
  forall x y, 0 < x -> exists mu, is_mach_angle (mach x y) mu /\ flow_prop (Some g) c (Some x) (Some y) =
      Some {| p_ang := Some (dir x y); p_plus := Some (dir x y + mu); p_minus := Some (dir x y - mu) |}.
Proof.
  intros newton g m0 a m1 c HN Hg Hm0 Ha Hc HM1 Hm1.
  exists (fun x y => dirf g m0 m1 (deg (Ratan2 y x))), (fun x y => machf g m0 m1 (deg (Ratan2 y x))).
  intros x y Hx. exists (mua (machf g m0 m1 (deg (Ratan2 y x)))). split; [apply mua_spec, mf_ge1|].
  now rewrite (flow_prop_eval newton g m0 a m1 c).
Qed.
