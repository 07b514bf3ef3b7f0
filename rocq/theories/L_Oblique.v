From Verif Require Import L_Num Spec NumSpec M_Isentropic M_Degree M_ShockWave L_Isentropic L_Degree L_Shock.
Open Scope R_scope.

(** angle of the downstream velocity to the shock (radians), for a shock angle s (radians) *)
Definition bet (g M s : R) : R := atan (tan s / rhor g (M * sin s)).
Definition dfl (g M s : R) : R := s - bet g M s.

Lemma rad_quadrant x : 0 < x < 90 -> 0 < rad x < PI / 2.
Proof. intros H; rewrite <- rad_90, <- rad_0; split; apply rad_lt; lra. Qed.
Lemma deg_quadrant x : 0 < x < PI / 2 -> 0 < deg x < 90.
Proof. intros H; rewrite <- deg_PI2, <- deg_0; split; apply deg_lt; lra. Qed.
Lemma quad_trig s : 0 < s < PI / 2 -> 0 < sin s /\ 0 < cos s /\ 0 < tan s.
Proof.
  intros H. assert (0 < sin s) by (apply sin_gt_0; lra). assert (0 < cos s) by (apply cos_gt_0; lra).
  repeat split; try assumption. unfold tan; pos.
Qed.
Lemma sc2 s : sin s ^ 2 + cos s ^ 2 = 1.
Proof. pose proof (sin2_cos2 s); unfold Rsqr in *; lra. Qed.

Lemma defl_eval M s g : 1 < g -> M <> 0 -> 0 < s < 90 ->
  deflection_Mach_sigma (Some M) (Some s) (Some g) = Some (deg (dfl g M (rad s))).
Proof.
  intros Hg HM Hs. pose proof (rad_quadrant s Hs) as Hr. destruct (quad_trig _ Hr) as [H1 [H2 H3]].
  unfold deflection_Mach_sigma; ncbn. fold (rad s).
  rewrite ntan_Some by lra. rewrite Rho_eval by assumption. ncbn.
  assert (HR : 0 < rhor g (M * sin (rad s))).
  { apply rhor_pos; [assumption|]. apply Rmult_integral_contrapositive; split; lra. }
  f_equal. unfold dfl. rewrite deg_sub, deg_rad. f_equal. fold (deg (Ratan2 (tan (rad s)) (rhor g (M * sin (rad s))))).
  f_equal. unfold Ratan2. destruct (Rlt_dec 0 (rhor g (M * sin (rad s)))); [reflexivity|lra].
Qed.
Lemma bet_bound g M s : 1 < g -> M <> 0 -> 0 < s < PI / 2 -> 0 < bet g M s < PI / 2.
Proof.
  intros Hg HM Hs. destruct (quad_trig _ Hs) as [H1 [H2 H3]].
  assert (HR : 0 < rhor g (M * sin s)).
  { apply rhor_pos; [assumption|]. apply Rmult_integral_contrapositive; split; lra. }
  unfold bet. split; [|apply atan_bound]. rewrite <- atan_0. apply atan_increasing. pos.
Qed.
Lemma dfl_bound g M s : 1 < g -> M <> 0 -> 0 < s < PI / 2 -> - (PI / 2) < dfl g M s < PI / 2.
Proof. intros Hg HM Hs; pose proof (bet_bound g M s Hg HM Hs); unfold dfl; lra. Qed.
(** cos and sin of bet *)
Lemma bet_trig g M s : 1 < g -> M <> 0 -> 0 < s < PI / 2 ->
  let R := rhor g (M * sin s) in let n := sqrt (cos s ^ 2 + (sin s / R) ^ 2) in
  0 < n /\ cos (bet g M s) = cos s / n /\ sin (bet g M s) = sin s / R / n.
Proof.
  intros Hg HM Hs R n. destruct (quad_trig _ Hs) as [H1 [H2 H3]].
  assert (HR : 0 < R).
  { apply rhor_pos; [assumption|]. apply Rmult_integral_contrapositive; split; lra. }
  assert (Hq : 0 < sin s / R) by pos.
  assert (Hn : 0 < n) by (apply sqrt_lt_R0; nra).
  assert (Ht : tan s / R = sin s / R / cos s) by (unfold tan; field; lra).
  assert (E : sqrt (1 + (tan s / R)²) = n / cos s).
  { unfold n. rewrite <- (sqrt_sq (cos s)) at 2 by lra. rewrite <- sqrt_div by nra.
    f_equal. rewrite Ht. unfold Rsqr. field; lra. }
  split; [assumption|]. unfold bet. fold R. rewrite cos_atan, sin_atan, E. rewrite Ht.
  split; field; repeat split; lra.
Qed.

(*@P C15_turning: The deflection is the angle by which the velocity turns when its component normal to the shock is divided by Rho_ratio and its tangential component is kept. The upstream velocity (V,0) is V cos(s) along the shock line (cos s, sin s) plus V sin(s) along the normal (sin s, -cos s). *)
Lemma deflection_turning : forall g M V sigma, 1 < g -> 0 < M -> 0 < V -> 0 < sigma < 90 ->
  let s := sigma * (PI / 180) in
  exists th R, deflection_Mach_sigma (Some M) (Some sigma) (Some g) = Some th /\
    Rho_ratio (Some (M * sin s)) (Some g) = Some R /\ -90 < th < 90 /\
    let vt := V * cos s in let vn := V * sin s / R in
    exists W, 0 < W /\ vt * cos s + vn * sin s = W * cos (th * (PI / 180)) /\
                       vt * sin s - vn * cos s = W * sin (th * (PI / 180)).
Proof.
  intros g M V sigma Hg HM HV Hs s. fold (rad sigma) in s.
  assert (Hr : 0 < s < PI / 2) by (now apply rad_quadrant).
  exists (deg (dfl g M s)), (rhor g (M * sin s)).
  split; [apply defl_eval; lra|]. split; [now apply Rho_eval|].
  assert (HMz : M <> 0) by lra. split.
  - pose proof (dfl_bound g M s Hg HMz Hr) as B. pose proof (deg_lt (- (PI / 2)) (dfl g M s)).
    pose proof (deg_lt (dfl g M s) (PI / 2)). rewrite deg_opp, deg_PI2 in *. lra.
  - destruct (bet_trig g M s Hg HMz Hr) as [Hn [Hc Hsn]].
    cbv zeta. exists (V * sqrt (cos s ^ 2 + (sin s / rhor g (M * sin s)) ^ 2)).
    split; [pos|]. fold (rad (deg (dfl g M s))). rewrite rad_deg. unfold dfl.
    rewrite cos_minus, sin_minus, Hc, Hsn.
    assert (HR : 0 < rhor g (M * sin s)).
    { apply rhor_pos; [assumption|]. destruct (quad_trig _ Hr) as [? _]; apply Rmult_integral_contrapositive; split; lra. }
    split; field; lra.
Qed.

(** theta-beta-M *)
Definition den_tbm (g M s : R) : R := M ^ 2 * (g + cos (2 * s)) + 2.
Lemma den_tbm_pos g M s : 1 < g -> 0 < den_tbm g M s.
Proof. intros Hg; unfold den_tbm. pose proof (COS_bound (2 * s)). pose proof (sq_nonneg M). nra. Qed.
Lemma tan_dfl g M s : 1 < g -> 0 < M -> 0 < s < PI / 2 ->
  tan (dfl g M s) = 2 * (cos s / sin s) * ((M * sin s) ^ 2 - 1) / den_tbm g M s.
Proof.
  intros Hg HM Hs. destruct (quad_trig _ Hs) as [H1 [H2 H3]].
  pose proof (dfl_bound g M s Hg ltac:(lra) Hs) as B. assert (Hcd : 0 < cos (dfl g M s)) by (apply cos_gt_0; lra).
  destruct (bet_trig g M s Hg ltac:(lra) Hs) as [Hn [Hc Hsn]].
  assert (HR : 0 < rhor g (M * sin s)).
  { apply rhor_pos; [assumption|]. apply Rmult_integral_contrapositive; split; lra. }
  pose proof (rden_pos g (M * sin s) Hg) as Hd. pose proof (den_tbm_pos g M s Hg) as Hden.
  unfold tan. unfold dfl at 1 2. rewrite sin_minus, cos_minus, Hc, Hsn.
  set (n := sqrt _) in *.
  assert (Hk : 0 < rhor g (M * sin s) * cos s ^ 2 + sin s ^ 2) by nra.
  replace ((sin s * (cos s / n) - cos s * (sin s / rhor g (M * sin s) / n)) /
     (cos s * (cos s / n) + sin s * (sin s / rhor g (M * sin s) / n)))
  with (sin s * cos s * (rhor g (M * sin s) - 1) / (rhor g (M * sin s) * cos s ^ 2 + sin s ^ 2))
  by (field; repeat split; try lra; nra).
  assert (Hs2 : cos s ^ 2 = 1 - sin s ^ 2) by (pose proof (sc2 s); lra).
  assert (E1 : rhor g (M * sin s) - 1 = 2 * ((M * sin s) ^ 2 - 1) / (2 + (g - 1) * (M * sin s) ^ 2))
    by (unfold rhor; field; lra).
  assert (E2 : rhor g (M * sin s) * cos s ^ 2 + sin s ^ 2
     = sin s ^ 2 * den_tbm g M s / (2 + (g - 1) * (M * sin s) ^ 2)).
  { unfold rhor, den_tbm. rewrite cos_2a. replace (cos s * cos s) with (cos s ^ 2) by ring. rewrite Hs2. field; lra. }
  rewrite E1, E2. field. repeat split; try lra.
Qed.
(*@P C15_theta_beta_M: tan(theta) = 2 cot(sigma) (M^2 sin^2 sigma - 1)/(M^2 (gamma + cos 2 sigma) + 2), the denominator being positive. *)
Lemma deflection_theta_beta_M : forall g M sigma, 1 < g -> 0 < M -> 0 < sigma < 90 ->
  let s := sigma * (PI / 180) in
  0 < M ^ 2 * (g + cos (2 * s)) + 2 /\
  exists th, deflection_Mach_sigma (Some M) (Some sigma) (Some g) = Some th /\
    tan (th * (PI / 180)) = 2 * (cos s / sin s) * (M ^ 2 * sin s ^ 2 - 1) / (M ^ 2 * (g + cos (2 * s)) + 2).
Proof.
  intros g M sigma Hg HM Hs s. fold (rad sigma) in s. split; [now apply den_tbm_pos|].
  exists (deg (dfl g M s)). split; [apply defl_eval; lra|].
  fold (rad (deg (dfl g M s))). rewrite rad_deg, tan_dfl by (lra || now apply rad_quadrant).
  unfold den_tbm. do 2 f_equal. ring.
Qed.
Lemma dfl_sign g M s : 1 < g -> 0 < M -> 0 < s < PI / 2 ->
  (1 < M * sin s -> 0 < dfl g M s) /\ (M * sin s = 1 -> dfl g M s = 0) /\ (M * sin s < 1 -> dfl g M s < 0).
Proof.
  intros Hg HM Hs. destruct (quad_trig _ Hs) as [H1 [H2 H3]].
  assert (Hp : 0 < M * sin s) by pos.
  pose proof (dfl_bound g M s Hg ltac:(lra) Hs) as B.
  pose proof (tan_dfl g M s Hg HM Hs) as E. pose proof (den_tbm_pos g M s Hg) as Hd.
  assert (Hc : 0 < 2 * (cos s / sin s) / den_tbm g M s) by pos.
  replace (2 * (cos s / sin s) * ((M * sin s) ^ 2 - 1) / den_tbm g M s)
    with ((2 * (cos s / sin s) / den_tbm g M s) * ((M * sin s) ^ 2 - 1)) in E by (field; lra).
  set (k := 2 * (cos s / sin s) / den_tbm g M s) in *.
  rewrite <- (atan_tan (dfl g M s)) by assumption. rewrite E. repeat split; intros H.
  - rewrite <- atan_0. apply atan_increasing. apply Rmult_lt_0_compat; [assumption|nra].
  - rewrite H. replace (k * (1 ^ 2 - 1)) with 0 by ring. apply atan_0.
  - rewrite <- atan_0. apply atan_increasing. assert ((M * sin s) ^ 2 - 1 < 0) by nra. nra.
Qed.
Lemma mach_angle_cmp M sigma : 1 < M -> 0 < sigma < 90 ->
  (deg (asin (1 / M)) < sigma <-> 1 < M * sin (rad sigma)) /\
  (deg (asin (1 / M)) = sigma <-> 1 = M * sin (rad sigma)) /\
  (sigma < deg (asin (1 / M)) <-> M * sin (rad sigma) < 1).
Proof.
  intros HM Hs. pose proof (rad_quadrant sigma Hs) as Hr.
  assert (Hi : 0 < 1 / M < 1).
  { split; [pos|]. apply (Rmult_lt_reg_r M); [lra|]. unfold Rdiv; rewrite Rmult_assoc, Rinv_l; lra. }
  assert (Ha : 0 < asin (1 / M) < PI / 2).
  { split; [rewrite <- asin_0; apply asin_increasing; lra|rewrite <- asin_1; apply asin_increasing; lra]. }
  assert (Es : sin (asin (1 / M)) = 1 / M) by (apply sin_asin; lra).
  assert (C1 : deg (asin (1 / M)) < sigma -> 1 < M * sin (rad sigma)).
  { intros H. assert (H' : asin (1 / M) < rad sigma) by (rewrite <- (rad_deg (asin (1 / M))); now apply rad_lt).
    assert (sin (asin (1 / M)) < sin (rad sigma)) by (apply sin_increasing_1; lra).
    rewrite Es in *. apply (Rmult_lt_compat_l M) in H0; [|lra]. replace (M * (1 / M)) with 1 in H0 by (field; lra). lra. }
  assert (C2 : sigma < deg (asin (1 / M)) -> M * sin (rad sigma) < 1).
  { intros H. assert (H' : rad sigma < asin (1 / M)) by (rewrite <- (rad_deg (asin (1 / M))); now apply rad_lt).
    assert (sin (rad sigma) < sin (asin (1 / M))) by (apply sin_increasing_1; lra).
    rewrite Es in *. apply (Rmult_lt_compat_l M) in H0; [|lra]. replace (M * (1 / M)) with 1 in H0 by (field; lra). lra. }
  assert (C3 : deg (asin (1 / M)) = sigma -> 1 = M * sin (rad sigma)).
  { intros H. rewrite <- H, rad_deg, Es. field; lra. }
  destruct (Rtotal_order (deg (asin (1 / M))) sigma) as [H|[H|H]].
  - specialize (C1 H). repeat split; intros; lra.
  - specialize (C3 H). repeat split; intros; lra.
  - specialize (C2 H). repeat split; intros; lra.
Qed.
(*@P C15_sign: The deflection is positive between the Mach angle asin(1/M) and 90 degrees, zero exactly at the Mach angle, negative below it. *)
Lemma deflection_sign : forall g M sigma, 1 < g -> 1 < M -> 0 < sigma < 90 ->
  exists mu th, dasin (ndiv (Some 1) (Some M)) = Some mu /\
    deflection_Mach_sigma (Some M) (Some sigma) (Some g) = Some th /\
    (mu < sigma <-> 0 < th) /\ (mu = sigma <-> th = 0) /\ (sigma < mu <-> th < 0).
Proof.
  intros g M sigma Hg HM Hs. exists (deg (asin (1 / M))), (deg (dfl g M (rad sigma))).
  assert (Hi : 0 < 1 / M < 1).
  { split; [pos|]. apply (Rmult_lt_reg_r M); [lra|]. unfold Rdiv; rewrite Rmult_assoc, Rinv_l; lra. }
  split; [rewrite ndiv_Some by lra; apply dasin_eval; lra|]. split; [apply defl_eval; lra|].
  destruct (mach_angle_cmp M sigma HM Hs) as [-> [-> ->]].
  pose proof (rad_quadrant sigma Hs) as Hr.
  destruct (dfl_sign g M (rad sigma) Hg ltac:(lra) Hr) as [C1 [C2 C3]].
  destruct (Rtotal_order (M * sin (rad sigma)) 1) as [H|[H|H]].
  - specialize (C3 H). apply deg_lt in C3; rewrite deg_0 in C3. repeat split; intros; lra.
  - specialize (C2 H). rewrite C2, deg_0. repeat split; intros; lra.
  - specialize (C1 H). apply deg_lt in C1; rewrite deg_0 in C1. repeat split; intros; lra.
Qed.
Lemma tan_le_small x : 0 <= x < PI / 2 -> x <= tan x.
Proof.
  intros [H H2]. destruct H as [H|H]; [|subst; rewrite tan_0; lra].
  assert (0 - tan 0 > x - tan x); [|rewrite tan_0 in *; lra].
  apply Rlt_gt. apply (strict_decr (fun x => x - tan x) (fun x => - tan x ^ 2) 0 x H).
  - intros z Hz. assert (Hc : 0 < cos z) by (apply cos_gt_0; lra).
    unfold tan. auto_derive; [lra|]. field; lra.
  - intros z Hz. assert (0 < tan z) by (apply tan_gt_0; lra). nra.
Qed.
(*@P C15_limit_90: The deflection tends to zero as sigma tends to 90 degrees. *)
Lemma deflection_limit : forall g M eps, 1 < g -> 1 < M -> 0 < eps ->
  exists d, 0 < d < 90 /\ forall sigma, 90 - d < sigma < 90 ->
  exists th, deflection_Mach_sigma (Some M) (Some sigma) (Some g) = Some th /\ Rabs th < eps.
Proof.
  intros g M eps Hg HM He.
  assert (Cont : continuous (fun s => cos s / sin s) (PI / 2)).
  { eapply derive_continuous. auto_derive; [rewrite sin_PI2; lra|reflexivity]. }
  set (K := 2 * (M ^ 2 + 1) / (M ^ 2 * (g - 1) + 2)).
  assert (HK : 0 < K) by (unfold K; pos).
  assert (He2 : 0 < rad eps / K) by (unfold rad; pose proof PI_RGT_0; pos).
  assert (E0 : cos (PI / 2) / sin (PI / 2) = 0) by (rewrite cos_PI2, sin_PI2; field).
  destruct (proj1 (filterlim_locally _ _) Cont (mkposreal _ He2)) as [d Hd].
  exists (Rmin (deg d) 45). pose proof (cond_pos d) as Hdp.
  assert (Hdd : 0 < deg d) by (rewrite <- deg_0; now apply deg_lt).
  split; [split; [apply Rmin_pos; lra|apply Rle_lt_trans with 45; [apply Rmin_r|lra]]|].
  intros sigma Hs. assert (Hm : Rmin (deg d) 45 <= deg d /\ Rmin (deg d) 45 <= 45) by (split; [apply Rmin_l|apply Rmin_r]).
  assert (Hs1 : 0 < sigma < 90) by lra.
  exists (deg (dfl g M (rad sigma))). split; [apply defl_eval; lra|].
  pose proof (rad_quadrant sigma Hs1) as Hr. destruct (quad_trig _ Hr) as [H1 [H2 H3]].
  assert (Hball : ball (PI / 2) d (rad sigma)).
  { unfold ball; simpl; unfold AbsRing_ball; simpl. unfold abs, minus, plus, opp; simpl.
    rewrite Rabs_left; [|lra]. rewrite <- rad_90, <- (rad_deg d).
    assert (rad (90 - sigma) < rad (deg d)) by (apply rad_lt; lra). rewrite rad_sub in *. lra. }
  specialize (Hd _ Hball). unfold ball in Hd; simpl in Hd; unfold AbsRing_ball, abs, minus, plus, opp in Hd; simpl in Hd.
  rewrite E0 in Hd. replace (cos (rad sigma) / sin (rad sigma) + - 0) with (cos (rad sigma) / sin (rad sigma)) in Hd by ring.
  assert (Hcs : 0 < cos (rad sigma) / sin (rad sigma)) by pos. rewrite Rabs_pos_eq in Hd by lra.
  pose proof (tan_dfl g M (rad sigma) Hg ltac:(lra) Hr) as E. pose proof (den_tbm_pos g M (rad sigma) Hg) as Hden.
  assert (Hb : Rabs (tan (dfl g M (rad sigma))) < rad eps).
  { rewrite E. set (c := cos (rad sigma) / sin (rad sigma)) in *.
    assert (Hden2 : M ^ 2 * (g - 1) + 2 <= den_tbm g M (rad sigma)).
    { unfold den_tbm. pose proof (COS_bound (2 * rad sigma)). nra. }
    assert (Hn : Rabs ((M * sin (rad sigma)) ^ 2 - 1) <= M ^ 2 + 1).
    { apply Rabs_le. pose proof (SIN_bound (rad sigma)). assert (sin (rad sigma) ^ 2 <= 1) by nra.
      assert (0 <= (M * sin (rad sigma)) ^ 2) by apply sq_nonneg.
      replace ((M * sin (rad sigma)) ^ 2) with (M ^ 2 * sin (rad sigma) ^ 2) in * by ring. nra. }
    unfold Rdiv. rewrite !Rabs_mult, (Rabs_pos_eq 2), (Rabs_pos_eq c), (Rabs_pos_eq (/ den_tbm g M (rad sigma))) by (try lra; pos).
    apply Rle_lt_trans with (K * c).
    - unfold K, Rdiv. replace (2 * (M ^ 2 + 1) * / (M ^ 2 * (g - 1) + 2) * c) with (2 * c * (M ^ 2 + 1) * / (M ^ 2 * (g - 1) + 2)) by ring.
      assert (0 < / den_tbm g M (rad sigma)) by pos. assert (0 < M ^ 2 * (g - 1) + 2) by nra.
      assert (/ den_tbm g M (rad sigma) <= / (M ^ 2 * (g - 1) + 2)) by (apply Rinv_le_contravar; assumption).
      pose proof (Rabs_pos ((M * sin (rad sigma)) ^ 2 - 1)).
      apply Rmult_le_compat; try lra; try nra.
    - apply (Rmult_lt_reg_r (/ K)); [pos|]. replace (K * c * / K) with c by (field; lra). exact Hd. }
  assert (Habs : Rabs (dfl g M (rad sigma)) <= Rabs (tan (dfl g M (rad sigma)))).
  { pose proof (dfl_bound g M (rad sigma) Hg ltac:(lra) Hr) as B.
    destruct (Rle_lt_dec 0 (dfl g M (rad sigma))) as [L|L].
    - pose proof (tan_le_small (dfl g M (rad sigma))). rewrite !Rabs_pos_eq; lra.
    - pose proof (tan_le_small (- dfl g M (rad sigma))). rewrite tan_neg in H.
      rewrite !Rabs_left1; lra. }
  unfold deg. rewrite Rabs_mult, (Rabs_pos_eq (180 / PI)) by (pose proof PI_RGT_0; pos).
  fold (deg (Rabs (dfl g M (rad sigma)))). rewrite <- (deg_rad eps). apply deg_lt. lra.
Qed.
(*@E C15_example: M = 2, gamma = 1.4, sigma = 30 degrees is the Mach angle: no deflection *)
Lemma C15_example_lemma : deflection_Mach_sigma (Some 2) (Some 30) dgamma = Some 0.
Proof.
  unfold dgamma. rewrite defl_eval by lra. f_equal. rewrite <- deg_0. f_equal.
  assert (Hr : 0 < rad 30 < PI / 2) by (apply rad_quadrant; lra).
  apply (dfl_sign (14/10) 2 (rad 30)); [lra|lra|assumption|].
  replace (rad 30) with (PI / 6) by (unfold rad; field). rewrite sin_PI6; lra.
Qed.
