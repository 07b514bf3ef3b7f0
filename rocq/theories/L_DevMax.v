(** * C19: the largest deflection grows with the Mach number, up to asin(1/gamma) *)
From Verif Require Import L_Num Spec NumSpec M_Isentropic M_Degree M_ShockWave L_Isentropic L_Degree L_Shock L_Oblique L_Oblique2 L_Sigma2 L_Polar.
Open Scope R_scope.

(** the tangent of the deflection, from the density ratio and the tangent of the shock angle *)
Definition tdf (r t : R) : R := t * (r - 1) / (r + t ^ 2).
Lemma dfl_tdf g M s : 1 < g -> 0 < M -> 0 < s < PI / 2 -> dfl g M s = atan (tdf (rhor g (M * sin s)) (tan s)).
Proof.
  intros Hg HM Hs. destruct (quad_trig _ Hs) as [S [C T]]. pose proof (dfl_bound g M s Hg ltac:(lra) Hs) as B. pose proof (bet_bound g M s Hg ltac:(lra) Hs) as B1.
  assert (R0 : 0 < rhor g (M * sin s)) by (apply rhor_pos; [assumption|apply Rgt_not_eq; pos]). set (r := rhor g (M * sin s)) in *.
  rewrite <- (atan_tan (dfl g M s)) by assumption. f_equal. unfold dfl in *.
  assert (Eb : tan (bet g M s) = tan s / r) by apply atan_right_inv.
  assert (cos (bet g M s) <> 0) by (apply Rgt_not_eq, cos_gt_0; lra). assert (0 < cos (s - bet g M s)) by (apply cos_gt_0; lra).
  assert (0 < tan s ^ 2) by nra.
  rewrite tan_minus; [|lra|assumption|lra|].
  - rewrite Eb. unfold tdf. field. split; [|nra]. lra.
  - rewrite Eb. assert (0 < tan s * (tan s / r)) by (apply Rmult_lt_0_compat; [lra|pos]). lra.
Qed.
Lemma tdf_incr r r' t : 0 < r -> r < r' -> 0 < t -> tdf r t < tdf r' t.
Proof.
  intros. unfold tdf. assert (0 < t ^ 2) by nra. apply (Rmult_lt_reg_r ((r + t ^ 2) * (r' + t ^ 2))); [nra|].
  replace (t * (r - 1) / (r + t ^ 2) * ((r + t ^ 2) * (r' + t ^ 2))) with (t * (r - 1) * (r' + t ^ 2)) by (field; nra).
  replace (t * (r' - 1) / (r' + t ^ 2) * ((r + t ^ 2) * (r' + t ^ 2))) with (t * (r' - 1) * (r + t ^ 2)) by (field; nra).
  assert (0 < t * ((1 + t ^ 2) * (r' - r))) by (apply Rmult_lt_0_compat; [lra|apply Rmult_lt_0_compat; lra]). lra.
Qed.
(** the density ratio of an infinitely strong shock *)
Definition rinf (g : R) : R := (g + 1) / (g - 1).
Lemma rinf_gt1 g : 1 < g -> 1 < rinf g.
Proof. intros. unfold rinf. apply (Rmult_lt_reg_r (g - 1)); [lra|]. unfold Rdiv. rewrite Rmult_assoc, Rinv_l; lra. Qed.
Lemma rinf_gap g n : 1 < g -> rinf g - rhor g n = 2 * (g + 1) / ((g - 1) * (2 + (g - 1) * n ^ 2)).
Proof. intros. unfold rinf, rhor. pose proof (pow2_ge_0 n). field. split; [nra|lra]. Qed.
Lemma tdf_lim g : 1 < g -> tan (asin (1 / g)) = tdf (rinf g) (sqrt (rinf g)).
Proof.
  intros Hg. assert (I : 0 < 1 / g < 1). { split; [pos|]. apply (Rmult_lt_reg_r g); [lra|]. unfold Rdiv; rewrite Rmult_assoc, Rinv_l; lra. }
  assert (R1 := rinf_gt1 g Hg). assert (Q : sqrt (rinf g) ^ 2 = rinf g) by (apply sq_sqrt; lra). assert (Q0 : 0 < sqrt (rinf g)) by (apply sqrt_lt_R0; lra).
  unfold tan. rewrite sin_asin by lra. rewrite cos_asin by lra. unfold tdf. rewrite Q.
  assert (E : sqrt (1 - (1 / g)²) = (g - 1) * sqrt (rinf g) / g).
  { assert (P : 0 < (g - 1) * sqrt (rinf g) / g) by (apply Rdiv_lt_0_compat; [nra|lra]). rewrite <- (sqrt_sq _ (Rlt_le _ _ P)). f_equal.
    replace (((g - 1) * sqrt (rinf g) / g) ^ 2) with ((g - 1) ^ 2 * sqrt (rinf g) ^ 2 / g ^ 2) by (field; lra). rewrite Q. unfold rinf, Rsqr. field. lra. }
  rewrite E. set (q := sqrt (rinf g)) in *. replace (rinf g + rinf g) with (2 * q ^ 2) by (rewrite Q; ring). unfold rinf. field. lra.
Qed.
Lemma tdf_max g t : 1 < g -> 0 < t -> tdf (rinf g) t <= tdf (rinf g) (sqrt (rinf g)).
Proof.
  intros Hg Ht. assert (R1 := rinf_gt1 g Hg). assert (Q : sqrt (rinf g) ^ 2 = rinf g) by (apply sq_sqrt; lra). assert (Q0 : 0 < sqrt (rinf g)) by (apply sqrt_lt_R0; lra).
  set (q := sqrt (rinf g)) in *. unfold tdf. rewrite <- Q. apply (Rmult_le_reg_r ((q ^ 2 + t ^ 2) * (2 * q))); [nra|].
  replace (t * (q ^ 2 - 1) / (q ^ 2 + t ^ 2) * ((q ^ 2 + t ^ 2) * (2 * q))) with ((q ^ 2 - 1) * (2 * q * t)) by (field; nra).
  replace (q * (q ^ 2 - 1) / (q ^ 2 + q ^ 2) * ((q ^ 2 + t ^ 2) * (2 * q))) with ((q ^ 2 - 1) * (q ^ 2 + t ^ 2)) by (field; nra).
  apply Rmult_le_compat_l; [lra|]. pose proof (pow2_ge_0 (q - t)). lra.
Qed.
Lemma asin_g g : 1 < g -> 0 < asin (1 / g) < PI / 2.
Proof.
  intros Hg. assert (I : 0 < 1 / g < 1). { split; [pos|]. apply (Rmult_lt_reg_r g); [lra|]. unfold Rdiv; rewrite Rmult_assoc, Rinv_l; lra. }
  rewrite <- asin_0 at 1. rewrite <- asin_1. split; apply asin_increasing; lra.
Qed.
Lemma dfl_below g M s : 1 < g -> 0 < M -> 0 < s < PI / 2 -> dfl g M s < asin (1 / g).
Proof.
  intros Hg HM Hs. destruct (quad_trig _ Hs) as [S [C T]]. rewrite dfl_tdf by assumption.
  rewrite <- (atan_tan (asin (1 / g))) by (pose proof (asin_g g Hg); lra). apply atan_increasing. rewrite (tdf_lim g) by assumption.
  eapply Rlt_le_trans; [|apply (tdf_max g (tan s)); [assumption|lra]]. apply tdf_incr; [apply rhor_pos; [assumption|apply Rgt_not_eq; pos]| |lra].
  pose proof (rinf_gap g (M * sin s) Hg). pose proof (pow2_ge_0 (M * sin s)).
  assert (0 < 2 * (g + 1) / ((g - 1) * (2 + (g - 1) * (M * sin s) ^ 2))) by (apply Rdiv_lt_0_compat; [lra|apply Rmult_lt_0_compat; nra]). lra.
Qed.
Lemma dfl_incr g M M' s : 1 < g -> 0 < M -> M < M' -> 0 < s < PI / 2 -> dfl g M s < dfl g M' s.
Proof.
  intros Hg HM L Hs. destruct (quad_trig _ Hs) as [S [C T]]. rewrite !dfl_tdf by lra || assumption. apply atan_increasing. apply tdf_incr; [apply rhor_pos; [assumption|apply Rgt_not_eq; pos]| |lra].
  apply rhor_incr; [assumption|left; pos|nra].
Qed.
Lemma devmax_ge g M s dm : 1 < g -> 1 < M -> 0 < s < PI / 2 -> 1 <= M * sin s -> dev_Max (Some M) (Some g) = Some dm -> deg (dfl g M s) <= dm.
Proof.
  intros Hg HM Hs Hn E. destruct (max_deflection g M Hg HM) as (sm & dm' & mu & E1 & E2 & E3 & E4 & E5 & E6). rewrite E in E4. injection E4 as <-.
  destruct (mach_angle M HM) as [Q Q1]. rewrite E2 in Q. injection Q as ->. pose proof (deg_quadrant s Hs) as D.
  destruct (Req_dec (deg s) sm) as [N|N].
  - subst sm. rewrite defl_eval in E5 by lra. rewrite rad_deg in E5. injection E5 as ->. lra.
  - destruct (mach_angle_cmp M (deg s) HM D) as (_ & _ & C). rewrite rad_deg in C. destruct (E6 (deg s)) as (th & Et & L); [|exact N|].
    + split; [|lra]. apply Rnot_lt_le. intros Z. apply C in Z. lra.
    + rewrite defl_eval in Et by lra. rewrite rad_deg in Et. injection Et as ->. lra.
Qed.
Lemma devmax_is g M : 1 < g -> 1 < M -> exists s dm, 0 < s < PI / 2 /\ 1 < M * sin s /\ dev_Max (Some M) (Some g) = Some dm /\ dm = deg (dfl g M s).
Proof.
  intros Hg HM. destruct (max_deflection g M Hg HM) as (sm & dm & mu & E1 & E2 & E3 & E4 & E5 & E6).
  destruct (mach_angle M HM) as [Q Q1]. rewrite E2 in Q. injection Q as ->. exists (rad sm), dm. assert (Hs : 0 < sm < 90) by lra. split; [now apply rad_quadrant|]. split.
  - apply (mach_angle_cmp M sm HM Hs). lra.
  - split; [exact E4|]. rewrite defl_eval in E5 by lra. injection E5 as <-. reflexivity.
Qed.
(*@P C19_increasing: For every gamma > 1, dev_Max is positive and strictly increasing in the Mach number above 1, and it always stays strictly below asin(1/gamma) (in degrees; 45.58 degrees in air). *)
Lemma devmax_incr : forall g M M', 1 < g -> 1 < M -> M < M' -> exists d d',
  dev_Max (Some M) (Some g) = Some d /\ dev_Max (Some M') (Some g) = Some d' /\ 0 < d < d' /\ d' < asin (1 / g) * (180 / PI).
Proof.
  intros g M M' Hg HM L. destruct (devmax_is g M Hg HM) as (s & d & Hs & Hn & E & Ed). destruct (devmax_is g M' Hg ltac:(lra)) as (s' & d' & Hs' & Hn' & E' & Ed').
  exists d, d'. split; [exact E|]. split; [exact E'|]. split; [split|].
  - rewrite Ed. replace 0 with (deg 0) by (unfold deg; ring). apply deg_lt. now apply dfl_sign; try lra.
  - apply Rlt_le_trans with (deg (dfl g M' s)); [rewrite Ed; apply deg_lt, dfl_incr; lra|]. apply devmax_ge; try assumption; try lra. destruct (quad_trig _ Hs) as [S _]. nra.
  - rewrite Ed'. change (asin (1 / g) * (180 / PI)) with (deg (asin (1 / g))). apply deg_lt, dfl_below; lra.
Qed.
(*@P C19_limit: For every gamma > 1 the bound asin(1/gamma) is the limit of dev_Max for large Mach numbers: every deflection below it is attached at every Mach number from some point on. *)
Lemma devmax_lim : forall g d, 1 < g -> 0 < d -> d < asin (1 / g) * (180 / PI) ->
  exists A, 1 < A /\ forall M, A <= M -> exists dm, dev_Max (Some M) (Some g) = Some dm /\ d < dm < asin (1 / g) * (180 / PI).
Proof.
  intros g d Hg Hd L. change (asin (1 / g) * (180 / PI)) with (deg (asin (1 / g))) in *.
  pose proof (asin_g g Hg) as Ha. assert (R1 := rinf_gt1 g Hg). assert (Q : sqrt (rinf g) ^ 2 = rinf g) by (apply sq_sqrt; lra). assert (Q0 : 0 < sqrt (rinf g)) by (apply sqrt_lt_R0; lra).
  pose proof (tdf_lim g Hg) as TL. set (q := sqrt (rinf g)) in *.
  assert (Hr : 0 < rad d < asin (1 / g)). { split; [rewrite <- rad_0; now apply rad_lt|]. rewrite <- (rad_deg (asin (1 / g))). now apply rad_lt. }
  assert (TD : 0 < tan (asin (1 / g)) - tan (rad d)). { assert (tan (rad d) < tan (asin (1 / g))) by (apply tan_increasing; lra). lra. }
  set (e := tan (asin (1 / g)) - tan (rad d)) in *.
  assert (Hs : 0 < atan q < PI / 2). { split; [rewrite <- atan_0; now apply atan_increasing|apply atan_bound]. }
  set (s := atan q) in *. destruct (quad_trig _ Hs) as [S [C T]]. assert (Tq : tan s = q) by apply atan_right_inv.
  set (K := (1 + q ^ 2) * (2 * (g + 1)) / (2 * q ^ 3 * (g - 1) ^ 2)).
  assert (q3 : 0 < q ^ 3) by (apply pow_lt; lra).
  assert (K0 : 0 < K). { unfold K. apply Rdiv_lt_0_compat; [nra|]. apply Rmult_lt_0_compat; [lra|nra]. }
  set (A := 1 + 1 / sin s + K / e / (sin s ^ 2)).
  assert (A1 : 0 < 1 / sin s) by pos. assert (A2 : 0 < K / e / sin s ^ 2) by (apply Rdiv_lt_0_compat; [pos|nra]).
  exists A. split; [unfold A; lra|]. intros M HM. assert (M1 : 1 < M) by (unfold A in HM; lra).
  destruct (devmax_is g M Hg M1) as (s' & dm & Hs' & Hn' & E & Ed). exists dm. split; [exact E|].
  split; [|rewrite Ed; apply deg_lt, dfl_below; lra].
  assert (Hn : 1 <= M * sin s). { replace 1 with (1 / sin s * sin s) by (field; lra). apply Rmult_le_compat_r; unfold A in HM; lra. }
  eapply Rlt_le_trans; [|apply (devmax_ge g M s dm Hg M1 Hs Hn E)]. rewrite <- (deg_rad d). apply deg_lt. rewrite dfl_tdf by lra || assumption.
  rewrite <- (atan_tan (rad d)) by lra. apply atan_increasing. rewrite Tq.
  set (n := M * sin s) in *. set (r := rhor g n).
  assert (r0 : 0 < r) by (apply rhor_pos; [assumption|lra]).
  pose proof (rinf_gap g n Hg) as G. fold r in G.
  assert (n2 : 1 <= n ^ 2) by nra.
  assert (Gb : rinf g - r < 2 * (g + 1) / ((g - 1) ^ 2 * n ^ 2)).
  { rewrite G. apply Rmult_lt_compat_l; [lra|]. apply Rinv_lt_contravar; [|nra]. apply Rmult_lt_0_compat; (apply Rmult_lt_0_compat; [try apply pow_lt; lra|nra]). }
  assert (Df : tdf (rinf g) q - tdf r q = (1 + q ^ 2) * (rinf g - r) / (2 * q * (r + q ^ 2))).
  { unfold tdf. rewrite <- Q. field. nra. }
  assert (Db : tdf (rinf g) q - tdf r q < K / n ^ 2).
  { rewrite Df. unfold K. apply Rle_lt_trans with ((1 + q ^ 2) * (rinf g - r) / (2 * q ^ 3)).
    - assert (0 <= rinf g - r) by (rewrite G; left; apply Rdiv_lt_0_compat; [lra|apply Rmult_lt_0_compat; nra]).
      apply Rmult_le_compat_l; [nra|]. apply Rinv_le_contravar; [lra|]. simpl. nra.
    - apply Rlt_le_trans with ((1 + q ^ 2) * (2 * (g + 1) / ((g - 1) ^ 2 * n ^ 2)) / (2 * q ^ 3)).
      + apply Rmult_lt_compat_r; [apply Rinv_0_lt_compat; lra|]. apply Rmult_lt_compat_l; [nra|exact Gb].
      + right. field. lra. }
  assert (Kn : K / n ^ 2 <= e).
  { apply (Rmult_le_reg_r (n ^ 2)); [lra|]. unfold Rdiv at 1. rewrite Rmult_assoc, Rinv_l, Rmult_1_r by lra. unfold n. rewrite Rpow_mult_distr.
    assert (Z : K / e / sin s ^ 2 <= M ^ 2). { apply Rle_trans with M; [unfold A in HM; lra|nra]. }
    apply (Rmult_le_compat_l (e * sin s ^ 2)) in Z; [|nra]. replace (e * sin s ^ 2 * (K / e / sin s ^ 2)) with K in Z by (field; lra). lra. }
  unfold e in Kn. rewrite TL in Kn. fold q in Kn. lra.
Qed.
