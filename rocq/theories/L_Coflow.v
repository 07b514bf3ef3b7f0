(** * notebooks/Shock-31-coflow.ipynb: the shock angle as a root of an explicit function *)
From Verif Require Import Num L_Num Spec NumSpec M_Isentropic M_Degree M_ShockWave M_MassFlow M_Coflow L_Isentropic L_Degree L_Shock L_Oblique L_WeakStrong.
Open Scope R_scope.

Lemma cf_eval M dev s : cos (rad s) <> 0 -> cos (rad (s - dev)) <> 0 ->
  coflow_f (Some M) (Some dev) (Some s) = Some (tan (rad (s - dev)) * rhor (14/10) (M * sin (rad s)) - tan (rad s)).
Proof.
  intros H1 H2. unfold coflow_f, rho_ratio_from_Mn, dgamma. ncbn. rewrite (dtan_eval s H1), dsin_eval.
  rewrite dtan_eval by exact H2. ncbn. rewrite Rho_eval by lra. reflexivity.
Qed.
Lemma cf_def M dev s v : coflow_f (Some M) (Some dev) (Some s) = Some v -> cos (rad s) <> 0 /\ cos (rad (s - dev)) <> 0.
Proof.
  unfold coflow_f, rho_ratio_from_Mn, dgamma. ncbn. rewrite dsin_eval. unfold dtan. ncbn. rewrite Rho_eval by lra. fold (rad s) (rad (s - dev)).
  unfold ntan. intros H. destruct (Req_EM_T (cos (rad (s - dev))) 0); [discriminate|]. destruct (Req_EM_T (cos (rad s)) 0); [discriminate|].
  split; assumption.
Qed.
Lemma rad_half x : -90 < x < 90 -> - (PI / 2) < rad x < PI / 2.
Proof.
  intros H. rewrite <- rad_90. split; [|apply rad_lt; lra]. rewrite <- rad_opp. apply rad_lt. lra.
Qed.
Lemma atan_lip x y : Rabs (atan x - atan y) <= Rabs (x - y).
Proof.
  assert (G : forall a b, a < b -> 0 <= atan b - atan a <= b - a).
  { intros a b Hab. destruct (MVT_cor2 atan (fun t => / (1 + t ^ 2)) a b Hab) as (c & E & Hc).
    - intros t _. apply derivable_pt_lim_atan.
    - rewrite E. assert (0 <= c ^ 2) by apply pow2_ge_0. assert (0 < / (1 + c ^ 2) <= 1).
      { split; [apply Rinv_0_lt_compat; lra|]. rewrite <- Rinv_1. apply Rinv_le_contravar; lra. }
      nra. }
  destruct (Rtotal_order x y) as [H|[->|H]].
  - destruct (G x y H). rewrite !Rabs_left1 by lra. lra.
  - rewrite !Rminus_eq_0. lra.
  - destruct (G y x H). rewrite !Rabs_right by lra. lra.
Qed.

(*@P C95_profile: For every profile of height h and chord l (double wedge whose maximum thickness is at mid-chord), prof_ang is the angle, between 0 and 90 degrees, of its sides to the chord: its tangent is h over the half chord. *)
Lemma profile_angle : forall h l, 0 <= h -> 0 < l -> exists a, prof_ang (Some (h / l)) = Some a /\ 0 <= a < 90 /\ tan (a * (PI / 180)) = h / (l / 2).
Proof.
  intros h l Hh Hl. unfold prof_ang, datan. ncbn. eexists. split; [reflexivity|]. set (t := 2 * (h / l)).
  assert (T0 : 0 <= t) by (unfold t; apply Rmult_le_pos; [lra|]; apply Rmult_le_pos; [lra|left; now apply Rinv_0_lt_compat]).
  pose proof (atan_bound t) as Hb. pose proof PI_RGT_0 as HP. assert (A0 : 0 <= atan t).
  { destruct T0 as [T0|T0]; [left; rewrite <- atan_0; now apply atan_increasing|rewrite <- T0, atan_0; lra]. }
  split; [split|].
  - apply Rmult_le_pos; [exact A0|]. left. apply Rdiv_lt_0_compat; lra.
  - apply Rmult_lt_reg_r with (PI / 180); [lra|]. replace (atan t * (180 / PI) * (PI / 180)) with (atan t) by (field; lra). lra.
  - replace (atan t * (180 / PI) * (PI / 180)) with (atan t) by (field; lra). rewrite tan_atan. unfold t. field. lra.
Qed.

(*@P C95_residual: Whatever the tolerance eps, if the external solver returns a shock angle between the Mach angle and 90 degrees, larger than dev - 90, where the function to solve is at most eps, then the deflection computed by the library for that angle differs from the requested one by at most eps radians; a solver returning exact zeros gives exactly the requested deflection. *)
Lemma coflow_residual : forall newton eps M0 dev s, solves eps newton -> 1 <= M0 ->
  sigma_from_M0_Dev newton (Some M0) (Some dev) = Some s ->
  0 < s < 90 -> -90 < s - dev < 90 -> 1 <= M0 * sin (s * (PI / 180)) ->
  exists th, deflection_Mach_sigma (Some M0) (Some s) (Some (14/10)) = Some th /\ Rabs (th - dev) <= eps * (180 / PI).
Proof.
  intros newton eps M dev s Hn HM E Hs Hd Hm. fold (rad s) in Hm.
  destruct (Hn _ _ _ E) as (e & Ee & He). destruct (cf_def _ _ _ _ Ee) as [C1 C2]. rewrite cf_eval in Ee by assumption. injection Ee as Ee.
  exists (deg (dfl (14/10) M (rad s))). split; [apply defl_eval; lra|].
  set (R := rhor (14/10) (M * sin (rad s))) in *.
  assert (HR : 1 <= R).
  { unfold R, rhor. set (k := M * sin (rad s)) in *. assert (1 <= k ^ 2) by nra. apply (Rmult_le_reg_r (2 + (14/10 - 1) * k ^ 2)); [lra|].
    match goal with |- _ <= ?a / ?b * ?b => replace (a / b * b) with a by (field; lra) end. lra. }
  pose proof (rad_half _ Hd) as Hrd.
  assert (Eb : rad (s - dev) - bet (14/10) M (rad s) = atan (tan (rad (s - dev))) - atan (tan (rad s) / R)).
  { unfold bet. fold R. rewrite (atan_tan (rad (s - dev))) by lra. reflexivity. }
  assert (Hx : tan (rad (s - dev)) - tan (rad s) / R = e / R) by (rewrite <- Ee; field; lra).
  assert (Hb : Rabs (rad (s - dev) - bet (14/10) M (rad s)) <= eps).
  { rewrite Eb. eapply Rle_trans; [apply atan_lip|]. rewrite Hx. unfold Rdiv. rewrite Rabs_mult, (Rabs_right (/ R)) by (left; apply Rinv_0_lt_compat; lra).
    assert (/ R <= 1) by (rewrite <- Rinv_1; apply Rinv_le_contravar; lra). assert (0 < / R) by (apply Rinv_0_lt_compat; lra).
    pose proof (Rabs_pos e). nra. }
  unfold dfl. replace (deg (rad s - bet (14/10) M (rad s)) - dev) with (deg (rad (s - dev) - bet (14/10) M (rad s))).
  - unfold deg. pose proof PI_RGT_0. assert (Hp : 0 < 180 / PI) by pos.
    rewrite Rabs_mult, (Rabs_right (180 / PI)) by lra. apply Rmult_le_compat_r; lra.
  - rewrite !deg_sub, rad_sub, deg_sub, !deg_rad. ring.
Qed.

(*@P C95_trivial_refuted: Zero is always a root: whatever the Mach number and the deflection, the function to solve vanishes at a shock angle 0, so that even an exact root finder may return 0, which is not a shock. *)
Lemma coflow_trivial : forall M0 dev, cos (dev * (PI / 180)) <> 0 ->
  coflow_f (Some M0) (Some dev) (Some 0) = Some 0 /\
  exists newton, solves 0 newton /\ sigma_from_M0_Dev newton (Some M0) (Some dev) = Some 0.
Proof.
  intros M dev Hc. fold (rad dev) in Hc.
  assert (E : coflow_f (Some M) (Some dev) (Some 0) = Some 0).
  { assert (R0 : rad 0 = 0) by apply rad_0. rewrite cf_eval.
    - rewrite R0, sin_0, tan_0. unfold rhor. rewrite Rmult_0_r. f_equal. field.
    - rewrite R0, cos_0. lra.
    - replace (rad (0 - dev)) with (- rad dev) by (unfold rad; ring). rewrite cos_neg. exact Hc. }
  split; [exact E|]. exists (fun f x => lazy_newton 0 f (Some 0)). split.
  - intros f x0 r Hr. apply (lazy_newton_solves 0 ltac:(lra) f (Some 0) r Hr).
  - unfold sigma_from_M0_Dev, lazy_newton. rewrite E. rewrite Rabs_R0. destruct (Rle_dec 0 0); [reflexivity|lra].
Qed.

(** ** all the roots *)
Definition cP (M T t : R) : R := T * (2 + 4/10 * M ^ 2) * t ^ 3 - 2 * (M ^ 2 - 1) * t ^ 2 + T * (2 + 24/10 * M ^ 2) * t + 2.
Lemma cf_root M dev s : 0 < M -> -90 < s < 90 -> -90 < dev < 90 ->
  (coflow_f (Some M) (Some dev) (Some s) = Some 0 <-> s = 0 \/ cP M (tan (rad dev)) (tan (rad s)) = 0).
Proof.
  intros HM0 Hs Hd. pose proof (rad_half s Hs) as Hrs. pose proof (rad_half dev Hd) as Hrd.
  assert (Cs : 0 < cos (rad s)) by (apply cos_gt_0; lra). assert (Cd : 0 < cos (rad dev)) by (apply cos_gt_0; lra).
  set (t := tan (rad s)). set (T := tan (rad dev)).
  assert (E0 : s = 0 <-> t = 0).
  { unfold t. split; intros H; [rewrite H, rad_0; apply tan_0|]. rewrite <- (deg_rad s), <- (atan_tan (rad s)) by lra. rewrite H, atan_0. apply deg_0. }
  assert (Ec : cos (rad (s - dev)) = cos (rad s) * cos (rad dev) * (1 + t * T)).
  { rewrite rad_sub, cos_minus. unfold t, T, tan. field. lra. }
  assert (Es : sin (rad (s - dev)) = cos (rad s) * cos (rad dev) * (t - T)).
  { rewrite rad_sub, sin_minus. unfold t, T, tan. field. lra. }
  assert (Es2 : sin (rad s) ^ 2 = t ^ 2 / (1 + t ^ 2)).
  { pose proof (sc2 (rad s)) as S2. assert (Et : t ^ 2 = sin (rad s) ^ 2 / cos (rad s) ^ 2) by (unfold t, tan; field; lra).
    assert (0 < cos (rad s) ^ 2) by pos.
    replace (1 + t ^ 2) with (/ cos (rad s) ^ 2); [rewrite Et; field; lra|]. rewrite Et. rewrite <- S2 at 1. rewrite S2. 
    replace (1 + sin (rad s) ^ 2 / cos (rad s) ^ 2) with ((sin (rad s) ^ 2 + cos (rad s) ^ 2) / cos (rad s) ^ 2) by (field; lra). rewrite S2. field. lra. }
  assert (Ht2 : 0 < 1 + t ^ 2) by (assert (0 <= t ^ 2) by apply pow2_ge_0; lra).
  assert (HM2 : 0 <= M ^ 2) by apply pow2_ge_0. assert (Htt : 0 <= t ^ 2) by apply pow2_ge_0.
  assert (HD : 0 < 2 * (1 + t ^ 2) + 4/10 * M ^ 2 * t ^ 2) by (assert (0 <= M ^ 2 * t ^ 2) by (apply Rmult_le_pos; assumption); lra).
  assert (ER : rhor (14/10) (M * sin (rad s)) = 24/10 * M ^ 2 * t ^ 2 / (2 * (1 + t ^ 2) + 4/10 * M ^ 2 * t ^ 2)).
  { unfold rhor. rewrite Rpow_mult_distr, Es2. field. split; [|lra]. lra. }
  split.
  - intros E. destruct (cf_def _ _ _ _ E) as [_ C2]. rewrite cf_eval in E by (assumption || lra). injection E as E.
    assert (H1 : 1 + t * T <> 0) by (intros Z; apply C2; rewrite Ec, Z; ring).
    assert (Etn : tan (rad (s - dev)) = (t - T) / (1 + t * T)) by (unfold tan; rewrite Ec, Es; field; repeat split; try lra; exact H1).
    fold t in E. rewrite Etn, ER in E.
    assert (Z : t * cP M T t = 0).
    { replace (t * cP M T t) with (- (((t - T) / (1 + t * T) * (24/10 * M ^ 2 * t ^ 2 / (2 * (1 + t ^ 2) + 4/10 * M ^ 2 * t ^ 2)) - t) * ((1 + t * T) * (2 * (1 + t ^ 2) + 4/10 * M ^ 2 * t ^ 2)))).
      - rewrite E. ring.
      - unfold cP. field. split; [lra|exact H1]. }
    apply Rmult_integral in Z. destruct Z as [Z|Z]; [left; now apply E0|right; exact Z].
  - intros H. assert (HZ : t * cP M T t = 0) by (destruct H as [H|H]; [apply E0 in H; rewrite H; ring|rewrite H; ring]).
    assert (H1 : 1 + t * T <> 0).
    { intros Z. destruct H as [H|H]; [apply E0 in H; rewrite H in Z; lra|]. fold t T in H.
      assert (G : cP M T t = (1 + t * T) * (2 + 2 * t ^ 2 + 4/10 * M ^ 2 * t ^ 2) - 24/10 * M ^ 2 * t * (t - T)) by (unfold cP; field).
      rewrite Z, H in G.
      assert (M ^ 2 * (t ^ 2 + 1) = 0) by (replace (t ^ 2 + 1) with (t * (t - T) + (1 + t * T)) by ring; rewrite Z; lra).
      apply Rmult_integral in H0. destruct H0 as [H0|H0]; [|lra].
      assert (0 < M ^ 2) by pos. lra. }
    assert (C2 : cos (rad (s - dev)) <> 0).
    { rewrite Ec. intros Z. apply Rmult_integral in Z. destruct Z as [Z|Z]; [|contradiction]. apply Rmult_integral in Z. lra. }
    rewrite cf_eval by (assumption || lra).
    assert (Etn : tan (rad (s - dev)) = (t - T) / (1 + t * T)) by (unfold tan; rewrite Ec, Es; field; repeat split; try lra; exact H1).
    rewrite Etn, ER. fold t. f_equal.
    replace ((t - T) / (1 + t * T) * (24/10 * M ^ 2 * t ^ 2 / (2 * (1 + t ^ 2) + 4/10 * M ^ 2 * t ^ 2)) - t)
      with (- (t * cP M T t) / ((1 + t * T) * (2 * (1 + t ^ 2) + 4/10 * M ^ 2 * t ^ 2))) by (unfold cP; field; split; [lra|exact H1]).
    rewrite HZ. unfold Rdiv. ring.
Qed.

Lemma cP_neg M T : 1 <= M -> 0 < T -> exists t0, t0 < 0 /\ cP M T t0 = 0 /\ forall t, t < 0 -> cP M T t = 0 -> t = t0.
Proof.
  intros HM HT. assert (HM2 : 1 <= M ^ 2) by nra.
  set (a := T * (2 + 4/10 * M ^ 2)). set (b := T * (2 + 24/10 * M ^ 2)). set (c := 2 * (M ^ 2 - 1)).
  assert (Ha : 0 < a) by (unfold a; pos). assert (Hb : 0 < b) by (unfold b; pos). assert (Hc : 0 <= c) by (unfold c; lra).
  assert (E : forall t, cP M T t = a * t ^ 3 - c * t ^ 2 + b * t + 2) by (intros; reflexivity).
  assert (Mono : forall x y, x < y -> y < 0 -> cP M T x < cP M T y).
  { intros x y Hxy Hy. rewrite !E.
    assert (K : a * y ^ 3 - c * y ^ 2 + b * y + 2 - (a * x ^ 3 - c * x ^ 2 + b * x + 2) = (y - x) * (a * (y ^ 2 + x * y + x ^ 2) + c * (- (x + y)) + b)) by ring.
    assert (0 < (y - x) * (a * (y ^ 2 + x * y + x ^ 2) + c * (- (x + y)) + b)); [|lra].
    apply Rmult_lt_0_compat; [lra|]. assert (0 < y ^ 2 + x * y + x ^ 2) by nra. assert (0 <= c * (- (x + y))) by (apply Rmult_le_pos; lra). pos. }
  set (K := 1 + 2 / a). assert (HK : 1 < K) by (unfold K; assert (0 < 2 / a) by pos; lra).
  assert (HaK : 2 < a * K) by (unfold K; replace (a * (1 + 2 / a)) with (a + 2) by (field; lra); lra).
  destruct (IVT_value (cP M T) (- K) 0 0) as (t0 & Ht0 & Et0).
  - lra.
  - intros x _. apply (ex_derive_continuous (cP M T)). unfold cP. auto_derive. trivial.
  - rewrite !E. split.
    + replace (a * (- K) ^ 3 - c * (- K) ^ 2 + b * - K + 2) with (2 - (a * K) * K ^ 2 - c * K ^ 2 - b * K) by ring.
      assert (1 < K ^ 2) by nra. assert (0 <= c * K ^ 2) by (apply Rmult_le_pos; nra). assert (0 < b * K) by pos. nra.
    + lra.
  - exists t0. assert (t0 < 0). { destruct (proj2 Ht0) as [H|H]; [exact H|]. rewrite H, E in Et0. lra. }
    split; [assumption|]. split; [exact Et0|]. intros t Ht Z.
    destruct (Rtotal_order t t0) as [H1|[H1|H1]]; [|exact H1|].
    + pose proof (Mono t t0 H1 H). lra.
    + pose proof (Mono t0 t H1 Ht). lra.
Qed.
Lemma cf_positive M dev s : 1 < M -> 0 < dev < 90 -> 0 < s < 90 ->
  (coflow_f (Some M) (Some dev) (Some s) = Some 0 <-> deflection_Mach_sigma (Some M) (Some s) (Some (14/10)) = Some dev).
Proof.
  intros HM Hd Hs. pose proof (rad_quadrant s Hs) as Hr. destruct (quad_trig _ Hr) as (H1 & H2 & H3).
  assert (HR : 0 < rhor (14/10) (M * sin (rad s))).
  { apply rhor_pos; [lra|]. apply Rmult_integral_contrapositive; split; lra. }
  assert (Hrd : - (PI / 2) < rad (s - dev) < PI / 2) by (apply rad_half; lra).
  assert (Hc : 0 < cos (rad (s - dev))) by (apply cos_gt_0; lra).
  rewrite defl_eval by lra. rewrite cf_eval by lra. split; intros E; injection E as E; f_equal.
  - assert (Eb : bet (14/10) M (rad s) = rad (s - dev)).
    { unfold bet. rewrite <- (atan_tan (rad (s - dev))) by lra. f_equal. apply (Rmult_eq_reg_r (rhor (14/10) (M * sin (rad s)))); [|lra].
      replace (tan (rad s) / rhor (14/10) (M * sin (rad s)) * rhor (14/10) (M * sin (rad s))) with (tan (rad s)) by (field; lra). lra. }
    unfold dfl. rewrite Eb, rad_sub. replace (rad s - (rad s - rad dev)) with (rad dev) by ring. apply deg_rad.
  - assert (Eb : rad (s - dev) = bet (14/10) M (rad s)).
    { rewrite rad_sub. rewrite <- E, rad_deg. unfold dfl. ring. }
    rewrite Eb. unfold bet. rewrite tan_atan. field. lra.
Qed.

(*@P C95_roots: All the roots between -90 and 90 degrees, for every supersonic Mach number and every deflection between 0 and 90: 0, one negative root, and exactly the shock angles whose deflection is the requested one, that is, when the deflection can be reached, the weak and the strong angles of the library, and nothing when it cannot. Hence four roots (distinct unless the weak and strong solutions coincide), as the notebook says, or two when the shock is detached. *)
Lemma coflow_roots : forall M0 dev, 1 < M0 -> 0 < dev < 90 ->
  exists neg, -90 < neg < 0 /\ forall s, -90 < s < 90 ->
  (coflow_f (Some M0) (Some dev) (Some s) = Some 0 <->
   s = 0 \/ s = neg \/ (0 < s /\ deflection_Mach_sigma (Some M0) (Some s) (Some (14/10)) = Some dev)) /\
  ((exists sigma, 0 < sigma < 90 /\ deflection_Mach_sigma (Some M0) (Some sigma) (Some (14/10)) = Some dev) ->
   (coflow_f (Some M0) (Some dev) (Some s) = Some 0 <->
    s = 0 \/ s = neg \/ weaksigma_Mach_deflection (Some M0) (Some dev) (Some (14/10)) = Some s \/
    strongsigma_Mach_deflection (Some M0) (Some dev) (Some (14/10)) = Some s)).
Proof.
  intros M dev HM Hd. pose proof (rad_quadrant dev Hd) as Hr. destruct (quad_trig _ Hr) as (_ & _ & HT).
  destruct (cP_neg M (tan (rad dev)) ltac:(lra) HT) as (t0 & Ht0 & Et0 & U).
  pose proof (atan_bound t0) as B. assert (Ha : atan t0 < 0) by (rewrite <- atan_0; now apply atan_increasing).
  assert (Hneg : -90 < deg (atan t0) < 0).
  { split; [|rewrite <- deg_0; now apply deg_lt]. replace (-90) with (deg (- (PI / 2))) by (rewrite deg_opp, deg_PI2; lra). apply deg_lt; lra. }
  exists (deg (atan t0)). split; [exact Hneg|].
  intros s Hs. pose proof (rad_half s Hs) as Hrs.
  assert (A : coflow_f (Some M) (Some dev) (Some s) = Some 0 <-> s = 0 \/ s = deg (atan t0) \/ (0 < s /\ deflection_Mach_sigma (Some M) (Some s) (Some (14/10)) = Some dev)).
  { destruct (Rtotal_order s 0) as [Hl|[->|Hl]].
    - rewrite cf_root by lra. assert (Hts : tan (rad s) < 0).
      { assert (rad s < 0) by (rewrite <- rad_0; now apply rad_lt). unfold tan. assert (sin (rad s) < 0) by (apply sin_lt_0_var; lra).
        assert (0 < cos (rad s)) by (apply cos_gt_0; lra). apply (Rmult_lt_reg_r (cos (rad s))); [assumption|]. replace (sin (rad s) / cos (rad s) * cos (rad s)) with (sin (rad s)) by (field; lra). lra. }
      split.
      + intros [H|H]; [lra|]. right; left. rewrite <- (U _ Hts H), atan_tan, deg_rad by lra. reflexivity.
      + intros [H|[H|H]]; [lra| |lra]. right. rewrite H, rad_deg, tan_atan. exact Et0.
    - rewrite cf_root by lra. split; intros _; left; reflexivity.
    - rewrite cf_positive by lra. split; [intros H; right; right; split; [lra|exact H]|]. intros [H|[H|H]]; [lra|lra|apply H]. }
  split; [exact A|]. intros Hex. rewrite A.
  destruct (weak_strong (14/10) M dev ltac:(lra) HM Hd) as [WS _]. destruct (WS Hex) as (w & st & Ew & Est & Hw & Hws & Hst & Dw & Ds).
  rewrite Ew, Est. split.
  - intros [H|[H|[H1 H]]]; [auto|auto|]. destruct (weak_strong_only (14/10) M dev s w st ltac:(lra) HM Hd ltac:(lra) H Ew Est) as [->| ->]; auto.
  - intros [H|[H|[H|H]]]; [auto|auto| |]; injection H as <-; right; right; split; try assumption; lra.
Qed.

(*@E C95_example: at Mach 2 some deflection between 0 and 90 degrees is reached, and a solver meeting the hypotheses exists. *)
Lemma C95_ex : (exists th, 0 < th < 90 /\ exists sigma, 0 < sigma < 90 /\ deflection_Mach_sigma (Some 2) (Some sigma) (Some (14/10)) = Some th) /\
  solves 0 (lazy_newton 0) /\ cos (20 * (PI / 180)) <> 0.
Proof.
  split; [|split; [apply lazy_newton_solves; lra|]].
  - destruct weak_strong_ex as (th & Hth & E). exists th. split; [exact Hth|]. exists 60. split; [lra|]. replace (14/10) with (7/5) by field. exact E.
  - fold (rad 20). pose proof (rad_quadrant 20 ltac:(lra)). apply Rgt_not_eq, cos_gt_0; lra.
Qed.
