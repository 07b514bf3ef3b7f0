From Verif Require Import L_Num M_Degree.
Open Scope R_scope.

Definition rad (a : R) : R := a * (PI / 180).
Definition deg (a : R) : R := a * (180 / PI).
Lemma PI_nz : PI <> 0. Proof. apply PI_neq0. Qed.
Lemma rad_deg x : rad (deg x) = x.
Proof. unfold rad, deg; field; apply PI_nz. Qed.
Lemma deg_rad x : deg (rad x) = x.
Proof. unfold rad, deg; field; apply PI_nz. Qed.
Lemma rad_lt x y : x < y -> rad x < rad y.
Proof. intros; unfold rad; pose proof PI_RGT_0; nra. Qed.
Lemma rad_le x y : x <= y -> rad x <= rad y.
Proof. intros; unfold rad; pose proof PI_RGT_0; nra. Qed.
Lemma deg_lt x y : x < y -> deg x < deg y.
Proof. intros; unfold deg; assert (0 < 180 / PI) by (pose proof PI_RGT_0; pos); nra. Qed.
Lemma deg_le x y : x <= y -> deg x <= deg y.
Proof. intros; unfold deg; assert (0 < 180 / PI) by (pose proof PI_RGT_0; pos); nra. Qed.
Lemma rad_0 : rad 0 = 0. Proof. unfold rad; ring. Qed.
Lemma deg_0 : deg 0 = 0. Proof. unfold deg; ring. Qed.
Lemma rad_90 : rad 90 = PI / 2. Proof. unfold rad; field. Qed.
Lemma rad_180 : rad 180 = PI. Proof. unfold rad; field. Qed.
Lemma deg_PI2 : deg (PI / 2) = 90. Proof. unfold deg; field; apply PI_nz. Qed.
Lemma deg_PI : deg PI = 180. Proof. unfold deg; field; apply PI_nz. Qed.
Lemma deg_opp x : deg (- x) = - deg x. Proof. unfold deg; ring. Qed.
Lemma rad_opp x : rad (- x) = - rad x. Proof. unfold rad; ring. Qed.
Lemma deg_sub x y : deg (x - y) = deg x - deg y. Proof. unfold deg; ring. Qed.
Lemma rad_sub x y : rad (x - y) = rad x - rad y. Proof. unfold rad; ring. Qed.
Lemma rad_add x y : rad (x + y) = rad x + rad y. Proof. unfold rad; ring. Qed.
Lemma deg_inj x y : deg x = deg y -> x = y.
Proof. intros H; rewrite <- (rad_deg x), <- (rad_deg y); congruence. Qed.
Lemma rad_inj x y : rad x = rad y -> x = y.
Proof. intros H; rewrite <- (deg_rad x), <- (deg_rad y); congruence. Qed.

Lemma dsin_eval a : dsin (Some a) = Some (sin (rad a)). Proof. reflexivity. Qed.
Lemma dcos_eval a : dcos (Some a) = Some (cos (rad a)). Proof. reflexivity. Qed.
Lemma dtan_eval a : cos (rad a) <> 0 -> dtan (Some a) = Some (tan (rad a)).
Proof. intros; unfold dtan; ncbn; now apply ntan_Some. Qed.
Lemma dasin_eval x : -1 <= x <= 1 -> dasin (Some x) = Some (deg (asin x)).
Proof. intros; unfold dasin; now rewrite narcsin_Some. Qed.
Lemma dacos_eval x : -1 <= x <= 1 -> dacos (Some x) = Some (deg (acos x)).
Proof. intros; unfold dacos; now rewrite narccos_Some. Qed.
Lemma datan_eval x : datan (Some x) = Some (deg (atan x)). Proof. reflexivity. Qed.
Lemma datan2_eval x y : datan2 (Some x) (Some y) = Some (deg (Ratan2 x y)). Proof. reflexivity. Qed.

Lemma asin_none x : x < -1 \/ 1 < x -> narcsin (Some x) = None.
Proof. intros; unfold narcsin; destruct (Rle_dec (-1) x), (Rle_dec x 1); try reflexivity; lra. Qed.
Lemma acos_none x : x < -1 \/ 1 < x -> narccos (Some x) = None.
Proof. intros; unfold narccos; destruct (Rle_dec (-1) x), (Rle_dec x 1); try reflexivity; lra. Qed.

Lemma asin_increasing x y : -1 <= x -> x < y -> y <= 1 -> asin x < asin y.
Proof.
  intros H1 H2 H3. destruct (Rlt_le_dec (asin x) (asin y)) as [|L]; [assumption|exfalso].
  assert (sin (asin y) <= sin (asin x)).
  { pose proof (asin_bound x); pose proof (asin_bound y). apply sin_incr_1; lra. }
  rewrite !sin_asin in H by lra. lra.
Qed.
(*@P C29_pythagoras *)
Lemma deg_pythagoras : forall a, exists s c, dsin (Some a) = Some s /\ dcos (Some a) = Some c /\ s ^ 2 + c ^ 2 = 1.
Proof.
  intros a; do 2 eexists; split; [apply dsin_eval|]; split; [apply dcos_eval|].
  pose proof (sin2_cos2 (rad a)); unfold Rsqr in *; lra.
Qed.
(*@P C29_complement: sin(a) = cos(90-a) and cos(a) = sin(90-a) *)
Lemma deg_complement : forall a, dsin (Some a) = dcos (Some (90 - a)) /\ dcos (Some a) = dsin (Some (90 - a)).
Proof.
  intros a; rewrite !dsin_eval, !dcos_eval, !rad_sub, rad_90.
  split; f_equal; [symmetry; apply cos_shift|symmetry; apply sin_shift].
Qed.
(*@P C29_tan: tan = sin/cos, with no finite value exactly where cos vanishes *)
Lemma deg_tan_ratio : forall a, dtan (Some a) = ndiv (dsin (Some a)) (dcos (Some a)).
Proof. intros a; unfold dtan, dsin, dcos; ncbn; unfold ntan, ndiv, tan; now destruct (Req_EM_T _ 0). Qed.
(*@P C29_asin: asin is the principal value: defined exactly on [-1,1], in [-90,90], and mutually inverse with sin. *)
Lemma deg_asin : forall x,
  ((exists a, dasin (Some x) = Some a) <-> -1 <= x <= 1) /\
  (forall a, dasin (Some x) = Some a -> -90 <= a <= 90 /\ dsin (Some a) = Some x) /\
  (forall a, -90 <= a <= 90 -> dsin (Some a) = Some x -> dasin (Some x) = Some a).
Proof.
  intros x. assert (N : x < -1 \/ 1 < x -> dasin (Some x) = None).
  { intros H; unfold dasin; now rewrite asin_none. }
  assert (D : forall a, dasin (Some x) = Some a -> -1 <= x <= 1).
  { intros a H; destruct (Rlt_le_dec x (-1)); [rewrite N in H by lra; discriminate|].
    destruct (Rlt_le_dec 1 x); [rewrite N in H by lra; discriminate|lra]. }
  repeat split.
  - destruct H as [a H]; apply D in H; lra.
  - destruct H as [a H]; apply D in H; lra.
  - intros H; eexists; now apply dasin_eval.
  - pose proof (D _ H) as Hx; rewrite dasin_eval in H by assumption; injection H as <-.
    pose proof (asin_bound x). replace (-90) with (deg (- (PI / 2))) by (rewrite deg_opp, deg_PI2; lra). apply deg_le; lra.
  - pose proof (D _ H) as Hx; rewrite dasin_eval in H by assumption; injection H as <-.
    pose proof (asin_bound x). rewrite <- deg_PI2. apply deg_le; lra.
  - pose proof (D _ H) as Hx; rewrite dasin_eval in H by assumption; injection H as <-.
    rewrite dsin_eval, rad_deg, sin_asin; [reflexivity|assumption].
  - intros a Ha E; rewrite dsin_eval in E; injection E as <-.
    rewrite dasin_eval by apply SIN_bound. rewrite asin_sin; [now rewrite deg_rad|].
    pose proof (rad_le (-90) a). pose proof (rad_le a 90). rewrite rad_90 in *.
    replace (rad (-90)) with (- (PI / 2)) in * by (rewrite <- rad_90, <- rad_opp; f_equal; lra). lra.
Qed.
(*@P C29_acos: acos: defined exactly on [-1,1], in [0,180], and mutually inverse with cos. *)
Lemma deg_acos : forall x,
  ((exists a, dacos (Some x) = Some a) <-> -1 <= x <= 1) /\
  (forall a, dacos (Some x) = Some a -> 0 <= a <= 180 /\ dcos (Some a) = Some x) /\
  (forall a, 0 <= a <= 180 -> dcos (Some a) = Some x -> dacos (Some x) = Some a).
Proof.
  intros x. assert (N : x < -1 \/ 1 < x -> dacos (Some x) = None).
  { intros H; unfold dacos; now rewrite acos_none. }
  assert (D : forall a, dacos (Some x) = Some a -> -1 <= x <= 1).
  { intros a H; destruct (Rlt_le_dec x (-1)); [rewrite N in H by lra; discriminate|].
    destruct (Rlt_le_dec 1 x); [rewrite N in H by lra; discriminate|lra]. }
  repeat split.
  - destruct H as [a H]; apply D in H; lra.
  - destruct H as [a H]; apply D in H; lra.
  - intros H; eexists; now apply dacos_eval.
  - pose proof (D _ H) as Hx; rewrite dacos_eval in H by assumption; injection H as <-.
    pose proof (acos_bound x). rewrite <- deg_0. apply deg_le; lra.
  - pose proof (D _ H) as Hx; rewrite dacos_eval in H by assumption; injection H as <-.
    pose proof (acos_bound x). rewrite <- deg_PI. apply deg_le; lra.
  - pose proof (D _ H) as Hx; rewrite dacos_eval in H by assumption; injection H as <-.
    rewrite dcos_eval, rad_deg, cos_acos; [reflexivity|assumption].
  - intros a Ha E; rewrite dcos_eval in E; injection E as <-.
    rewrite dacos_eval by apply COS_bound. rewrite acos_cos; [now rewrite deg_rad|].
    pose proof (rad_le 0 a). pose proof (rad_le a 180). rewrite rad_180, rad_0 in *. lra.
Qed.
(*@P C29_atan: atan: defined everywhere, in (-90,90), and mutually inverse with tan. *)
Lemma deg_atan : forall x,
  (exists a, datan (Some x) = Some a /\ -90 < a < 90 /\ dtan (Some a) = Some x) /\
  (forall a, -90 < a < 90 -> dtan (Some a) = Some x -> datan (Some x) = Some a).
Proof.
  intros x; split.
  - eexists; split; [apply datan_eval|]. pose proof (atan_bound x) as B. split.
    + pose proof (deg_lt (- (PI / 2)) (atan x)). pose proof (deg_lt (atan x) (PI / 2)).
      rewrite deg_opp, deg_PI2 in *. lra.
    + rewrite dtan_eval; rewrite rad_deg; [now rewrite tan_atan|].
      apply Rgt_not_eq, cos_gt_0; lra.
  - intros a Ha E.
    assert (B : - (PI / 2) < rad a < PI / 2).
    { pose proof (rad_lt (-90) a). pose proof (rad_lt a 90). rewrite rad_90 in *.
      replace (rad (-90)) with (- (PI / 2)) in * by (rewrite <- rad_90, <- rad_opp; f_equal; lra). lra. }
    rewrite dtan_eval in E; [|apply Rgt_not_eq, cos_gt_0; lra]. injection E as <-.
    rewrite datan_eval, atan_tan by lra. now rewrite deg_rad.
Qed.
Lemma atan2_polar b t : 0 < b -> - PI < t <= PI -> Ratan2 (b * sin t) (b * cos t) = t.
Proof.
  intros Hb Ht. unfold Ratan2.
  assert (Q : cos t <> 0 -> b * sin t / (b * cos t) = tan t) by (intros; unfold tan; field; split; lra).
  destruct (Rlt_dec 0 (b * cos t)) as [H1|H1].
  - assert (Hc : 0 < cos t) by nra. rewrite Q by lra.
    apply atan_tan. split.
    + destruct (Rlt_le_dec (- (PI / 2)) t) as [|L]; [lra|].
      exfalso. assert (cos (- t) <= 0) by (apply cos_le_0; lra). rewrite cos_neg in *; lra.
    + destruct (Rlt_le_dec t (PI / 2)) as [|L]; [lra|].
      exfalso. assert (cos t <= 0) by (apply cos_le_0; lra). lra.
  - destruct (Rlt_dec (b * cos t) 0) as [H2|H2].
    + assert (Hc : cos t < 0) by nra. rewrite Q by lra.
      destruct (Rle_dec 0 (b * sin t)) as [H3|H3].
      * assert (Hs : 0 <= sin t) by nra.
        assert (PI / 2 < t).
        { destruct (Rlt_le_dec (PI / 2) t) as [|L]; [lra|]. exfalso.
          destruct (Rle_lt_dec (- (PI / 2)) t) as [L2|L2].
          - assert (0 <= cos t) by (apply cos_ge_0; lra). lra.
          - assert (0 < sin (- t)) by (apply sin_gt_0; lra). rewrite sin_neg in *; lra. }
        replace (tan t) with (tan (t - PI)); [rewrite atan_tan; lra|].
        unfold tan. replace (t - PI) with (- (PI - t)) by ring.
        rewrite sin_neg, cos_neg, Rtrigo_facts.cos_pi_minus, Rtrigo_facts.sin_pi_minus. field; lra.
      * assert (Hs : sin t < 0) by nra.
        assert (t < - (PI / 2)).
        { destruct (Rlt_le_dec t (- (PI / 2))) as [|L]; [lra|]. exfalso.
          destruct (Rle_lt_dec t 0) as [L2|L2].
          - assert (0 <= cos t) by (apply cos_ge_0; lra). lra.
          - assert (0 <= sin t) by (apply sin_ge_0; lra). lra. }
        replace (tan t) with (tan (t + PI)); [rewrite atan_tan; lra|].
        unfold tan. rewrite neg_sin, neg_cos. field; lra.
    + assert (Hc : cos t = 0) by nra.
      assert (Hs : sin t = 1 \/ sin t = -1).
      { pose proof (sin2_cos2 t) as P; rewrite Hc in P; unfold Rsqr in P.
        assert ((sin t - 1) * (sin t + 1) = 0) by lra.
        apply Rmult_integral in H; destruct H; [left|right]; lra. }
      destruct Hs as [Hs|Hs]; rewrite Hs.
      * destruct (Rlt_dec 0 (b * 1)) as [_|]; [|lra].
        destruct (Rle_lt_dec 0 t) as [L|L].
        { apply cos_inj; [pose proof PI_RGT_0; lra|lra|]. rewrite Hc; apply cos_PI2. }
        { exfalso. assert (0 < sin (- t)) by (apply sin_gt_0; lra). rewrite sin_neg in *; lra. }
      * destruct (Rlt_dec 0 (b * -1)) as [|_]; [lra|].
        destruct (Rlt_dec (b * -1) 0) as [_|]; [|lra].
        destruct (Rle_lt_dec 0 t) as [L|L].
        { exfalso. assert (0 <= sin t) by (apply sin_ge_0; lra). lra. }
        { assert (PI / 2 = - t); [|lra]. apply cos_inj; [pose proof PI_RGT_0; lra|lra|].
          rewrite cos_neg, Hc; apply cos_PI2. }
Qed.
(*@P C29_atan2: atan2 recovers every angle in (-180,180] from its sine and cosine at any positive distance. *)
Lemma deg_atan2 : forall b t, 0 < b -> -180 < t <= 180 ->
  exists s c, dsin (Some t) = Some s /\ dcos (Some t) = Some c /\
    datan2 (Some (b * s)) (Some (b * c)) = Some t.
Proof.
  intros b t Hb Ht; do 2 eexists; split; [apply dsin_eval|]; split; [apply dcos_eval|].
  rewrite datan2_eval, atan2_polar; [now rewrite deg_rad|assumption|].
  pose proof (rad_lt (-180) t). pose proof (rad_le t 180). rewrite rad_180 in *.
  replace (rad (-180)) with (- PI) in * by (rewrite <- rad_180, <- rad_opp; f_equal; lra). lra.
Qed.
(*@P C29_periodic: 360-degree periodicity, for any number of turns. *)
Lemma deg_periodic : forall a (k : Z),
  dsin (Some (a + 360 * IZR k)) = dsin (Some a) /\ dcos (Some (a + 360 * IZR k)) = dcos (Some a)
  /\ dtan (Some (a + 360 * IZR k)) = dtan (Some a).
Proof.
  intros a k.
  assert (S : forall x (n : nat), sin (x + 2 * IZR (Z.of_nat n) * PI) = sin x /\ cos (x + 2 * IZR (Z.of_nat n) * PI) = cos x).
  { intros x n; rewrite <- INR_IZR_INZ; split; [apply sin_period|apply cos_period]. }
  assert (E : sin (rad (a + 360 * IZR k)) = sin (rad a) /\ cos (rad (a + 360 * IZR k)) = cos (rad a)).
  { replace (rad (a + 360 * IZR k)) with (rad a + 2 * IZR k * PI) by (unfold rad; field).
    destruct (Z_le_dec 0 k) as [H|H].
    - rewrite <- (Z2Nat.id k) by assumption. apply S.
    - destruct (S (rad a + 2 * IZR k * PI) (Z.to_nat (- k))) as [S1 S2].
      rewrite Z2Nat.id in S1, S2 by lia. rewrite opp_IZR in S1, S2.
      replace (rad a + 2 * IZR k * PI + 2 * - IZR k * PI) with (rad a) in S1, S2 by ring. now split. }
  destruct E as [E1 E2].
  unfold dsin, dcos, dtan; ncbn. fold (rad (a + 360 * IZR k)); fold (rad a).
  rewrite E1, E2. repeat split. unfold ntan, tan. now rewrite E1, E2.
Qed.
(*@E C29_example *)
Lemma C29_example_lemma : dsin (Some 30) = Some (1/2) /\ dasin (Some 1) = Some 90 /\ datan (Some 1) = Some 45.
Proof.
  rewrite dsin_eval, dasin_eval, datan_eval by lra. repeat split; f_equal.
  - replace (rad 30) with (PI / 6) by (unfold rad; field). apply sin_PI6.
  - rewrite asin_1; apply deg_PI2.
  - rewrite atan_1. unfold deg; field; apply PI_nz.
Qed.
