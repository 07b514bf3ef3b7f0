(** * The deflection is a concave function of the shock angle; consequences for sigma_Mach_deflection *)
From Coq Require Import List Lra Lia.
From Coquelicot Require Import Coquelicot.
From Verif Require Import L_Num Spec NumSpec M_Degree M_IterSolve M_ShockWave L_Degree L_Shock L_Oblique L_Oblique2 L_WeakStrong L_Secant L_Secant2 L_Sigma.
Open Scope R_scope.

(** slope of the deflection, as a function of w = sin^2 of the shock angle *)
Definition hw (g M w : R) : R :=
  let p := (g - 1) * M ^ 2 in let q := (g + 1) * M ^ 2 in
  q * ((p + 4) * w - 2) / ((p * w + 2) ^ 2 + q ^ 2 * (w * (1 - w))).
Definition sl (g M s : R) : R := 1 - hw g M (sin s ^ 2).
Definition Fd (g M s : R) : R := deg (rad s - atan (dN g M (rad s) / dD g M (rad s))).

Lemma hw_den g M w : 1 < g -> 0 < M -> 0 < w < 1 -> 0 < ((g - 1) * M ^ 2 * w + 2) ^ 2 + ((g + 1) * M ^ 2) ^ 2 * (w * (1 - w)).
Proof.
  intros. assert (0 < (g - 1) * M ^ 2) by pos. assert (0 < (g + 1) * M ^ 2) by pos.
  assert (0 <= ((g + 1) * M ^ 2) ^ 2 * (w * (1 - w))) by (apply Rmult_le_pos; [apply pow2_ge_0|nra]). assert (0 < (g - 1) * M ^ 2 * w) by (apply Rmult_lt_0_compat; lra). nra.
Qed.
Lemma hw_incr g M a b : 1 < g -> 0 < M -> 0 < a -> a < b -> b < 1 -> hw g M a < hw g M b.
Proof.
  intros Hg HM Ha Hab Hb. pose proof (hw_den g M a Hg HM ltac:(lra)) as Da. pose proof (hw_den g M b Hg HM ltac:(lra)) as Db.
  unfold hw. cbv zeta. assert (Hp : 0 < (g - 1) * M ^ 2) by pos. assert (Hq : 0 < (g + 1) * M ^ 2) by pos.
  assert (Hpq : (g - 1) * M ^ 2 < (g + 1) * M ^ 2) by (assert (0 < M ^ 2) by pos; nra).
  set (p := (g - 1) * M ^ 2) in *. set (q := (g + 1) * M ^ 2) in *.
  set (X := (p * a + 2) ^ 2 + q ^ 2 * (a * (1 - a))) in *. set (Y := (p * b + 2) ^ 2 + q ^ 2 * (b * (1 - b))) in *.
  assert (E : q * ((p + 4) * b - 2) / Y - q * ((p + 4) * a - 2) / X = q * (((p + 4) * b - 2) * X - ((p + 4) * a - 2) * Y) / (X * Y)) by (field; lra).
  assert (K : ((p + 4) * b - 2) * X - ((p + 4) * a - 2) * Y = (b - a) * ((q ^ 2 - p ^ 2) * ((p + 4) * (a * b) - 2 * (a + b)) + 12 * p + 16 + 2 * q ^ 2)) by (unfold X, Y; ring).
  assert (ab : 0 < a * b) by nra. assert (L : -2 <= (p + 4) * (a * b) - 2 * (a + b)) by (assert (0 <= p * (a * b)) by nra; nra).
  assert (QP : 0 < q ^ 2 - p ^ 2) by nra.
  assert (0 < (q ^ 2 - p ^ 2) * ((p + 4) * (a * b) - 2 * (a + b)) + 12 * p + 16 + 2 * q ^ 2).
  { assert ((q ^ 2 - p ^ 2) * (-2) <= (q ^ 2 - p ^ 2) * ((p + 4) * (a * b) - 2 * (a + b))) by (apply Rmult_le_compat_l; lra). nra. }
  assert (0 < q * (((p + 4) * b - 2) * X - ((p + 4) * a - 2) * Y) / (X * Y)).
  { rewrite K. apply Rdiv_lt_0_compat; [|nra]. apply Rmult_lt_0_compat; [lra|]. apply Rmult_lt_0_compat; lra. }
  lra.
Qed.
Lemma sin2_range s : 0 < s < PI / 2 -> 0 < sin s ^ 2 < 1.
Proof. intros H. destruct (quad_trig _ H) as [H1 [H2 H3]]. pose proof (sc2 s). nra. Qed.
Lemma sin2_incr a b : 0 < a -> a < b -> b < PI / 2 -> sin a ^ 2 < sin b ^ 2.
Proof.
  intros. assert (sin a < sin b) by (apply sin_increasing_1; lra). assert (0 < sin a) by (apply sin_gt_0; lra). nra.
Qed.
Lemma sl_decr g M a b : 1 < g -> 0 < M -> 0 < a -> a < b -> b < PI / 2 -> sl g M b < sl g M a.
Proof.
  intros Hg HM Ha Hab Hb. unfold sl. pose proof (sin2_range a ltac:(lra)). pose proof (sin2_range b ltac:(lra)). pose proof (sin2_incr a b Ha Hab Hb).
  pose proof (hw_incr g M (sin a ^ 2) (sin b ^ 2) Hg HM). lra.
Qed.
Lemma Fd_derive g M s : 1 < g -> 0 < M -> 0 < s < 90 -> is_derive (Fd g M) s (sl g M (rad s)).
Proof.
  intros Hg HM Hs. pose proof (rad_quadrant s Hs) as Hr. destruct (quad_trig _ Hr) as [H1 [H2 H3]].
  pose proof (dfl_ND_derive g M (rad s) Hg HM Hr) as D. pose proof PI_RGT_0.
  assert (E : sl g M (rad s) = (180 / PI) * ((PI / 180) * (1 - (2 * (g - 1) * M ^ 2 * (sin (rad s) * cos (rad s)) * dD g M (rad s) - dN g M (rad s) * ((g + 1) * M ^ 2 * (cos (rad s) ^ 2 - sin (rad s) ^ 2)))
         / (dN g M (rad s) ^ 2 + dD g M (rad s) ^ 2)))).
  { unfold sl, hw. cbv zeta. pose proof (hw_den g M (sin (rad s) ^ 2) Hg HM (sin2_range _ Hr)) as Q.
    set (S := sin (rad s)) in *. set (C := cos (rad s)) in *. pose proof (sc2 (rad s)) as HC. fold S C in HC.
    unfold dN, dD. fold S C. assert (C2 : C ^ 2 = 1 - S ^ 2) by nra.
    replace (((g - 1) * M ^ 2 * S ^ 2 + 2) ^ 2 + ((g + 1) * M ^ 2 * (S * C)) ^ 2) with (((g - 1) * M ^ 2 * S ^ 2 + 2) ^ 2 + ((g + 1) * M ^ 2) ^ 2 * (S ^ 2 * (1 - S ^ 2))) by (rewrite <- C2; ring).
    replace (2 * (g - 1) * M ^ 2 * (S * C) * ((g + 1) * M ^ 2 * (S * C)) - ((g - 1) * M ^ 2 * S ^ 2 + 2) * ((g + 1) * M ^ 2 * (C ^ 2 - S ^ 2)))
      with ((g + 1) * M ^ 2 * (((g - 1) * M ^ 2 + 4) * S ^ 2 - 2)).
    2:{ replace (2 * (g - 1) * M ^ 2 * (S * C) * ((g + 1) * M ^ 2 * (S * C))) with (2 * (g - 1) * M ^ 2 * S ^ 2 * C ^ 2 * ((g + 1) * M ^ 2)) by ring. rewrite C2. ring. }
    field. split; lra. }
  rewrite E. unfold Fd, deg. apply (is_derive_ext (fun x => 180 / PI * (rad x - atan (dN g M (rad x) / dD g M (rad x))))).
  { intros t. apply Rmult_comm. }
  apply is_derive_scal. refine (is_derive_comp (fun r => r - atan (dN g M r / dD g M r)) rad s _ _ D _).
  unfold rad. auto_derive; [exact I|]. field.
Qed.
Lemma Fd_eval g M s : 1 < g -> 0 < M -> 0 < s < 90 -> deflection_Mach_sigma (Some M) (Some s) (Some g) = Some (Fd g M s).
Proof. intros Hg HM Hs. rewrite defl_eval by lra. unfold Fd. rewrite <- dfl_ND; auto. now apply rad_quadrant. Qed.
Lemma Fd_mvt g M a b : 1 < g -> 0 < M -> 0 < a -> a < b -> b < 90 -> exists c, a < c < b /\ Fd g M b - Fd g M a = sl g M (rad c) * (b - a).
Proof.
  intros. destruct (MVT_cor2 (Fd g M) (fun s => sl g M (rad s)) a b) as (c & E & Hc); [lra| |exists c; auto].
  intros c Hc. apply is_derive_Reals, Fd_derive; lra.
Qed.
Lemma slr_decr g M a b : 1 < g -> 0 < M -> 0 < a -> a < b -> b < 90 -> sl g M (rad b) < sl g M (rad a).
Proof. intros. apply sl_decr; auto; try apply rad_lt; try lra. - apply (rad_quadrant a); lra. - apply (rad_quadrant b); lra. Qed.
Lemma mach_angle_range M : 1 < M -> exists mu, dasin (ndiv (Some 1) (Some M)) = Some mu /\ 0 < mu < 90 /\ sin (rad mu) = 1 / M.
Proof.
  intros HM. assert (I : 0 < 1 / M < 1). { split; [pos|]. apply Rmult_lt_reg_r with M; [lra|]. unfold Rdiv. rewrite Rmult_assoc, Rinv_l; lra. }
  rewrite ndiv_Some by lra. rewrite dasin_eval by lra. exists (deg (asin (1 / M))). split; [reflexivity|].
  assert (H := asin_bound (1 / M)). assert (asin 0 < asin (1 / M) < asin 1) by (split; apply asin_increasing; lra). rewrite asin_0, asin_1 in H0.
  split; [apply deg_quadrant; lra|]. rewrite rad_deg. apply sin_asin; lra.
Qed.
Lemma slope_sides g M : 1 < g -> 1 < M -> exists sm dm mu, sigma_DevMax (Some M) (Some g) = Some sm /\ dev_Max (Some M) (Some g) = Some dm /\
  dasin (ndiv (Some 1) (Some M)) = Some mu /\ 0 < mu /\ mu < sm /\ sm < 90 /\ Fd g M sm = dm /\ sin (rad mu) = 1 / M /\ Fd g M mu = 0 /\
  (forall z, 0 < z < sm -> 0 < sl g M (rad z)) /\ (forall z, sm < z < 90 -> sl g M (rad z) < 0).
Proof.
  intros Hg HM. destruct (max_deflection g M Hg HM) as (sm & dm & mu & E1 & E2 & E3 & E4 & E5 & E6).
  destruct (mach_angle_range M HM) as (mu' & E2' & Hmu & Sm). rewrite E2 in E2'. injection E2' as <-.
  exists sm, dm, mu. rewrite Fd_eval in E5 by lra. injection E5 as E5.
  assert (MX : forall s, mu <= s < 90 -> s <> sm -> Fd g M s < Fd g M sm).
  { intros s Hs Ns. destruct (E6 s Hs Ns) as (th & T1 & T2). rewrite Fd_eval in T1 by lra. injection T1 as <-. lra. }
  assert (F0 : Fd g M mu = 0).
  { destruct (deflection_sign g M mu Hg HM ltac:(lra)) as (x & th & K1 & K0 & K2 & K3 & K4). rewrite E2 in K1. injection K1 as <-. rewrite Fd_eval in K0 by lra. injection K0 as <-. apply K3. reflexivity. }
  repeat (split; [assumption || lra|]). split.
  - intros z Hz. apply Rnot_le_lt. intros N. set (y := Rmax mu z). assert (Hy : z <= y /\ mu <= y < sm). { unfold y. split; [apply Rmax_r|]. split; [apply Rmax_l|]. apply Rmax_lub_lt; lra. }
    destruct (Fd_mvt g M y sm) as (c & Hc & E); try lra. assert (S : sl g M (rad c) < 0) by (pose proof (slr_decr g M z c Hg ltac:(lra) ltac:(lra) ltac:(lra) ltac:(lra)); lra).
    pose proof (MX y ltac:(lra) ltac:(lra)). nra.
  - intros z Hz. apply Rnot_le_lt. intros N. destruct (Fd_mvt g M sm z) as (c & Hc & E); try lra.
    pose proof (slr_decr g M c z Hg ltac:(lra) ltac:(lra) ltac:(lra) ltac:(lra)). pose proof (MX z ltac:(lra) ltac:(lra)). nra.
Qed.
(*@P C19_concave: For every M > 1 the deflection is a strictly concave function of the shock angle on (0,90), increasing up to sigma_DevMax and decreasing after it. *)
Lemma deflection_concave : forall g M, 1 < g -> 1 < M -> exists th sm,
  (forall s, 0 < s < 90 -> deflection_Mach_sigma (Some M) (Some s) (Some g) = Some (th s)) /\
  sigma_DevMax (Some M) (Some g) = Some sm /\
  (forall a b c, 0 < a -> a < b -> b < c -> c < 90 -> th a * (c - b) + th c * (b - a) < th b * (c - a)) /\
  (forall a b, 0 < a -> a < b -> b <= sm -> th a < th b) /\ (forall a b, sm <= a -> a < b -> b < 90 -> th b < th a).
Proof.
  intros g M Hg HM. destruct (slope_sides g M Hg HM) as (sm & dm & mu & E1 & E2 & E3 & H0 & H1 & H2 & _ & _ & _ & SP & SN).
  exists (Fd g M), sm. split; [intros; apply Fd_eval; lra|]. split; [exact E1|]. split; [|split].
  - intros a b c Ha Hab Hbc Hc. destruct (Fd_mvt g M a b) as (u & Hu & Eu); try lra. destruct (Fd_mvt g M b c) as (v & Hv & Ev); try lra.
    pose proof (slr_decr g M u v Hg ltac:(lra) ltac:(lra) ltac:(lra) ltac:(lra)) as K.
    assert (0 < (b - a) * (c - b)) by nra. assert ((Fd g M c - Fd g M b) * (b - a) < (Fd g M b - Fd g M a) * (c - b)); [|lra].
    rewrite Eu, Ev. nra.
  - intros a b Ha Hab Hb. destruct (Fd_mvt g M a b) as (u & Hu & Eu); try lra. pose proof (SP u ltac:(lra)). nra.
  - intros a b Ha Hab Hb. destruct (Fd_mvt g M a b) as (u & Hu & Eu); try lra. pose proof (SN u ltac:(lra)). nra.
Qed.
Lemma Fd_cont g M s : 1 < g -> 0 < M -> 0 < s < 90 -> continuous (Fd g M) s.
Proof. intros. apply (ex_derive_continuous (Fd g M) s). exists (sl g M (rad s)). apply Fd_derive; lra. Qed.
(*@P C17_branches: For every M > 1 and attached deflection, the weak shock angle is at most sigma_DevMax and the strong one at least. *)
Lemma weak_strong_sides : forall g M th sigma, 1 < g -> 1 < M -> 0 < th < 90 -> 0 < sigma < 90 ->
  deflection_Mach_sigma (Some M) (Some sigma) (Some g) = Some th ->
  exists mu w s sm, dasin (ndiv (Some 1) (Some M)) = Some mu /\ weaksigma_Mach_deflection (Some M) (Some th) (Some g) = Some w /\
    strongsigma_Mach_deflection (Some M) (Some th) (Some g) = Some s /\ sigma_DevMax (Some M) (Some g) = Some sm /\
    mu < w /\ w <= sm /\ sm <= s /\ s < 90.
Proof.
  intros g M th sigma Hg HM Hth Hs E. destruct (slope_sides g M Hg HM) as (sm & dm & mu & E1 & E2 & E3 & H0 & H1 & H2 & FM & SM & F0 & SP & SN).
  destruct (weak_strong g M th Hg HM Hth) as [K _]. destruct K as (w & s & W1 & W2 & W3 & W4 & W5 & W6 & W7); [now exists sigma|].
  exists mu, w, s, sm. repeat (split; [assumption|]).
  assert (ON := fun z Hz Ez => weak_strong_only g M th z w s Hg HM Hth Hz Ez W1 W2).
  rewrite Fd_eval in W6, W7 by lra. injection W6 as W6. injection W7 as W7.
  assert (UP : forall a b, 0 < a -> a < b -> b <= sm -> Fd g M a < Fd g M b).
  { intros a b Ha Hab Hb. destruct (Fd_mvt g M a b) as (u & Hu & Eu); try lra. pose proof (SP u ltac:(lra)). nra. }
  assert (DN : forall a b, sm <= a -> a < b -> b < 90 -> Fd g M b < Fd g M a).
  { intros a b Ha Hab Hb. destruct (Fd_mvt g M a b) as (u & Hu & Eu); try lra. pose proof (SN u ltac:(lra)). nra. }
  assert (MW : mu < w). { apply Rnot_le_lt. intros [N|N]; [pose proof (UP w mu ltac:(lra) N ltac:(lra))|rewrite N in W6]; lra. }
  assert (WS : w <= sm).
  { apply Rnot_lt_le. intros N. pose proof (DN sm w ltac:(lra) N ltac:(lra)).
    destruct (IVT_value (Fd g M) mu sm th H1) as (c & Hc & Ec); [intros; apply Fd_cont; lra|lra|].
    assert (Hc' : 0 < c < 90) by lra. destruct (ON c Hc') as [Q|Q]; [rewrite Fd_eval by lra; now f_equal|lra|lra]. }
  split; [exact MW|]. split; [exact WS|]. split; [|lra].
  apply Rnot_lt_le. intros N. pose proof (UP s sm ltac:(lra) N ltac:(lra)).
  destruct (deflection_limit g M th Hg HM ltac:(lra)) as (d & Hd & HL). set (z := Rmax ((sm + 90) / 2) (90 - d / 2)).
  assert (Hz : sm < z < 90 /\ 90 - d < z). { unfold z. pose proof (Rmax_l ((sm + 90) / 2) (90 - d / 2)). pose proof (Rmax_r ((sm + 90) / 2) (90 - d / 2)). split; [split; [lra|apply Rmax_lub_lt; lra]|lra]. }
  destruct (HL z ltac:(lra)) as (tz & Ez & Bz). rewrite Fd_eval in Ez by lra. injection Ez as Ez. apply Rabs_def2 in Bz.
  destruct (IVT_value (fun x => - Fd g M x) sm z (- th)) as (c & Hc & Ec); [lra| |rewrite Ez; lra|].
  { intros x Hx. apply (continuous_opp (Fd g M)). apply Fd_cont; lra. }
  assert (Hc' : 0 < c < 90) by lra. destruct (ON c Hc') as [Q|Q]; [rewrite Fd_eval by lra; f_equal; lra|lra|lra].
Qed.
Lemma above_root (F G : R -> R) hi r e : (e = 1 \/ e = -1) -> r <= hi ->
  (forall z, r <= z <= hi -> is_derive F z (G z)) -> (forall z, r < z <= hi -> 0 < e * G z) ->
  (forall a b, r <= a -> a < b -> b <= hi -> e * G a <= e * G b) ->
  (forall a b, beside r 1 (hi - r) a -> beside r 1 (hi - r) b -> a <> r -> b <> r -> 0 < (F a - F r) * (F b - F r)) /\
  (forall a b, beside r 1 (hi - r) a -> beside r 1 (hi - r) b -> Rabs (a - r) <= Rabs (b - r) -> Rabs (F a - F r) * Rabs (b - r) <= Rabs (F b - F r) * Rabs (a - r)).
Proof.
  intros He Hlo HD HP HM.
  assert (MV : forall a b, r <= a -> a < b -> b <= hi -> exists c, F b - F a = G c * (b - a) /\ a < c < b).
  { intros a b Ha Hab Hb. destruct (MVT_cor2 F G a b Hab) as (c & E & Hc); [|exists c; auto].
    intros c Hc. apply is_derive_Reals, HD. lra. }
  assert (Sg : forall a, r < a <= hi -> 0 < e * (F a - F r)).
  { intros a Ha. destruct (MV r a) as (c & E & Hc); try lra. rewrite E. pose proof (HP c ltac:(lra)). nra. }
  assert (Ab : forall a, r <= a <= hi -> Rabs (F a - F r) = e * (F a - F r)).
  { intros a Ha. destruct (Req_dec a r) as [->|N]; [rewrite !Rminus_eq_0, Rabs_R0; ring|]. pose proof (Sg a ltac:(lra)). destruct He as [-> | ->].
    - rewrite Rabs_pos_eq; lra. - rewrite Rabs_left1; lra. }
  unfold beside. split.
  - intros a b Ha Hb Na Nb. pose proof (Sg a ltac:(lra)). pose proof (Sg b ltac:(lra)). assert (0 < (e * (F a - F r)) * (e * (F b - F r))) by pos. destruct He as [-> | ->]; nra.
  - intros a b Ha Hb Hd. rewrite !Ab by lra. rewrite !Rabs_pos_eq in * by lra.
    destruct (Req_dec a r) as [->|Na]. { rewrite !Rminus_eq_0. lra. }
    destruct (Req_dec a b) as [->|Nb]; [lra|].
    destruct (MV r a) as (c1 & E1 & H1); try lra. destruct (MV a b) as (c2 & E2 & H2); try lra.
    pose proof (HM c1 c2 ltac:(lra) ltac:(lra) ltac:(lra)) as K.
    replace (F b - F r) with ((F b - F a) + (F a - F r)) by ring. rewrite E1, E2.
    assert (0 < (a - r) * (b - a)) by nra. nra.
Qed.
(*@P C27_convex: The mirror image of C27_concave: from a start x above the root r with 0.999 x >= r, when the slope keeps one sign and gets no steeper towards the root, the answer z satisfies r <= z <= x, and no point below r is ever evaluated. *)
Lemma secant_above : forall f F G r e x, (e = 1 \/ e = -1) -> 1/100 < x -> r <= x * (999/1000) ->
  (forall z, r <= z <= x -> f (Some z) = Some (F z) /\ is_derive F z (G z)) ->
  (forall z, r < z <= x -> 0 < e * G z) ->
  (forall a b, r <= a -> a < b -> b <= x -> e * G a <= e * G b) ->
  exists z, secant_solve f (Some (F r)) (Some x) = Some z /\ r <= z <= x /\
    List.Forall (fun p => exists a, p = Some a /\ r <= a <= x) (s_evals (secant_run_of f (Some (F r)) (Some x) secant_tol)).
Proof.
  intros f F G r e x He Hx Hr HF HP HM.
  destruct (above_root F G x r e He ltac:(lra) ltac:(intros; now apply HF) HP HM) as [K1 K2].
  destruct (secant_one_sided f F r 1 (x - r) (F r) x) as (z & Z1 & Z2 & Z3); auto; unfold beside in *; try lra.
  - rewrite Rabs_pos_eq; lra.
  - intros z Hz. apply HF. lra.
  - exists z. split; [exact Z1|]. split; [lra|].
    eapply List.Forall_impl; [|exact Z3]. intros p (a & -> & Ba & _). exists a. split; [reflexivity|lra].
Qed.
Lemma solve_is g M d init sig0 : match init with Some i => i | None => nadd (dasin (ndiv (Some 1) (Some M))) (Some d) end = Some sig0 ->
  sigma_Mach_deflection (Some M) (Some d) init (Some g) =
  nmul (secant_solve (fun s => deflection_Mach_sigma (Some M) s (Some g)) (Some (Rabs d)) (Some sig0)) (Some (Rsign d)).
Proof. intros Hi. unfold sigma_Mach_deflection. cbv zeta. rewrite <- Hi. destruct init; reflexivity. Qed.
Lemma forall_in_range (P : R -> Prop) l : List.Forall (fun p : num => exists a, p = Some a /\ P a) l -> forall a, In (Some a) l -> P a.
Proof. intros H a Ha. rewrite List.Forall_forall in H. destruct (H _ Ha) as (b & E & Hb). injection E as ->. exact Hb. Qed.
(*@P C28_weak: For every M > 1 and attached deflection d of either sign, and every start (given or the default one) between 0.01 and the weak shock angle w of |d|: sigma_Mach_deflection returns sign(d) z with start <= z <= w, an angle of the weak branch, whose deflection is at most |d|, and misses it by at most an explicit multiple of the solver tolerance if no warning is printed. *)
Lemma sigma_weak : forall g M d init sig0 w sigma, 1 < g -> 1 < M -> 0 < Rabs d < 90 -> 0 < sigma < 90 ->
  deflection_Mach_sigma (Some M) (Some sigma) (Some g) = Some (Rabs d) ->
  weaksigma_Mach_deflection (Some M) (Some (Rabs d)) (Some g) = Some w ->
  match init with Some i => i | None => nadd (dasin (ndiv (Some 1) (Some M))) (Some d) end = Some sig0 -> 1/100 < sig0 <= w ->
  exists z th, sigma_Mach_deflection (Some M) (Some d) init (Some g) = Some (z * Rsign d) /\ sig0 <= z <= w /\
    deflection_Mach_sigma (Some M) (Some z) (Some g) = Some th /\ th <= Rabs d /\
    (s_warned (secant_run_of (fun s => deflection_Mach_sigma (Some M) s (Some g)) (Some (Rabs d)) (Some sig0) secant_tol) = false ->
     Rabs d - th <= 2 * sigma_lip g M * Rmax (1/100000) (1/100000 * z)).
Proof.
  intros g M d init sig0 w sigma Hg HM Hd Hs Es Ew Hi H0.
  destruct (weak_strong_sides g M (Rabs d) sigma Hg HM Hd Hs Es) as (mu & w' & s & sm & E1 & E2 & E3 & E4 & B1 & B2 & B3 & B4).
  rewrite Ew in E2. injection E2 as <-.
  destruct (slope_sides g M Hg HM) as (sm' & dm & mu' & E1' & _ & E3' & M0 & _ & _ & _ & _ & _ & SP & SN). rewrite E4 in E1'. injection E1' as <-. rewrite E1 in E3'. injection E3' as <-.
  assert (Fw : Fd g M w = Rabs d).
  { destruct (weak_strong g M (Rabs d) Hg HM Hd) as [K _]. destruct K as (w' & s' & W1 & _ & _ & _ & _ & W6 & _); [now exists sigma|]. rewrite Ew in W1. injection W1 as <-. rewrite Fd_eval in W6 by lra. now injection W6. }
  destruct (secant_below (fun s => deflection_Mach_sigma (Some M) s (Some g)) (Fd g M) (fun s => sl g M (rad s)) w 1 sig0) as (z & Z1 & Z2 & Z3).
  { now left. } { lra. } { lra. }
  { intros z Hz. split; [apply Fd_eval; lra|apply Fd_derive; lra]. }
  { intros z Hz. rewrite Rmult_1_l. apply SP. lra. }
  { intros a b Ha Hab Hb. rewrite !Rmult_1_l. left. apply slr_decr; lra. }
  rewrite Fw in Z1, Z3. exists z, (Fd g M z).
  assert (ER : sigma_Mach_deflection (Some M) (Some d) init (Some g) = Some (z * Rsign d)).
  { rewrite (solve_is g M d init sig0 Hi). exact (f_equal (fun x => nmul x (Some (Rsign d))) Z1). }
  split; [exact ER|]. split; [lra|]. split; [apply Fd_eval; lra|].
  assert (LE : Fd g M z <= Rabs d).
  { rewrite <- Fw. destruct (Req_dec z w) as [->|N]; [lra|]. destruct (Fd_mvt g M z w) as (u & Hu & Eu); try lra. pose proof (SP u ltac:(lra)). nra. }
  split; [exact LE|]. intros HW.
  assert (RD : Rsign d <> 0) by (unfold Rsign; destruct (Rlt_dec 0 d); [lra|]; destruct (Rlt_dec d 0); [lra|]; replace d with 0 in Hd by lra; rewrite Rabs_R0 in Hd; lra).
  assert (NZ : d <> 0) by (intros ->; rewrite Rabs_R0 in Hd; lra).
  destruct (sigma_residual g M d init sig0 (z * Rsign d) Hg ltac:(lra) NZ Hi ltac:(lra)) as (r & Er & Kr); auto.
  { intros a Ha. pose proof (forall_in_range _ _ Z3 a Ha) as Q. cbv beta in Q. lra. }
  apply Rmult_eq_reg_r in Er; [|exact RD]. subst r. destruct (Kr ltac:(lra)) as (th & T1 & T2). rewrite Fd_eval in T1 by lra. injection T1 as <-.
  rewrite Rabs_left1 in T2 by lra. lra.
Qed.
(*@P C28_strong: From a start above the strong shock angle s of |d| (0.999 start >= s, start < 90) the same function returns sign(d) z with s <= z <= start: the strong branch, with a deflection at most |d|, within the same bound if no warning is printed. *)
Lemma sigma_strong : forall g M d sig0 s sigma, 1 < g -> 1 < M -> 0 < Rabs d < 90 -> 0 < sigma < 90 ->
  deflection_Mach_sigma (Some M) (Some sigma) (Some g) = Some (Rabs d) ->
  strongsigma_Mach_deflection (Some M) (Some (Rabs d)) (Some g) = Some s -> s <= sig0 * (999/1000) -> 1/100 < sig0 < 90 ->
  exists z th, sigma_Mach_deflection (Some M) (Some d) (Some (Some sig0)) (Some g) = Some (z * Rsign d) /\ s <= z <= sig0 /\
    deflection_Mach_sigma (Some M) (Some z) (Some g) = Some th /\ th <= Rabs d /\
    (s_warned (secant_run_of (fun s => deflection_Mach_sigma (Some M) s (Some g)) (Some (Rabs d)) (Some sig0) secant_tol) = false ->
     Rabs d - th <= 2 * sigma_lip g M * Rmax (1/100000) (1/100000 * z)).
Proof.
  intros g M d sig0 s sigma Hg HM Hd Hs Es Ew Hx H0.
  destruct (weak_strong_sides g M (Rabs d) sigma Hg HM Hd Hs Es) as (mu & w & s' & sm & E1 & E2 & E3 & E4 & B1 & B2 & B3 & B4).
  rewrite Ew in E3. injection E3 as <-.
  destruct (slope_sides g M Hg HM) as (sm' & dm & mu' & E1' & _ & E3' & M0 & _ & _ & _ & _ & _ & SP & SN). rewrite E4 in E1'. injection E1' as <-. rewrite E1 in E3'. injection E3' as <-.
  assert (Fw : Fd g M s = Rabs d).
  { destruct (weak_strong g M (Rabs d) Hg HM Hd) as [K _]. destruct K as (w' & s' & _ & W1 & _ & _ & _ & _ & W6); [now exists sigma|]. rewrite Ew in W1. injection W1 as <-. rewrite Fd_eval in W6 by lra. now injection W6. }
  destruct (secant_above (fun s => deflection_Mach_sigma (Some M) s (Some g)) (Fd g M) (fun s => sl g M (rad s)) s (-1) sig0) as (z & Z1 & Z2 & Z3).
  { now right. } { lra. } { lra. }
  { intros z Hz. split; [apply Fd_eval; lra|apply Fd_derive; lra]. }
  { intros z Hz. pose proof (SN z ltac:(lra)). lra. }
  { intros a b Ha Hab Hb. pose proof (slr_decr g M a b Hg ltac:(lra) ltac:(lra) Hab ltac:(lra)). lra. }
  rewrite Fw in Z1, Z3. exists z, (Fd g M z).
  assert (ER : sigma_Mach_deflection (Some M) (Some d) (Some (Some sig0)) (Some g) = Some (z * Rsign d)).
  { rewrite (solve_is g M d (Some (Some sig0)) sig0 eq_refl). exact (f_equal (fun x => nmul x (Some (Rsign d))) Z1). }
  split; [exact ER|]. split; [lra|]. split; [apply Fd_eval; lra|].
  assert (LE : Fd g M z <= Rabs d).
  { rewrite <- Fw. destruct (Req_dec z s) as [->|N]; [lra|]. destruct (Fd_mvt g M s z) as (u & Hu & Eu); try lra. pose proof (SN u ltac:(lra)). nra. }
  split; [exact LE|]. intros HW.
  assert (RD : Rsign d <> 0) by (unfold Rsign; destruct (Rlt_dec 0 d); [lra|]; destruct (Rlt_dec d 0); [lra|]; replace d with 0 in Hd by lra; rewrite Rabs_R0 in Hd; lra).
  assert (NZ : d <> 0) by (intros ->; rewrite Rabs_R0 in Hd; lra).
  destruct (sigma_residual g M d (Some (Some sig0)) sig0 (z * Rsign d) Hg ltac:(lra) NZ eq_refl ltac:(lra)) as (r & Er & Kr); auto.
  { intros a Ha. pose proof (forall_in_range _ _ Z3 a Ha) as Q. cbv beta in Q. lra. }
  apply Rmult_eq_reg_r in Er; [|exact RD]. subst r. destruct (Kr ltac:(lra)) as (th & T1 & T2). rewrite Fd_eval in T1 by lra. injection T1 as <-.
  rewrite Rabs_left1 in T2 by lra. lra.
Qed.
(*@P C28_default_start: The default start, Mach angle plus deflection, is on the weak side (at most the weak shock angle of |d|) for every attached negative deflection, and for every attached positive deflection when (3 - gamma) M^2 <= 4 (for gamma = 1.4, Mach numbers up to 1.58): then C28_weak applies. *)
Lemma sigma_default : forall g M d mu w sigma, 1 < g -> 1 < M -> 0 < Rabs d < 90 -> 0 < sigma < 90 ->
  deflection_Mach_sigma (Some M) (Some sigma) (Some g) = Some (Rabs d) ->
  weaksigma_Mach_deflection (Some M) (Some (Rabs d)) (Some g) = Some w ->
  dasin (ndiv (Some 1) (Some M)) = Some mu -> (d < 0 \/ (3 - g) * M ^ 2 <= 4) -> mu + d <= w.
Proof.
  intros g M d mu w sigma Hg HM Hd Hs Es Ew Emu H.
  destruct (weak_strong_sides g M (Rabs d) sigma Hg HM Hd Hs Es) as (mu' & w' & s & sm & E1 & E2 & E3 & E4 & B1 & B2 & B3 & B4).
  rewrite Ew in E2. injection E2 as <-. rewrite Emu in E1. injection E1 as <-. destruct (Rlt_le_dec d 0) as [N|P]; [lra|]. destruct H as [H|H]; [lra|].
  destruct (slope_sides g M Hg HM) as (sm' & dm & mu' & E1' & _ & E3' & M0 & _ & _ & _ & Sm & F0 & SP & SN). rewrite E4 in E1'. injection E1' as <-. rewrite Emu in E3'. injection E3' as <-.
  assert (Fw : Fd g M w = Rabs d).
  { destruct (weak_strong g M (Rabs d) Hg HM Hd) as [K _]. destruct K as (w' & s' & W1 & _ & _ & _ & _ & W6 & _); [now exists sigma|]. rewrite Ew in W1. injection W1 as <-. rewrite Fd_eval in W6 by lra. now injection W6. }
  rewrite Rabs_pos_eq in Fw by lra. destruct (Fd_mvt g M mu w) as (c & Hc & E); try lra. rewrite F0, Fw in E.
  pose proof (slr_decr g M mu c Hg ltac:(lra) ltac:(lra) ltac:(lra) ltac:(lra)) as K.
  assert (sl g M (rad mu) <= 1).
  { unfold sl. assert (W : 0 < sin (rad mu) ^ 2 < 1) by (apply sin2_range, rad_quadrant; lra). pose proof (hw_den g M _ Hg ltac:(lra) W) as Q.
    assert (0 <= hw g M (sin (rad mu) ^ 2)); [|lra]. unfold hw. cbv zeta. apply Rmult_le_pos; [|left; now apply Rinv_0_lt_compat].
    apply Rmult_le_pos; [pos|]. rewrite Sm. assert (0 < M ^ 2) by pos.
    replace (((g - 1) * M ^ 2 + 4) * (1 / M) ^ 2 - 2) with ((4 - (3 - g) * M ^ 2) / M ^ 2) by (field; lra). apply Rmult_le_pos; [lra|left; now apply Rinv_0_lt_compat]. }
  nra.
Qed.
(*@E C28_weak_example: At Mach 1.5 and gamma = 1.4 the deflection of the shock at 60 degrees, with the default start, meets the hypotheses of C28_weak. *)
Lemma sigma_weak_ex : exists d mu w, 0 < d < 90 /\ deflection_Mach_sigma (Some (3/2)) (Some 60) (Some (7/5)) = Some (Rabs d) /\
  weaksigma_Mach_deflection (Some (3/2)) (Some (Rabs d)) (Some (7/5)) = Some w /\
  nadd (dasin (ndiv (Some 1) (Some (3/2)))) (Some d) = Some (mu + d) /\ 1/100 < mu + d <= w.
Proof.
  destruct (mach_angle_range (3/2) ltac:(lra)) as (mu & Emu & Hmu & Sm).
  assert (R30 : 30 < mu < 60).
  { assert (Q := rad_quadrant 30 ltac:(lra)). assert (Q2 := rad_quadrant mu Hmu). assert (Q3 := rad_quadrant 60 ltac:(lra)).
    assert (S30 : sin (rad 30) = 1/2) by (replace (rad 30) with (PI / 6) by (unfold rad; field); apply sin_PI6).
    assert (S60 : sin (rad 60) = sqrt 3 / 2) by (replace (rad 60) with (PI / 3) by (unfold rad; field); apply sin_PI3).
    assert (17/10 < sqrt 3). { rewrite <- (sqrt_pow2 (17/10)) by lra. apply sqrt_lt_1_alt. lra. }
    split; apply Rnot_le_lt; intros N.
    - assert (sin (rad mu) <= sin (rad 30)); [|lra]. destruct N as [N| ->]; [left; apply sin_increasing_1; try lra; now apply rad_lt|lra].
    - assert (sin (rad 60) <= sin (rad mu)); [|lra]. destruct N as [N| <-]; [left; apply sin_increasing_1; try lra; now apply rad_lt|lra]. }
  destruct (deflection_sign (7/5) (3/2) 60 ltac:(lra) ltac:(lra) ltac:(lra)) as (mu' & d & A1 & A2 & A3 & _ & _).
  rewrite Emu in A1. injection A1 as <-. assert (D0 : 0 < d) by (apply A3; lra).
  assert (D9 : d < 90). { rewrite defl_eval in A2 by lra. injection A2 as <-. pose proof (dfl_bound (7/5) (3/2) (rad 60) ltac:(lra) ltac:(lra) (rad_quadrant 60 ltac:(lra))). pose proof PI_RGT_0.
    unfold deg. apply Rmult_lt_reg_r with (PI / 180); [pos|]. replace (dfl (7/5) (3/2) (rad 60) * (180 / PI) * (PI / 180)) with (dfl (7/5) (3/2) (rad 60)) by (field; lra). lra. }
  assert (AB : Rabs d = d) by (apply Rabs_pos_eq; lra).
  destruct (weak_strong_sides (7/5) (3/2) d 60 ltac:(lra) ltac:(lra) ltac:(lra) ltac:(lra) A2) as (mu' & w & s & sm & E1 & E2 & _).
  rewrite Emu in E1. injection E1 as <-. exists d, mu, w. rewrite AB. split; [lra|]. split; [exact A2|]. split; [exact E2|]. split; [rewrite Emu; reflexivity|].
  split; [lra|]. apply (sigma_default (7/5) (3/2) d mu w 60); rewrite ?AB; try lra; assumption.
Qed.
