(** * C58: a conical run that returns *)
From Verif Require Import Num L_Num M_Degree M_IterSolve M_ShockWave M_Ode M_Conical ConicalSpec L_Conical.
From Coquelicot Require Import Coquelicot.
Open Scope R_scope.

Definition gex : num := Some (1001 / 1000).
Lemma rhs_bound phi th ma : Rabs ma <= 1 / 2 -> 1 / 2 <= sin (phi * (PI / 180)) ->
  exists F0 F1, conical_rhs gex (Some phi) (Some th, Some ma) = (Some F0, Some F1) /\ Rabs F0 <= 8 / 3 /\ Rabs F1 <= 3 / 50 * Rabs ma.
Proof.
  intros Hm Hs. unfold conical_rhs, gex, dsin, dcos. cbn [nradians nsub nsin ncos nmul npowi nopp]. unfold npi. rewrite (ndiv_Some PI 180) by lra. cbn [nmul nadd nsub].
  set (sp := sin (phi * (PI / 180))) in *. set (sb := sin ((phi - th) * (PI / 180))). set (cb := cos ((phi - th) * (PI / 180))). set (st := sin (th * (PI / 180))).
  assert (Asb : Rabs sb <= 1) by (apply Rabs_le; apply SIN_bound). assert (Acb : Rabs cb <= 1) by (apply Rabs_le; apply COS_bound). assert (Ast : Rabs st <= 1) by (apply Rabs_le; apply SIN_bound).
  clearbody sp sb cb st.
  pose proof (Rabs_pos ma) as Pm. pose proof (Rabs_pos sb) as Pb. pose proof (Rabs_pos cb) as Pc. pose proof (Rabs_pos st) as Pst.
  assert (Hq : (ma * sb) ^ 2 <= 1 / 4).
  { rewrite <- (pow2_abs (ma * sb)), Rabs_mult. assert (0 <= Rabs ma * Rabs sb <= 1 / 2) by nra. nra. }
  assert (Hq0 : 0 <= (ma * sb) ^ 2) by apply pow2_ge_0.
  set (k := 1 - (ma * sb) ^ 2) in *. assert (Hk : 3 / 4 <= k <= 1) by (unfold k; lra). clearbody k.
  rewrite !ndiv_Some by lra. cbn [nmul]. eexists _, _. split; [reflexivity|].
  assert (I1 : 0 < / sp <= 2). { split; [apply Rinv_0_lt_compat; lra|]. replace 2 with (/ (1 / 2)) by field. apply Rinv_le_contravar; lra. }
  assert (I2 : 0 < / k <= 4 / 3). { split; [apply Rinv_0_lt_compat; lra|]. replace (4 / 3) with (/ (3 / 4)) by field. apply Rinv_le_contravar; lra. }
  assert (I3 : 0 <= / sp * / k <= 8 / 3) by nra.
  set (q := / sp * / k) in *. 
  split.
  - replace (- st * cb / sp / k) with (- (st * cb * q)) by (unfold q, Rdiv; ring). rewrite Rabs_Ropp, (Rabs_mult _ q), Rabs_mult, (Rabs_right q) by lra.
    assert (0 <= Rabs st * Rabs cb <= 1) by nra. nra.
  - replace (PI / 180 * st * sb / sp / k * ma * (1 + 1 / 2 * (1001 / 1000 - 1) * ma * ma)) with
      (PI / 180 * (st * sb) * q * ma * (1 + / 2000 * (ma * ma))) by (unfold q; field; split; lra).
    pose proof PI_4 as P4. pose proof PI_RGT_0 as P0.
    assert (P5 : 0 <= PI / 180 <= 1 / 45) by lra.
    assert (Mm : 0 <= ma * ma <= 1 / 4). { replace (ma * ma) with (Rabs ma * Rabs ma). nra. rewrite <- Rabs_mult. apply Rabs_right. nra. }
    rewrite (Rabs_mult _ (1 + _)), (Rabs_mult _ ma), (Rabs_mult _ q), (Rabs_mult (PI / 180)), (Rabs_mult st), (Rabs_right (PI / 180)), (Rabs_right q), (Rabs_right (1 + _)) by lra.
    assert (W : 0 <= Rabs st * Rabs sb <= 1) by nra.
    set (w := Rabs st * Rabs sb) in *. set (p := PI / 180) in *. set (f := 1 + / 2000 * (ma * ma)). assert (Hf : 1 <= f <= 1001 / 1000) by (unfold f; lra).
    clearbody w p f q. 
    assert (A1 : 0 <= p * w <= 1 / 45) by nra. assert (A2 : 0 <= p * w * q <= 8 / 135) by nra.
    assert (A3 : 0 <= p * w * q * f <= 3 / 50) by nra.
    replace (p * w * q * Rabs ma * f) with (p * w * q * f * Rabs ma) by ring. nra.
Qed.

Lemma stage_bound phi th ma h b : Rabs ma <= b -> b <= 1 / 2 -> 1 / 2 <= sin (phi * (PI / 180)) -> Rabs h <= 9 ->
  exists K0 K1, scal2 (Some h) (conical_rhs gex (Some phi) (Some th, Some ma)) = (Some K0, Some K1) /\ Rabs K0 <= 24 /\ Rabs K1 <= 27 / 50 * b.
Proof.
  intros Hm Hb Hs Hh. destruct (rhs_bound phi th ma) as (F0 & F1 & -> & B0 & B1); [lra|exact Hs|].
  exists (h * F0), (h * F1). split; [reflexivity|]. rewrite !Rabs_mult.
  pose proof (Rabs_pos h). pose proof (Rabs_pos F0). pose proof (Rabs_pos F1). pose proof (Rabs_pos ma). split; nra.
Qed.

Lemma abs_lin a b c u v w : Rabs a <= u -> Rabs b <= v -> 0 <= w -> Rabs c <= w -> Rabs (a + c * b) <= u + w * v.
Proof. intros. eapply Rle_trans; [apply Rabs_triang|]. rewrite Rabs_mult. pose proof (Rabs_pos b). pose proof (Rabs_pos c). nra. Qed.

Ltac bnd := repeat first [ eassumption | eapply abs_lin; [ | eassumption | | rewrite Rabs_right by lra; apply Rle_refl ]; [ | lra ]
   | eapply abs_lin; [ | eassumption | | rewrite Rabs_left by lra; apply Rle_refl ]; [ | lra ] ].

Lemma rkf45_stages (F : ode2) x y h (K0 K1 K2 K3 K4 K5 : num * num) :
  (scal2 h (F x y) = K0 ->
  scal2 h (F (x + Some (1/5)%R * h) (lc2 y ((Some (1/5)%R, K0) :: nil))) = K1 ->
  scal2 h (F (x + Some (3/10)%R * h) (lc2 y ((Some (3/40)%R, K0) :: (Some (9/40)%R, K1) :: nil))) = K2 ->
  scal2 h (F (x + Some (3/5)%R * h) (lc2 y ((Some (3/10)%R, K0) :: (Some (-9/10)%R, K1) :: (Some (6/5)%R, K2) :: nil))) = K3 ->
  scal2 h (F (x + h) (lc2 y ((Some (-11/54)%R, K0) :: (Some (5/2)%R, K1) :: (Some (-70/27)%R, K2) :: (Some (35/27)%R, K3) :: nil))) = K4 ->
  scal2 h (F (x + Some (7/8)%R * h) (lc2 y ((Some (1631/55296)%R, K0) :: (Some (175/512)%R, K1) :: (Some (575/13824)%R, K2) ::
                                               (Some (44275/110592)%R, K3) :: (Some (253/4096)%R, K4) :: nil))) = K5 ->
  let K := (K0 :: K1 :: K2 :: K3 :: K4 :: K5 :: nil)%list in
  let C := map (fun s => Some (rkf45_C s)) (seq 0 6) in
  let CD := map (fun s => Some (rkf45_C s - rkf45_D s)%R) (seq 0 6) in
  let dy := lc2 (Some 0%R, Some 0%R) (combine C K) in
  let E := lc2 (Some 0%R, Some 0%R) (combine CD K) in
  rkf45_2 F x y h = (dy, nsqrt ((fst E ^ 2 + snd E ^ 2) / Some 2%R)))%num.
Proof. intros. subst. reflexivity. Qed.

Lemma step_bound s th ma : 60 <= s <= 90 -> Rabs ma <= 1 / 16 ->
  exists dth dma err, conical_step gex s (th, ma) (- s / 10) = Some (dth, dma, err) /\ err <= s.
Proof.
  intros Hs Hm. unfold conical_step. cbn [fst snd].
  assert (SIN : forall x, s + - s / 10 <= x <= s -> 1 / 2 <= sin (x * (PI / 180))).
  { intros x Hx. rewrite <- sin_PI6. pose proof PI_RGT_0. apply sin_incr_1; nra. }
  set (h := - s / 10) in *. assert (Hh : Rabs h <= 9). { unfold h. rewrite Rabs_left by lra. lra. }
  assert (Hn : h <= 0) by (unfold h; lra).
  assert (X : forall c, 0 <= c <= 1 -> 1 / 2 <= sin ((s + c * h) * (PI / 180))). { intros c Hc. apply SIN. nra. }
  assert (X1 : 1 / 2 <= sin ((s + h) * (PI / 180))) by (apply SIN; lra).
  assert (X0 : 1 / 2 <= sin (s * (PI / 180))) by (apply SIN; lra).
  destruct (stage_bound s th ma h (1 / 16) Hm ltac:(lra) X0 Hh) as (a0 & b0 & E0 & A0 & B0).
  edestruct (stage_bound (s + 1 / 5 * h) (th + 1 / 5 * a0) (ma + 1 / 5 * b0) h) as (a1 & b1 & E1 & A1 & B1); [bnd|lra|apply X; lra|exact Hh|].
  edestruct (stage_bound (s + 3 / 10 * h) (th + 3 / 40 * a0 + 9 / 40 * a1) (ma + 3 / 40 * b0 + 9 / 40 * b1) h) as (a2 & b2 & E2 & A2 & B2); [bnd|lra|apply X; lra|exact Hh|].
  edestruct (stage_bound (s + 3 / 5 * h) (th + 3 / 10 * a0 + -9 / 10 * a1 + 6 / 5 * a2) (ma + 3 / 10 * b0 + -9 / 10 * b1 + 6 / 5 * b2) h) as (a3 & b3 & E3 & A3 & B3); [bnd|lra|apply X; lra|exact Hh|].
  edestruct (stage_bound (s + h) (th + -11 / 54 * a0 + 5 / 2 * a1 + -70 / 27 * a2 + 35 / 27 * a3) (ma + -11 / 54 * b0 + 5 / 2 * b1 + -70 / 27 * b2 + 35 / 27 * b3) h) as (a4 & b4 & E4 & A4 & B4); [bnd|lra|exact X1|exact Hh|].
  edestruct (stage_bound (s + 7 / 8 * h) (th + 1631 / 55296 * a0 + 175 / 512 * a1 + 575 / 13824 * a2 + 44275 / 110592 * a3 + 253 / 4096 * a4)
     (ma + 1631 / 55296 * b0 + 175 / 512 * b1 + 575 / 13824 * b2 + 44275 / 110592 * b3 + 253 / 4096 * b4) h) as (a5 & b5 & E5 & A5 & B5); [bnd|lra|apply X; lra|exact Hh|].
  rewrite (rkf45_stages (conical_rhs gex) _ _ _ _ _ _ _ _ _ E0 E1 E2 E3 E4 E5). cbv zeta.
  cbn [seq map combine lc2 fold_left fst snd nadd nmul npowi nsub]. unfold rkf45_C, rkf45_D.
  match goal with |- context [nsqrt (ndiv (Some (?p ^ 2 + ?q ^ 2)) _)] => set (e0 := p); set (e1 := q) end.
  assert (G0 : Rabs e0 <= 24). { eapply Rle_trans; [unfold e0; bnd; rewrite Rabs_R0; apply Rle_refl|lra]. }
  assert (G1 : Rabs e1 <= 24). { eapply Rle_trans; [unfold e1; bnd; rewrite Rabs_R0; apply Rle_refl|lra]. }
  clearbody e0 e1. rewrite ndiv_Some by lra.
  assert (Q0 : 0 <= e0 ^ 2 <= 24 * 24). { rewrite <- (pow2_abs e0). pose proof (Rabs_pos e0). nra. }
  assert (Q1 : 0 <= e1 ^ 2 <= 24 * 24). { rewrite <- (pow2_abs e1). pose proof (Rabs_pos e1). nra. }
  rewrite nsqrt_Some by lra. eexists _, _, _. split; [reflexivity|].
  apply Rle_trans with (sqrt (24 * 24)); [apply sqrt_le_1_alt; lra|rewrite sqrt_square; lra].
Qed.

(*@E C58_example: A run that returns: gamma = 1.001, shock angle sigma = degrees(atan 3335), normal Mach number M sin sigma = 20 and tolerance sigma: a wall deflection is returned, so the hypotheses of C58_wall are met. *)
Lemma conical_example : forall sigma M, sigma = atan 3335 * (180 / PI) -> M = 20 / sin (atan 3335) ->
  sigma <= Rabs sigma /\
  exists d, conical_deflection_Mach_sigma 1 (Some M) (Some sigma) (Some (1001 / 1000)) sigma = Some d.
Proof.
  intros s M Hs HM. pose proof PI_RGT_0 as P0.
  assert (A : PI / 3 <= atan 3335 < PI / 2).
  { split; [|apply atan_bound]. apply Rnot_lt_le. intros C. apply (tan_increasing _ _) in C; [|pose proof (atan_bound 3335); lra|lra].
    rewrite tan_atan, tan_PI3 in C. assert (sqrt 3 < 2). { replace 2 with (sqrt (2 * 2)) by (apply sqrt_square; lra). apply sqrt_lt_1_alt. lra. } lra. }
  assert (Hsr : s * (PI / 180) = atan 3335) by (rewrite Hs; field; lra).
  assert (Hb : 60 <= s <= 90).
  { split; apply Rmult_le_reg_r with (PI / 180); try lra; rewrite Hsr; lra. }
  split; [apply Rle_abs|].
  assert (Hsin : 0 < sin (atan 3335)) by (apply sin_gt_0; lra).
  assert (ST : exists th ma, conical_start (Some M) (Some s) gex = (Some th, Some ma) /\ 0 < th < s /\ Rabs ma <= 1 / 16).
  { unfold conical_start, deflection_Mach_sigma, dsin. cbn [nradians nsin nmul]. rewrite Hsr.
    replace (M * sin (atan 3335)) with 20 by (rewrite HM; field; lra).
    rewrite ntan_Some by (apply Rgt_not_eq, cos_gt_0; lra). rewrite tan_atan.
    unfold gex, Rho_ratio, downstream_Mn. cbn [nadd nsub nmul npowi]. rewrite !ndiv_Some by lra.
    cbn [narctan2]. unfold Ratan2. destruct (Rlt_dec 0 _) as [_|N]; [|lra].
    cbn [ndegrees nsub nradians nsin]. rewrite nsqrt_Some by lra.
    replace (3335 / ((1001 / 1000 + 1) * 20 ^ 2 / (2 + (1001 / 1000 - 1) * 20 ^ 2))) with 10 by field.
    set (t := (s - atan 10 * (180 / PI))).
    assert (A1 : 0 < atan 10 < PI / 2). { split; [|apply atan_bound]. rewrite <- atan_0. apply atan_increasing. lra. }
    assert (A2 : (s - t) * (PI / 180) = atan 10) by (unfold t; field; lra).
    rewrite A2.
    assert (S10 : 9 / 10 <= sin (atan 10)).
    { assert (Hc : sin (atan 10) = 10 * cos (atan 10)). { rewrite <- (tan_atan 10) at 2. unfold tan. field. apply Rgt_not_eq, cos_gt_0; lra. }
      pose proof (sin2_cos2 (atan 10)) as H2. unfold Rsqr in H2. assert (0 < cos (atan 10)) by (apply cos_gt_0; lra).
      assert (cos (atan 10) * cos (atan 10) = / 101) by (rewrite Hc in H2; lra).
      apply Rnot_lt_le. intros C. nra. }
    rewrite ndiv_Some by lra. eexists _, _. split; [reflexivity|]. split.
    - split.
      + unfold t. apply Rlt_Rminus. rewrite Hs. apply Rmult_lt_compat_r; [apply Rdiv_lt_0_compat; lra|]. apply atan_increasing. lra.
      + unfold t. assert (0 < atan 10 * (180 / PI)); [|lra]. apply Rmult_lt_0_compat; [lra|apply Rdiv_lt_0_compat; lra].
    - assert (Q : 0 <= sqrt ((1 + 1 / 2 * (1001 / 1000 - 1) * 20 ^ 2) / (1001 / 1000 * 20 ^ 2 - 1 / 2 * (1001 / 1000 - 1))) <= 9 / 160).
      { split; [apply sqrt_pos|]. rewrite <- (sqrt_square (9 / 160)) by lra. apply sqrt_le_1_alt. lra. }
      revert Q. generalize (sqrt ((1 + 1 / 2 * (1001 / 1000 - 1) * 20 ^ 2) / (1001 / 1000 * 20 ^ 2 - 1 / 2 * (1001 / 1000 - 1)))). intros q Q.
      rewrite Rabs_right.
      + apply Rmult_le_reg_r with (sin (atan 10)); [lra|]. unfold Rdiv at 1. rewrite Rmult_assoc, Rinv_l by lra. lra.
      + apply Rle_ge. apply Rmult_le_pos; [lra|]. left. apply Rinv_0_lt_compat. lra. }
  destruct ST as (th & ma & ST & Ht & Hm). unfold gex in ST. unfold conical_deflection_Mach_sigma. rewrite ST.
  destruct (step_bound s th ma Hb Hm) as (dth & dma & err & SB & Er). unfold gex in SB.
  cbn [conical_loop]. destruct (Rle_dec s (Rabs s)) as [_|N]; [|exfalso; apply N, Rle_abs]. rewrite SB.
  destruct (Rle_dec err s) as [_|N]; [|lra].
  assert (Q : ~ s <= Rabs (th - s)) by (rewrite Rabs_left; lra).
  destruct (Rle_dec s (Rabs (th - s))) as [C|_]; [contradiction|].
  destruct (Req_EM_T _ _); [destruct (Rlt_dec _ _)|destruct (Rlt_dec _ _)]; eexists; reflexivity.
Qed.
