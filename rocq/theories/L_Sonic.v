(** * C18: the sonic angle separates supersonic from subsonic flow behind an attached shock *)
From Verif Require Import L_Num Spec NumSpec PolarSpec WedgeSpec M_Isentropic M_MassFlow M_Degree M_ShockWave L_Isentropic L_Degree L_Shock L_Oblique L_Oblique2 L_WeakStrong L_Sigma2 L_Polar.
Open Scope R_scope.

(** the Mach number behind, as the code computes it *)
Lemma behind_eval g M s : 1 < g -> 0 < M -> 0 < s < 90 -> sdom g (M * sin (rad s)) ->
  deflection_Mach_sigma (Some M) (Some s) (Some g) = Some (Fd g M s) /\ rad (s - Fd g M s) = bet g M (rad s) /\
  ndiv (downstream_Mn (Some (M * sin (rad s))) (Some g)) (dsin (Some (s - Fd g M s))) = Some (m1 g M (rad s)).
Proof.
  intros Hg HM Hs D. destruct (shock_at g M s Hg HM Hs) as (E & B & _ & _ & S & _). rewrite Fd_eval in * by lra. injection E as E. rewrite <- E in B.
  split; [reflexivity|]. split; [exact B|]. rewrite Md_eval by assumption. rewrite dsin_eval, B. rewrite ndiv_Some by lra. reflexivity.
Qed.
Lemma shock_to_eval g M s : 1 < g -> 0 < M -> 0 < s < 90 -> sdom g (M * sin (rad s)) ->
  shock_to g M s (Fd g M s) (psr g (M * sin (rad s))) (m1 g M (rad s)).
Proof.
  intros Hg HM Hs D. destruct (shock_at g M s Hg HM Hs) as (E0 & B & R0 & W0 & Sb & Cb & T & N). rewrite Fd_eval in E0 by lra. injection E0 as E0. rewrite <- E0 in B.
  set (r := rhor g (M * sin (rad s))) in *. set (b := bet g M (rad s)) in *. set (W := M * cos (rad s) / cos b) in *.
  pose proof (rad_quadrant s Hs) as Hr. destruct (m1_energy g M (rad s) Hg HM Hr D) as [Hm He].
  destruct (shock_physical g M s Hg HM Hs) as (r' & W' & R1 & W1 & K). cbv zeta in K. change radian with rad in K. rewrite <- E0, B in K. destruct K as (K1 & K2 & K3 & K4).
  assert (EW : W' = W). { apply (Rmult_eq_reg_r (cos b)); lra. }
  subst W'. assert (Er : r' = r). { apply (Rmult_eq_reg_r (W * sin b)); [lra|]. apply Rgt_not_eq. pos. }
  subst r'. exists r, W. split; [exact R0|]. split; [exact W0|]. split; [exact Hm|]. cbv zeta. fold (rad s). fold (rad (s - Fd g M s)). rewrite B.
  repeat (split; [assumption|]).
  (* W^2 = m1^2 P/r : both sides have the same total enthalpy *)
  pose proof (psr_pos g _ Hg D) as P0. unfold tsr in He. fold r in He. unfold tt in He.
  set (P := psr g (M * sin (rad s))) in *. set (k := P / r) in *. set (m := m1 g M (rad s)) in *.
  assert (Z : (g - 1) * (1 / (g - 1) + M ^ 2 / 2) = (g - 1) * (k / (g - 1) + W ^ 2 / 2)) by (now rewrite K4).
  replace ((g - 1) * (1 / (g - 1) + M ^ 2 / 2)) with (1 + 1 / 2 * (g - 1) * M ^ 2) in Z by (field; lra).
  replace ((g - 1) * (k / (g - 1) + W ^ 2 / 2)) with (k + 1 / 2 * (g - 1) * W ^ 2) in Z by (field; lra).
  rewrite <- He in Z. apply (Rmult_eq_reg_l (1 / 2 * (g - 1))); lra.
Qed.
Lemma m1_decr g M a b : 1 < g -> 1 < M -> 0 < a < PI / 2 -> 0 < b < PI / 2 -> 1 <= M * sin a -> a < b -> m1 g M b < m1 g M a.
Proof.
  intros Hg HM Ha Hb Hn L. assert (S : sin a < sin b) by (apply sin_increasing_1; lra).
  assert (Hn2 : M * sin a < M * sin b) by nra.
  destruct (m1_energy g M a Hg ltac:(lra) Ha (sdom_ge1 _ _ Hg Hn)) as [P1 E1].
  destruct (m1_energy g M b Hg ltac:(lra) Hb ltac:(apply sdom_ge1; lra)) as [P2 E2].
  pose proof (tsr_incr g _ _ Hg Hn Hn2) as T. pose proof (tsr_pos g _ Hg (sdom_ge1 _ _ Hg Hn)) as T0.
  apply Rnot_le_lt. intros N. assert (tt g (m1 g M a) <= tt g (m1 g M b)). { unfold tt. assert (m1 g M a ^ 2 <= m1 g M b ^ 2) by nra. nra. }
  assert (0 < tt g (m1 g M a)) by (unfold tt; nra). nra.
Qed.
Lemma so_lt_mx g M : 1 < g -> 1 < M -> so_x g M < mx_x g M.
Proof.
  intros Hg HM. destruct (so_root g M Hg HM) as [E [H1 H2]]. destruct (mx_root g M Hg HM) as [[H3 H4] Q].
  set (x := so_x g M) in *. assert (N : mx_q g M x = (g + 1) * (x - M ^ 2)). { unfold mx_q. replace (2 * g * x ^ 2) with ((g - 3 + M ^ 2 * (g + 1)) * x + 2) by lra. ring. }
  assert (N0 : mx_q g M x < 0) by (rewrite N; nra).
  apply Rnot_le_lt. intros L. set (K := 4 * g * x + 2 * g + Rabs ((g + 1) * M ^ 2 - 4)). pose proof (Rabs_pos ((g + 1) * M ^ 2 - 4)). assert (K0 : 0 < K) by (unfold K; nra).
  set (e := Rmin 1 (- mx_q g M x / K)). assert (He : 0 < e). { unfold e. apply Rmin_glb_lt; [lra|]. apply Rdiv_lt_0_compat; lra. }
  assert (He1 : e <= 1) by apply Rmin_l. assert (He2 : e * K <= - mx_q g M x). { apply Rle_trans with (- mx_q g M x / K * K); [apply Rmult_le_compat_r; [lra|apply Rmin_r]|]. right. field. lra. }
  destruct (Q (x + e) ltac:(lra)) as [_ Q2]. specialize (Q2 ltac:(lra)).
  assert (Ex : mx_q g M (x + e) = mx_q g M x + e * (4 * g * x + 2 * g * e - ((g + 1) * M ^ 2 - 4))) by (unfold mx_q; ring).
  pose proof (Rle_abs (- ((g + 1) * M ^ 2 - 4))) as A. rewrite Rabs_Ropp in A.
  assert (4 * g * x + 2 * g * e - ((g + 1) * M ^ 2 - 4) <= K - 0) by (unfold K; nra).
  assert (e * (4 * g * x + 2 * g * e - ((g + 1) * M ^ 2 - 4)) <= e * K) by (apply Rmult_le_compat_l; lra). lra.
Qed.
Lemma devmax_angle g M sm : 1 < g -> 1 < M -> sigma_DevMax (Some M) (Some g) = Some sm -> (M * sin (rad sm)) ^ 2 = mx_x g M.
Proof.
  intros Hg HM E. destruct (mx_root g M Hg HM) as [[Hx1 HxM] Hq].
  set (x := mx_x g M) in *. set (n := sqrt x).
  assert (Hn2 : n ^ 2 = x) by (unfold n; apply sq_sqrt; lra).
  assert (Hn : 1 < n < M). { assert (0 <= n) by apply sqrt_pos. split; nra. }
  destruct (sig_of_Mn M n ltac:(lra)) as [Hs E']. set (s := asin (n / M)) in *.
  assert (Hi : 0 < n / M < 1). { split; [pos|]. apply (Rmult_lt_reg_r M); [lra|]. unfold Rdiv; rewrite Rmult_assoc, Rinv_l; lra. }
  assert (HM2 : 1 < M ^ 2) by nra.
  assert (Esig : sigma_DevMax (Some M) (Some g) = Some (deg s)).
  { unfold sigma_DevMax; ncbn. rewrite (ndiv_Some 4 (g + 1)) by lra.
    assert (0 < 4 / (g + 1)) by pos. ncbn.
    assert (Hin : 0 <= M ^ 2 * M ^ 2 + 2 * (g - 1) * (4 / (g + 1)) * M ^ 2 + 4 * (4 / (g + 1))).
    { assert (0 < 2 * (g - 1) * (4 / (g + 1)) * M ^ 2) by pos. nra. }
    rewrite nsqrt_Some by assumption. rewrite (ndiv_Some 1) by lra. rewrite ndiv_Some by lra. rewrite ndiv_Some by lra. ncbn.
    match goal with |- context [nsqrt (Some ?z)] => replace z with (x / M ^ 2) by (unfold x, mx_x; field; lra) end.
    rewrite nsqrt_Some by pos. rewrite sqrt_div by lra. rewrite sqrt_sq by lra. apply dasin_eval.
    fold n; lra. }
  rewrite Esig in E. injection E as E. rewrite <- E, rad_deg, E', Hn2. reflexivity.
Qed.
Lemma sonic_angle g M ss : 1 < g -> 1 < M -> sigma_Sonic (Some M) (Some g) = Some ss -> 0 < ss < 90 /\ (M * sin (rad ss)) ^ 2 = so_x g M /\ 1 < M * sin (rad ss) /\ m1 g M (rad ss) = 1.
Proof.
  intros Hg HM E. destruct (sonic_shock g M Hg HM) as (s' & th & n & P & n1 & E1 & Hs & En & Hn & _ & E6 & E7 & E8 & _). rewrite E in E1. injection E1 as <-.
  fold (rad ss) in En. subst n. assert (D : sdom g (M * sin (rad ss))) by (apply sdom_ge1; lra).
  destruct (behind_eval g M ss Hg ltac:(lra) Hs D) as (B1 & B2 & B3). rewrite E6 in B1. injection B1 as ->.
  fold (rad (ss - Fd g M ss)) in E8. rewrite E7, dsin_eval in B3. rewrite E8, Rmult_1_l in B3.
  assert (S0 : 0 < sin (rad (ss - Fd g M ss))). { rewrite B2. pose proof (bet_bound g M (rad ss) Hg ltac:(lra) (rad_quadrant _ Hs)). apply sin_gt_0; lra. }
  rewrite ndiv_Some in B3 by lra. injection B3 as B3. assert (M1 : m1 g M (rad ss) = 1) by (rewrite <- B3; field; lra).
  split; [exact Hs|]. split; [|split; [lra|exact M1]].
  destruct (m1_energy g M (rad ss) Hg ltac:(lra) (rad_quadrant _ Hs) D) as [_ He]. rewrite M1 in He.
  destruct (so_root g M Hg HM) as [Q [Q1 Q2]]. set (x := so_x g M) in *. set (y := (M * sin (rad ss)) ^ 2) in *.
  assert (Y : 1 < y) by (unfold y; nra).
  assert (R : 2 * g * y ^ 2 - (g - 3 + M ^ 2 * (g + 1)) * y - 2 = 0).
  { unfold tsr, psr, rhor, tt in He. fold y in He. assert (0 < 2 + (g - 1) * y) by nra.
    apply (f_equal (fun z => z * (2 * (g + 1) * y))) in He.
    replace ((1 + 2 * g / (g + 1) * (y - 1)) / ((g + 1) * y / (2 + (g - 1) * y)) * (1 + 1 / 2 * (g - 1) * 1 ^ 2) * (2 * (g + 1) * y))
      with ((2 * g * y - (g - 1)) * (2 + (g - 1) * y)) in He by (field; repeat split; lra).
    assert (Z : (g - 1) * (2 * g * y ^ 2 - (g - 3 + M ^ 2 * (g + 1)) * y - 2) = 0) by nra. apply Rmult_integral in Z. destruct Z; lra. }
  assert (Z : (y - x) * (2 * g * (x + y) - (g - 3 + M ^ 2 * (g + 1))) = 0) by nra.
  apply Rmult_integral in Z. destruct Z as [Z|Z]; [lra|exfalso].
  assert (2 * g * (x * y) = -2). { assert (H : g - 3 + M ^ 2 * (g + 1) = 2 * g * (x + y)) by lra. rewrite H in Q. nra. }
  assert (0 < x * y) by nra. nra.
Qed.
(*@P C18_limit: For every gamma > 1 and M > 1, dev_Sonic is the limit for supersonic flow behind an attached shock: the sonic angle lies strictly between the Mach angle and sigma_DevMax and dev_Sonic below dev_Max; the Mach number behind the shock - downstream_Mn(M sin s)/sin(s - deflection), which is the Mach number that the conservation laws across the oblique front give - strictly decreases with the shock angle and passes 1 exactly at the sonic angle; so behind the weak shock of an attached deflection d the flow is supersonic, sonic or subsonic according to d < dev_Sonic, d = dev_Sonic or d > dev_Sonic, and behind the strong shock it is always subsonic. *)
Lemma sonic_limit : forall g M, 1 < g -> 1 < M -> exists mu ss ds sm dm (th m : R -> R),
  dasin (ndiv (Some 1) (Some M)) = Some mu /\ sigma_Sonic (Some M) (Some g) = Some ss /\ dev_Sonic (Some M) (Some g) = Some ds /\
  sigma_DevMax (Some M) (Some g) = Some sm /\ dev_Max (Some M) (Some g) = Some dm /\ mu < ss < sm /\ 0 < ds < dm /\
  (forall s, mu <= s < 90 -> deflection_Mach_sigma (Some M) (Some s) (Some g) = Some (th s) /\
     ndiv (downstream_Mn (nmul (Some M) (dsin (Some s))) (Some g)) (dsin (Some (s - th s))) = Some (m s) /\
     exists P, Ps_ratio (nmul (Some M) (dsin (Some s))) (Some g) = Some P /\ shock_to g M s (th s) P (m s)) /\
  (forall a b, mu <= a -> a < b -> b < 90 -> m b < m a) /\ m ss = 1 /\
  (forall d w s, 0 < d <= dm -> weaksigma_Mach_deflection (Some M) (Some d) (Some g) = Some w -> strongsigma_Mach_deflection (Some M) (Some d) (Some g) = Some s ->
     th w = d /\ th s = d /\ mu < w < 90 /\ mu < s < 90 /\ (d < ds -> 1 < m w) /\ (d = ds -> m w = 1) /\ (ds < d -> m w < 1) /\ m s < 1).
Proof.
  intros g M Hg HM. destruct (slope_sides g M Hg HM) as (sm & dm & mu & E1 & E2 & E3 & H0 & H1 & H2 & FM & SM & F0 & SP & SN).
  destruct (sonic_shock g M Hg HM) as (ss & ds & n & P & n1 & E4 & Hs & _ & _ & E5 & E6 & _).
  destruct (sonic_angle g M ss Hg HM E4) as (_ & X1 & X2 & X3). pose proof (devmax_angle g M sm Hg HM E1) as X4. pose proof (so_lt_mx g M Hg HM) as X5.
  rewrite Fd_eval in E6 by lra. injection E6 as E6.
  assert (MC : forall s, 0 < s < 90 -> mu <= s -> 1 <= M * sin (rad s)).
  { intros s Hs' L. replace 1 with (M * (1 / M)) by (field; lra). apply Rmult_le_compat_l; [lra|]. rewrite <- SM.
    pose proof (rad_quadrant s Hs'). pose proof (rad_quadrant mu ltac:(lra)). apply sin_incr_1; try lra. destruct L as [L|L]; [left; now apply rad_lt|right; now rewrite L]. }
  assert (UP : forall a b, 0 < a -> a < b -> b <= sm -> Fd g M a < Fd g M b).
  { intros a b Ha Hab Hb. destruct (Fd_mvt g M a b) as (u & Hu & Eu); try lra. pose proof (SP u ltac:(lra)). nra. }
  assert (L1 : mu < ss). { apply Rnot_le_lt. intros L. pose proof (rad_quadrant ss Hs). pose proof (rad_quadrant mu ltac:(lra)).
    assert (sin (rad ss) <= sin (rad mu)) by (apply sin_incr_1; try lra; destruct L as [L|L]; [left; now apply rad_lt|right; now rewrite L]).
    rewrite SM in *. assert (M * sin (rad ss) <= M * (1 / M)) by (apply Rmult_le_compat_l; lra). replace (M * (1 / M)) with 1 in * by (field; lra). lra. }
  assert (L2 : ss < sm). { apply Rnot_le_lt. intros L. pose proof (rad_quadrant ss Hs). pose proof (rad_quadrant sm ltac:(lra)).
    assert (sin (rad sm) <= sin (rad ss)) by (apply sin_incr_1; try lra; destruct L as [L|L]; [left; now apply rad_lt|right; now rewrite L]).
    assert (0 < sin (rad sm)) by (apply sin_gt_0; lra). assert (sin (rad sm) ^ 2 <= sin (rad ss) ^ 2) by nra.
    rewrite !Rpow_mult_distr in *. assert (0 < M ^ 2) by nra. nra. }
  set (m := fun s => m1 g M (rad s)).
  assert (DM : forall a b, mu <= a -> a < b -> b < 90 -> m b < m a).
  { intros a b Ha Hab Hb. unfold m. apply m1_decr; try lra; try (apply rad_quadrant; lra); [apply MC; lra|now apply rad_lt]. }
  exists mu, ss, ds, sm, dm, (Fd g M), m.
  split; [exact E3|]. split; [exact E4|]. split; [exact E5|]. split; [exact E1|]. split; [exact E2|]. split; [lra|].
  pose proof (UP mu ss ltac:(lra) L1 ltac:(lra)). pose proof (UP ss sm ltac:(lra) L2 ltac:(lra)).
  split; [lra|]. split; [|split; [exact DM|split; [exact X3|]]].
  - intros s Hs'. assert (D : sdom g (M * sin (rad s))) by (apply sdom_ge1; [assumption|apply MC; lra]).
    destruct (behind_eval g M s Hg ltac:(lra) ltac:(lra) D) as (B1 & B2 & B3). split; [exact B1|]. rewrite (dsin_eval s). cbn [nmul]. split; [exact B3|].
    exists (psr g (M * sin (rad s))). split; [now apply Ps_eval|]. apply shock_to_eval; lra || assumption.
  - intros d w s Hd Ew Es.
    assert (A : exists sigma, 0 < sigma < 90 /\ deflection_Mach_sigma (Some M) (Some sigma) (Some g) = Some d).
    { destruct (IVT_value (Fd g M) mu sm d H1) as (c & Hc & Ec); [intros; apply Fd_cont; lra|lra|]. exists c. split; [lra|]. rewrite Fd_eval by lra. now rewrite Ec. }
    assert (Hd9 : 0 < d < 90). { assert (dm < 90); [|lra]. rewrite <- FM. unfold Fd. destruct (shock_at g M sm Hg ltac:(lra) ltac:(lra)) as (Q & _). rewrite Fd_eval in Q by lra. injection Q as Q. fold (Fd g M sm). rewrite Q.
      pose proof (dfl_bound g M (rad sm) Hg ltac:(lra) (rad_quadrant sm ltac:(lra))). replace 90 with (deg (PI / 2)) by (unfold deg; field; apply PI_neq0). apply deg_lt. lra. }
    destruct A as (sg & Hsg & Esg). destruct (weak_strong_sides g M d sg Hg HM Hd9 Hsg Esg) as (mu' & w' & s' & sm' & Q1 & Q2 & Q3 & Q4 & B1 & B2 & B3 & B4).
    rewrite E3 in Q1. rewrite Ew in Q2. rewrite Es in Q3. rewrite E1 in Q4. injection Q1 as <-. injection Q2 as <-. injection Q3 as <-. injection Q4 as <-.
    destruct (weak_strong g M d Hg HM Hd9) as [K _]. destruct K as (w' & s' & W1 & W2 & W3 & W4 & W5 & W6 & W7); [now exists sg|]. rewrite Ew in W1. rewrite Es in W2. injection W1 as <-. injection W2 as <-.
    rewrite Fd_eval in W6, W7 by lra. injection W6 as W6. injection W7 as W7.
    split; [exact W6|]. split; [exact W7|]. split; [lra|]. split; [lra|].
    assert (MS : m s < 1). { rewrite <- X3. apply DM; lra. }
    split; [|split; [|split]].
    + intros L. rewrite <- X3. apply DM; try lra. apply Rnot_le_lt. intros [N|N]; [pose proof (UP ss w ltac:(lra) N ltac:(lra)); lra|rewrite <- N in W6; lra].
    + intros L. rewrite <- X3. unfold m. do 2 f_equal. destruct (Rtotal_order w ss) as [N|[N|N]]; [pose proof (UP w ss ltac:(lra) N ltac:(lra)); lra|exact N|pose proof (UP ss w ltac:(lra) N ltac:(lra)); lra].
    + intros L. rewrite <- X3. apply DM; try lra. apply Rnot_le_lt. intros [N|N]; [pose proof (UP w ss ltac:(lra) N ltac:(lra)); lra|rewrite N in W6; lra].
    + exact MS.
Qed.
