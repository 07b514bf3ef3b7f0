(** * C91: near the sonic deflection no regular reflexion is possible *)
From Coquelicot Require Import Coquelicot.
From Verif Require Import L_Num Spec NumSpec PolarSpec WedgeSpec M_Isentropic M_MassFlow M_Degree M_IterSolve M_ShockWave M_Supersonic M_Wedge L_Isentropic L_Degree L_Shock L_Oblique L_Oblique2 L_WeakStrong L_Sigma2 L_Sigma3 L_Polar L_Sonic L_DevMax L_Wedge.
Open Scope R_scope.

Lemma devmax_small g M dm : 1 < g -> 1 < M -> dev_Max (Some M) (Some g) = Some dm -> dm <= deg ((M ^ 2 - 1) / 2).
Proof.
  intros Hg HM E. destruct (devmax_is g M Hg HM) as (s & dm' & Hs & Hn & E' & Ed). rewrite E in E'. injection E' as <-. rewrite Ed. apply deg_le.
  destruct (quad_trig _ Hs) as [S [C T]]. rewrite dfl_tdf by lra || assumption. set (n := M * sin s) in *.
  assert (R1 : 1 < rhor g n). { replace 1 with (rhor g 1) by (unfold rhor; field; lra). apply rhor_incr; lra. }
  assert (R2 : rhor g n <= rhor g M). { pose proof (SIN_bound s). destruct (Req_dec n M) as [->|N]; [lra|]. left. apply rhor_incr; [assumption|lra|]. assert (n <= M * 1) by (apply Rmult_le_compat_l; lra). lra. }
  assert (R3 : rhor g M - 1 <= M ^ 2 - 1).
  { unfold rhor. assert (0 < 2 + (g - 1) * M ^ 2) by nra. apply (Rmult_le_reg_r (2 + (g - 1) * M ^ 2)); [assumption|].
    replace (((g + 1) * M ^ 2 / (2 + (g - 1) * M ^ 2) - 1) * (2 + (g - 1) * M ^ 2)) with (2 * (M ^ 2 - 1)) by (field; lra). assert (1 < M ^ 2) by nra. assert (0 <= (M ^ 2 - 1) * ((g - 1) * M ^ 2)) by (apply Rmult_le_pos; [lra|apply Rmult_le_pos; lra]). lra. }
  set (r := rhor g n) in *. assert (B : 0 <= tdf r (tan s) <= (r - 1) / 2).
  { unfold tdf. set (t := tan s) in *. assert (0 < r + t ^ 2) by nra. split; [left; apply Rdiv_lt_0_compat; nra|].
    apply (Rmult_le_reg_r (r + t ^ 2)); [assumption|]. unfold Rdiv at 1. rewrite Rmult_assoc, Rinv_l, Rmult_1_r by lra.
    assert (2 * t <= r + t ^ 2) by (pose proof (pow2_ge_0 (t - 1)); lra). nra. }
  eapply Rle_trans; [apply atan_le; lra|]. lra.
Qed.
Lemma tsr_cont g M x : 1 < g -> 1 < M -> 0 < x < PI / 2 -> 1 <= M * sin x -> continuous (fun s => tsr g (M * sin s)) x.
Proof.
  intros Hg HM Hx Hn. apply (ex_derive_continuous (fun s => tsr g (M * sin s))). unfold tsr, psr, rhor. auto_derive. set (n := M * sin x) in *. assert (1 <= n * (n * 1)) by nra.
  repeat split; try lra; try (apply Rgt_not_eq; nra).
  apply Rgt_not_eq. apply Rmult_lt_0_compat; [nra|]. apply Rinv_0_lt_compat. nra.
Qed.
(*@P C91_mach_reflexion: Attached is not enough for a regular reflexion: for every gamma > 1 and M > 1 there is a deflection d0 below dev_Sonic such that every deflection d between d0 and dev_Sonic leaves a supersonic flow behind its weak shock, but one whose dev_Max is smaller than d. *)
Lemma no_regular : forall g M, 1 < g -> 1 < M -> exists d0 ds, dev_Sonic (Some M) (Some g) = Some ds /\ 0 < d0 < ds /\
  forall d w, d0 <= d < ds -> weaksigma_Mach_deflection (Some M) (Some d) (Some g) = Some w ->
    exists m dm, ndiv (downstream_Mn (nmul (Some M) (dsin (Some w))) (Some g)) (dsin (Some (w - d))) = Some m /\ 1 < m /\ dev_Max (Some m) (Some g) = Some dm /\ dm < d.
Proof.
  intros g M Hg HM. destruct (sonic_limit g M Hg HM) as (mu & ss & ds & sm & dm & th & m & E1 & E2 & E3 & E4 & E5 & O1 & O2 & Hth & Hdec & Hss & Hweak).
  destruct (slope_sides g M Hg HM) as (sm' & dm' & mu' & E1' & E2' & E3' & K0 & K1 & K2 & FM & SM & F0 & SP & SN). rewrite E4 in E1'. injection E1' as <-. rewrite E5 in E2'. injection E2' as <-. rewrite E1 in E3'. injection E3' as <-.
  assert (Fth : forall s, mu <= s < 90 -> th s = Fd g M s). { intros s Hs. destruct (Hth s Hs) as [Q _]. rewrite Fd_eval in Q by lra. now injection Q as <-. }
  assert (Eds : Fd g M ss = ds). { assert (Q := E3). unfold dev_Sonic in Q. rewrite E2, Fd_eval in Q by lra. now injection Q as <-. }
  assert (MC : forall s, 0 < s < 90 -> mu <= s -> 1 <= M * sin (rad s)).
  { intros s Hs' L. replace 1 with (M * (1 / M)) by (field; lra). apply Rmult_le_compat_l; [lra|]. rewrite <- SM.
    pose proof (rad_quadrant s Hs'). pose proof (rad_quadrant mu ltac:(lra)). apply sin_incr_1; try lra. now apply rad_le. }
  assert (m_is : forall s, mu <= s < 90 -> m s = m1 g M (rad s)).
  { intros s Hs. destruct (Hth s Hs) as (_ & Q & _). rewrite Fth in Q by assumption. assert (D : sdom g (M * sin (rad s))) by (apply sdom_ge1; [assumption|apply MC; lra]).
    destruct (behind_eval g M s Hg ltac:(lra) ltac:(lra) D) as (_ & _ & B3). rewrite (dsin_eval s) in Q. cbn [nmul] in Q. rewrite B3 in Q. now injection Q as <-. }
  (* an energy level e above the sonic one, below which dev_Max is small *)
  set (e := rad (ds / 2)). assert (He : 0 < e) by (unfold e; rewrite <- rad_0; apply rad_lt; lra).
  set (phi := fun s => tsr g (M * sin (rad s))).
  assert (Cphi : continuous phi ss).
  { unfold phi. apply (continuous_comp rad (fun s => tsr g (M * sin s))); [apply (ex_derive_continuous rad); unfold rad; auto_derive; trivial|].
    apply tsr_cont; try assumption; [apply rad_quadrant; lra|apply MC; lra]. }
  assert (Cf : continuous (Fd g M) ss) by (apply Fd_cont; lra).
  assert (T0 : 0 < phi ss) by (apply tsr_pos; [assumption|apply sdom_ge1; [assumption|apply MC; lra]]).
  assert (Energy : forall s, mu <= s < 90 -> 0 < m s /\ phi s * tt g (m s) = tt g M).
  { intros s Hs. rewrite m_is by assumption. apply m1_energy; try lra; [apply rad_quadrant; lra|apply sdom_ge1; [assumption|apply MC; lra]]. }
  set (c := 1 / 2 * (g - 1)). assert (Hc : 0 < c) by (unfold c; lra).
  destruct (Energy ss ltac:(lra)) as [_ Es]. rewrite Hss in Es.
  (* s close to ss : phi s > phi ss * tt 1 / (tt 1 + c e), th s > ds / 2 *)
  set (k := tt g 1 / (tt g 1 + c * e)). assert (t1 : 0 < tt g 1) by (unfold tt; lra). assert (ce : 0 < c * e) by (apply Rmult_lt_0_compat; lra).
  assert (Hk : 0 < k < 1). { unfold k. split; [apply Rdiv_lt_0_compat; lra|]. apply (Rmult_lt_reg_r (tt g 1 + c * e)); [lra|]. unfold Rdiv. rewrite Rmult_assoc, Rinv_l; lra. }
  assert (P1 : locally ss (fun s => phi ss * k < phi s)).
  { apply (Cphi (fun y => phi ss * k < y)). apply (open_gt (phi ss * k) (phi ss)). nra. }
  assert (P2 : locally ss (fun s => ds / 2 < Fd g M s)).
  { apply (Cf (fun y => ds / 2 < y)). apply (open_gt (ds / 2)). lra. }
  destruct (filter_and _ _ P1 P2) as (del & Hdel).
  set (s0 := Rmax ((mu + ss) / 2) (ss - del / 2)). assert (Hs0 : mu < s0 < ss). { unfold s0. pose proof (cond_pos del). split; [apply Rlt_le_trans with ((mu + ss) / 2); [lra|apply Rmax_l]|apply Rmax_lub_lt; lra]. }
  assert (NB : ball ss del s0). { apply Rabs_lt_between. cbn. pose proof (cond_pos del). assert (ss - del / 2 <= s0) by apply Rmax_r. unfold minus, plus, opp; cbn. lra. }
  destruct (Hdel s0 NB) as [G1 G2].
  assert (UP : forall a b, 0 < a -> a < b -> b <= sm -> Fd g M a < Fd g M b).
  { intros a b Ha Hab Hb. destruct (Fd_mvt g M a b) as (u & Hu & Eu); try lra. pose proof (SP u ltac:(lra)). nra. }
  exists (Fd g M s0), ds. split; [exact E3|]. split; [split; [lra|rewrite <- Eds; apply UP; lra]|].
  intros d w Hd Ew. destruct (attached_of g M d dm Hg HM E5 ltac:(lra)) as (Hd9 & sg & Hsg & Esg).
  destruct (weak_strong_sides g M d sg Hg HM Hd9 Hsg Esg) as (mu' & w' & s & sm' & Q1 & Q2 & Q3 & Q4 & B1 & B2 & B3 & B4).
  rewrite Ew in Q2. injection Q2 as <-. rewrite E4 in Q4. injection Q4 as <-.
  destruct (Hweak d w s ltac:(lra) Ew Q3) as (W1 & W2 & W3 & W4 & W5 & W6 & W7 & W8). rewrite Fth in W1 by lra.
  assert (L : s0 <= w). { apply Rnot_lt_le. intros L. pose proof (UP w s0 ltac:(lra) L ltac:(lra)). lra. }
  destruct (Hth w ltac:(lra)) as (T1 & T2 & _). rewrite Fth, W1 in T2 by lra. specialize (W5 ltac:(lra)).
  destruct (devmax_is g (m w) Hg W5) as (_ & dm2 & _ & _ & Ed & _).
  exists (m w), dm2. split; [exact T2|]. split; [exact W5|]. split; [exact Ed|].
  apply Rle_lt_trans with (ds / 2); [|lra].
  eapply Rle_trans; [apply (devmax_small g (m w) dm2 Hg W5 Ed)|]. rewrite <- (deg_rad (ds / 2)). fold e. apply deg_le.
  destruct (Energy s0 ltac:(lra)) as [Z1 Z2]. assert (Mw : m w <= m s0). { destruct L as [L| ->]; [left; apply Hdec; lra|lra]. }
  assert (B : tt g (m s0) < tt g 1 + c * e).
  { apply (Rmult_lt_reg_l (phi ss * k)); [nra|]. apply Rlt_le_trans with (phi s0 * tt g (m s0)). { apply Rmult_lt_compat_r; [unfold tt; nra|exact G1]. }
    rewrite Z2, <- Es. right. unfold k. field. lra. }
  unfold tt in B. fold c in B. assert (m s0 ^ 2 - 1 < e) by nra. nra.
Qed.
