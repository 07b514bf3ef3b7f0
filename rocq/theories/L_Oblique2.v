From Verif Require Import L_Num Spec NumSpec M_Isentropic M_Degree M_ShockWave L_Isentropic L_Degree L_Shock L_Oblique.
Open Scope R_scope.

(** a shock angle from its normal Mach number *)
Lemma sig_of_Mn M n : 0 < n < M -> 
  0 < asin (n / M) < PI / 2 /\ M * sin (asin (n / M)) = n.
Proof.
  intros H. assert (Hi : 0 < n / M < 1).
  { split; [pos|]. apply (Rmult_lt_reg_r M); [lra|]. unfold Rdiv; rewrite Rmult_assoc, Rinv_l; lra. }
  split.
  - split; [rewrite <- asin_0; apply asin_increasing; lra|rewrite <- asin_1; apply asin_increasing; lra].
  - rewrite sin_asin by lra. field; lra.
Qed.
(** downstream Mach number times the sine of the angle to the shock *)
Definition m1 (g M s : R) : R := sqrt (md2 g (M * sin s)) / sin (bet g M s).
Lemma tsr_md2 g n : 1 < g -> sdom g n -> tsr g n * md2 g n * rhor g n ^ 2 = n ^ 2.
Proof.
  intros Hg H. pose proof (sdom_den g n Hg H). pose proof (sdom_nz g n Hg H) as Hz. pose proof (sq_pos n Hz).
  pose proof (rden_pos g n Hg). unfold tsr, md2, psr, rhor, tt. field. repeat split; nra.
Qed.
Lemma m1_energy g M s : 1 < g -> 0 < M -> 0 < s < PI / 2 -> sdom g (M * sin s) ->
  0 < m1 g M s /\ tsr g (M * sin s) * tt g (m1 g M s) = tt g M.
Proof.
  intros Hg HM Hs HD. destruct (quad_trig _ Hs) as [H1 [H2 H3]].
  destruct (bet_trig g M s Hg ltac:(lra) Hs) as [Hn [Hc Hsn]].
  set (R := rhor g (M * sin s)) in *. set (n := sqrt (cos s ^ 2 + (sin s / R) ^ 2)) in *.
  assert (HR : 0 < R) by (apply rhor_pos; [assumption|apply Rgt_not_eq; pos]).
  pose proof (md2_pos g _ Hg HD) as Hmd.
  assert (Hsb : 0 < sin (bet g M s)) by (rewrite Hsn; pos).
  split; [unfold m1; pos|].
  pose proof (tsr_tt g _ Hg HD) as E1. pose proof (tsr_md2 g _ Hg HD) as E2. fold R in E2.
  assert (Hn2 : n ^ 2 = cos s ^ 2 + (sin s / R) ^ 2) by (unfold n; apply sq_sqrt; nra).
  assert (Em : m1 g M s ^ 2 = md2 g (M * sin s) * (1 + R ^ 2 * (cos s / sin s) ^ 2)).
  { unfold m1. replace ((sqrt (md2 g (M * sin s)) / sin (bet g M s)) ^ 2)
      with (sqrt (md2 g (M * sin s)) ^ 2 / sin (bet g M s) ^ 2) by (field; lra).
    rewrite sq_sqrt by lra. rewrite Hsn.
    replace ((sin s / R / n) ^ 2) with ((sin s / R) ^ 2 / n ^ 2) by (field; lra). rewrite Hn2.
    field. repeat split; try lra. nra. }
  unfold tt at 1. rewrite Em.
  replace (tsr g (M * sin s) * (1 + 1 / 2 * (g - 1) * (md2 g (M * sin s) * (1 + R ^ 2 * (cos s / sin s) ^ 2))))
   with (tsr g (M * sin s) * (1 + 1 / 2 * (g - 1) * md2 g (M * sin s))
     + 1 / 2 * (g - 1) * (tsr g (M * sin s) * md2 g (M * sin s) * R ^ 2) * (cos s / sin s) ^ 2) by ring.
  rewrite E2. unfold tt in E1 at 1. rewrite sq_sqrt in E1 by lra. rewrite E1. unfold tt.
  assert (cos s ^ 2 = 1 - sin s ^ 2) by (pose proof (sc2 s); lra).
  replace ((cos s / sin s) ^ 2) with (cos s ^ 2 / sin s ^ 2) by (field; lra). rewrite H. field; lra.
Qed.

Lemma Mn_Ps_eval P g n : 1 < g -> 0 < n -> P = psr g n -> Mn_Ps_ratio (Some P) (Some g) = Some n.
Proof.
  intros Hg Hn ->. unfold Mn_Ps_ratio; ncbn; rewrite ndiv_Some by lra; ncbn.
  replace (1 + (psr g n - 1) * (g + 1) / (2 * g)) with (n ^ 2) by (unfold psr; field; lra).
  rewrite nsqrt_Some by apply sq_nonneg. rewrite sqrt_sq by lra. reflexivity.
Qed.
Lemma psr_surj P g : 1 < g -> 1 <= P -> exists n, 1 <= n /\ P = psr g n.
Proof.
  intros Hg HP. set (z := 1 + (P - 1) * ((g + 1) / (2 * g))).
  assert (Hz : 1 <= z). { unfold z. assert (0 < (g + 1) / (2 * g)) by pos. nra. }
  exists (sqrt z). split; [rewrite <- sqrt_1 at 1; apply sqrt_le_1_alt; lra|].
  unfold psr. rewrite sq_sqrt by lra. unfold z; field; lra.
Qed.
Lemma dsM_eval P g M n : 1 < g -> 1 <= n < M -> P = psr g n ->
  downstreamMach_Mach_ShockPsratio (Some M) (Some P) (Some g) = Some (m1 g M (asin (n / M))).
Proof.
  intros Hg Hn HP. unfold downstreamMach_Mach_ShockPsratio.
  rewrite (Mn_Ps_eval P g n) by lra. rewrite ndiv_Some by lra.
  destruct (sig_of_Mn M n ltac:(lra)) as [Hs E].
  assert (Hi : 0 < n / M < 1).
  { split; [pos|]. apply (Rmult_lt_reg_r M); [lra|]. unfold Rdiv; rewrite Rmult_assoc, Rinv_l; lra. }
  rewrite dasin_eval by lra. rewrite defl_eval; [|lra|lra|now apply deg_quadrant].
  assert (Hd : sdom g n) by (apply sdom_ge1; lra).
  rewrite Md_eval by assumption. ncbn. rewrite dsin_eval, rad_sub, !rad_deg.
  unfold dfl. replace (asin (n / M) - (asin (n / M) - bet g M (asin (n / M)))) with (bet g M (asin (n / M))) by ring.
  rewrite ndiv_Some.
  - unfold m1. now rewrite E.
  - apply Rgt_not_eq. pose proof (bet_bound g M (asin (n / M)) Hg ltac:(lra) Hs). apply sin_gt_0; lra.
Qed.
(*@P C16_shock_of_pressure_ratio: For every M > 1 and pressure ratio P of a shock weaker than the normal shock, there is a shock angle sigma with Ps_ratio(M sin sigma) = P whose deflection is deflection_Mach_ShockPsratio(M,P), and the Mach number returned by downstreamMach_Mach_ShockPsratio conserves total temperature and has the shock's downstream normal component. *)
Lemma shock_of_Psratio : forall g M P Pmax, 1 < g -> 1 < M ->
  Ps_ratio (Some M) (Some g) = Some Pmax -> 1 <= P < Pmax ->
  exists sigma mn th M1 T t0 t1 mn1, 0 < sigma < 90 /\
    mn = M * sin (sigma * (PI / 180)) /\ Ps_ratio (Some mn) (Some g) = Some P /\
    deflection_Mach_ShockPsratio (Some M) (Some P) (Some g) = Some th /\
    deflection_Mach_sigma (Some M) (Some sigma) (Some g) = Some th /\
    downstreamMach_Mach_ShockPsratio (Some M) (Some P) (Some g) = Some M1 /\ 0 < M1 /\
    Ts_ratio (Some mn) (Some g) = Some T /\ TtTs_Mach (Some M) (Some g) = Some t0 /\
    TtTs_Mach (Some M1) (Some g) = Some t1 /\ t0 = T * t1 /\
    downstream_Mn (Some mn) (Some g) = Some mn1 /\ mn1 = M1 * sin ((sigma - th) * (PI / 180)).
Proof.
  intros g M P Pmax Hg HM EP HP. rewrite Ps_eval in EP by assumption. injection EP as <-.
  destruct (psr_surj P g Hg (proj1 HP)) as [n [Hn En]].
  assert (HnM : n < M).
  { destruct (Rlt_le_dec n M) as [|L]; [assumption|]. destruct (Req_dec M n) as [->|]; [lra|].
    pose proof (psr_incr g M n); lra. }
  destruct (sig_of_Mn M n ltac:(lra)) as [Hs E].
  set (s := asin (n / M)) in *.
  assert (Hd : sdom g n) by (apply sdom_ge1; lra).
  assert (HD : sdom g (M * sin s)) by (rewrite E; assumption).
  destruct (m1_energy g M s Hg ltac:(lra) Hs HD) as [Hm1 Hen].
  exists (deg s), n, (deg (dfl g M s)), (m1 g M s), (tsr g n), (tt g M), (tt g (m1 g M s)), (sqrt (md2 g n)).
  assert (Hi : 0 < n / M < 1).
  { split; [pos|]. apply (Rmult_lt_reg_r M); [lra|]. unfold Rdiv; rewrite Rmult_assoc, Rinv_l; lra. }
  split; [now apply deg_quadrant|].
  split; [fold (rad (deg s)); now rewrite rad_deg|].
  split; [rewrite Ps_eval by assumption; now rewrite En|].
  assert (Edf : deflection_Mach_sigma (Some M) (Some (deg s)) (Some g) = Some (deg (dfl g M s))).
  { rewrite defl_eval; [now rewrite rad_deg|lra|lra|now apply deg_quadrant]. }
  split.
  { unfold deflection_Mach_ShockPsratio. rewrite (Mn_Ps_eval P g n), ndiv_Some, dasin_eval by lra. exact Edf. }
  split; [assumption|]. split; [apply dsM_eval; lra|]. split; [assumption|].
  split; [apply Ts_eval; lra|]. split; [apply TtTs_eval|]. split; [apply TtTs_eval|].
  split; [rewrite <- E at 1; symmetry; exact Hen|].
  split; [now apply Md_eval|].
  fold (rad (deg s - deg (dfl g M s))). rewrite rad_sub, !rad_deg. unfold dfl.
  replace (s - (s - bet g M s)) with (bet g M s) by ring. unfold m1. rewrite E.
  pose proof (bet_bound g M s Hg ltac:(lra) Hs). assert (0 < sin (bet g M s)) by (apply sin_gt_0; lra). field; lra.
Qed.
(*@E C16_example: M = 3, gamma = 1.4, P = 4.5 (the shock of normal Mach 2) meets the hypotheses *)
Lemma C16_example_lemma : exists Pmax, Ps_ratio (Some 3) dgamma = Some Pmax /\ 1 <= 9/2 < Pmax.
Proof. unfold dgamma; rewrite Ps_eval by lra; eexists; split; [reflexivity|]. unfold psr; lra. Qed.

(** ** Sonic shock angle *)
Definition so_x (g M : R) : R :=
  ((g - 3 + M ^ 2 * (g + 1)) + sqrt ((g + 1) * ((M ^ 2 - 3) ^ 2 + g * (M ^ 2 + 1) ^ 2))) / (4 * g).
Lemma so_root g M : 1 < g -> 1 < M ->
  2 * g * so_x g M ^ 2 - (g - 3 + M ^ 2 * (g + 1)) * so_x g M - 2 = 0 /\ 1 < so_x g M < M ^ 2.
Proof.
  intros Hg HM. unfold so_x. set (ka := g - 3 + M ^ 2 * (g + 1)).
  assert (Ekb : (g + 1) * ((M ^ 2 - 3) ^ 2 + g * (M ^ 2 + 1) ^ 2) = ka ^ 2 + 16 * g) by (unfold ka; ring).
  rewrite Ekb. set (r := sqrt (ka ^ 2 + 16 * g)).
  assert (Hr : r ^ 2 = ka ^ 2 + 16 * g) by (unfold r; apply sq_sqrt; nra).
  assert (Hrp : 0 < r) by (unfold r; apply sqrt_lt_R0; nra).
  assert (Hroot : 2 * g * ((ka + r) / (4 * g)) ^ 2 - ka * ((ka + r) / (4 * g)) - 2 = 0).
  { replace (2 * g * ((ka + r) / (4 * g)) ^ 2 - ka * ((ka + r) / (4 * g)) - 2) with ((r ^ 2 - ka ^ 2 - 16 * g) / (8 * g)) by (field; lra).
    rewrite Hr. field; lra. }
  split; [exact Hroot|]. set (x := (ka + r) / (4 * g)) in *.
  assert (Hm : 1 < M ^ 2) by nra.
  assert (Hx : 0 < x).
  { unfold x. assert (0 < ka + r) by nra. pos. }
  assert (Q1 : 2 * g * 1 ^ 2 - ka * 1 - 2 < 0).
  { replace (2 * g * 1 ^ 2 - ka * 1 - 2) with (- ((g + 1) * (M ^ 2 - 1))) by (unfold ka; ring).
    assert (0 < (g + 1) * (M ^ 2 - 1)) by pos. lra. }
  assert (QM : 0 < 2 * g * (M ^ 2) ^ 2 - ka * M ^ 2 - 2).
  { replace (2 * g * (M ^ 2) ^ 2 - ka * M ^ 2 - 2) with ((M ^ 2 - 1) * ((g - 1) * M ^ 2 + 2)) by (unfold ka; ring).
    apply Rmult_lt_0_compat; nra. }
  assert (Fac : forall y, 2 * g * y ^ 2 - ka * y - 2 = (y - x) * (2 * g * y + 2 / x)).
  { intros y. assert (ka = 2 * g * x - 2 / x) by (apply (Rmult_eq_reg_r x); [|lra]; field_simplify; [nra|lra]).
    rewrite H. field; lra. }
  rewrite Fac in Q1, QM. assert (0 < 2 / x) by pos.
  pose proof (mul_neg_l _ _ Q1 ltac:(nra)). pose proof (mul_pos_l _ _ QM ltac:(nra)). lra.
Qed.
(*@P C18_sonic: For every M > 1, sigma_Sonic(M) is a shock angle between the Mach angle and 90 degrees; dev_Sonic is its deflection; and the downstream Mach number, computed either from the normal component downstream_Mn(M sin sigma)/sin(sigma - deflection) or by downstreamMach_Mach_ShockPsratio, is exactly 1. *)
Lemma sonic_shock : forall g M, 1 < g -> 1 < M ->
  exists sigma th mn P mn1, sigma_Sonic (Some M) (Some g) = Some sigma /\ 0 < sigma < 90 /\
    mn = M * sin (sigma * (PI / 180)) /\ 1 < mn /\
    dev_Sonic (Some M) (Some g) = Some th /\
    deflection_Mach_sigma (Some M) (Some sigma) (Some g) = Some th /\
    downstream_Mn (Some mn) (Some g) = Some mn1 /\ mn1 = 1 * sin ((sigma - th) * (PI / 180)) /\
    Ps_ratio (Some mn) (Some g) = Some P /\
    downstreamMach_Mach_ShockPsratio (Some M) (Some P) (Some g) = Some 1.
Proof.
  intros g M Hg HM. destruct (so_root g M Hg HM) as [Hroot [Hx1 HxM]].
  set (x := so_x g M) in *. set (n := sqrt x).
  assert (Hn2 : n ^ 2 = x) by (unfold n; apply sq_sqrt; lra).
  assert (Hn : 1 < n < M).
  { assert (0 <= n) by apply sqrt_pos. split; nra. }
  destruct (sig_of_Mn M n ltac:(lra)) as [Hs E]. set (s := asin (n / M)) in *.
  assert (Hi : 0 < n / M < 1).
  { split; [pos|]. apply (Rmult_lt_reg_r M); [lra|]. unfold Rdiv; rewrite Rmult_assoc, Rinv_l; lra. }
  assert (Esig : sigma_Sonic (Some M) (Some g) = Some (deg s)).
  { unfold sigma_Sonic; ncbn. assert (HM2 : 0 < M ^ 2) by nra.
    rewrite nsqrt_Some by pos. ncbn. rewrite ndiv_Some by pos.
    assert (Ex : (g - 3 + M ^ 2 * (g + 1) + sqrt ((g + 1) * ((M ^ 2 - 3) ^ 2 + g * (M ^ 2 + 1) ^ 2))) / (4 * g * M ^ 2) = x / M ^ 2).
    { unfold x, so_x. field. lra. }
    rewrite Ex. rewrite nsqrt_Some by pos. rewrite sqrt_div by lra. rewrite sqrt_sq by lra. apply dasin_eval.
    fold n; lra. }
  assert (Hd : sdom g n) by (apply sdom_ge1; lra).
  assert (HD : sdom g (M * sin s)) by (rewrite E; assumption).
  destruct (m1_energy g M s Hg ltac:(lra) Hs HD) as [Hm1 Hen]. rewrite E in Hen.
  assert (Ht : tsr g n * tt g 1 = tt g M).
  { unfold tsr, psr, rhor, tt. rewrite Hn2. assert (0 < 2 + (g - 1) * x) by nra.
    apply (Rmult_eq_reg_r (2 * (g + 1) * x)); [|pos].
    replace ((1 + 2 * g / (g + 1) * (x - 1)) / ((g + 1) * x / (2 + (g - 1) * x)) * (1 + 1 / 2 * (g - 1) * 1 ^ 2) * (2 * (g + 1) * x))
      with ((2 * g * x - (g - 1)) * (2 + (g - 1) * x)) by (field; repeat split; lra). nra. }
  assert (Em1 : m1 g M s = 1).
  { assert (Htt : tt g (m1 g M s) = tt g 1).
    { apply (Rmult_eq_reg_l (tsr g n)); [lra|]. pose proof (tsr_pos g n Hg Hd); lra. }
    unfold tt in Htt. assert (m1 g M s ^ 2 = 1) by nra. nra. }
  assert (Edf : deflection_Mach_sigma (Some M) (Some (deg s)) (Some g) = Some (deg (dfl g M s))).
  { rewrite defl_eval; [now rewrite rad_deg|lra|lra|now apply deg_quadrant]. }
  exists (deg s), (deg (dfl g M s)), n, (psr g n), (sqrt (md2 g n)).
  split; [exact Esig|]. split; [now apply deg_quadrant|].
  split; [fold (rad (deg s)); rewrite rad_deg; now symmetry|]. split; [lra|].
  split; [unfold dev_Sonic; rewrite Esig; exact Edf|]. split; [exact Edf|].
  split; [now apply Md_eval|]. split.
  { fold (rad (deg s - deg (dfl g M s))). rewrite rad_sub, !rad_deg. unfold dfl.
    replace (s - (s - bet g M s)) with (bet g M s) by ring. unfold m1 in Em1. rewrite E in Em1.
    pose proof (bet_bound g M s Hg ltac:(lra) Hs). assert (0 < sin (bet g M s)) by (apply sin_gt_0; lra).
    apply (f_equal (fun z => z * sin (bet g M s))) in Em1. field_simplify in Em1; lra. }
  split; [now apply Ps_eval|]. rewrite (dsM_eval (psr g n) g M n) by lra. fold s. now rewrite Em1.
Qed.

(** ** Maximum deflection *)
Definition mx_x (g M : R) : R :=
  (g + 1) / (4 * g) * (M ^ 2 - 4 / (g + 1) + sqrt (M ^ 2 * M ^ 2 + 2 * (g - 1) * (4 / (g + 1)) * M ^ 2 + 4 * (4 / (g + 1)))).
Definition mx_q (g M x : R) : R := 2 * g * x ^ 2 - ((g + 1) * M ^ 2 - 4) * x - ((g + 1) * M ^ 2 + 2).
Lemma mx_root g M : 1 < g -> 1 < M -> 1 < mx_x g M < M ^ 2 /\
  forall y, 0 < y -> (y < mx_x g M -> mx_q g M y < 0) /\ (mx_x g M < y -> 0 < mx_q g M y).
Proof.
  intros Hg HM. set (b := (g + 1) * M ^ 2 - 4). set (c := (g + 1) * M ^ 2 + 2).
  set (r := (g + 1) * sqrt (M ^ 2 * M ^ 2 + 2 * (g - 1) * (4 / (g + 1)) * M ^ 2 + 4 * (4 / (g + 1)))).
  assert (HM2 : 1 < M ^ 2) by nra.
  assert (Hin : 0 < M ^ 2 * M ^ 2 + 2 * (g - 1) * (4 / (g + 1)) * M ^ 2 + 4 * (4 / (g + 1))).
  { assert (0 < 4 / (g + 1)) by pos. assert (0 < 2 * (g - 1) * (4 / (g + 1)) * M ^ 2) by pos. nra. }
  assert (Hr2 : r ^ 2 = b ^ 2 + 8 * g * c).
  { unfold r. rewrite Rpow_mult_distr, sq_sqrt by lra. unfold b, c. field; lra. }
  assert (Hrp : 0 < r) by (unfold r; pos).
  assert (Ex : mx_x g M = (b + r) / (4 * g)) by (unfold mx_x, b, r; field; lra).
  set (x := mx_x g M) in *.
  assert (Hc : 0 < c) by (unfold c; nra).
  assert (Hx : 0 < x) by (rewrite Ex; assert (0 < b + r) by nra; pos).
  assert (Hroot : 2 * g * x ^ 2 - b * x - c = 0).
  { rewrite Ex. replace (2 * g * ((b + r) / (4 * g)) ^ 2 - b * ((b + r) / (4 * g)) - c) with ((r ^ 2 - b ^ 2 - 8 * g * c) / (8 * g)) by (field; lra).
    rewrite Hr2. field; lra. }
  assert (Fac : forall y, mx_q g M y = (y - x) * (2 * g * y + c / x)).
  { intros y. unfold mx_q; fold b; fold c.
    assert (Eb : b = 2 * g * x - c / x) by (apply (Rmult_eq_reg_r x); [|lra]; field_simplify; [nra|lra]).
    rewrite Eb. field; lra. }
  assert (Hcx : 0 < c / x) by pos.
  split.
  - assert (Q1 : mx_q g M 1 < 0).
    { replace (mx_q g M 1) with (- (2 * (g + 1) * (M ^ 2 - 1))) by (unfold mx_q; ring).
      assert (0 < 2 * (g + 1) * (M ^ 2 - 1)) by pos. lra. }
    assert (QM : 0 < mx_q g M (M ^ 2)).
    { replace (mx_q g M (M ^ 2)) with ((M ^ 2 - 1) * ((g - 1) * M ^ 2 + 2)) by (unfold mx_q; ring).
      apply Rmult_lt_0_compat; nra. }
    rewrite Fac in Q1, QM. pose proof (mul_neg_l _ _ Q1 ltac:(nra)). pose proof (mul_pos_l _ _ QM ltac:(nra)). lra.
  - intros y Hy; rewrite Fac. assert (Hk : 0 < 2 * g * y + c / x) by nra. clearbody x. split; intros; nra.
Qed.
(** logarithm of tan^2(theta)/4 as a function of the squared normal Mach number *)
Definition lt2 (g M x : R) : R :=
  ln (M ^ 2 - x) - ln x + 2 * ln (x - 1) - 2 * ln ((g + 1) * M ^ 2 + 2 - 2 * x).
Lemma lt2_derive g M x : 1 < g -> 1 < x < M ^ 2 ->
  is_derive (lt2 g M) x
    (- mx_q g M x * M ^ 2 / (x * (M ^ 2 - x) * (x - 1) * ((g + 1) * M ^ 2 + 2 - 2 * x))).
Proof.
  intros Hg Hx. unfold lt2. assert (0 < (g + 1) * M ^ 2 + 2 - 2 * x) by nra.
  auto_derive.
  - repeat split; simpl in *; lra.
  - unfold mx_q. field. repeat split; simpl in *; try lra.
Qed.
Lemma tan_dfl_lt2 g M s : 1 < g -> 1 < M -> 0 < s < PI / 2 -> 1 < M * sin s ->
  tan (dfl g M s) = 2 * exp (lt2 g M ((M * sin s) ^ 2) / 2).
Proof.
  intros Hg HM Hs Hn. destruct (quad_trig _ Hs) as [H1 [H2 H3]].
  rewrite tan_dfl by lra.
  set (x := (M * sin s) ^ 2). assert (Hs2 : sin s ^ 2 = x / M ^ 2) by (unfold x; field; lra).
  assert (Hc2 : cos s ^ 2 = (M ^ 2 - x) / M ^ 2).
  { pose proof (sc2 s). rewrite Hs2 in H. replace ((M ^ 2 - x) / M ^ 2) with (1 - x / M ^ 2) by (field; lra). lra. }
  assert (Hx : 1 < x) by (unfold x; nra).
  assert (HxM : x < M ^ 2).
  { assert (0 < cos s ^ 2) by nra. rewrite Hc2 in H. assert (0 < M ^ 2) by nra.
    apply (Rmult_lt_compat_r (M ^ 2)) in H; [|assumption]. unfold Rdiv in H; rewrite Rmult_assoc, Rinv_l in H by lra. lra. }
  assert (Hd : den_tbm g M s = (g + 1) * M ^ 2 + 2 - 2 * x).
  { unfold den_tbm. rewrite cos_2a. replace (cos s * cos s) with (cos s ^ 2) by ring.
    replace (sin s * sin s) with (sin s ^ 2) by ring. rewrite Hs2, Hc2. field; lra. }
  assert (HdP : 0 < (g + 1) * M ^ 2 + 2 - 2 * x) by (rewrite <- Hd; now apply den_tbm_pos).
  rewrite Hd.
  assert (Hcs : cos s / sin s = sqrt ((M ^ 2 - x) / x)).
  { rewrite <- (sqrt_sq (cos s / sin s)) by pos. f_equal.
    replace ((cos s / sin s) ^ 2) with (cos s ^ 2 / sin s ^ 2) by (field; lra). rewrite Hs2, Hc2. field; split; nra. }
  rewrite Hcs. unfold lt2.
  replace ((ln (M ^ 2 - x) - ln x + 2 * ln (x - 1) - 2 * ln ((g + 1) * M ^ 2 + 2 - 2 * x)) / 2)
    with (/ 2 * (ln ((M ^ 2 - x) / x)) + ln (x - 1) + - ln ((g + 1) * M ^ 2 + 2 - 2 * x))
    by (rewrite ln_div by lra; field).
  rewrite !exp_plus, exp_Ropp, !exp_ln by lra.
  rewrite <- Rpower_sqrt by (apply Rdiv_lt_0_compat; lra). unfold Rpower.
  field; lra.
Qed.
Lemma atan_dfl g M s : 1 < g -> 0 < M -> 0 < s < PI / 2 -> dfl g M s = atan (tan (dfl g M s)).
Proof. intros Hg HM Hs. symmetry. apply atan_tan. apply dfl_bound; lra || assumption. Qed.
(*@P C19_maximum: For every M > 1, sigma_DevMax(M) is a shock angle between the Mach angle and 90 degrees, dev_Max is its deflection, and every other shock angle between the Mach angle and 90 degrees deflects strictly less. *)
Lemma max_deflection : forall g M, 1 < g -> 1 < M ->
  exists sm dm mu, sigma_DevMax (Some M) (Some g) = Some sm /\ dasin (ndiv (Some 1) (Some M)) = Some mu /\
    mu < sm < 90 /\ dev_Max (Some M) (Some g) = Some dm /\
    deflection_Mach_sigma (Some M) (Some sm) (Some g) = Some dm /\
    forall sigma, mu <= sigma < 90 -> sigma <> sm ->
      exists th, deflection_Mach_sigma (Some M) (Some sigma) (Some g) = Some th /\ th < dm.
Proof.
  intros g M Hg HM. destruct (mx_root g M Hg HM) as [[Hx1 HxM] Hq].
  set (x := mx_x g M) in *. set (n := sqrt x).
  assert (Hn2 : n ^ 2 = x) by (unfold n; apply sq_sqrt; lra).
  assert (Hn : 1 < n < M).
  { assert (0 <= n) by apply sqrt_pos. split; nra. }
  destruct (sig_of_Mn M n ltac:(lra)) as [Hs E]. set (s := asin (n / M)) in *.
  assert (Hi : 0 < n / M < 1).
  { split; [pos|]. apply (Rmult_lt_reg_r M); [lra|]. unfold Rdiv; rewrite Rmult_assoc, Rinv_l; lra. }
  assert (HM2 : 1 < M ^ 2) by nra.
  assert (Esig : sigma_DevMax (Some M) (Some g) = Some (deg s)).
  { unfold sigma_DevMax; ncbn. rewrite (ndiv_Some 4 (g + 1)) by lra.
    assert (0 < 4 / (g + 1)) by pos. ncbn.
    assert (Hin : 0 <= M ^ 2 * M ^ 2 + 2 * (g - 1) * (4 / (g + 1)) * M ^ 2 + 4 * (4 / (g + 1))).
    { assert (0 < 2 * (g - 1) * (4 / (g + 1)) * M ^ 2) by pos. nra. }
    rewrite nsqrt_Some by assumption. rewrite (ndiv_Some 1) by lra. rewrite ndiv_Some by lra. rewrite ndiv_Some by lra. ncbn.
    match goal with |- context [nsqrt (Some ?z)] => replace z with (x / M ^ 2) by (unfold x, mx_x; field; lra) end.
    rewrite nsqrt_Some by pos. rewrite sqrt_div by lra. rewrite sqrt_sq by lra. apply dasin_eval.
    fold n; lra. }
  assert (Hi1 : 0 < 1 / M < 1).
  { split; [pos|]. apply (Rmult_lt_reg_r M); [lra|]. unfold Rdiv; rewrite Rmult_assoc, Rinv_l; lra. }
  assert (Edf : deflection_Mach_sigma (Some M) (Some (deg s)) (Some g) = Some (deg (dfl g M s))).
  { rewrite defl_eval; [now rewrite rad_deg|lra|lra|now apply deg_quadrant]. }
  exists (deg s), (deg (dfl g M s)), (deg (asin (1 / M))).
  split; [exact Esig|]. split; [rewrite ndiv_Some by lra; apply dasin_eval; lra|].
  assert (Hsd : 0 < deg s < 90) by (now apply deg_quadrant).
  split. { split; [|lra]. apply (mach_angle_cmp M (deg s) HM Hsd). rewrite rad_deg, E; lra. }
  split; [unfold dev_Max; rewrite Esig; exact Edf|]. split; [exact Edf|].
  intros sigma Hsg Hne.
  assert (Hmu : 0 < deg (asin (1 / M))).
  { rewrite <- deg_0. apply deg_lt. rewrite <- asin_0. apply asin_increasing; lra. }
  assert (Hs9 : 0 < sigma < 90) by lra. pose proof (rad_quadrant sigma Hs9) as Hr.
  exists (deg (dfl g M (rad sigma))). split; [apply defl_eval; lra|]. apply deg_lt.
  assert (Hpos : 0 < dfl g M s) by (apply dfl_sign; lra).
  destruct (proj1 Hsg) as [Hgt|Heq].
  2:{ apply (mach_angle_cmp M sigma HM Hs9) in Heq.
      assert (dfl g M (rad sigma) = 0) by (apply dfl_sign; lra). lra. }
  apply (mach_angle_cmp M sigma HM Hs9) in Hgt.
  rewrite (atan_dfl g M (rad sigma)), (atan_dfl g M s) by lra. apply atan_increasing.
  rewrite !tan_dfl_lt2 by lra. apply Rmult_lt_compat_l; [lra|]. apply exp_increasing.
  rewrite E, Hn2. unfold Rdiv. apply Rmult_lt_compat_r; [lra|].
  set (y := (M * sin (rad sigma)) ^ 2).
  assert (Hy1 : 1 < y) by (unfold y; nra).
  assert (HyM : y < M ^ 2).
  { unfold y. destruct (quad_trig _ Hr) as [A1 [A2 A3]]. pose proof (sc2 (rad sigma)).
    rewrite Rpow_mult_distr. nra. }
  assert (Hyx : y <> x).
  { intros Heq. apply Hne. rewrite <- (deg_rad sigma). f_equal. destruct (quad_trig _ Hr) as [A1 [A2 A3]].
    assert (M * sin (rad sigma) = n) by (unfold y in Heq; rewrite <- Hn2 in Heq; nra).
    unfold s. replace (n / M) with (sin (rad sigma)) by (rewrite <- H; field; lra). symmetry; apply asin_sin; lra. }
  assert (Hder : forall z, 1 < z < M ^ 2 -> 0 < M ^ 2 / (z * (M ^ 2 - z) * (z - 1) * ((g + 1) * M ^ 2 + 2 - 2 * z))).
  { intros z Hz. assert (0 < (g + 1) * M ^ 2 + 2 - 2 * z) by nra. pos. }
  destruct (Rlt_le_dec y x) as [L|L].
  - eapply strict_incr; [exact L| |].
    + intros z Hz; apply lt2_derive; lra.
    + intros z Hz; cbv beta. specialize (Hder z ltac:(lra)). destruct (Hq z ltac:(lra)) as [Hq1 _].
      specialize (Hq1 ltac:(lra)). unfold Rdiv in *. rewrite Rmult_assoc. nra.
  - assert (Lx : x < y) by lra. eapply strict_decr; [exact Lx| |].
    + intros z Hz; apply lt2_derive; lra.
    + intros z Hz; cbv beta. specialize (Hder z ltac:(lra)). destruct (Hq z ltac:(lra)) as [_ Hq1].
      specialize (Hq1 ltac:(lra)). unfold Rdiv in *. rewrite Rmult_assoc. nra.
Qed.
Lemma dasin_60 : dasin (nsqrt (Some (3/4))) = Some 60.
Proof.
  assert (S : sqrt (3/4) = sin (PI / 3)).
  { rewrite sin_PI3. rewrite sqrt_div_alt by lra. f_equal. replace 4 with (2 ^ 2) by ring. apply sqrt_sq; lra. }
  pose proof PI_RGT_0. pose proof (SIN_bound (PI / 3)).
  rewrite nsqrt_Some by lra. rewrite S, dasin_eval by assumption. rewrite asin_sin by lra. f_equal. unfold deg. field. lra.
Qed.
(*@E C18_example: gamma = 16/9, M = sqrt 3: the sonic shock angle is 60 degrees. *)
Lemma C18_example_lemma : sigma_Sonic (Some (sqrt 3)) (Some (16/9)) = Some 60 /\ 1 < sqrt 3 /\ 1 < 16/9.
Proof.
  assert (H3 : sqrt 3 ^ 2 = 3) by (apply sq_sqrt; lra). assert (L : 1 < sqrt 3) by (rewrite <- sqrt_1 at 1; apply sqrt_lt_1; lra).
  split; [|lra]. unfold sigma_Sonic. ncbn. rewrite H3.
  match goal with |- context [nsqrt (Some ?z)] => replace z with ((80/9) ^ 2) by field end.
  rewrite nsqrt_Some by apply pow2_ge_0. rewrite sqrt_sq by lra. ncbn. rewrite ndiv_Some by lra.
  match goal with |- context [nsqrt (Some ?z)] => replace z with (3/4) by field end. apply dasin_60.
Qed.
(*@E C19_example: gamma = 3, M = 2: the shock angle of largest deflection is 60 degrees. *)
Lemma C19_example_lemma : sigma_DevMax (Some 2) (Some 3) = Some 60 /\ 1 < 2 /\ 1 < 3.
Proof.
  split; [|lra]. unfold sigma_DevMax. ncbn. rewrite (ndiv_Some 4) by lra. ncbn.
  match goal with |- context [nsqrt (Some ?z)] => replace z with (6 ^ 2) by field end.
  rewrite nsqrt_Some by apply pow2_ge_0. rewrite sqrt_sq by lra. rewrite (ndiv_Some 1), ndiv_Some, ndiv_Some by lra. ncbn.
  match goal with |- context [nsqrt (Some ?z)] => replace z with (3/4) by field end. apply dasin_60.
Qed.
