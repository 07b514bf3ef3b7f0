(** * C91: reflexion of an oblique shock on a wall *)
From Verif Require Import L_Num Spec NumSpec PolarSpec WedgeSpec M_Isentropic M_MassFlow M_Degree M_IterSolve M_ShockWave M_Supersonic M_Wedge L_Isentropic L_Degree L_Shock L_Oblique L_Oblique2 L_WeakStrong L_Secant L_Sigma L_Sigma2 L_Sigma3 L_Polar L_Sonic L_DevMax.
Open Scope R_scope.

(** what the default start of the shock-angle iteration prints: the run behind [sigma_Mach_deflection M d] *)
Definition sigma_run (g M mu d : R) := secant_run_of (fun s => deflection_Mach_sigma (Some M) s (Some g)) (Some d) (Some (mu + d)) secant_tol.
Definition sigma_tol (g M z : R) : R := 2 * sigma_lip g M * Rmax (1/100000) (1/100000 * z).

Lemma attached_of g M d dm : 1 < g -> 1 < M -> dev_Max (Some M) (Some g) = Some dm -> 0 < d <= dm ->
  0 < d < 90 /\ exists sigma, 0 < sigma < 90 /\ deflection_Mach_sigma (Some M) (Some sigma) (Some g) = Some d.
Proof.
  intros Hg HM E Hd. destruct (slope_sides g M Hg HM) as (sm & dm' & mu & E1 & E2 & E3 & H0 & H1 & H2 & FM & SM & F0 & SP & SN). rewrite E in E2. injection E2 as <-.
  split.
  - assert (dm < 90); [|lra]. rewrite <- FM. unfold Fd. destruct (shock_at g M sm Hg ltac:(lra) ltac:(lra)) as (Q & _). rewrite Fd_eval in Q by lra. injection Q as Q. fold (Fd g M sm). rewrite Q.
    pose proof (dfl_bound g M (rad sm) Hg ltac:(lra) (rad_quadrant sm ltac:(lra))). replace 90 with (deg (PI / 2)) by (unfold deg; field; apply PI_neq0). apply deg_lt. lra.
  - destruct (IVT_value (Fd g M) mu sm d H1) as (c & Hc & Ec); [intros; apply Fd_cont; lra|lra|]. exists c. split; [lra|]. rewrite Fd_eval by lra. now rewrite Ec.
Qed.
Lemma sin_999 x : 0 < x < PI / 2 -> 3/4 * sin x <= sin (999/1000 * x).
Proof.
  intros H. apply Rle_trans with (sin (3 * (x / 4))); [|left; apply sin_increasing_1; lra].
  set (y := x / 4). replace x with (2 * (2 * y)) by (unfold y; field). assert (Hy : 0 < y < PI / 3) by (unfold y; lra).
  replace (3 * y) with (2 * y + y) by ring. rewrite (sin_plus (2 * y) y), (sin_2a (2 * y)), sin_2a, cos_2a_cos.
  assert (S : 0 < sin y) by (apply sin_gt_0; lra). assert (C : 1/2 < cos y) by (rewrite <- cos_PI3; apply cos_decreasing_1; lra). pose proof (COS_bound y).
  set (s := sin y) in *. set (c := cos y) in *.
  assert (P : 0 <= (1 - c) * (6 * c ^ 2 + 2 * c - 1)) by (apply Rmult_le_pos; nra).
  assert (0 <= s * ((1 - c) * (6 * c ^ 2 + 2 * c - 1))) by (apply Rmult_le_pos; lra). nra.
Qed.
Lemma md2_lt1 g n : 1 < g -> 1 < n -> 0 < md2 g n < 1.
Proof.
  intros Hg Hn. assert (D : sdom g n) by (apply sdom_ge1; lra). pose proof (sdom_den g n Hg D) as D0. unfold md2, tt. assert (n2 : 1 < n ^ 2) by nra. split; [apply Rdiv_lt_0_compat; [nra|lra]|].
  apply (Rmult_lt_reg_r (g * n ^ 2 - 1 / 2 * (g - 1))); [lra|]. unfold Rdiv at 1. rewrite Rmult_assoc, Rinv_l by lra. nra.
Qed.
Lemma m1_normal g M s : 1 < g -> 0 < M -> 0 < s < PI / 2 -> m1 g M s * sin (bet g M s) = sqrt (md2 g (M * sin s)).
Proof. intros Hg HM Hs. unfold m1. pose proof (bet_bound g M s Hg ltac:(lra) Hs). assert (0 < sin (bet g M s)) by (apply sin_gt_0; lra). field. lra. Qed.

(** one shock cell, from the angle its iteration returned *)
Lemma cell_at g M d z : 1 < g -> 0 < M -> 0 < z < 90 -> sdom g (M * sin (rad z)) -> sigma_Mach_deflection (Some M) (Some d) None (Some g) = Some z ->
  let c := shock_cell (Some M) (Some d) (Some g) in let th := Fd g M z in let m := m1 g M (rad z) in let P := psr g (M * sin (rad z)) in
  w_sig c = Some z /\ w_p c = Some P /\ shock_to g M z th P m /\
  w_M c = ndiv (Some (m * sin (rad (z - th)))) (Some (sin (rad (z - d)))) /\
  (0 < th -> 1 < M * sin (rad z) /\ 1 < P /\ m * sin (rad (z - th)) < 1).
Proof.
  intros Hg HM Hz D E. cbv zeta. unfold shock_cell. rewrite E. cbn [w_sig w_p w_M nsub]. rewrite !dsin_eval. cbn [nmul]. rewrite Ps_eval, Md_eval by assumption.
  split; [reflexivity|]. split; [reflexivity|]. split; [now apply shock_to_eval|].
  destruct (behind_eval g M z Hg HM Hz D) as (B1 & B2 & B3). rewrite B2. pose proof (rad_quadrant z Hz) as Hr. rewrite m1_normal by assumption.
  split; [reflexivity|]. intros T.
  assert (N : 1 < M * sin (rad z)).
  { destruct (shock_at g M z Hg HM Hz) as (Q & _). rewrite B1 in Q. injection Q as Q. rewrite Q in T.
    destruct (dfl_sign g M (rad z) Hg HM Hr) as (K1 & K2 & K3). destruct (Rtotal_order (M * sin (rad z)) 1) as [L|[L|L]]; [| |exact L].
    - apply K3 in L. apply deg_lt in L. rewrite deg_0 in L. lra.
    - apply K2 in L. rewrite L, deg_0 in T. lra. }
  split; [exact N|]. pose proof (md2_lt1 g _ Hg N) as Q. split.
  - replace 1 with (psr g 1) by (unfold psr; field; lra). apply psr_incr; lra.
  - rewrite <- sqrt_1. apply sqrt_lt_1; lra.
Qed.
Lemma cell_angle g M d dm mu : 1 < g -> 1 < M -> dev_Max (Some M) (Some g) = Some dm -> 0 < d <= dm -> dasin (ndiv (Some 1) (Some M)) = Some mu -> 1/100 < mu + d ->
  exists z, sigma_Mach_deflection (Some M) (Some d) None (Some g) = Some z /\ 0 < z < 90 /\ sdom g (M * sin (rad z)) /\
    (s_warned (sigma_run g M mu d) = false -> Rabs (Fd g M z - d) <= sigma_tol g M z).
Proof.
  intros Hg HM E Hd Emu H0. destruct (attached_of g M d dm Hg HM E Hd) as (Hd9 & sg & Hsg & Esg).
  destruct (weak_strong_sides g M d sg Hg HM Hd9 Hsg Esg) as (mu' & w & s & sm & Q1 & Q2 & Q3 & Q4 & B1 & B2 & B3 & B4). rewrite Emu in Q1. injection Q1 as <-.
  destruct (sigma_default_weak g M d mu w sm sg Hg HM Hd9 Hsg Esg Emu Q2 Q4 H0) as (z & th & Z1 & Z2 & Z3 & Z4 & Z5).
  destruct (mach_angle_range M HM) as (mu' & E' & Hmu & Smu). rewrite Emu in E'. injection E' as <-.
  assert (Hz : 0 < z < 90) by lra. exists z. split; [exact Z1|]. split; [exact Hz|]. rewrite Fd_eval in Z4 by lra. injection Z4 as <-. split; [|exact Z5].
  pose proof (rad_quadrant mu ltac:(lra)) as R1. pose proof (rad_quadrant z Hz) as R2.
  pose proof (sin_999 (rad mu) R1) as S1. assert (S2 : sin (999/1000 * rad mu) <= sin (rad z)).
  { replace (999/1000 * rad mu) with (rad (999/1000 * mu)) by (unfold rad; ring). apply sin_incr_1; try (apply rad_le; lra).
    - apply Rle_trans with 0; [lra|]. rewrite <- rad_0. apply rad_le. lra.
    - rewrite <- rad_90. apply rad_le. lra.
    - lra.
    - lra. }
  assert (N : 3/4 <= M * sin (rad z)). { rewrite Smu in S1. replace (3/4) with (M * (3/4 * (1 / M))) by (field; lra). apply Rmult_le_compat_l; lra. }
  unfold sdom. assert ((3/4) ^ 2 <= (M * sin (rad z)) ^ 2) by nra. apply Rlt_trans with (1/2); [|lra].
  apply (Rmult_lt_reg_r (2 * g)); [lra|]. unfold Rdiv at 1. rewrite Rmult_assoc, Rinv_l; lra.
Qed.
(*@P C91_shock: One shock cell of the wedge notebooks, for every gamma > 1, M > 1 and every attached deflection d (0 < d <= dev_Max; mu + d > 0.01): the angle z, the pressure ratio P and, once the angle exceeds d, the Mach number are defined; the shock at z satisfies the oblique conservation laws with that pressure ratio, a deflection th and a Mach number m behind it; th misses d by at most the solver tolerance (times an explicit constant) if no warning is printed; the Mach number returned is m corrected for that miss, m sin(z-th)/sin(z-d); and as soon as th > 0 the wave is a compression with a supersonic normal Mach number in front and a subsonic one behind. *)
Lemma wedge_shock : forall g M d dm mu, 1 < g -> 1 < M -> dev_Max (Some M) (Some g) = Some dm -> 0 < d <= dm ->
  dasin (ndiv (Some 1) (Some M)) = Some mu -> 1/100 < mu + d ->
  let c := shock_cell (Some M) (Some d) (Some g) in
  exists z th P m, w_sig c = Some z /\ 0 < z < 90 /\ w_p c = Some P /\ shock_to g M z th P m /\
    (s_warned (secant_run_of (fun s => deflection_Mach_sigma (Some M) s (Some g)) (Some d) (Some (mu + d)) secant_tol) = false ->
      Rabs (th - d) <= 2 * sigma_lip g M * Rmax (1/100000) (1/100000 * z)) /\
    (d < z -> w_M c = Some (m * sin ((z - th) * (PI / 180)) / sin ((z - d) * (PI / 180))) /\ 0 < m * sin ((z - th) * (PI / 180)) / sin ((z - d) * (PI / 180))) /\
    (0 < th -> 1 < P /\ m * sin ((z - th) * (PI / 180)) < 1 < M * sin (z * (PI / 180))).
Proof.
  intros g M d dm mu Hg HM E Hd Emu H0 c. destruct (cell_angle g M d dm mu Hg HM E Hd Emu H0) as (z & Z1 & Z2 & Z3 & Z4).
  destruct (cell_at g M d z Hg ltac:(lra) Z2 Z3 Z1) as (C1 & C2 & C3 & C4 & C5). fold c in C1, C2, C4.
  exists z, (Fd g M z), (psr g (M * sin (rad z))), (m1 g M (rad z)). repeat (split; [assumption|]). split.
  - intros L. fold (rad (z - d)). fold (rad (z - Fd g M z)). assert (S : 0 < sin (rad (z - d))). { pose proof (rad_quadrant (z - d) ltac:(lra)). apply sin_gt_0; lra. }
    split; [rewrite C4; apply ndiv_Some; lra|]. apply Rdiv_lt_0_compat; [|exact S].
    destruct (behind_eval g M z Hg ltac:(lra) Z2 Z3) as (_ & B2 & _). rewrite B2. destruct (m1_energy g M (rad z) Hg ltac:(lra) (rad_quadrant _ Z2) Z3) as [Q _].
    apply Rmult_lt_0_compat; [exact Q|]. pose proof (bet_bound g M (rad z) Hg ltac:(lra) (rad_quadrant _ Z2)). apply sin_gt_0; lra.
  - intros T. destruct (C5 T) as (A & B & C). split; [exact B|]. split; [exact C|exact A].
Qed.
(*@P C91_reflexion: The whole reflexion: when the deflection d is attached both for the incoming Mach number and for the Mach number M1 > 1 computed behind the first shock, every result is defined; there are two oblique shocks of ratios P1 and P2, from M to m1 and from M1 to m2, with p2p0 = P1 P2, M1 sin(z1-d) = m1 sin(z1-th1), and without warnings the flow behind the second is parallel to the wall again within the sum of the two solver tolerances; when these are smaller than d, 1 < p1p0 < p2p0. *)
Lemma wedge_reflexion : forall g M d yend dm mu M1 dm1 mu1, 1 < g -> 1 < M -> dev_Max (Some M) (Some g) = Some dm -> 0 < d <= dm ->
  dasin (ndiv (Some 1) (Some M)) = Some mu -> 1/100 < mu + d ->
  let f := reflexion_cells (Some M) (Some d) yend (Some g) in
  w_M (rf_1 f) = Some M1 -> 1 < M1 -> dev_Max (Some M1) (Some g) = Some dm1 -> d <= dm1 -> dasin (ndiv (Some 1) (Some M1)) = Some mu1 -> 1/100 < mu1 + d ->
  exists z1 th1 P1 m1 z2 th2 P2 m2, w_sig (rf_1 f) = Some z1 /\ w_p (rf_1 f) = Some P1 /\ shock_to g M z1 th1 P1 m1 /\ M1 * sin ((z1 - d) * (PI / 180)) = m1 * sin ((z1 - th1) * (PI / 180)) /\
    w_sig (rf_2 f) = Some z2 /\ w_p (rf_2 f) = Some P2 /\ shock_to g M1 z2 th2 P2 m2 /\ rf_p2p0 f = Some (P1 * P2) /\
    let e1 := 2 * sigma_lip g M * Rmax (1/100000) (1/100000 * z1) in let e2 := 2 * sigma_lip g M1 * Rmax (1/100000) (1/100000 * z2) in
    (s_warned (secant_run_of (fun s => deflection_Mach_sigma (Some M) s (Some g)) (Some d) (Some (mu + d)) secant_tol) = false ->
     s_warned (secant_run_of (fun s => deflection_Mach_sigma (Some M1) s (Some g)) (Some d) (Some (mu1 + d)) secant_tol) = false ->
     Rabs (th1 - d) <= e1 /\ Rabs (th2 - d) <= e2 /\ Rabs (th1 - th2) <= e1 + e2 /\ (e1 < d -> e2 < d -> 1 < P1 < P1 * P2)).
Proof.
  intros g M d yend dm mu M1 dm1 mu1 Hg HM E Hd Emu H0 f EM HM1 E' Hd' Emu' H0'.
  destruct (cell_angle g M d dm mu Hg HM E Hd Emu H0) as (z & Z1 & Z2 & Z3 & Z4). destruct (cell_at g M d z Hg ltac:(lra) Z2 Z3 Z1) as (C1 & C2 & C3 & C4 & C5).
  destruct (cell_angle g M1 d dm1 mu1 Hg HM1 E' ltac:(lra) Emu' H0') as (y & Y1 & Y2 & Y3 & Y4). destruct (cell_at g M1 d y Hg ltac:(lra) Y2 Y3 Y1) as (D1 & D2 & D3 & D4 & D5).
  change (rf_1 f) with (shock_cell (Some M) (Some d) (Some g)) in *. change (rf_2 f) with (shock_cell (w_M (shock_cell (Some M) (Some d) (Some g))) (Some d) (Some g)). rewrite EM.
  change (rf_p2p0 f) with (nmul (w_p (shock_cell (w_M (shock_cell (Some M) (Some d) (Some g))) (Some d) (Some g))) (w_p (shock_cell (Some M) (Some d) (Some g)))). rewrite EM, C2, D2. cbn [nmul].
  exists z, (Fd g M z), (psr g (M * sin (rad z))), (m1 g M (rad z)), y, (Fd g M1 y), (psr g (M1 * sin (rad y))), (m1 g M1 (rad y)).
  split; [exact C1|]. split; [reflexivity|]. split; [exact C3|]. split.
  { rewrite C4 in EM. destruct (Req_dec (sin (rad (z - d))) 0) as [N|N].
    - rewrite N in EM. unfold ndiv in EM. destruct (Req_EM_T 0 0); [discriminate|lra].
    - rewrite ndiv_Some in EM by exact N. injection EM as <-. fold (rad (z - d)). fold (rad (z - Fd g M z)). field. exact N. }
  split; [exact D1|]. split; [reflexivity|]. split; [exact D3|]. split; [f_equal; ring|]. cbv zeta. intros W1 W2. specialize (Z4 W1). specialize (Y4 W2).
  split; [exact Z4|]. split; [exact Y4|]. unfold sigma_tol in *. set (e1 := 2 * sigma_lip g M * _) in *. set (e2 := 2 * sigma_lip g M1 * _) in *.
  split. { replace (Fd g M z - Fd g M1 y) with ((Fd g M z - d) + - (Fd g M1 y - d)) by ring. eapply Rle_trans; [apply Rabs_triang|]. rewrite Rabs_Ropp. lra. }
  intros L1 L2. apply Rabs_le_between in Z4. apply Rabs_le_between in Y4. destruct (C5 ltac:(lra)) as (_ & P1 & _). destruct (D5 ltac:(lra)) as (_ & P2 & _).
  split; [exact P1|]. set (p := psr g (M * sin (rad z))) in *. set (q := psr g (M1 * sin (rad y))) in *. nra.
Qed.
(*@P C91_no_reflexion: When the flow behind the first shock is subsonic (M1 < 1) nothing of the second region is computed: its angle, pressure, Mach number, p2p0 and the abscissa xbot of the reflected shock are all undefined. When it is supersonic but d exceeds dev_Max(M1), no shock angle whatever turns the flow back by d. *)
Lemma wedge_no_reflexion : forall g M d yend M1, 1 < g -> 0 < M1 ->
  let f := reflexion_cells (Some M) (Some d) yend (Some g) in w_M (rf_1 f) = Some M1 ->
  (M1 < 1 -> w_sig (rf_2 f) = None /\ w_p (rf_2 f) = None /\ w_M (rf_2 f) = None /\ rf_p2p0 f = None /\ rf_xbot f = None) /\
  (1 < M1 -> forall dm1 mu1, dev_Max (Some M1) (Some g) = Some dm1 -> dm1 < d -> dasin (ndiv (Some 1) (Some M1)) = Some mu1 ->
     forall sigma, mu1 <= sigma < 90 -> exists th, deflection_Mach_sigma (Some M1) (Some sigma) (Some g) = Some th /\ th < d).
Proof.
  intros g M d yend M1 Hg H0 f EM. split.
  - intros L. change (rf_1 f) with (shock_cell (Some M) (Some d) (Some g)) in EM. assert (S : sigma_Mach_deflection (Some M1) (Some d) None (Some g) = None).
    { unfold sigma_Mach_deflection. cbv zeta. assert (A : dasin (ndiv (Some 1) (Some M1)) = None).
      { rewrite ndiv_Some by lra. unfold dasin. replace (narcsin (Some (1 / M1))) with (@None R); [reflexivity|]. symmetry. unfold narcsin.
        assert (1 < 1 / M1). { apply (Rmult_lt_reg_r M1); [lra|]. unfold Rdiv; rewrite Rmult_assoc, Rinv_l; lra. }
        destruct (Rle_dec (-1) (1 / M1)); destruct (Rle_dec (1 / M1) 1); try reflexivity; lra. }
      rewrite A. cbn [nadd]. unfold secant_solve, secant_run_of. cbv zeta. cbn [nmul s_result]. rewrite secant_loop_None. reflexivity. }
    assert (C : shock_cell (Some M1) (Some d) (Some g) = mk_shocked None None None).
    { unfold shock_cell. rewrite S. cbv zeta. replace (dsin None) with (@None R) by reflexivity. cbn [nmul nsub].
      replace (Ps_ratio None (Some g)) with (@None R); [|unfold Ps_ratio; ncbn; rewrite ndiv_Some by lra; reflexivity].
      replace (downstream_Mn None (Some g)) with (@None R) by reflexivity. reflexivity. }
    unfold f, reflexion_cells. cbv zeta. rewrite EM, C. cbn [rf_2 rf_p2p0 rf_xbot w_sig w_p w_M nmul nsub]. repeat (split; [reflexivity|]).
    destruct (ndiv (Some 1) (dtan (w_sig (shock_cell (Some M) (Some d) (Some g))))); destruct yend; reflexivity.
  - intros H1 dm1 mu1 E L Emu sigma Hs. destruct (max_deflection g M1 Hg H1) as (sm & dm & mu & E1 & E2 & E3 & E4 & E5 & E6). rewrite Emu in E2. injection E2 as <-. rewrite E in E4. injection E4 as <-.
    destruct (Req_dec sigma sm) as [->|N]; [exists dm1; split; [exact E5|exact L]|]. destruct (E6 sigma Hs N) as (th & T1 & T2). exists th. split; [exact T1|lra].
Qed.
(*@P C91_lines: The drawn shocks: for angles 0 < z1 < 90 and d < z2 < d + 90 the incident shock, drawn from the apex of the wedge to the wall y = 1, is inclined at z1, and the reflected one, drawn from there down to the ordinate yend < 1, is inclined at d - z2: it makes the angle z2 with the flow of region 1, which is inclined at d. *)
Lemma wedge_lines : forall g M d y z1 z2, let f := reflexion_cells M (Some d) (Some y) g in
  w_sig (rf_1 f) = Some z1 -> 0 < z1 < 90 -> w_sig (rf_2 f) = Some z2 -> d < z2 < d + 90 -> y < 1 ->
  exists xup xbot, rf_xup f = Some xup /\ rf_xbot f = Some xbot /\ inclined 0 0 xup 1 z1 /\ inclined xup 1 xbot y (d - z2).
Proof.
  intros g M d y z1 z2 f E1 H1 E2 H2 Hy. pose proof (rad_quadrant z1 H1) as R1. pose proof (rad_quadrant (z2 - d) ltac:(lra)) as R2.
  destruct (quad_trig _ R1) as [S1 [C1 T1]]. destruct (quad_trig _ R2) as [S2 [C2 T2]].
  unfold f, reflexion_cells in *. cbv zeta in *. cbn [rf_1 rf_2 rf_xup rf_xbot] in *. rewrite E1, E2. clear E1 E2. cbn [nsub]. rewrite !dtan_eval by lra. rewrite !ndiv_Some by lra. cbn [nadd].
  exists (1 / tan (rad z1)), (1 / tan (rad z1) + (1 - y) / tan (rad (z2 - d))). split; [reflexivity|]. split; [reflexivity|]. split.
  - exists (1 / sin (rad z1)). fold (rad z1). split; [pos|]. split; [unfold tan; field; lra|field; lra].
  - exists ((1 - y) / sin (rad (z2 - d))). fold (rad (d - z2)). replace (d - z2) with (- (z2 - d)) by ring. rewrite rad_opp, cos_neg, sin_neg. split; [apply Rdiv_lt_0_compat; lra|].
    split; [unfold tan; field; lra|field; lra].
Qed.
(*@P C91_zero_refuted: With a flat wall (d = 0, the left end of the widget's slider) the notebook does not give the undisturbed flow: for every Mach number, the pressure ratio is undefined or equal to -(gamma-1)/(gamma+1), which is negative, and no Mach number is ever computed; at Mach 2 the negative pressure is what it gives. *)
Lemma wedge_zero : (forall g M, 1 < g -> let c := shock_cell (Some M) (Some 0) (Some g) in
    w_M c = None /\ (forall P, w_p c = Some P -> P = - (g - 1) / (g + 1) /\ P < 0)) /\
  w_p (shock_cell (Some 2) (Some 0) (Some (7/5))) = Some (-1/6).
Proof.
  destruct sigma_zero as (Z & Z2 & _). split.
  - intros g M Hg c. unfold c, shock_cell. cbv zeta. cbn [w_M w_p]. destruct (sigma_Mach_deflection (Some M) (Some 0) None (Some g)) as [z|] eqn:E.
    + apply Z in E. subst z. rewrite dsin_eval, rad_0, sin_0. cbn [nmul]. rewrite Rmult_0_r. rewrite Ps_eval by assumption.
      replace (downstream_Mn (Some 0) (Some g)) with (@None R).
      * split; [reflexivity|]. intros P H. injection H as <-. replace (psr g 0) with (- (g - 1) / (g + 1)) by (unfold psr; field; lra). split; [reflexivity|].
        unfold Rdiv. rewrite Ropp_mult_distr_l_reverse. assert (0 < (g - 1) * / (g + 1)) by (apply Rmult_lt_0_compat; [lra|apply Rinv_0_lt_compat; lra]). lra.
      * symmetry. unfold downstream_Mn. ncbn. replace (g * 0 ^ 2 - 1 / 2 * (g - 1)) with (- (1 / 2 * (g - 1))) by ring. rewrite ndiv_Some by lra.
        unfold nsqrt. replace ((1 + 1 / 2 * (g - 1) * 0 ^ 2) / - (1 / 2 * (g - 1))) with (- (2 / (g - 1))) by (field; lra). assert (0 < 2 / (g - 1)) by (apply Rdiv_lt_0_compat; lra).
        destruct (Rle_dec 0 (- (2 / (g - 1)))); [lra|reflexivity].
    + replace (dsin None) with (@None R) by reflexivity. cbn [nmul]. split; [reflexivity|].
      unfold Ps_ratio. ncbn. rewrite ndiv_Some by lra. intros P H. discriminate H.
  - unfold shock_cell. cbv zeta. cbn [w_p]. rewrite Z2, dsin_eval, rad_0, sin_0. cbn [nmul]. rewrite Rmult_0_r, Ps_eval by lra. f_equal. unfold psr. field.
Qed.
