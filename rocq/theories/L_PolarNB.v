(** * C109: the polar notebook *)
From Coq Require Import String.
From Verif Require Import L_Num Spec NumSpec PolarSpec M_Isentropic M_MassFlow M_Degree M_ShockWave M_Supersonic M_Polar M_PolarNB L_Isentropic L_Degree L_Shock L_Oblique L_Oblique2 L_Supersonic L_Polar L_WeakStrong L_Sonic L_DevMax.
Open Scope R_scope.

Definition fl (m : R) : R := (m - 21 / 10) / (6 * m - 54 / 10).
Definition fi (x : R) : R := (54 / 10 * x - 21 / 10) / (6 * x - 1).
Lemma flin_eval m : 9 / 10 < m -> flin_m (Some m) = Some (fl m).
Proof. intros H. unfold flin_m. ncbn. rewrite ndiv_Some by lra. unfold fl. do 2 f_equal. lra. Qed.
Lemma finv_eval x : x < 1 / 6 -> finv_x (Some x) = Some (fi x).
Proof. intros H. unfold finv_x. ncbn. rewrite ndiv_Some by lra. reflexivity. Qed.
Lemma fl_lt m : 9 / 10 < m -> fl m < 1 / 6.
Proof. intros H. unfold fl. apply Rlt_div_l; lra. Qed.
Lemma fl_incr m m' : 9 / 10 < m -> m < m' -> fl m < fl m'.
Proof.
  intros H L. unfold fl. apply Rminus_gt_0_lt. replace ((m' - 21 / 10) / (6 * m' - 54 / 10) - (m - 21 / 10) / (6 * m - 54 / 10))
    with ((72 / 10 * (m' - m)) / ((6 * m' - 54 / 10) * (6 * m - 54 / 10))) by (field; lra).
  apply Rdiv_lt_0_compat; [lra|]. apply Rmult_lt_0_compat; lra.
Qed.
Lemma fi_incr x x' : x' < 1 / 6 -> x < x' -> fi x < fi x'.
Proof.
  intros H L. unfold fi. apply Rminus_gt_0_lt. replace ((54 / 10 * x' - 21 / 10) / (6 * x' - 1) - (54 / 10 * x - 21 / 10) / (6 * x - 1))
    with ((72 / 10 * (x' - x)) / ((1 - 6 * x') * (1 - 6 * x))) by (field; lra).
  apply Rdiv_lt_0_compat; [lra|]. apply Rmult_lt_0_compat; lra.
Qed.
Lemma fi_fl m : 9 / 10 < m -> fi (fl m) = m.
Proof.
  intros H. unfold fi. replace (6 * fl m - 1) with (- (72 / 10) / (6 * m - 54 / 10)) by (unfold fl; field; lra).
  unfold fl. field. lra.
Qed.
Definition gm (a b : R) (n i : nat) : R := fi (spaced (fl a) (fl b) n i).
Lemma spaced_in a b n i : a < b -> (0 < n)%nat -> (i <= n)%nat -> a <= spaced a b n i <= b.
Proof.
  intros H Hn Hi. unfold spaced. assert (N : 0 < INR n) by (apply lt_0_INR; lia). assert (I : 0 <= INR i) by apply pos_INR. assert (J : INR i <= INR n) by (apply le_INR; lia).
  replace (a + INR i * (b - a) / INR n) with (a + INR i / INR n * (b - a)) by (field; lra).
  assert (0 <= INR i / INR n <= 1). { split; [apply Rdiv_le_0_compat; lra|]. apply Rle_div_l; lra. }
  nra.
Qed.
Lemma spaced_lt a b n i j : a < b -> (0 < n)%nat -> (i < j)%nat -> spaced a b n i < spaced a b n j.
Proof.
  intros H Hn Hi. unfold spaced. assert (N : 0 < INR n) by (apply lt_0_INR; lia). assert (J : INR i < INR j) by (apply lt_INR; lia).
  apply Rplus_lt_compat_l. unfold Rdiv. apply Rmult_lt_compat_r; [now apply Rinv_0_lt_compat|]. apply Rmult_lt_compat_r; lra.
Qed.
Lemma grid_nth a b n i : 9 / 10 < a -> a < b -> (0 < n)%nat -> (i <= n)%nat -> nth_error (mach_grid (Some a) (Some b) n) i = Some (Some (gm a b n i)).
Proof.
  intros Ha Hab Hn Hi. unfold mach_grid. rewrite nth_error_map, !flin_eval by lra. rewrite linspace_all by assumption. cbn [option_map]. f_equal.
  apply finv_eval. pose proof (spaced_in (fl a) (fl b) n i (fl_incr _ _ Ha Hab) Hn Hi). pose proof (fl_lt b ltac:(lra)). lra.
Qed.
Lemma gm_0 a b n : 9 / 10 < a -> gm a b n 0 = a.
Proof. intros H. unfold gm, spaced. cbn [INR]. replace (fl a + 0 * (fl b - fl a) / INR n) with (fl a) by (unfold Rdiv; ring). now apply fi_fl. Qed.
Lemma gm_n a b n : 9 / 10 < b -> (0 < n)%nat -> gm a b n n = b.
Proof. intros H Hn. unfold gm, spaced. assert (INR n <> 0) by (apply not_0_INR; lia). replace (fl a + INR n * (fl b - fl a) / INR n) with (fl b) by (field; assumption). now apply fi_fl. Qed.
Lemma gm_lt a b n i j : 9 / 10 < a -> a < b -> (i < j)%nat -> (j <= n)%nat -> gm a b n i < gm a b n j.
Proof.
  intros Ha Hab Hij Hj. pose proof (fl_incr _ _ Ha Hab). pose proof (fl_lt b ltac:(lra)). unfold gm. apply fi_incr.
  - pose proof (spaced_in (fl a) (fl b) n j). lia || (assert (spaced (fl a) (fl b) n j <= fl b) by (apply spaced_in; lia || assumption); lra).
  - apply spaced_lt; lia || assumption.
Qed.
(*@P C109_grid: The Mach numbers of the maximum deviation and sonic lines: flin_m and finv_x are inverse of each other above Mach 0.9, and for all bounds 0.9 < mmin < mmax and every number of points the grid has npoints + 1 values, starting at mmin, ending at mmax, strictly increasing, and equally spaced in flin_m. *)
Lemma grid_ok : forall a b n, 9 / 10 < a -> a < b -> (0 < n)%nat -> exists M xa xb : R, exists mg : nat -> R,
  (forall m, 9 / 10 < m -> exists x, flin_m (Some m) = Some x /\ finv_x (Some x) = Some m) /\
  List.length (mach_grid (Some a) (Some b) n) = S n /\
  (forall i, (i <= n)%nat -> nth_error (mach_grid (Some a) (Some b) n) i = Some (Some (mg i))) /\
  mg 0%nat = a /\ mg n = b /\ (forall i j, (i < j <= n)%nat -> mg i < mg j) /\
  flin_m (Some a) = Some xa /\ flin_m (Some b) = Some xb /\ M = (xb - xa) / INR n /\
  (forall i, (i <= n)%nat -> flin_m (Some (mg i)) = Some (xa + INR i * M)).
Proof.
  intros a b n Ha Hab Hn. exists ((fl b - fl a) / INR n), (fl a), (fl b), (gm a b n).
  assert (INR n <> 0) by (apply not_0_INR; lia).
  split. { intros m Hm. exists (fl m). split; [now apply flin_eval|]. rewrite finv_eval by now apply fl_lt. now rewrite fi_fl. }
  split. { unfold mach_grid. now rewrite map_length, linspace_length. }
  split; [intros i Hi; now apply grid_nth|]. split; [now apply gm_0|]. split; [apply gm_n; lra || assumption|].
  split; [intros i j Hij; apply gm_lt; lia || assumption|]. rewrite !flin_eval by lra. repeat (split; [reflexivity|]).
  intros i Hi. assert (G : a <= gm a b n i). { destruct i; [rewrite gm_0 by assumption; lra|]. rewrite <- (gm_0 a b n Ha) at 1. left. apply gm_lt; lia || assumption. }
  rewrite flin_eval by lra. f_equal. unfold gm.
  pose proof (spaced_in (fl a) (fl b) n i (fl_incr _ _ Ha Hab) Hn Hi) as S. pose proof (fl_lt b ltac:(lra)). set (x := spaced _ _ _ _) in *.
  assert (E : fl (fi x) = x). { unfold fl. replace (6 * fi x - 54 / 10) with (72 / 10 / (1 - 6 * x)  ) by (unfold fi; field; lra). unfold fi. field. lra. }
  rewrite E. unfold x, spaced. field. assumption.
Qed.

(** ** the two lines *)
Lemma nth_map2 f xs ys i x y : nth_error xs i = Some x -> nth_error ys i = Some y -> nth_error (map2 f xs ys) i = Some (f x y).
Proof.
  unfold map2. revert ys i. induction xs as [|a xs IH]; intros ys i Hx Hy; [destruct i; discriminate Hx|].
  destruct ys as [|b ys]; [destruct i; discriminate Hy|]. destruct i as [|i]; cbn in *; [injection Hx as ->; injection Hy as ->; reflexivity|]. now apply IH.
Qed.
Lemma line_nth (f : num -> num) (h : num -> num -> num) xs i x : nth_error xs i = Some x ->
  nth_error (map f xs) i = Some (f x) /\ nth_error (map2 h xs (map f xs)) i = Some (h x (f x)).
Proof. intros H. assert (nth_error (map f xs) i = Some (f x)) by (rewrite nth_error_map, H; reflexivity). split; [assumption|]. now apply nth_map2. Qed.
(*@P C109_lines: The maximum deviation line and the sonic line, for every gamma > 1, 1 < mmin < mmax and number of points: point i of each belongs to the grid Mach number i. On the maximum deviation line it is the shock that turns the flow most at this Mach number, and the deviation strictly increases along the line, staying below asin(1/gamma); on the sonic line it is the shock behind which the flow is exactly sonic, and it lies strictly below and strictly to the left of the point of the other line. *)
Lemma lines_ok : forall g a b n, 1 < g -> 1 < a -> a < b -> (0 < n)%nat ->
  let mach := mach_grid (Some a) (Some b) n in let dl := maxdev_line mach (Some g) in let sl := sonic_line mach (Some g) in
  exists mg dm sm ds ss : nat -> R,
   List.length (d_x dl) = S n /\ List.length (d_y dl) = S n /\ List.length (d_x sl) = S n /\ List.length (d_y sl) = S n /\
   (forall i j, (i < j <= n)%nat -> mg i < mg j /\ dm i < dm j) /\
   (forall i, (i <= n)%nat -> nth_error mach i = Some (Some (mg i)) /\ a <= mg i <= b /\
      nth_error (d_x dl) i = Some (Some (dm i)) /\ nth_error (d_y dl) i = Some (Some (sm i)) /\
      nth_error (d_x sl) i = Some (Some (ds i)) /\ nth_error (d_y sl) i = Some (Some (ss i)) /\
      (exists P, oblique_shock g (mg i) (sm i) (dm i) P) /\ (exists P, oblique_shock g (mg i) (ss i) (ds i) P /\ sonic_behind g (mg i) (ss i) (ds i) P) /\
      (forall s, asin (1 / mg i) * (180 / PI) <= s < 90 -> s <> sm i -> exists th P, oblique_shock g (mg i) s th P /\ th < dm i) /\
      asin (1 / mg i) * (180 / PI) < ss i < sm i /\ sm i < 90 /\ 0 < ds i < dm i /\ dm i < asin (1 / g) * (180 / PI)).
Proof.
  intros g a b n Hg Ha Hab Hn. cbv zeta.
  assert (PT : forall M, 1 < M -> exists dm sm ds ss : R, sigma_DevMax (Some M) (Some g) = Some sm /\ deflection_Mach_sigma (Some M) (Some sm) (Some g) = Some dm /\
     dev_Max (Some M) (Some g) = Some dm /\ sigma_Sonic (Some M) (Some g) = Some ss /\ deflection_Mach_sigma (Some M) (Some ss) (Some g) = Some ds /\
     (exists P, oblique_shock g M sm dm P) /\ (exists P, oblique_shock g M ss ds P /\ sonic_behind g M ss ds P) /\
     (forall s, asin (1 / M) * (180 / PI) <= s < 90 -> s <> sm -> exists th P, oblique_shock g M s th P /\ th < dm) /\
     asin (1 / M) * (180 / PI) < ss < sm /\ sm < 90 /\ 0 < ds < dm).
  { intros M HM. destruct (max_deflection g M Hg HM) as (sm & dm & mu & F1 & F2 & F3 & F4 & F5 & F6).
    destruct (mach_angle M HM) as [E0 H0]. rewrite E0 in F2. injection F2 as <-.
    destruct (sonic_limit g M Hg HM) as (mu & ss & ds & sm' & dm' & th & m & G0 & G1 & G2 & G3 & G4 & G5 & G6 & G7 & G8 & G9 & _).
    assert (E0' : dasin (ndiv (Some 1) (Some M)) = Some (deg (asin (1 / M)))) by exact E0. rewrite E0' in G0. injection G0 as <-.
    rewrite F1 in G3. injection G3 as <-. rewrite F4 in G4. injection G4 as <-.
    fold (deg (asin (1 / M))).
    destruct (polar_markers g M n 0 1 "right" false false Hg HM) as (sm' & tm & Pm & ss' & ts & Ps & R1 & R2 & R3 & R4 & R5 & R6 & _).
    exists dm, sm, ds, ss.
    assert (Ds : deflection_Mach_sigma (Some M) (Some ss) (Some g) = Some ds). { unfold dev_Sonic in G2. rewrite G1 in G2. exact G2. }
    split; [exact F1|]. split; [exact F5|]. split; [exact F4|]. split; [exact G1|]. split; [exact Ds|].
    destruct (on_polar g M sm Hg HM ltac:(lra)) as (t1 & d1 & A1 & _ & _ & _ & _ & A6). rewrite F5 in A1. injection A1 as <-.
    split; [eexists; exact A6|].
    destruct (on_polar g M ss Hg HM ltac:(lra)) as (t2 & d2 & B1 & _ & _ & _ & _ & B6). rewrite Ds in B1. injection B1 as <-.
    split.
    { eexists. split; [exact B6|]. destruct (sonic_shock g M Hg HM) as (s2 & h2 & mn & P & mn1 & K1 & K2 & K3 & K4 & K5 & K6 & K7 & K8 & K9 & K10).
      rewrite G1 in K1. injection K1 as <-. rewrite Ds in K6. injection K6 as <-. fold (rad ss) in K3. fold (rad (ss - ds)) in K8. subst mn.
      assert (D : sdom g (M * sin (rad ss))) by (apply sdom_ge1; lra).
      apply sonic_physical; try assumption; try lra. rewrite Md_eval in K7 by assumption. injection K7 as K7. rewrite K8, Rmult_1_l in K7. rewrite <- K7.
      symmetry. apply sq_sqrt. left. now apply md2_pos. }
    split. { intros s Hs Ns. destruct (F6 s Hs Ns) as (th' & T1 & T2). destruct (on_polar g M s Hg HM Hs) as (t3 & d3 & C1 & _ & _ & _ & _ & C6).
      rewrite T1 in C1. injection C1 as <-. exists th'. eexists. split; [exact C6|exact T2]. }
    lra. }
  assert (Q : forall M, exists v : R * R * R * R, 1 < M -> let '(dm, sm, ds, ss) := v in sigma_DevMax (Some M) (Some g) = Some sm /\ deflection_Mach_sigma (Some M) (Some sm) (Some g) = Some dm /\
     dev_Max (Some M) (Some g) = Some dm /\ sigma_Sonic (Some M) (Some g) = Some ss /\ deflection_Mach_sigma (Some M) (Some ss) (Some g) = Some ds).
  { intros M. destruct (Rlt_dec 1 M) as [L|L]; [|exists (0, 0, 0, 0); intros; lra]. destruct (PT M L) as (dm & sm & ds & ss & K1 & K2 & K3 & K4 & K5 & _). exists (dm, sm, ds, ss). intros _. auto. }
  set (val := fun o : num => match o with Some v => v | None => 0 end).
  set (fsm := fun M => val (sigma_DevMax (Some M) (Some g))). set (fdm := fun M => val (dev_Max (Some M) (Some g))).
  set (fss := fun M => val (sigma_Sonic (Some M) (Some g))). set (fds := fun M => val (deflection_Mach_sigma (Some M) (sigma_Sonic (Some M) (Some g)) (Some g))).
  set (mg := gm a b n). exists mg, (fun i => fdm (mg i)), (fun i => fsm (mg i)), (fun i => fds (mg i)), (fun i => fss (mg i)).
  assert (L0 : List.length (mach_grid (Some a) (Some b) n) = S n) by (unfold mach_grid; now rewrite map_length, linspace_length).
  unfold maxdev_line, sonic_line. cbv zeta. cbn [d_x d_y]. unfold map2. rewrite !map_length, !combine_length, !map_length, !L0, !Nat.min_id.
  do 4 (split; [reflexivity|]). fold map2.
  assert (GB : forall i, (i <= n)%nat -> a <= mg i <= b). { intros i Hi. unfold mg, gm. pose proof (fl_incr a b ltac:(lra) Hab). pose proof (spaced_in (fl a) (fl b) n i ltac:(assumption) Hn Hi) as S. pose proof (fl_lt b ltac:(lra)).
    pose proof (fi_fl a ltac:(lra)) as Ea. pose proof (fi_fl b ltac:(lra)) as Eb. set (xa := fl a) in *. set (xb := fl b) in *. set (x := spaced _ _ _ _) in *. split.
    - rewrite <- Ea. destruct (proj1 S) as [L|L]; [left; apply fi_incr; lra|right; now rewrite L].
    - rewrite <- Eb. destruct (proj2 S) as [L|L]; [left; apply fi_incr; lra|right; now rewrite L]. }
  split.
  { intros i j Hij. assert (M1 : mg i < mg j) by (apply gm_lt; lia || lra). split; [exact M1|]. pose proof (GB i ltac:(lia)).
    destruct (devmax_incr g (mg i) (mg j) Hg ltac:(lra) M1) as (d & d' & E1 & E2 & E3 & _). unfold fdm. rewrite E1, E2. cbn [val]. lra. }
  intros i Hi. pose proof (GB i Hi) as B. assert (B1 : 1 < mg i) by lra. pose proof (grid_nth a b n i ltac:(lra) Hab Hn Hi) as G. fold mg in G.
  destruct (PT (mg i) B1) as (dm & sm & ds & ss & K1 & K2 & K3 & K4 & K5 & K6 & K7 & K8 & K9).
  destruct (devmax_incr g (mg i) (mg i + 1) Hg B1 ltac:(lra)) as (d & d' & E1 & _ & E3 & E4). rewrite K3 in E1. injection E1 as <-.
  destruct (line_nth (fun m => sigma_DevMax m (Some g)) (fun m s => deflection_Mach_sigma m s (Some g)) _ _ _ G) as [N1 N2].
  destruct (line_nth (fun m => sigma_Sonic m (Some g)) (fun m s => deflection_Mach_sigma m s (Some g)) _ _ _ G) as [N3 N4].
  cbv beta in *. unfold map2 in N2, N4. unfold fdm, fsm, fds, fss. rewrite K1 in *. rewrite K3. rewrite K4 in *. rewrite K2 in N2. rewrite K5 in *. cbn [val].
  split; [exact G|]. split; [exact B|]. split; [exact N2|]. split; [exact N1|]. split; [exact N4|]. split; [exact N3|]. split; [exact K6|]. split; [exact K7|]. split; [exact K8|]. lra.
Qed.

(** ** the curves are those of the library *)
Lemma nadd_0l x : nadd (Some 0) x = x. Proof. destruct x; cbn; [f_equal; ring|reflexivity]. Qed.
Lemma nmul_1l x : nmul (Some 1) x = x. Proof. destruct x; cbn; [f_equal; ring|reflexivity]. Qed.
(*@P C109_library: The curves of the notebook are those of the plotting module: for every Mach number, gamma and number of points, the polar of cell 4 is what plot_theta_sigma draws for 'right', and the two curves of cell 5 are what plot_theta_pressure draws for 'right' from the state (0, 1), and plot_isentropic draws for 'C+' on the range [0, 0.99 nu(M)] from the same state (see C79 and C80). *)
Lemma library_curves : forall newton M g n,
  plot_theta_sigma M g n "right" false false = polar_curve M g n :: nil /\
  exists shock isen,
   fst (compression_polars newton M g n) = shock :: isen :: nil /\
   plot_theta_pressure M g n (Some 0) (Some 1) "right" false false = shock :: nil /\
   plot_isentropic newton M (Some 0) (nmul (Some (99 / 100)) (PrandtlMeyer_Mach M g)) g n (Some 0) (Some 1) "C+" = isen :: nil.
Proof.
  intros newton M g n. split; [reflexivity|]. unfold compression_polars. cbv zeta. cbn [fst]. eexists. eexists. split; [reflexivity|]. split.
  - unfold plot_theta_pressure. cbv zeta. change (chosen "right" ("right" :: "both" :: nil)%string) with true. change (chosen "right" ("left" :: "both" :: nil)%string) with false.
    cbn [draw app]. f_equal. f_equal.
    + rewrite <- (map_id (map (fun s => deflection_Mach_sigma M s g) _)) at 2. apply map_ext. intros x. apply nadd_0l.
    + apply map_ext. intros s. apply nmul_1l.
  - unfold plot_isentropic. cbv zeta. change (chosen "C+" ("c+" :: "C+" :: "both" :: nil)%string) with true. change (chosen "C+" ("c-" :: "C-" :: "both" :: nil)%string) with false.
    cbn [draw app]. f_equal. f_equal.
    + rewrite <- (map_id (linspace _ _ n)) at 2. apply map_ext. intros x. apply nadd_0l.
    + apply map_ext. intros s. apply nmul_1l.
Qed.
Lemma sin_10 : 1 / 6 <= sin (PI / 18).
Proof.
  assert (P : 0 < sin (PI / 18)). { pose proof PI_RGT_0. apply sin_gt_0; lra. }
  assert (E : sin (PI / 6) = 3 * sin (PI / 18) - 4 * sin (PI / 18) ^ 3).
  { replace (PI / 6) with (2 * (PI / 18) + PI / 18) by field. rewrite sin_plus, sin_2a, cos_2a_sin. pose proof (sc2 (PI / 18)) as S.
    replace (2 * sin (PI / 18) * cos (PI / 18) * cos (PI / 18)) with (2 * sin (PI / 18) * (cos (PI / 18) ^ 2)) by ring.
    replace (cos (PI / 18) ^ 2) with (1 - sin (PI / 18) ^ 2) by lra. ring. }
  rewrite sin_PI6 in E. pose proof (pow_lt _ 3 P). lra.
Qed.
Lemma below_50 : asin (1 / (14 / 10)) * (180 / PI) < 50.
Proof.
  pose proof PI_RGT_0. change (asin (1 / (14 / 10)) * (180 / PI)) with (deg (asin (1 / (14 / 10)))). rewrite <- (deg_rad 50). apply deg_lt.
  assert (E : rad 50 = 5 * PI / 18) by (unfold rad; field). rewrite E.
  assert (S2 : 7 / 12 <= sin (5 * PI / 18) ^ 2).
  { assert (C : cos (5 * PI / 9) = 1 - 2 * sin (5 * PI / 18) * sin (5 * PI / 18)) by (rewrite <- cos_2a_sin; f_equal; field).
    assert (D : cos (5 * PI / 9) = - sin (PI / 18)). { replace (5 * PI / 9) with (PI / 2 + PI / 18) by field. rewrite cos_plus, cos_PI2, sin_PI2. ring. }
    pose proof sin_10. nra. }
  assert (P : 0 < sin (5 * PI / 18)) by (apply sin_gt_0; lra).
  rewrite <- (asin_sin (5 * PI / 18)) by lra. pose proof (SIN_bound (5 * PI / 18)) as SB.
  apply asin_increasing; try lra; try (split; lra). nra.
Qed.
(*@P C109_window: The axes of cell 4 (0 to 50 degrees of deviation, 0 to 90 of shock angle) hold all the polars: in air, for every supersonic Mach number and number of points, every finite point of the curve has a deviation in [0, 50) and a shock angle in (0, 90]; so do the points of the maximum deviation and sonic lines (C109_lines). *)
Lemma window_ok : forall M n i x y, 1 < M -> (0 < n)%nat ->
  nth_error (d_x (polar_curve (Some M) (Some (14 / 10)) n)) i = Some (Some x) -> nth_error (d_y (polar_curve (Some M) (Some (14 / 10)) n)) i = Some (Some y) ->
  0 <= x < 50 /\ 0 < y <= 90 /\ asin (1 / (14 / 10)) * (180 / PI) < 50.
Proof.
  intros M n i x y HM Hn Hx Hy. pose proof below_50 as B50.
  destruct (sigma_polar (14 / 10) M n "right" false false (polar_curve (Some M) (Some (14 / 10)) n) ltac:(lra) HM Hn) as (e & dmax & De & Dm & L1 & L2 & L3 & L4 & P).
  { left. reflexivity. } { reflexivity. }
  destruct De as [[-> _]|[-> De]]; [|exfalso; destruct De as [De|De]; discriminate De].
  destruct (devmax_incr (14 / 10) M (M + 1) ltac:(lra) HM ltac:(lra)) as (d & d' & E1 & _ & E3 & E4). rewrite Dm in E1. injection E1 as <-.
  assert (Hi : (i <= n)%nat). { assert (i < S n)%nat; [|lia]. rewrite <- L1. apply nth_error_Some. now rewrite Hx. }
  destruct (Nat.eq_dec i n) as [->|Ni].
  - exfalso. unfold polar_curve in Hx. cbv zeta in Hx. cbn [d_x] in Hx. rewrite nth_error_map, linspace_last in Hx by assumption. cbn [option_map] in Hx.
    unfold deflection_Mach_sigma in Hx. cbv zeta in Hx.
    assert (E : ntan (nradians (Some 90)) = None). { unfold ntan. ncbn. replace (90 * (PI / 180)) with (PI / 2) by field. rewrite cos_PI2. destruct (Req_EM_T 0 0); [reflexivity|contradiction]. }
    rewrite E in Hx. destruct (Rho_ratio _ _); discriminate Hx.
  - destruct (P i ltac:(lia)) as (th & Pr & F1 & F2 & F3 & F4 & F5). rewrite Hx in F2. injection F2 as ->. rewrite Hy in F1. injection F1 as ->.
    destruct (shock_angle_range M n i HM ltac:(lia)) as [R1 _]. destruct (mach_angle M HM) as [_ R2]. rewrite Rmult_1_l. lra.
Qed.

(** ** the red dot *)
(*@P C109_dot: The dot at the end of each isentropic polar is labelled 'M=1' but only approaches the sonic state: for every gamma > 1, Mach number above 1 and number of points, with an exact root finder, it is drawn at 99 % of the deflection that makes the flow sonic, and whenever it has a pressure it is that of a state that is still supersonic (with one hundredth of the initial Prandtl-Meyer angle), strictly below the pressure of the sonic state. *)
Lemma dot_refuted : forall newton g M n curves x y label, solves 0 newton -> 1 < g -> 1 < M -> (0 < n)%nat ->
  compression_polars newton (Some M) (Some g) n = (curves, (x, y, label)) ->
  label = "M=1"%string /\ exists nu : R, PrandtlMeyer_Mach (Some M) (Some g) = Some nu /\ 0 < nu /\ x = Some (99 / 100 * nu) /\
  forall p, y = Some p -> exists m2 P P2 P1 : R, 1 < m2 /\ PrandtlMeyer_Mach (Some m2) (Some g) = Some (nu / 100) /\
    PtPs_Mach (Some M) (Some g) = Some P /\ PtPs_Mach (Some m2) (Some g) = Some P2 /\ PtPs_Mach (Some 1) (Some g) = Some P1 /\
    p = P / P2 /\ p < P / P1.
Proof.
  intros newton g M n curves x y label HN Hg HM Hn E. unfold compression_polars in E. cbv zeta in E.
  assert (LL : forall f : num -> num, List.last (map f (linspace (Some 0) (nmul (Some (99 / 100)) (PrandtlMeyer_Mach (Some M) (Some g))) n)) None = f (nmul (Some (99 / 100)) (PrandtlMeyer_Mach (Some M) (Some g)))).
  { intros f. unfold linspace. rewrite seq_S, !map_app. cbn [map]. rewrite List.last_last. destruct n as [|k]; [lia|]. cbn [Nat.add]. now rewrite Nat.eqb_refl. }
  pose proof (LL (fun x => x)) as L1. rewrite map_id in L1.
  apply (f_equal snd) in E. cbn [snd] in E. rewrite LL, L1 in E.
  assert (Enu : PrandtlMeyer_Mach (Some M) (Some g) = Some (pm g M)) by (apply PM_eval; [assumption|rewrite Rabs_pos_eq; lra]). rewrite Enu in E. cbn [nmul] in E.
  injection E as <- <- <-. split; [reflexivity|]. exists (pm g M). split; [exact Enu|].
  assert (P0 : 0 < pm g M). { rewrite <- (pm_1 g Hg). apply pm_incr; lra. }
  split; [exact P0|]. split; [reflexivity|]. intros p Hp.
  destruct (isen_defl_eval _ _ _ _ _ HN Hg (Rlt_le _ _ HM) Hp) as (m2 & Hm2 & E1 & E2).
  assert (S : 1 < m2). { destruct Hm2 as [|<-]; [assumption|]. rewrite (pm_1 g Hg) in E1. lra. }
  exists m2. eexists. eexists. eexists. split; [exact S|].
  split. { rewrite PM_eval by (try assumption; rewrite Rabs_pos_eq; lra). f_equal. lra. }
  rewrite !PtPs_eval by assumption. do 3 (split; [reflexivity|]). split; [exact E2|]. rewrite E2.
  apply Rmult_lt_compat_l; [apply ptps_ratio_pos|]. apply Rinv_lt_contravar; [apply Rmult_lt_0_compat; apply ptps_ratio_pos|].
  apply Rpower_lt_base; [apply tt_pos; assumption|apply tt_incr; lra|apply Rdiv_lt_0_compat; lra].
Qed.
(*@P C109_check: The verification printed by the notebook: at normal Mach number 2 in air the pressure ratio is exactly 4.5, and the relative error printed is 0; for any reference value other than 0 the error printed is 100 times the relative difference to the reference, and is 0 exactly when the reference is the pressure ratio. *)
Lemma check_ok : ps_check (Some 2) (Some (45 / 10)) (Some (14 / 10)) = Some 0 /\
  forall g n ref, 1 < g -> ref <> 0 -> (ps_check (Some n) (Some ref) (Some g) = Some 0 <-> Ps_ratio (Some n) (Some g) = Some ref) /\
    exists p, Ps_ratio (Some n) (Some g) = Some p /\ ps_check (Some n) (Some ref) (Some g) = Some (100 * ((p - ref) / ref)).
Proof.
  assert (G : forall g n ref, 1 < g -> ref <> 0 -> (ps_check (Some n) (Some ref) (Some g) = Some 0 <-> Ps_ratio (Some n) (Some g) = Some ref)).
  { intros g n ref Hg Hr. unfold ps_check. rewrite Ps_eval by assumption. ncbn. rewrite ndiv_Some by assumption. ncbn. split; intros H; injection H as H; f_equal.
    - apply Rmult_integral in H. destruct H as [H|H]; [|lra]. unfold Rdiv in H. apply Rmult_integral in H. destruct H as [H|H]; [lra|]. exfalso. revert H. now apply Rinv_neq_0_compat.
    - rewrite H. field. assumption. }
  split; [apply G; try lra; rewrite Ps_eval by lra; unfold psr; f_equal; lra|]. intros g n ref Hg Hr. split; [now apply G|].
  exists (psr g n). split; [now apply Ps_eval|]. unfold ps_check. rewrite Ps_eval by assumption. ncbn. rewrite ndiv_Some by assumption. ncbn. f_equal. ring.
Qed.
(*@E C109_example: the hypotheses are met: the two-interval grid from Mach 3/2 to 3 has its middle value strictly between, an exact root finder exists for which the dot of the polar of Mach 3 has a pressure. *)
Lemma polar_nb_ex : flin_m (Some (3 / 2)) = Some (- (1 / 6)) /\ flin_m (Some 3) = Some (1 / 14) /\
  mach_grid (Some (3 / 2)) (Some 3) 2 = Some (3 / 2) :: Some (33 / 18) :: Some 3 :: nil /\
  exists newton : solver, solves 0 newton /\ exists p, snd (fst (snd (compression_polars newton (Some 3) (Some (14 / 10)) 1))) = Some p.
Proof.
  assert (A1 : fl (3 / 2) = - (1 / 6)) by (unfold fl; field). assert (A2 : fl 3 = 1 / 14) by (unfold fl; field).
  split; [rewrite flin_eval by lra; now rewrite A1|]. split; [rewrite flin_eval by lra; now rewrite A2|]. split.
  { unfold mach_grid. rewrite !flin_eval by lra. rewrite A1, A2. unfold linspace. cbn [seq map Nat.eqb INR]. ncbn. rewrite ndiv_Some by lra. ncbn.
    rewrite !finv_eval by lra. unfold fi.
    assert (LE : forall a b c a' b' c' : R, a = a' -> b = b' -> c = c' -> (Some a :: Some b :: Some c :: nil : list num) = Some a' :: Some b' :: Some c' :: nil) by (intros; subst; reflexivity).
    apply LE; field. }
  assert (N0 : 0 < pm (14 / 10) 3). { rewrite <- (pm_1 (14 / 10) ltac:(lra)). apply pm_incr; lra. }
  assert (E3 : PrandtlMeyer_Mach (Some 3) (Some (14 / 10)) = Some (pm (14 / 10) 3)) by (apply PM_eval; [lra|rewrite Rabs_pos_eq; lra]).
  assert (R : 0 <= pm (14 / 10) 3 < 90 * (sqrt ((14 / 10 + 1) / (14 / 10 - 1)) - 1)).
  { apply pm_range; [lra|]. exists 3. split; [lra|]. split; [exact E3|]. intros M' HM' H. rewrite PM_eval in H by (try rewrite Rabs_pos_eq; lra). injection H as H. apply (pm_inj (14 / 10)); lra. }
  destruct (proj1 (pm_range (14 / 10) (pm (14 / 10) 3 / 100) ltac:(lra)) ltac:(lra)) as (m0 & Hm0 & Em0 & _).
  exists (fun f _ => lazy_newton 0 f (Some m0)). split.
  { intros f x0 r H. now apply (lazy_newton_solves 0 (Rle_refl 0) f (Some m0) r). }
  unfold compression_polars. cbv zeta. cbn [snd fst].
  match goal with |- exists p, List.last (map ?f (linspace ?a ?b 1)) None = _ => change (List.last (map f (linspace a b 1)) None) with (f b) end.
  rewrite E3. cbn [nmul]. unfold IsentropicPsratio_Mach_deflection, Mach_PrandtlMeyer. cbv zeta. rewrite E3. unfold lazy_newton.
  rewrite Em0. cbn [nsub]. replace (pm (14 / 10) 3 / 100 - (pm (14 / 10) 3 - 99 / 100 * pm (14 / 10) 3)) with 0 by field. rewrite Rabs_R0.
  destruct (Rle_dec 0 0); [|lra]. rewrite !PtPs_eval by lra. rewrite ndiv_Some by (apply Rgt_not_eq, ptps_ratio_pos). eexists. reflexivity.
Qed.
