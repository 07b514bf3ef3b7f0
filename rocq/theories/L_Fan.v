From Coquelicot Require Import Coquelicot.
From Verif Require Import L_Num Spec NumSpec M_Degree M_IterSolve M_MassFlow M_Isentropic M_Supersonic M_Fan FanSpec L_Isentropic L_Degree L_Supersonic.
Open Scope R_scope.

Lemma rd_rad a : rd a = rad a. Proof. unfold rd, rad; field. Qed.
Lemma pm_deg_pm g M : 1 < g -> 1 <= M -> pm_deg g M = pm g M.
Proof.
  intros Hg HM. unfold pm_deg, pm, pmb, deg. fold (cgm g). do 4 f_equal.
  pose proof (cgm_gt1 g Hg) as Hc. rewrite sqrt_mult by (try nra; left; pos). unfold Rdiv. rewrite (Rmult_comm (sqrt (M ^ 2 - 1))). f_equal.
  unfold cgm. rewrite <- sqrt_inv. f_equal. unfold Rdiv. rewrite Rinv_mult, Rinv_inv. ring.
Qed.
Definition mua (M : R) : R := deg (asin (1 / M)).
Lemma inv_M M : 1 <= M -> 0 < 1 / M <= 1.
Proof. intros. split; [pos|]. apply Rle_div_l; lra. Qed.
Lemma mua_spec M : 1 <= M -> is_mach_angle M (mua M).
Proof.
  intros H. pose proof (inv_M M H). unfold is_mach_angle, mua. rewrite rd_rad, rad_deg, sin_asin by lra. split; [|reflexivity].
  split; [rewrite <- deg_0; apply deg_lt; rewrite <- asin_0; apply asin_increasing; lra|].
  rewrite <- deg_PI2. apply deg_le, asin_bound.
Qed.
Lemma mua_uniq M mu : 1 <= M -> is_mach_angle M mu -> mu = mua M.
Proof.
  intros H [H1 H2]. unfold mua. rewrite <- H2, rd_rad, asin_sin, deg_rad; [reflexivity|].
  rewrite <- rad_90. split; [|apply rad_le; lra].
  apply Rle_trans with 0; [pose proof (rad_lt 0 90); rewrite rad_0 in *; lra|]. rewrite <- rad_0. apply rad_le. lra.
Qed.
Lemma mach_uniq M M' mu : is_mach_angle M mu -> is_mach_angle M' mu -> M = M'.
Proof.
  intros [H1 H2] [_ H3]. assert (E : 1 / M = 1 / M') by congruence. unfold Rdiv in E. rewrite !Rmult_1_l in E.
  now rewrite <- (Rinv_inv M), E, Rinv_inv.
Qed.
Lemma mua_atan M : 1 <= M -> mua M = 90 - deg (atan (sqrt (M ^ 2 - 1))).
Proof. intros. unfold mua. rewrite mach_angle_atan, deg_sub, deg_PI2 by assumption. reflexivity. Qed.
Lemma mua_decr x y : 1 <= x -> x < y -> mua y < mua x.
Proof. intros. rewrite !mua_atan by lra. pose proof (deg_lt _ _ (atan_increasing _ _ (beta_lt x y H H0))). lra. Qed.

(** ** the Mach number as a function of t = rad((om - mu + 90)/c) *)
Definition mf (g t : R) : R := sqrt ((cgm g * tan t) ^ 2 + 1).
Definition ti (g M : R) : R := atan (sqrt (M ^ 2 - 1) / cgm g).
Lemma ti_range g M : 1 < g -> 0 <= ti g M < PI / 2.
Proof.
  intros Hg. unfold ti. split; [|apply atan_bound]. pose proof (cgm_gt1 g Hg). rewrite <- atan_0.
  destruct (sqrt_pos (M ^ 2 - 1)) as [H1|H1].
  - left. apply atan_increasing. pos.
  - rewrite <- H1. right. f_equal. field. lra.
Qed.
Lemma ti_incr g x y : 1 < g -> 1 <= x -> x < y -> ti g x < ti g y.
Proof.
  intros Hg Hx Hxy. pose proof (cgm_gt1 g Hg). unfold ti. apply atan_increasing. unfold Rdiv. apply Rmult_lt_compat_r; [pos|]. now apply beta_lt.
Qed.
Lemma tan_pos_le t : 0 <= t < PI / 2 -> 0 <= tan t.
Proof. intros [[H|<-] H2]; [left; now apply tan_gt_0|rewrite tan_0; lra]. Qed.
Lemma mf_sq g t : mf g t ^ 2 = (cgm g * tan t) ^ 2 + 1.
Proof. unfold mf. apply sq_sqrt. pose proof (pow2_ge_0 (cgm g * tan t)). lra. Qed.
Lemma mf_ge1 g t : 1 <= mf g t.
Proof. pose proof (mf_sq g t). pose proof (pow2_ge_0 (cgm g * tan t)). assert (0 <= mf g t) by apply sqrt_pos. nra. Qed.
Lemma mf_beta g t : 1 < g -> 0 <= t < PI / 2 -> sqrt (mf g t ^ 2 - 1) = cgm g * tan t.
Proof.
  intros Hg Ht. pose proof (cgm_gt1 g Hg). pose proof (tan_pos_le t Ht). rewrite mf_sq. replace ((cgm g * tan t) ^ 2 + 1 - 1) with ((cgm g * tan t) ^ 2) by ring.
  rewrite sqrt_sq by nra. reflexivity.
Qed.
Lemma ti_mf g t : 1 < g -> 0 <= t < PI / 2 -> ti g (mf g t) = t.
Proof.
  intros Hg Ht. pose proof (cgm_gt1 g Hg). unfold ti. rewrite mf_beta by assumption. replace (cgm g * tan t / cgm g) with (tan t) by (field; lra). apply atan_tan; lra.
Qed.
Lemma mf_ti g M : 1 < g -> 1 <= M -> mf g (ti g M) = M.
Proof.
  intros Hg HM. pose proof (cgm_gt1 g Hg). unfold mf, ti. rewrite tan_atan. replace (cgm g * (sqrt (M ^ 2 - 1) / cgm g)) with (sqrt (M ^ 2 - 1)) by (field; lra).
  rewrite beta_sq by assumption. replace (M ^ 2 - 1 + 1) with (M ^ 2) by ring. apply sqrt_sq; lra.
Qed.
Lemma mf_le g s t : 1 < g -> 0 <= s -> s <= t -> t < PI / 2 -> mf g s <= mf g t.
Proof.
  intros Hg Hs Hst Ht. pose proof (cgm_gt1 g Hg). pose proof (tan_pos_le s ltac:(lra)).
  assert (tan s <= tan t). { destruct Hst as [L|<-]; [left; apply tan_increasing; lra|lra]. }
  unfold mf. apply sqrt_le_1_alt. assert (cgm g * tan s <= cgm g * tan t) by nra. assert (0 <= cgm g * tan s) by nra. nra.
Qed.
Lemma mf_lt g s t : 1 < g -> 0 <= s -> s < t -> t < PI / 2 -> mf g s < mf g t.
Proof.
  intros Hg Hs Hst Ht. destruct (mf_le g s t) as [L|E]; try lra. exfalso.
  apply (f_equal (ti g)) in E. rewrite !ti_mf in E by lra. lra.
Qed.
(** om - mu + 90 = deg (c t) *)
Lemma om_mu_ti g M : 1 < g -> 1 <= M -> pm g M - mua M + 90 = deg (cgm g * ti g M).
Proof. intros Hg HM. rewrite mua_atan by assumption. unfold pm, pmb, ti. rewrite deg_sub. ring. Qed.
Definition tw (g z : R) : R := rad (z + 90) / cgm g.
Lemma tw_om_mu g M : 1 < g -> 1 <= M -> tw g (pm g M - mua M) = ti g M.
Proof. intros Hg HM. pose proof (cgm_gt1 g Hg). unfold tw. rewrite om_mu_ti, rad_deg by assumption. field. lra. Qed.
Lemma tw_le g x y : 1 < g -> x <= y -> tw g x <= tw g y.
Proof. intros Hg H. pose proof (cgm_gt1 g Hg). unfold tw, Rdiv. apply Rmult_le_compat_r; [left; pos|]. apply rad_le. lra. Qed.
Lemma tw_lt g x y : 1 < g -> x < y -> tw g x < tw g y.
Proof. intros Hg H. pose proof (cgm_gt1 g Hg). unfold tw, Rdiv. apply Rmult_lt_compat_r; [pos|]. apply rad_lt. lra. Qed.
Lemma PMFmmu_eval g z : 1 < g -> 0 <= tw g z < PI / 2 -> Mach_PMFmmu (Some z) (Some g) = Some (mf g (tw g z)).
Proof.
  intros Hg Ht. pose proof (cgm_gt1 g Hg) as Hc. unfold Mach_PMFmmu. ncbn. rewrite (ndiv_Some (g + 1)) by lra.
  rewrite (nsqrt_Some ((g + 1) / (g - 1))) by (left; pos). fold (cgm g). rewrite ndiv_Some by lra.
  assert (E : rad ((z + 90) / cgm g) = tw g z) by (unfold tw, rad; field; lra).
  rewrite dtan_eval; rewrite E; [|apply Rgt_not_eq, cos_gt_0; lra]. ncbn.
  rewrite nsqrt_Some by (pose proof (pow2_ge_0 (cgm g * tan (tw g z))); lra). reflexivity.
Qed.

(** ** the case *)
Section Case.
Variables (newton : solver) (g m0 a m1 : R) (c : fan_case).
Hypothesis HN : solves 0 newton. Hypothesis Hg : 1 < g. Hypothesis Hm0 : 1 <= m0. Hypothesis Ha : a < 0.
Hypothesis Hcase : c = init_case newton (Some g) (Some m0) (Some a).
Hypothesis HM1 : M1 c = Some m1. Hypothesis Hm1 : 0 < m1.

Lemma abs_m0 : 1 <= Rabs m0. Proof. rewrite Rabs_pos_eq; lra. Qed.
Lemma case_m1 : 1 <= m1 /\ pm g m1 = pm g m0 - a.
Proof using All.
  subst c. cbn [init_case M1] in HM1. rewrite (PM_eval g m0 Hg abs_m0) in HM1.
  change (nsub (Some a) (Some 0)) with (Some (a - 0)) in HM1. change (nsub (Some (pm g m0)) (Some (a - 0))) with (Some (pm g m0 - (a - 0))) in HM1.
  destruct (Mach_PM_residual _ _ _ _ _ HN HM1) as [w [E1 E2]].
  assert (w = pm g m0 - (a - 0)). { destruct (Req_dec (w - (pm g m0 - (a - 0))) 0); [lra|]. pose proof (Rabs_pos_lt _ H). lra. }
  pose proof (PM_abs_ge _ _ _ E1) as HA. rewrite PM_eval in E1 by assumption. injection E1 as E1. rewrite Rabs_pos_eq in HA by lra. split; lra.
Qed.
Lemma case_gt : m0 < m1.
Proof using All.
  destruct case_m1 as [H1 H2]. destruct (Rlt_le_dec m0 m1) as [|[L|L]]; [assumption| |subst m0; lra].
  pose proof (pm_incr g m1 m0 Hg H1 L). lra.
Qed.
Lemma case_eval : wang0 c = Some 0 /\ wang1 c = Some a /\ om0 c = Some (pm g m0) /\ mu0 c = Some (mua m0) /\ mu1 c = Some (mua m1).
Proof using All.
  destruct case_m1 as [H1 _].
  assert (E : mu1 c = dasin (Some 1 / M1 c)%num) by (subst c; reflexivity). rewrite HM1 in E. rewrite ndiv_Some in E by lra.
  rewrite dasin_eval in E by (pose proof (inv_M m1 H1); lra).
  repeat split; try (subst c; reflexivity); [| |exact E].
  - subst c. cbn [init_case om0]. exact (PM_eval g m0 Hg abs_m0).
  - subst c. cbn [init_case mu0]. rewrite ndiv_Some by lra. apply dasin_eval. pose proof (inv_M m0 Hm0); lra.
Qed.
(** edges *)
Lemma edge0 : tw g (pm g m0 - mua m0) = ti g m0. Proof using Hg Hm0. now apply tw_om_mu. Qed.
Lemma edge1 : tw g (pm g m0 - (a + mua m1)) = ti g m1.
Proof using All. destruct case_m1 as [H1 H2]. rewrite <- tw_om_mu by assumption. f_equal. lra. Qed.
Lemma edges_ord : a + mua m1 < mua m0.
Proof using All. pose proof (mua_decr m0 m1 Hm0 case_gt). lra. Qed.
Definition tcl (phi : R) : R := Rmax (ti g m0) (Rmin (ti g m1) (tw g (pm g m0 - phi))).
Definition machf (phi : R) : R := mf g (tcl phi).
Definition dirf (phi : R) : R := pm g m0 - pm g (machf phi).
Lemma tcl_range phi : ti g m0 <= tcl phi <= ti g m1.
Proof using All. pose proof (ti_incr g m0 m1 Hg Hm0 case_gt). unfold tcl. split; [apply Rmax_l|]. apply Rmax_lub; [lra|apply Rmin_l]. Qed.
Lemma tcl_range' phi : 0 <= tcl phi < PI / 2.
Proof using All. pose proof (tcl_range phi). pose proof (ti_range g m0 Hg). pose proof (ti_range g m1 Hg). lra. Qed.
Lemma tcl_up phi : mua m0 <= phi -> tcl phi = ti g m0.
Proof using All.
  intros H. pose proof (ti_incr g m0 m1 Hg Hm0 case_gt). assert (tw g (pm g m0 - phi) <= ti g m0). { rewrite <- edge0. apply tw_le; lra. }
  unfold tcl. rewrite Rmin_right by lra. now apply Rmax_left.
Qed.
Lemma tcl_down phi : phi <= a + mua m1 -> tcl phi = ti g m1.
Proof using All.
  intros H. pose proof (ti_incr g m0 m1 Hg Hm0 case_gt). assert (ti g m1 <= tw g (pm g m0 - phi)). { rewrite <- edge1. apply tw_le; lra. }
  unfold tcl. rewrite Rmin_left by lra. apply Rmax_right. lra.
Qed.
Lemma tcl_in phi : a + mua m1 <= phi <= mua m0 -> tcl phi = tw g (pm g m0 - phi).
Proof using All.
  intros H. assert (tw g (pm g m0 - phi) <= ti g m1). { rewrite <- edge1. apply tw_le; lra. }
  assert (ti g m0 <= tw g (pm g m0 - phi)). { rewrite <- edge0. apply tw_le; lra. }
  unfold tcl. rewrite Rmin_right by lra. now apply Rmax_right.
Qed.
Lemma machf_up phi : mua m0 <= phi -> machf phi = m0 /\ dirf phi = 0.
Proof using All. intros H. assert (E : machf phi = m0) by (unfold machf; rewrite tcl_up by assumption; now apply mf_ti). unfold dirf. rewrite E. split; lra. Qed.
Lemma machf_down phi : phi <= a + mua m1 -> machf phi = m1 /\ dirf phi = a.
Proof using All.
  intros H. destruct case_m1 as [H1 H2]. assert (E : machf phi = m1) by (unfold machf; rewrite tcl_down by assumption; now apply mf_ti). unfold dirf. rewrite E. split; lra.
Qed.
Lemma machf_in phi : a + mua m1 <= phi <= mua m0 -> dirf phi + mua (machf phi) = phi.
Proof using All.
  intros H. unfold dirf, machf. set (t := tcl phi). pose proof (tcl_range' phi) as Ht. fold t in Ht.
  pose proof (om_mu_ti g (mf g t) Hg (mf_ge1 g t)) as E. rewrite ti_mf in E by assumption.
  assert (deg (cgm g * t) = pm g m0 - phi + 90); [|lra].
  unfold t. rewrite tcl_in by assumption. unfold tw. pose proof (cgm_gt1 g Hg).
  replace (cgm g * (rad (pm g m0 - phi + 90) / cgm g)) with (rad (pm g m0 - phi + 90)) by (field; lra). apply deg_rad.
Qed.
Lemma machf_range phi : m0 <= machf phi <= m1.
Proof using All.
  destruct case_m1 as [H1 H2]. unfold machf. pose proof (tcl_range phi). pose proof (ti_range g m0 Hg). pose proof (ti_range g m1 Hg).
  pose proof (mf_ti g m0 Hg Hm0) as E0. pose proof (mf_ti g m1 Hg H1) as E1. split; [rewrite <- E0 at 1|rewrite <- E1]; apply mf_le; lra.
Qed.
Lemma polar_atan2 x y r phi : polar x y r phi -> deg (Ratan2 y x) = phi.
Proof.
  intros [Hr [Hp [-> ->]]]. rewrite rd_rad, atan2_polar; [apply deg_rad|assumption|].
  pose proof (rad_lt (-180) phi). pose proof (rad_le phi 180). rewrite rad_180 in *.
  replace (rad (-180)) with (- PI) in * by (rewrite <- rad_180, <- rad_opp; f_equal; lra). lra.
Qed.
Definition answer (phi : R) : option prop :=
  Some {| p_ang := Some (dirf phi); p_plus := Some (dirf phi + mua (machf phi)); p_minus := Some (dirf phi - mua (machf phi)) |}.
Lemma flow_prop_eval x y : flow_prop (Some g) c (Some x) (Some y) = answer (deg (Ratan2 y x)).
Proof using All.
  destruct case_eval as [E1 [E2 [E3 [E4 E5]]]]. unfold flow_prop. rewrite E1, E2, E3, E4, E5, datan2_eval.
  set (phi := deg (Ratan2 y x)). unfold ngt, nlt. ncbn. unfold answer.
  destruct (Rlt_dec (0 + mua m0) phi) as [L|L]; cbn [nif].
  - destruct (machf_up phi ltac:(lra)) as [-> ->]. do 2 f_equal.
  - destruct (Rlt_dec phi (a + mua m1)) as [L2|L2]; cbn [nif].
    + destruct (machf_down phi ltac:(lra)) as [-> ->]. do 2 f_equal.
    + assert (Hin : a + mua m1 <= phi <= mua m0) by lra.
      replace (0 + pm g m0 - phi) with (pm g m0 - phi) by ring.
      pose proof (tcl_range' phi) as Ht. rewrite tcl_in in Ht by assumption. rewrite PMFmmu_eval by assumption.
      rewrite <- (tcl_in phi Hin). fold (machf phi). pose proof (machf_range phi). rewrite ndiv_Some by lra.
      rewrite dasin_eval by (pose proof (inv_M (machf phi) ltac:(lra)); lra). fold (mua (machf phi)). ncbn.
      pose proof (machf_in phi Hin). do 2 f_equal; f_equal; lra.
Qed.
Lemma tcl_cont phi : continuous tcl phi.
Proof.
  unfold tcl. apply (continuous_ext (fun p => Rmax (ti g m0) (Rmin (ti g m1) (tw g (pm g m0 - p))))); [reflexivity|].
  assert (C : continuous (fun p => tw g (pm g m0 - p)) phi).
  { apply (ex_derive_continuous (fun p => tw g (pm g m0 - p)) phi). unfold tw, rad. auto_derive. exact I. }
  unfold Rmin, Rmax.
  apply (continuous_ext (fun p => (ti g m0 + ((ti g m1 + tw g (pm g m0 - p) - Rabs (ti g m1 - tw g (pm g m0 - p))) / 2) +
    Rabs (ti g m0 - ((ti g m1 + tw g (pm g m0 - p) - Rabs (ti g m1 - tw g (pm g m0 - p))) / 2))) / 2)).
  { intros p. set (X := tw g (pm g m0 - p)).
    assert (Emin : (ti g m1 + X - Rabs (ti g m1 - X)) / 2 = if Rle_dec (ti g m1) X then ti g m1 else X).
    { destruct (Rle_dec (ti g m1) X); [rewrite Rabs_left1 by lra|rewrite Rabs_right by lra]; lra. }
    rewrite Emin. set (Y := if Rle_dec (ti g m1) X then ti g m1 else X).
    destruct (Rle_dec (ti g m0) Y); [rewrite Rabs_left1 by lra|rewrite Rabs_right by lra]; lra. }
  assert (Cabs : forall f : R -> R, continuous f phi -> continuous (fun p => Rabs (f p)) phi).
  { intros f Cf. apply (continuous_comp f Rabs); [assumption|]. apply continuous_Rabs. }
  set (f := fun p => tw g (pm g m0 - p)) in *.
  assert (C2 : continuous (fun p => (ti g m1 + f p - Rabs (ti g m1 - f p)) / 2) phi).
  { unfold Rdiv. apply (continuous_mult (fun p => ti g m1 + f p - Rabs (ti g m1 - f p)) (fun _ => / 2)); [|apply continuous_const].
    apply (continuous_minus (fun p => ti g m1 + f p) (fun p => Rabs (ti g m1 - f p))).
    - apply (continuous_plus (fun _ => ti g m1) f); [apply continuous_const|assumption].
    - apply Cabs. apply (continuous_minus (fun _ => ti g m1) f); [apply continuous_const|assumption]. }
  set (h := fun p => (ti g m1 + f p - Rabs (ti g m1 - f p)) / 2) in *.
  unfold Rdiv at 1. apply (continuous_mult (fun p => ti g m0 + h p + Rabs (ti g m0 - h p)) (fun _ => / 2)); [|apply continuous_const].
  apply (continuous_plus (fun p => ti g m0 + h p) (fun p => Rabs (ti g m0 - h p))).
  - apply (continuous_plus (fun _ => ti g m0) h); [apply continuous_const|assumption].
  - apply Cabs. apply (continuous_minus (fun _ => ti g m0) h); [apply continuous_const|assumption].
Qed.
Lemma machf_cont phi : continuous machf phi.
Proof using All.
  unfold machf. apply (continuous_comp tcl (mf g)); [apply tcl_cont|].
  apply (ex_derive_continuous (mf g) (tcl phi)). unfold mf.
  pose proof (tcl_range' phi). auto_derive.
  split; [eexists; apply is_derive_tan; apply Rgt_not_eq, cos_gt_0; lra|]. split; [|exact I].
  pose proof (pow2_ge_0 (cgm g * tan (tcl phi))). cbn in *. lra.
Qed.
Lemma pm_mf t : 0 <= t < PI / 2 -> pm g (mf g t) = deg (cgm g * t - atan (cgm g * tan t)).
Proof using Hg. intros Ht. unfold pm, pmb. rewrite mf_beta by assumption. pose proof (cgm_gt1 g Hg). replace (cgm g * tan t / cgm g) with (tan t) by (field; lra). rewrite atan_tan by lra. reflexivity. Qed.
Lemma dirf_cont phi : continuous dirf phi.
Proof using All.
  unfold dirf. apply (continuous_ext (fun p => pm g m0 - deg (cgm g * tcl p - atan (cgm g * tan (tcl p))))).
  { intros p. unfold machf. now rewrite pm_mf by apply tcl_range'. }
  apply (continuous_comp tcl (fun t => pm g m0 - deg (cgm g * t - atan (cgm g * tan t)))); [apply tcl_cont|].
  apply (ex_derive_continuous (fun t => pm g m0 - deg (cgm g * t - atan (cgm g * tan t))) (tcl phi)). unfold deg.
  pose proof (tcl_range' phi). auto_derive. eexists; apply is_derive_tan; apply Rgt_not_eq, cos_gt_0; lra.
Qed.
End Case.

(*@P C89_fan: Centred expansion over a corner turning by a < 0, any Mach number M0 >= 1, exact root finder: the downstream Mach number M1 is larger, with Prandtl-Meyer angle increased by -a. At every point other than the corner the answer (flow direction, C+, C-) is that of one Mach number with its Mach angle, a function of the polar angle only, continuous everywhere, with the invariant direction + Prandtl-Meyer angle constant; it is the upstream state above the first Mach line, the downstream state (along the wall) below the last one, and between them the C+ points away from the corner and the Mach number grows strictly as the angle decreases. *)
Lemma fan_solution : forall newton g m0 a m1 c, solves 0 newton -> 1 < g -> 1 <= m0 -> a < 0 ->
  c = init_case newton (Some g) (Some m0) (Some a) -> M1 c = Some m1 -> 0 < m1 ->
  m0 < m1 /\ pm_deg g m1 = pm_deg g m0 - a /\
  exists mu0 mu1 (mach dir mu : R -> R), is_mach_angle m0 mu0 /\ is_mach_angle m1 mu1 /\ a + mu1 < mu0 /\
    (forall x y r phi, polar x y r phi -> flow_prop (Some g) c (Some x) (Some y) =
       Some {| p_ang := Some (dir phi); p_plus := Some (dir phi + mu phi); p_minus := Some (dir phi - mu phi) |}) /\
    (forall phi, m0 <= mach phi <= m1 /\ is_mach_angle (mach phi) (mu phi) /\ dir phi + pm_deg g (mach phi) = pm_deg g m0) /\
    (forall phi, continuity_pt mach phi /\ continuity_pt dir phi) /\
    (forall phi, mu0 <= phi -> mach phi = m0 /\ dir phi = 0) /\
    (forall phi, phi <= a + mu1 -> mach phi = m1 /\ dir phi = a) /\
    (forall phi, a + mu1 <= phi <= mu0 -> dir phi + mu phi = phi) /\
    strictly_decreasing_on (fun phi => a + mu1 <= phi <= mu0) mach.
Proof.
  intros newton g m0 a m1 c HN Hg Hm0 Ha Hc HM1 Hm1.
  destruct (case_m1 _ _ _ _ _ _ HN Hg Hm0 Ha Hc HM1 Hm1) as [L1 E1]. pose proof (case_gt _ _ _ _ _ _ HN Hg Hm0 Ha Hc HM1 Hm1) as L01.
  split; [exact L01|]. split; [rewrite !pm_deg_pm by lra; exact E1|].
  exists (mua m0), (mua m1), (machf g m0 m1), (dirf g m0 m1), (fun phi => mua (machf g m0 m1 phi)).
  assert (Hr : forall phi, m0 <= machf g m0 m1 phi <= m1) by (intros; apply (machf_range newton g m0 a m1 c); assumption).
  split; [now apply mua_spec|]. split; [now apply mua_spec|]. split; [now apply (edges_ord newton g m0 a m1 c)|].
  split. { intros x y r phi Hp. rewrite (flow_prop_eval newton g m0 a m1 c) by assumption. now rewrite (polar_atan2 x y r phi). }
  split. { intros phi. specialize (Hr phi). split; [exact Hr|]. split; [apply mua_spec; lra|]. rewrite !pm_deg_pm by lra. unfold dirf. ring. }
  split. { intros phi. split; apply continuity_pt_filterlim; [apply (machf_cont newton g m0 a m1 c)|apply (dirf_cont newton g m0 a m1 c)]; assumption. }
  split. { intros phi H. now apply (machf_up newton g m0 a m1 c). }
  split. { intros phi H. now apply (machf_down newton g m0 a m1 c). }
  split. { intros phi H. now apply (machf_in newton g m0 a m1 c). }
  intros p q Hp Hq Hpq. unfold machf. pose proof (tcl_range' newton g m0 a m1 c HN Hg Hm0 Ha Hc HM1 Hm1 q). pose proof (tcl_range' newton g m0 a m1 c HN Hg Hm0 Ha Hc HM1 Hm1 p).
  rewrite !(tcl_in newton g m0 a m1 c) in * by assumption. apply mf_lt; try lra. apply tw_lt; lra.
Qed.
