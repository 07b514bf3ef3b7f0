From Coquelicot Require Import Coquelicot.
From Verif Require Import L_Num Spec NumSpec M_Degree M_IterSolve M_MassFlow M_Isentropic M_Supersonic M_Fan M_SmoothWall FanSpec L_Isentropic L_Degree L_Supersonic L_Supersonic2 L_Fan L_Fan2 L_Fan3 L_SmoothWall L_SmoothWall2.
Open Scope R_scope.

Lemma solves0 newton f x0 r : solves 0 newton -> newton f x0 = Some r -> f (Some r) = Some 0.
Proof.
  intros HN E. apply HN in E. destruct E as [e [Ee He]]. rewrite Ee. f_equal. pose proof (Rabs_pos e).
  destruct (Req_dec e 0) as [|N]; [assumption|pose proof (Rabs_pos_lt e N); lra].
Qed.
Lemma asin_ex x : -1 < x < 1 -> ex_derive asin x.
Proof. intros H. apply ex_derive_Reals_1. now apply derivable_pt_asin. Qed.
Definition cpl (g om0 m : R) : R := om0 - pm g m + mua m.
Lemma cpl_ex g om0 m : 1 < g -> 1 < m -> ex_derive (cpl g om0) m.
Proof.
  intros Hg Hm. unfold cpl. apply (ex_derive_plus (fun m => om0 - pm g m) mua).
  - apply (ex_derive_minus (fun _ => om0) (pm g)); [apply ex_derive_const|eexists; now apply pm_derive].
  - unfold mua, deg. apply (ex_derive_ext (fun m => scal (180 / PI) (asin (1 / m)))).
    { intros t. unfold scal; cbn; unfold mult; cbn. field. apply PI_neq0. }
    apply (ex_derive_scal (fun m => asin (1 / m))). apply (ex_derive_comp asin (fun m => 1 / m)).
    + apply asin_ex. split; [assert (0 < 1 / m) by pos; lra|]. apply Rlt_div_l; lra.
    + auto_derive. lra.
Qed.
(** what a fixed point of a turn of the loop is *)
Lemma fixed_turn newton fsolve g om0 ywall yw x y m w : solves 0 fsolve -> 1 < g -> (forall s, ywall (Some s) = Some (yw s)) -> 1 <= m ->
  mach_turn newton fsolve (Some g) (Some om0) ywall (Some x) (Some y) (Some m) = (Some m, Some m, Some w) ->
  cos (rad (cpl g om0 m)) <> 0 /\ y - yw w + tan (rad (cpl g om0 m)) * (w - x) = 0 /\ mach_wall newton (Some g) (Some om0) ywall (Some w) = Some m.
Proof.
  intros HF Hg HY Hm ET. unfold mach_turn in ET. cbv zeta in ET.
  rewrite PM_eval in ET by (try assumption; rewrite Rabs_pos_eq; lra). rewrite ndiv_Some in ET by lra.
  rewrite dasin_eval in ET by (pose proof (inv_M m Hm); lra). fold (mua m) in ET.
  change (nadd (nsub (Some om0) (Some (pm g m))) (Some (mua m))) with (Some (cpl g om0 m)) in ET.
  match type of ET with (_, mach_wall _ _ _ _ ?F, _) = _ => set (xf := F) in * end.
  pose proof (f_equal (fun p => snd (fst p)) ET) as E2. pose proof (f_equal snd ET) as E3. cbn [fst snd] in E2, E3. rewrite E3 in E2.
  unfold xf in E3. apply (solves0 fsolve) in E3; [|assumption]. cbn beta in E3. rewrite HY in E3.
  unfold dtan, ntan, nradians in E3. cbn in E3. destruct Req_EM_T in E3; [discriminate|]. injection E3 as E3.
  split; [assumption|]. split; [exact E3|exact E2].
Qed.
(*@P C90_euler: The flow built from the wall is a solution of the steady Euler equations. For any wall and any fields of Mach number, direction and foot (the wall point of the characteristic) around a point, with exact root finders: if one turn of the loop of mach reproduces the Mach number and gives the foot, and the direction is the one of flow_prop, at every point nearby, the flow is supersonic at the point, and foot, wall, and Mach number along the wall are differentiable there, then mass and momentum are conserved at the point, the density, pressure and velocity being those of the isentropic flow at that Mach number and direction. *)
Lemma wall_euler : forall newton fsolve g om0 ywall yw mwall mach dir foot x y r, solves 0 fsolve -> 1 < g -> 0 < r ->
  (forall s, ywall (Some s) = Some (yw s)) ->
  (forall x' y', Rabs (x' - x) < r -> Rabs (y' - y) < r -> 1 <= mach x' y' /\
     mach_turn newton fsolve (Some g) (Some om0) ywall (Some x') (Some y') (Some (mach x' y')) = (Some (mach x' y'), Some (mach x' y'), Some (foot x' y')) /\
     p_ang (wall_flow_prop (Some g) (Some om0) (Some (mach x' y'))) = Some (dir x' y')) ->
  1 < mach x y ->
  (forall s, Rabs (s - foot x y) < r -> mach_wall newton (Some g) (Some om0) ywall (Some s) = Some (mwall s)) ->
  (exists dy, derivable_pt_lim yw (foot x y) dy) -> (exists dm, derivable_pt_lim mwall (foot x y) dm) ->
  (exists fx, partial_x foot x y fx) -> (exists fy, partial_y foot x y fy) ->
  steady_euler g dir mach x y.
Proof.
  intros newton fsolve g om0 ywall yw mwall mach dir foot x y r HF Hg Hr HY HT HM HW [dy Dy] [dm Dm] [fx Fx] [fy Fy].
  set (w := foot x y) in *.
  assert (H0 : forall z, Rabs (z - z) < r) by (intros; rewrite Rminus_diag_eq, Rabs_R0 by reflexivity; exact Hr).
  assert (HT' : forall x' y', near2 r x y x' y' -> cos (rad (cpl g om0 (mach x' y'))) <> 0 /\
     y' - yw (foot x' y') + tan (rad (cpl g om0 (mach x' y'))) * (foot x' y' - x') = 0 /\ mach_wall newton (Some g) (Some om0) ywall (Some (foot x' y')) = Some (mach x' y')).
  { intros x' y' [A B]. destruct (HT x' y' A B) as [C [D _]]. eapply fixed_turn; eassumption. }
  assert (EM : mwall w = mach x y). { destruct (HT' x y (conj (H0 x) (H0 y))) as [_ [_ E]]. fold w in E. rewrite HW in E by apply H0. now injection E. }
  set (K := fun s => tan (rad (cpl g om0 (mwall s)))).
  assert (HK : exists k, is_derive K w k).
  { apply is_derive_Reals in Dm. unfold K. destruct (HT' x y (conj (H0 x) (H0 y))) as [HC _]. 
    destruct (cpl_ex g om0 (mwall w) Hg ltac:(rewrite EM; exact HM)) as [c Dc].
    eexists. apply (is_derive_comp tan (fun s => rad (cpl g om0 (mwall s)))).
    - apply is_derive_tan. rewrite EM. exact HC.
    - apply (is_derive_ext (fun s => scal (PI / 180) (cpl g om0 (mwall s)))). { intros t. unfold rad, scal; cbn; unfold mult; cbn. field. }
      apply (is_derive_scal (fun s => cpl g om0 (mwall s))). apply (is_derive_comp (cpl g om0) mwall); [exact Dc|exact Dm]. }
  destruct HK as [k Dk]. apply is_derive_Reals in Dy. apply is_derive_Reals in Dm.
  unfold partial_x in Fx. unfold partial_y in Fy. apply is_derive_Reals in Fx. apply is_derive_Reals in Fy.
  assert (LX : locally x (fun t => Rabs (foot t y - w) < r)).
  { pose proof (ex_derive_continuous (fun t => foot t y) x (ex_intro _ fx Fx)) as C. apply (C (fun z => Rabs (z - w) < r)). exists (mkposreal r Hr). intros z Hz. exact Hz. }
  assert (LY : locally y (fun t => Rabs (foot x t - w) < r)).
  { pose proof (ex_derive_continuous (fun t => foot x t) y (ex_intro _ fy Fy)) as C. apply (C (fun z => Rabs (z - w) < r)). exists (mkposreal r Hr). intros z Hz. exact Hz. }
  pose proof (near_x r x y _ Hr HT') as NX. pose proof (near_y r x y _ Hr HT') as NY.
  assert (EX : locally x (fun t => mach t y = mwall (foot t y) /\ y - yw (foot t y) + K (foot t y) * (foot t y - t) = 0)).
  { pose proof (filter_and _ _ LX NX) as N. revert N. apply filter_imp. intros t [A [_ [B C]]]. rewrite HW in C by exact A. injection C as C. split; [symmetry; exact C|]. unfold K. rewrite C. exact B. }
  assert (EY : locally y (fun t => mach x t = mwall (foot x t) /\ t - yw (foot x t) + K (foot x t) * (foot x t - x) = 0)).
  { pose proof (filter_and _ _ LY NY) as N. revert N. apply filter_imp. intros t [A [_ [B C]]]. rewrite HW in C by exact A. injection C as C. split; [symmetry; exact C|]. unfold K. rewrite C. exact B. }
  assert (QX : - (dy * fx) + (k * fx * (w - x) + K w * (fx - 1)) = 0).
  { assert (D : is_derive (fun t => y - yw (foot t y) + K (foot t y) * (foot t y - t)) x (- (dy * fx) + (k * fx * (w - x) + K w * (fx - 1)))).
    { apply (is_derive_plus (fun t => y - yw (foot t y)) (fun t => K (foot t y) * (foot t y - t))).
      - evar_last; [apply (is_derive_minus (fun _ => y) (fun t => yw (foot t y))); [apply is_derive_const|apply (is_derive_comp yw (fun t => foot t y)); [exact Dy|exact Fx]]|].
        unfold minus, plus, opp, zero, scal; cbn; unfold mult; cbn. ring.
      - evar_last; [apply (is_derive_mult (fun t => K (foot t y)) (fun t => foot t y - t)); [apply (is_derive_comp K (fun t => foot t y)); [exact Dk|exact Fx]|apply (is_derive_minus (fun t => foot t y) (fun t => t)); [exact Fx|apply is_derive_id]|intros; apply Rmult_comm]|].
        unfold minus, plus, opp, zero, one, mult, scal; cbn; unfold mult; cbn. fold w. ring. }
    apply (is_derive_unique) in D. rewrite <- D. rewrite (Derive_ext_loc _ (fun _ => 0)); [apply Derive_const|]. revert EX. apply filter_imp. now intros t [_ A]. }
  assert (QY : 1 - dy * fy + (k * fy * (w - x) + K w * fy) = 0).
  { assert (D : is_derive (fun t => t - yw (foot x t) + K (foot x t) * (foot x t - x)) y (1 - dy * fy + (k * fy * (w - x) + K w * fy))).
    { apply (is_derive_plus (fun t => t - yw (foot x t)) (fun t => K (foot x t) * (foot x t - x))).
      - evar_last; [apply (is_derive_minus (fun t => t) (fun t => yw (foot x t))); [apply is_derive_id|apply (is_derive_comp yw (fun t => foot x t)); [exact Dy|exact Fy]]|].
        unfold minus, plus, opp, zero, one, scal; cbn; unfold mult; cbn. ring.
      - evar_last; [apply (is_derive_mult (fun t => K (foot x t)) (fun t => foot x t - x)); [apply (is_derive_comp K (fun t => foot x t)); [exact Dk|exact Fy]|apply (is_derive_minus (fun t => foot x t) (fun _ => x)); [exact Fy|apply is_derive_const]|intros; apply Rmult_comm]|].
        unfold minus, plus, opp, zero, one, mult, scal; cbn; unfold mult; cbn. fold w. ring. }
    apply (is_derive_unique) in D. rewrite <- D. rewrite (Derive_ext_loc _ (fun _ => 0)); [apply Derive_const|]. revert EY. apply filter_imp. now intros t [_ A]. }
  assert (QF : fx + K w * fy = 0).
  { set (D := - dy + k * (w - x) + K w). assert (D1 : D * fx = K w) by (unfold D; lra). assert (D2 : D * fy = -1) by (unfold D; lra).
    assert (D <> 0) by (intros Z; rewrite Z in *; lra). apply (Rmult_eq_reg_l D); [|assumption]. rewrite Rmult_plus_distr_l. replace (D * (K w * fy)) with (K w * (D * fy)) by ring. rewrite D1, D2. ring. }
  assert (Ed : forall x' y', near2 r x y x' y' -> dir x' y' = om0 - pm g (mach x' y')).
  { intros x' y' [A B]. destruct (HT x' y' A B) as [C [_ D]]. rewrite wfp_eval in D by assumption. cbn [p_ang] in D. now injection D. }
  apply (simple_wave g om0 mach dir x y (dm * fx) (dm * fy) r Hg HM Hr Ed).
  - unfold partial_x. apply is_derive_Reals. apply (is_derive_ext_loc (fun t => mwall (foot t y))). { revert EX. apply filter_imp. intros t [A _]. now rewrite A. }
    evar_last; [apply (is_derive_comp mwall (fun t => foot t y)); [exact Dm|exact Fx]|unfold scal; cbn; unfold mult; cbn; ring].
  - unfold partial_y. apply is_derive_Reals. apply (is_derive_ext_loc (fun t => mwall (foot x t))). { revert EY. apply filter_imp. intros t [A _]. now rewrite A. }
    evar_last; [apply (is_derive_comp mwall (fun t => foot x t)); [exact Dm|exact Fy]|unfold scal; cbn; unfold mult; cbn; ring].
  - rewrite Ed by (split; apply H0). fold (cpl g om0 (mach x y)). destruct (HT' x y (conj (H0 x) (H0 y))) as [HC _].
    unfold K in QF. rewrite EM in QF. set (P := rad (cpl g om0 (mach x y))) in *. unfold tan in QF.
    transitivity (dm * cos P * (fx + sin P / cos P * fy)); [field; exact HC|]. rewrite QF. ring.
Qed.
(*@P C90_one_foot: Over an expanding wall characteristics never meet: for every wall whose slope never increases, exact root finder, and two wall points where the wall angle is that of the tangent (as on the ramp) and supersonic flow has been found, with characteristics at angles in (-90, 90): if the two characteristics pass through one same point downstream of both, the two wall points are the same - so the state at a point is unique. *)
Lemma one_foot : forall newton g om0 ywall yw dyw x y s1 s2 m1 m2 a1 a2 c1 c2, solves 0 newton -> 1 < g ->
  (forall s, ywall (Some s) = Some (yw s)) -> (forall s, derivable_pt_lim yw s (dyw s)) -> (forall s t, s <= t -> dyw t <= dyw s) ->
  mach_wall newton (Some g) (Some om0) ywall (Some s1) = Some m1 -> mach_wall newton (Some g) (Some om0) ywall (Some s2) = Some m2 -> 1 <= m1 -> 1 <= m2 ->
  wall_angle ywall (Some s1) = Some a1 -> wall_angle ywall (Some s2) = Some a2 -> tan (rd a1) = dyw s1 -> tan (rd a2) = dyw s2 ->
  p_plus (wall_flow_prop (Some g) (Some om0) (Some m1)) = Some c1 -> p_plus (wall_flow_prop (Some g) (Some om0) (Some m2)) = Some c2 ->
  -90 < c1 < 90 -> -90 < c2 < 90 -> s1 <= x -> s2 <= x ->
  y - yw s1 = tan (rd c1) * (x - s1) -> y - yw s2 = tan (rd c2) * (x - s2) -> s1 = s2.
Proof.
  assert (Half : forall newton g om0 ywall yw dyw x y s1 s2 m1 m2 a1 a2 c1 c2, solves 0 newton -> 1 < g ->
    (forall s, ywall (Some s) = Some (yw s)) -> (forall s, derivable_pt_lim yw s (dyw s)) -> (forall s t, s <= t -> dyw t <= dyw s) ->
    mach_wall newton (Some g) (Some om0) ywall (Some s1) = Some m1 -> mach_wall newton (Some g) (Some om0) ywall (Some s2) = Some m2 -> 1 <= m1 -> 1 <= m2 ->
    wall_angle ywall (Some s1) = Some a1 -> wall_angle ywall (Some s2) = Some a2 -> tan (rd a1) = dyw s1 -> tan (rd a2) = dyw s2 ->
    p_plus (wall_flow_prop (Some g) (Some om0) (Some m1)) = Some c1 -> p_plus (wall_flow_prop (Some g) (Some om0) (Some m2)) = Some c2 ->
    -90 < c1 < 90 -> -90 < c2 < 90 -> s1 <= x -> s2 <= x ->
    y - yw s1 = tan (rd c1) * (x - s1) -> y - yw s2 = tan (rd c2) * (x - s2) -> ~ s1 < s2).
  { intros newton g om0 ywall yw dyw x y s1 s2 m1 m2 a1 a2 c1 c2 HN Hg HY HD Hdec E1 E2 H1 H2 A1 A2 T1 T2 P1 P2 B1 B2 X1 X2 L1 L2 Hlt.
    rewrite wfp_eval in P1, P2 by assumption. cbn [p_plus] in P1, P2. injection P1 as P1. injection P2 as P2.
    assert (PM : forall s m a, mach_wall newton (Some g) (Some om0) ywall (Some s) = Some m -> 1 <= m -> wall_angle ywall (Some s) = Some a -> pm g m = om0 - a /\ -90 < a < 90).
    { intros s m a E H A. split.
      - unfold mach_wall in E. rewrite A in E. change (nsub (Some om0) (Some a)) with (Some (om0 - a)) in E. apply (Mach_PM_residual newton 0) in E; [|assumption].
        destruct E as [w [Ew Hw]]. rewrite PM_eval in Ew by (try assumption; rewrite Rabs_pos_eq; lra). injection Ew as <-.
        pose proof (Rabs_pos (pm g m - (om0 - a))). destruct (Req_dec (pm g m - (om0 - a)) 0) as [|N]; [lra|pose proof (Rabs_pos_lt _ N); lra].
      - destruct (wall_angle_tangent ywall yw dyw s HY ltac:(intros; apply HD)) as [a' [xi [EA [B _]]]]. rewrite A in EA. injection EA as ->. exact B. }
    destruct (PM s1 m1 a1 E1 H1 A1) as [Q1 B1']. destruct (PM s2 m2 a2 E2 H2 A2) as [Q2 B2'].
    rewrite rd_rad in T1, T2, L1, L2.
    assert (Ha : a2 <= a1).
    { apply Rnot_lt_le. intros C. pose proof (tan_lt a1 a2 ltac:(lra) C ltac:(lra)). pose proof (Hdec s1 s2 ltac:(lra)). lra. }
    assert (Hm : m1 <= m2). { apply Rnot_lt_le. intros C. pose proof (pm_incr g m2 m1 Hg H2 C). lra. }
    assert (Hmu : mua m2 <= mua m1).
    { unfold mua. apply deg_le. destruct Hm as [Hm| ->]; [|lra]. left. apply asin_increasing; [pose proof (inv_M m2 H2); lra|apply Rmult_lt_compat_l; [lra|apply Rinv_lt_contravar; nra]|pose proof (inv_M m1 H1); lra]. }
    destruct (mua_spec m1 H1) as [Hp _].
    assert (Hc : tan (rad c2) <= tan (rad c1)) by (apply tan_le; lra).
    assert (Hs : dyw s1 < tan (rad c1)) by (rewrite <- T1; apply tan_lt; lra).
    destruct (MVT_cor2 yw dyw s1 s2 Hlt (fun c _ => HD c)) as [xi [EV Hxi]]. pose proof (Hdec s1 xi ltac:(lra)) as Hd.
    assert (dyw xi * (s2 - s1) <= dyw s1 * (s2 - s1)) by (apply Rmult_le_compat_r; lra).
    assert (dyw s1 * (s2 - s1) < tan (rad c1) * (s2 - s1)) by (apply Rmult_lt_compat_r; lra).
    assert (tan (rad c2) * (x - s2) <= tan (rad c1) * (x - s2)) by (apply Rmult_le_compat_r; lra). nra. }
  intros newton g om0 ywall yw dyw x y s1 s2 m1 m2 a1 a2 c1 c2 HN Hg HY HD Hdec E1 E2 H1 H2 A1 A2 T1 T2 P1 P2 B1 B2 X1 X2 L1 L2.
  destruct (Rtotal_order s1 s2) as [L|[L|L]]; [exfalso|exact L|exfalso].
  - exact (Half newton g om0 ywall yw dyw x y s1 s2 m1 m2 a1 a2 c1 c2 HN Hg HY HD Hdec E1 E2 H1 H2 A1 A2 T1 T2 P1 P2 B1 B2 X1 X2 L1 L2 L).
  - exact (Half newton g om0 ywall yw dyw x y s2 s1 m2 m1 a2 a1 c2 c1 HN Hg HY HD Hdec E2 E1 H2 H1 A2 A1 T2 T1 P2 P1 B2 B1 X2 X1 L2 L1 L).
Qed.
