From Coquelicot Require Import Coquelicot.
From Verif Require Import L_Num Spec NumSpec M_Degree M_IterSolve M_MassFlow M_Isentropic M_Supersonic M_Fan M_SmoothWall FanSpec L_Isentropic L_Degree L_Supersonic L_Supersonic2 L_Fan L_Fan2 L_Fan3 L_SmoothWall L_SmoothWall2 L_SmoothWall3.
Open Scope R_scope.

(** ** a function defined implicitly by A(s) + t Q(s) = 0 *)
Lemma implicit_D (A Q h : R -> R) (t0 dA dQ : R) : continuous h t0 -> locally t0 (fun t => A (h t) + t * Q (h t) = 0) ->
  is_derive A (h t0) dA -> is_derive Q (h t0) dQ -> dA + t0 * dQ <> 0 -> is_derive h t0 (- Q (h t0) / (dA + t0 * dQ)).
Proof.
  intros Hc HE DA DQ HD. set (s0 := h t0) in *. set (D := dA + t0 * dQ) in *. set (G := fun s => A s + t0 * Q s).
  assert (DG : derivable_pt_lim G s0 D).
  { apply is_derive_Reals. unfold G, D. apply (is_derive_plus A (fun s => t0 * Q s)); [exact DA|]. apply (is_derive_scal Q); exact DQ. }
  assert (G0 : G s0 = 0) by (apply locally_singleton in HE; exact HE).
  set (phi := fun s => if Req_EM_T s s0 then D else G s / (s - s0)).
  assert (EG : forall s, G s = phi s * (s - s0)). { intros s. unfold phi. destruct Req_EM_T as [->|N]; [rewrite G0; ring|field; lra]. }
  assert (Cphi : continuous phi s0).
  { apply continuity_pt_filterlim. intros e He. destruct (DG e He) as [d Hd]. exists d. split; [apply cond_pos|]. intros s [[_ Hs] Hb].
    unfold phi. destruct (Req_EM_T s0 s0) as [_|]; [|lra]. destruct Req_EM_T as [->|N]; [cbn; unfold R_dist; rewrite Rminus_diag_eq, Rabs_R0 by reflexivity; exact He|].
    cbn in s, Hb |- *. unfold R_dist in *. specialize (Hd (s - s0) (fun Z => N (Rminus_diag_uniq _ _ Z)) Hb). replace (s0 + (s - s0)) with s in Hd by ring. rewrite G0, Rminus_0_r in Hd. exact Hd. }
  set (c := fun t => - Q (h t) / phi (h t)).
  assert (P0 : phi s0 = D) by (unfold phi; destruct Req_EM_T; [reflexivity|lra]).
  assert (Cq : continuous Q s0) by (apply (ex_derive_continuous Q s0); eexists; exact DQ).
  assert (Cphih : continuous (fun t => phi (h t)) t0) by (apply (continuous_comp h phi); [exact Hc|exact Cphi]).
  assert (Cc : continuous c t0).
  { unfold c. apply (continuous_mult (fun t => - Q (h t)) (fun t => / phi (h t))).
    - apply (continuous_opp (fun t => Q (h t))). apply (continuous_comp h Q); [exact Hc|exact Cq].
    - apply (continuous_comp (fun t => phi (h t)) Rinv); [exact Cphih|]. apply continuity_pt_filterlim. apply (continuity_pt_inv id).
      + apply derivable_continuous_pt, derivable_pt_id.
      + unfold id. fold s0. rewrite P0. exact HD. }
  assert (NZ : locally t0 (fun t => phi (h t) <> 0)).
  { apply (Cphih (fun z => z <> 0)). fold s0. rewrite P0. exists (mkposreal (Rabs D) (Rabs_pos_lt _ HD)). intros z Hz Z. subst z.
    unfold ball in Hz; cbn in Hz; unfold AbsRing_ball, abs, minus, plus, opp in Hz; cbn in Hz. rewrite Rplus_0_l, Rabs_Ropp in Hz. lra. }
  assert (EH : locally t0 (fun t => s0 + c t * (t - t0) = h t)).
  { pose proof (filter_and _ _ HE NZ) as N. revert N. apply filter_imp. intros t [E N].
    assert (G (h t) = - (t - t0) * Q (h t)) by (unfold G; lra). rewrite EG in H. unfold c.
    replace (- Q (h t) / phi (h t) * (t - t0)) with (- (t - t0) * Q (h t) / phi (h t)) by (field; exact N). rewrite <- H. field. exact N. }
  apply (is_derive_ext_loc (fun t => s0 + c t * (t - t0))); [exact EH|]. replace (- Q s0 / D) with (c t0) by (unfold c; fold s0; now rewrite P0).
  apply is_derive_Reals. intros e He. apply continuity_pt_filterlim in Cc. destruct (Cc e He) as [d [Hd HC]]. exists (mkposreal d Hd). intros k Hk Hb. cbn [pos] in Hb.
  replace ((s0 + c (t0 + k) * (t0 + k - t0) - (s0 + c t0 * (t0 - t0))) / k - c t0) with (c (t0 + k) - c t0) by (field; exact Hk).
  apply HC. split; [split; [exact I|lra]|]. cbn. unfold R_dist. replace (t0 + k - t0) with k by ring. exact Hb.
Qed.
(** the root is continuous when A + t Q increases strictly around it *)
Lemma implicit_C (A Q h : R -> R) (t0 a b : R) : a < h t0 < b ->
  locally t0 (fun t => a < h t < b /\ A (h t) + t * Q (h t) = 0 /\ forall s s', a < s -> s < s' -> s' < b -> A s + t * Q s < A s' + t * Q s') ->
  continuous h t0.
Proof.
  intros Hab HL. apply continuity_pt_filterlim. intros e He. set (s0 := h t0) in *.
  assert (L0 := locally_singleton _ _ HL). cbn beta in L0. destruct L0 as [_ [E0 I0]]. fold s0 in E0.
  set (e' := Rmin (e / 2) (Rmin ((s0 - a) / 2) ((b - s0) / 2))).
  assert (He' : 0 < e' /\ e' <= e / 2 /\ e' <= (s0 - a) / 2 /\ e' <= (b - s0) / 2).
  { unfold e'. repeat apply conj; [repeat apply Rmin_glb_lt; lra|apply Rmin_l| |]; (eapply Rle_trans; [apply Rmin_r|]); [apply Rmin_l|apply Rmin_r]. }
  set (u := s0 - e'). set (v := s0 + e').
  assert (Gu : A u + t0 * Q u < 0) by (rewrite <- E0; apply I0; unfold u; lra).
  assert (Gv : 0 < A v + t0 * Q v) by (rewrite <- E0; apply I0; unfold v; lra).
  destruct HL as [d HL].
  set (d1 := - (A u + t0 * Q u) / (1 + Rabs (Q u))). set (d2 := (A v + t0 * Q v) / (1 + Rabs (Q v))).
  pose proof (Rabs_pos (Q u)). pose proof (Rabs_pos (Q v)).
  assert (Hd1 : 0 < d1) by (unfold d1; apply Rdiv_lt_0_compat; lra). assert (Hd2 : 0 < d2) by (unfold d2; apply Rdiv_lt_0_compat; lra).
  exists (Rmin d (Rmin d1 d2)). split; [repeat apply Rmin_glb_lt; try assumption; apply cond_pos|].
  intros t [_ Ht]. cbn in Ht |- *. unfold R_dist in *.
  assert (T0 : Rabs (t - t0) < d /\ Rabs (t - t0) < d1 /\ Rabs (t - t0) < d2).
  { repeat apply conj; (eapply Rlt_le_trans; [exact Ht|]); [apply Rmin_l| |]; (eapply Rle_trans; [apply Rmin_r|]); [apply Rmin_l|apply Rmin_r]. }
  destruct T0 as [T1 [T2 T3]]. destruct (HL t T1) as [Hr [E I]].
  assert (K : forall q p, 0 < p -> Rabs (t - t0) < p / (1 + Rabs q) -> Rabs ((t - t0) * q) < p).
  { intros q p Hp H'. rewrite Rabs_mult. pose proof (Rabs_pos q). pose proof (Rabs_pos (t - t0)).
    apply Rle_lt_trans with (Rabs (t - t0) * (1 + Rabs q)); [apply Rmult_le_compat_l; lra|]. apply (Rmult_lt_compat_r (1 + Rabs q)) in H'; [|lra].
    replace (p / (1 + Rabs q) * (1 + Rabs q)) with p in H' by (field; lra). exact H'. }
  pose proof (K (Q u) _ ltac:(apply Ropp_0_gt_lt_contravar; exact Gu) T2) as K1. pose proof (K (Q v) _ Gv T3) as K2.
  apply Rabs_def2 in K1. apply Rabs_def2 in K2.
  assert (Lu : u < h t). { apply Rnot_le_lt. intros [C|C]; [pose proof (I (h t) u ltac:(lra) C ltac:(unfold u; lra))|rewrite C in E]; lra. }
  assert (Lv : h t < v). { apply Rnot_le_lt. intros [C|C]; [pose proof (I v (h t) ltac:(unfold v; lra) C ltac:(lra))|rewrite <- C in E]; lra. }
  apply Rabs_def1; unfold u, v in *; lra.
Qed.
Lemma derive_nonpos f x d : is_derive f x d -> locally x (fun t => x < t -> f t <= f x) -> d <= 0.
Proof.
  intros D [r HL]. apply is_derive_Reals in D. apply Rnot_lt_le. intros Hd. destruct (D d Hd) as [q Hq].
  set (k := Rmin (r / 2) (q / 2)). assert (0 < k /\ k <= r / 2 /\ k <= q / 2).
  { pose proof (cond_pos r). pose proof (cond_pos q). unfold k. repeat apply conj; [apply Rmin_glb_lt; lra|apply Rmin_l|apply Rmin_r]. }
  pose proof (cond_pos r). pose proof (cond_pos q).
  specialize (Hq k ltac:(lra) ltac:(rewrite Rabs_pos_eq; lra)). specialize (HL (x + k) ltac:(unfold ball; cbn; unfold AbsRing_ball, abs, minus, plus, opp; cbn; replace (x + k + - x) with k by ring; rewrite Rabs_pos_eq; lra) ltac:(lra)).
  apply Rabs_def2 in Hq. assert ((f (x + k) - f x) / k <= 0); [|lra]. apply Rmult_le_reg_r with k; [lra|]. unfold Rdiv. rewrite Rmult_assoc, Rinv_l by lra. lra.
Qed.
(** ** an exact root finder: the largest point where the function is not positive, if it is a root *)
Definition supn (f : num -> num) (x0 : num) : num :=
  let r := real (Lub_Rbar (fun s => exists e, f (Some s) = Some e /\ e <= 0)) in
  match f (Some r) with Some e => if Req_EM_T e 0 then Some r else None | None => None end.
Lemma supn_solves : solves 0 supn.
Proof.
  intros f x0 r. unfold supn. cbv zeta. set (q := real _). destruct (f (Some q)) as [e|] eqn:E; [|discriminate]. destruct Req_EM_T as [->|]; [|discriminate].
  intros H. injection H as <-. exists 0. split; [exact E|rewrite Rabs_R0; lra].
Qed.
Lemma supn_root f x0 r : f (Some r) = Some 0 -> (forall s e, r < s -> f (Some s) = Some e -> 0 < e) -> supn f x0 = Some r.
Proof.
  intros E0 HP. unfold supn. cbv zeta. set (P := fun s => exists e, f (Some s) = Some e /\ e <= 0).
  assert (L : Lub_Rbar P = Finite r).
  { apply is_lub_Rbar_unique. split.
    - intros s [e [Ee He]]. cbn. apply Rnot_lt_le. intros C. pose proof (HP s e C Ee). lra.
    - intros b Hb. apply Hb. exists 0. split; [exact E0|lra]. }
  match goal with |- context [Lub_Rbar ?E] => change (Lub_Rbar E) with (Lub_Rbar P) end. rewrite L. cbn [real]. rewrite E0. destruct Req_EM_T; [reflexivity|lra].
Qed.

(** ** the simple wave over the curved part of an expanding ramp *)
Section Ramp.
Variables (g M0 M1 ang : R).
Hypothesis Hg : 1 < g. Hypothesis HM0 : 1 <= M0. Hypothesis HM1 : 1 <= M1. Hypothesis Ha : -90 < ang < 0.
Hypothesis E1 : pm g M1 = pm g M0 - ang.
Let om0 := pm g M0. Let T := tan (rad ang). Let yw := rampf ang. Let e := 1 / 10000.
Let ywall := ywall_ramp (Some ang).
Definition al (s : R) : R := deg (atan (T * s)).
Lemma T_neg : T < 0. Proof using Ha. unfold T. rewrite <- tan_rad0. apply tan_lt; lra. Qed.
Lemma al_ang s : e <= s <= 1 - e -> wall_angle ywall (Some s) = Some (al s) /\ ang < al s < 0 /\ tan (rad (al s)) = T * s.
Proof using Ha.
  intros Hs. destruct (ramp_angle ang s ltac:(lra)) as [_ [RA _]]. destruct (RA Hs) as [a [EA [Hb Ht]]]. rewrite !rd_rad in Ht. fold T in Ht.
  assert (a = al s).
  { unfold al. rewrite <- Ht, atan_tan; [now rewrite deg_rad|]. replace (- (PI / 2)) with (rad (-90)) by (unfold rad; field). rewrite <- rad_90. split; apply rad_lt; lra. }
  subst a. pose proof T_neg. unfold e in Hs. split; [exact EA|]. split; [|exact Ht]. split.
  - apply Rnot_le_lt. intros C. pose proof (tan_le (al s) ang ltac:(lra) C ltac:(lra)) as K. fold T in K. nra.
  - apply Rnot_le_lt. intros C. pose proof (tan_le 0 (al s) ltac:(lra) C ltac:(lra)) as K. rewrite tan_rad0 in K. nra.
Qed.
Definition mw (s : R) : R := match mach_wall supn (Some g) (Some om0) ywall (Some s) with Some m => m | None => 0 end.
Lemma supn_pm w : 0 <= w <= pm g M1 -> exists m, 1 <= m /\ pm g m = w /\ Mach_PrandtlMeyer supn (Some w) (Some g) = Some m.
Proof using Hg HM1.
  intros Hw. assert (W : exists M, 1 <= M /\ PrandtlMeyer_Mach (Some M) (Some g) = Some w /\ forall M', 1 <= M' -> PrandtlMeyer_Mach (Some M') (Some g) = Some w -> M' = M).
  { apply pm_range; [exact Hg|]. split; [lra|]. apply Rle_lt_trans with (pm g M1); [lra|].
    refine (proj2 (proj2 (pm_range g (pm g M1) Hg) _)). exists M1. rewrite PM_eval by (try assumption; rewrite Rabs_pos_eq; lra). split; [assumption|]. split; [reflexivity|].
    intros M' H' E'. rewrite PM_eval in E' by (try assumption; rewrite Rabs_pos_eq; lra). injection E' as E'. now apply (pm_inj g). }
  destruct W as [m [Hm [Em _]]]. rewrite PM_eval in Em by (try assumption; rewrite Rabs_pos_eq; lra). injection Em as Em. exists m. split; [exact Hm|]. split; [exact Em|].
  unfold Mach_PrandtlMeyer. apply supn_root.
  - rewrite PM_eval by (try assumption; rewrite Rabs_pos_eq; lra). ncbn. f_equal. lra.
  - intros s q Hs. rewrite PM_eval by (try assumption; rewrite Rabs_pos_eq; lra). ncbn. intros H. injection H as <-. pose proof (pm_incr g m s Hg Hm Hs). lra.
Qed.
Lemma mw_spec s : e <= s <= 1 - e -> mach_wall supn (Some g) (Some om0) ywall (Some s) = Some (mw s) /\ 1 < mw s /\ pm g (mw s) = om0 - al s.
Proof using Hg HM0 HM1 Ha E1.
  intros Hs. destruct (al_ang s Hs) as [EA [Hb _]]. unfold mw. unfold mach_wall. rewrite EA. change (nsub (Some om0) (Some (al s))) with (Some (om0 - al s)).
  assert (0 <= pm g M0). { rewrite <- (pm_1 g Hg). destruct HM0 as [H| <-]; [left; apply pm_incr; lra|lra]. }
  destruct (supn_pm (om0 - al s)) as [m [Hm [Em ES]]]. { unfold om0 in *. lra. }
  rewrite ES. split; [reflexivity|]. split; [|exact Em]. destruct Hm as [|<-]; [assumption|]. rewrite pm_1 in Em by assumption. unfold om0 in Em. lra.
Qed.
Definition K (s : R) : R := tan (rad (cpl g om0 (mw s))).
Lemma c_bounds s : e <= s <= 1 - e -> -90 < cpl g om0 (mw s) < 90 /\ cpl g om0 (mw s) = al s + mua (mw s).
Proof using Hg HM0 HM1 Ha E1.
  intros Hs. destruct (mw_spec s Hs) as [_ [Hm Em]]. destruct (al_ang s Hs) as [_ [Hb _]]. destruct (mua_spec (mw s) ltac:(lra)) as [Hp _].
  unfold cpl. rewrite Em. split; lra.
Qed.
Lemma K_gt s : e <= s <= 1 - e -> T * s < K s.
Proof using Hg HM0 HM1 Ha E1.
  intros Hs. destruct (c_bounds s Hs) as [Hc Ec]. destruct (al_ang s Hs) as [_ [Hb <-]]. unfold K. destruct (mw_spec s Hs) as [_ [Hm _]].
  destruct (mua_spec (mw s) ltac:(lra)) as [Hp _]. apply tan_lt; lra.
Qed.
Lemma mw_incr s t : e <= s -> s <= t -> t <= 1 - e -> mw s <= mw t.
Proof using Hg HM0 HM1 Ha E1.
  intros H1 H2 H3. destruct (mw_spec s ltac:(lra)) as [_ [Hm Em]]. destruct (mw_spec t ltac:(lra)) as [_ [Hn En]].
  apply Rnot_lt_le. intros C. pose proof (pm_incr g (mw t) (mw s) Hg ltac:(lra) C) as P. rewrite Em, En in P.
  assert (al t <= al s); [|lra]. unfold al. apply deg_le. pose proof T_neg. destruct (Rle_lt_or_eq_dec (T * t) (T * s)) as [L|L]; [nra|left; now apply atan_increasing|rewrite L; lra].
Qed.
Lemma K_decr s t : e <= s -> s <= t -> t <= 1 - e -> K t <= K s.
Proof using Hg HM0 HM1 Ha E1.
  intros H1 H2 H3. destruct (c_bounds s ltac:(lra)) as [Bs Es]. destruct (c_bounds t ltac:(lra)) as [Bt Et]. unfold K. apply tan_le; [lra| |lra]. unfold cpl.
  pose proof (mw_incr s t H1 H2 H3) as Hi. destruct (mw_spec s ltac:(lra)) as [_ [Hm _]].
  assert (pm g (mw s) <= pm g (mw t)). { destruct Hi as [Hi|Hi]; [left; apply pm_incr; lra|rewrite Hi; lra]. }
  assert (mua (mw t) <= mua (mw s)); [|lra]. unfold mua. apply deg_le. destruct Hi as [Hi|Hi]; [|rewrite Hi; lra]. left.
  apply asin_increasing; [pose proof (inv_M (mw t) ltac:(lra)); lra|apply Rmult_lt_compat_l; [lra|apply Rinv_lt_contravar; nra]|pose proof (inv_M (mw s) ltac:(lra)); lra].
Qed.
Lemma yw_slope s t : e <= s -> s < t -> t <= 1 - e -> yw t - yw s <= T * s * (t - s).
Proof using Ha.
  intros H1 H2 H3. unfold yw, rampf. fold T. unfold sqp, Rmax, e in *. pose proof T_neg as HT. pose proof (pow2_ge_0 (t - s)) as Hp.
  assert (T * (t - s) ^ 2 <= 0) by nra. repeat destruct Rle_dec; try lra; nra.
Qed.
Definition FF (x y s : R) : R := y - yw s + K s * (s - x).
Lemma FF_incr x y s t : e <= s -> s < t -> t <= 1 - e -> t <= x -> FF x y s < FF x y t.
Proof using Hg HM0 HM1 Ha E1.
  intros H1 H2 H3 H4. unfold FF. pose proof (yw_slope s t H1 H2 H3). pose proof (K_gt s ltac:(lra)). pose proof (K_decr s t H1 ltac:(lra) H3).
  assert (T * s * (t - s) < K s * (t - s)) by (apply Rmult_lt_compat_r; lra). assert (K t * (x - t) <= K s * (x - t)) by (apply Rmult_le_compat_r; lra). nra.
Qed.
(** derivatives *)
Lemma mw_D s : e < s < 1 - e -> ex_derive mw s.
Proof using Hg HM0 HM1 Ha E1.
  intros Hs. destruct (mw_spec s ltac:(lra)) as [_ [Hm Em]].
  assert (LS : locally s (fun t => e < t < 1 - e)). { apply (locally_interval _ s e (1 - e)); [exact (proj1 Hs)|exact (proj2 Hs)|]. intros t H1 H2. exact (conj H1 H2). }
  set (minv := fun w => match Mach_PrandtlMeyer supn (Some w) (Some g) with Some m => m | None => 0 end).
  assert (IV : forall w, 0 < w < pm g M1 -> 1 < minv w < M1 /\ pm g (minv w) = w).
  { intros w Hw. destruct (supn_pm w ltac:(lra)) as [m [Hm1 [Ep EN]]]. unfold minv. rewrite EN. split; [|exact Ep]. split.
    - destruct Hm1 as [|Hm1]; [assumption|]. rewrite <- Hm1, pm_1 in Ep by assumption. lra.
    - apply Rnot_le_lt. intros C. assert (pm g M1 <= pm g m); [|lra]. destruct C as [C|C]; [left; apply pm_incr; lra|rewrite C; lra]. }
  set (w0 := om0 - al s).
  assert (P0 : 0 <= pm g M0). { rewrite <- (pm_1 g Hg). destruct HM0 as [H|H]; [left; apply pm_incr; lra|rewrite <- H; lra]. }
  assert (Hw0 : 0 < w0 < pm g M1). { destruct (al_ang s ltac:(lra)) as [_ [Hb _]]. unfold w0, om0 in *. lra. }
  assert (LW : locally w0 (fun w => 0 < w < pm g M1)).
  { apply (locally_interval _ w0 0 (pm g M1)); [exact (proj1 Hw0)|exact (proj2 Hw0)|]. intros t H1 H2. exact (conj H1 H2). }
  assert (Dinv : ex_derive minv w0).
  { destruct (IV w0 Hw0) as [Hi Ei]. eexists. apply (implicit_D (pm g) (fun _ => -1) minv w0 (dpm g (minv w0)) 0).
    - apply (implicit_C (pm g) (fun _ => -1) minv w0 1 M1); [exact Hi|]. revert LW. apply filter_imp. intros w Hw. destruct (IV w Hw) as [A B].
      split; [exact A|]. split; [rewrite B; ring|]. intros u v Hu Huv Hv. pose proof (pm_incr g u v Hg ltac:(lra) Huv). lra.
    - revert LW. apply filter_imp. intros w Hw. destruct (IV w Hw) as [A B]. rewrite B. ring.
    - apply pm_derive; [assumption|lra].
    - apply (is_derive_const (-1)).
    - pose proof (dpm_bound g (minv w0) Hg ltac:(lra)). lra. }
  assert (Dal : ex_derive al s).
  { unfold al, deg. apply (ex_derive_ext (fun t => scal (180 / PI) (atan (T * t)))). { intros t. unfold scal; cbn; unfold mult; cbn. field. apply PI_neq0. }
    apply (ex_derive_scal (fun t => atan (T * t))). auto_derive. exact I. }
  apply (ex_derive_ext_loc (fun t => minv (om0 - al t))).
  - revert LS. apply filter_imp. intros t Ht. destruct (al_ang t ltac:(lra)) as [EA _]. unfold minv, mw, mach_wall. rewrite EA.
    change (nsub (Some om0) (Some (al t))) with (Some (om0 - al t)). reflexivity.
  - apply (ex_derive_comp minv (fun t => om0 - al t)); [exact Dinv|]. apply (ex_derive_minus (fun _ => om0) al); [apply ex_derive_const|exact Dal].
Qed.
Lemma K_D s : e < s < 1 - e -> ex_derive K s.
Proof using Hg HM0 HM1 Ha E1.
  intros Hs. destruct (mw_spec s ltac:(lra)) as [_ [Hm _]]. destruct (c_bounds s ltac:(lra)) as [Hc _]. destruct (mw_D s Hs) as [dm Dm].
  destruct (cpl_ex g om0 (mw s) Hg Hm) as [c Dc]. eexists. apply (is_derive_comp tan (fun s => rad (cpl g om0 (mw s)))).
  - apply is_derive_tan. apply Rgt_not_eq, cos_wall. exact Hc.
  - apply (is_derive_ext (fun s => scal (PI / 180) (cpl g om0 (mw s)))). { intros t. unfold rad, scal; cbn; unfold mult; cbn. field. }
    apply (is_derive_scal (fun s => cpl g om0 (mw s))). apply (is_derive_comp (cpl g om0) mw); [exact Dc|exact Dm].
Qed.
Lemma yw_D s : e < s < 1 - e -> is_derive yw s (T * s).
Proof using Ha.
  intros Hs. apply is_derive_Reals. pose proof (rampf_D ang s) as D. fold T in D. replace (Rmax 0 (Rmin s 1)) with s in D; [exact D|].
  unfold Rmax, Rmin, e in *. repeat destruct Rle_dec; lra.
Qed.
(** ** the fields *)
Section Point.
Variables (s0 x0 : R).
Hypothesis Hs0 : e < s0 < 1 - e. Hypothesis Hx0 : 1 <= x0.
Let y0 := yw s0 + K s0 * (x0 - s0).
Definition foot (x y : R) : R := real (Lub_Rbar (fun s => s <= 1 - e /\ (s <= e \/ FF x y s <= 0))).
Lemma foot_root x y s : e < s < 1 - e -> 1 - e <= x -> FF x y s = 0 -> foot x y = s.
Proof using Hg HM0 HM1 Ha E1.
  intros Hs Hx E. unfold foot. set (P := fun s => _). assert (L : Lub_Rbar P = Finite s); [|now rewrite L].
  apply is_lub_Rbar_unique. split.
  - intros t [H1 H2]. cbn. apply Rnot_lt_le. intros C. pose proof (FF_incr x y s t ltac:(lra) C H1 ltac:(lra)). lra.
  - intros b Hb. apply Hb. split; [lra|]. right. lra.
Qed.
Lemma F0 : FF x0 y0 s0 = 0. Proof. unfold FF, y0. ring. Qed.
(** around the point there is a root in (e, 1 - e) *)
Lemma near_root : exists r, 0 < r /\ r <= e /\ forall x y, Rabs (x - x0) < r -> Rabs (y - y0) < r -> 1 - e <= x /\ e < foot x y < 1 - e /\ FF x y (foot x y) = 0.
Proof using Hg HM0 HM1 Ha E1 Hs0 Hx0.
  set (u := (e + s0) / 2). set (v := (s0 + (1 - e)) / 2).
  assert (He : 0 < e) by (unfold e; lra).
  assert (Hu : e < u < s0) by (unfold u; lra). assert (Hv : s0 < v < 1 - e) by (unfold v; lra).
  pose proof (FF_incr x0 y0 u s0 ltac:(lra) ltac:(lra) ltac:(lra) ltac:(lra)) as Gu. pose proof (FF_incr x0 y0 s0 v ltac:(lra) ltac:(lra) ltac:(lra) ltac:(lra)) as Gv. rewrite F0 in Gu, Gv.
  set (q := 1 + Rabs (K u) + Rabs (K v)). pose proof (Rabs_pos (K u)). pose proof (Rabs_pos (K v)).
  set (r := Rmin e (Rmin (- FF x0 y0 u / q) (FF x0 y0 v / q))).
  assert (Hq : 1 <= q) by (unfold q; lra).
  assert (Hr : 0 < r /\ r <= e /\ r <= - FF x0 y0 u / q /\ r <= FF x0 y0 v / q).
  { unfold r. repeat apply conj; [repeat apply Rmin_glb_lt; [lra|apply Rdiv_lt_0_compat; lra|apply Rdiv_lt_0_compat; lra]|apply Rmin_l| |]; (eapply Rle_trans; [apply Rmin_r|]); [apply Rmin_l|apply Rmin_r]. }
  exists r. split; [lra|]. split; [lra|]. intros x y Hx Hy.
  assert (Hx1 : 1 - e <= x) by (apply Rabs_def2 in Hx; lra). split; [exact Hx1|].
  assert (Dif : forall s, Rabs (K s) + 1 <= q -> Rabs (FF x y s - FF x0 y0 s) < r * q).
  { intros s Hs. replace (FF x y s - FF x0 y0 s) with ((y - y0) + K s * (x0 - x)) by (unfold FF; ring).
    eapply Rle_lt_trans; [apply Rabs_triang|]. rewrite Rabs_mult, (Rabs_minus_sym x0 x). pose proof (Rabs_pos (K s)). pose proof (Rabs_pos (x - x0)).
    assert (Rabs (K s) * Rabs (x - x0) <= Rabs (K s) * r) by (apply Rmult_le_compat_l; lra).
    assert (r * (Rabs (K s) + 1) <= r * q) by (apply Rmult_le_compat_l; lra). lra. }
  assert (R1 : r * q <= - FF x0 y0 u). { replace (- FF x0 y0 u) with (- FF x0 y0 u / q * q) by (field; lra). apply Rmult_le_compat_r; lra. }
  assert (R2 : r * q <= FF x0 y0 v). { replace (FF x0 y0 v) with (FF x0 y0 v / q * q) by (field; lra). apply Rmult_le_compat_r; lra. }
  pose proof (Dif u ltac:(unfold q; lra)) as Du. pose proof (Dif v ltac:(unfold q; lra)) as Dv. apply Rabs_def2 in Du. apply Rabs_def2 in Dv.
  assert (IVTR : exists s, u < s < v /\ FF x y s = 0).
  { destruct (IVT_value (FF x y) u v 0) as [s [Bs Es]]; [lra| |lra|].
    - intros t Ht. apply (ex_derive_continuous (FF x y) t). unfold FF. destruct (K_D t ltac:(lra)) as [k Dk]. pose proof (yw_D t ltac:(lra)) as Dy.
      apply (ex_derive_plus (fun t => y - yw t) (fun t => K t * (t - x))); [apply (ex_derive_minus (fun _ => y) yw); [apply ex_derive_const|eexists; exact Dy]|].
      apply (ex_derive_mult K (fun t => t - x)); [eexists; exact Dk|]. auto_derive. exact I.
    - exists s. split; [|exact Es]. split.
      + destruct (Rle_lt_or_eq_dec _ _ (proj1 Bs)) as [|Q]; [assumption|]. rewrite <- Q in Es. lra.
      + destruct (Rle_lt_or_eq_dec _ _ (proj2 Bs)) as [|Q]; [assumption|]. rewrite Q in Es. lra. }
  destruct IVTR as [s [Bs Es]]. rewrite (foot_root x y s ltac:(lra) Hx1 Es). split; [lra|exact Es].
Qed.
Lemma k_nonpos k : is_derive K s0 k -> k <= 0.
Proof using Hg HM0 HM1 Ha E1 Hs0.
  intros D. apply (derive_nonpos K s0); [exact D|]. apply (locally_interval _ s0 e (1 - e)); [exact (proj1 Hs0)|exact (proj2 Hs0)|].
  intros t H1 H2 H3. cbn in H1, H2. apply K_decr; lra.
Qed.
Lemma foot_x : exists fx, partial_x foot x0 y0 fx.
Proof using Hg HM0 HM1 Ha E1 Hs0 Hx0.
  destruct near_root as [r [Hr [_ NR]]]. assert (Ef : foot x0 y0 = s0) by (apply foot_root; [exact Hs0|unfold e; lra|exact F0]).
  destruct (K_D s0 Hs0) as [k Dk]. pose proof (k_nonpos k Dk) as Hk. pose proof (K_gt s0 ltac:(lra)) as HKg.
  assert (LX : locally x0 (fun t => 1 - e <= t /\ e < foot t y0 < 1 - e /\ FF t y0 (foot t y0) = 0)).
  { exists (mkposreal r Hr). intros t Ht. apply NR; [exact Ht|rewrite Rminus_diag_eq, Rabs_R0 by reflexivity; exact Hr]. }
  assert (DA : is_derive (fun s => y0 - yw s + K s * s) s0 (- (T * s0) + (k * s0 + K s0))).
  { apply (is_derive_plus (fun s => y0 - yw s) (fun s => K s * s)).
    - evar_last; [apply (is_derive_minus (fun _ => y0) yw); [apply is_derive_const|apply yw_D; exact Hs0]|]. unfold minus, plus, opp, zero; cbn. ring.
    - evar_last; [apply (is_derive_mult K (fun s => s)); [exact Dk|apply is_derive_id|intros; apply Rmult_comm]|]. unfold plus, mult, one; cbn. ring. }
  assert (DQ : is_derive (fun s => - K s) s0 (- k)) by (apply (is_derive_opp K); exact Dk).
  eexists. unfold partial_x. apply is_derive_Reals. rewrite <- Ef in DA at 1. rewrite <- Ef in DQ.
  apply (implicit_D (fun s => y0 - yw s + K s * s) (fun s => - K s) (fun t => foot t y0) x0 (- (T * s0) + (k * s0 + K s0)) (- k)).
  - apply (implicit_C (fun s => y0 - yw s + K s * s) (fun s => - K s) (fun t => foot t y0) x0 e (1 - e)); [rewrite Ef; exact Hs0|].
    revert LX. apply filter_imp. intros t [A [B C]]. split; [exact B|]. split; [unfold FF in C; lra|]. intros u v H1 H2 H3.
    pose proof (FF_incr t y0 u v ltac:(lra) H2 ltac:(lra) ltac:(lra)) as I. unfold FF in I. lra.
  - revert LX. apply filter_imp. intros t [A [B C]]. unfold FF in C. lra.
  - exact DA.
  - exact DQ.
  - apply Rgt_not_eq. unfold e in *. assert (0 <= k * (s0 - x0)) by nra. lra.
Qed.
Lemma foot_y : exists fy, partial_y foot x0 y0 fy.
Proof using Hg HM0 HM1 Ha E1 Hs0 Hx0.
  destruct near_root as [r [Hr [_ NR]]]. assert (Ef : foot x0 y0 = s0) by (apply foot_root; [exact Hs0|unfold e; lra|exact F0]).
  destruct (K_D s0 Hs0) as [k Dk]. pose proof (k_nonpos k Dk) as Hk. pose proof (K_gt s0 ltac:(lra)) as HKg.
  assert (LX : locally y0 (fun t => 1 - e <= x0 /\ e < foot x0 t < 1 - e /\ FF x0 t (foot x0 t) = 0)).
  { exists (mkposreal r Hr). intros t Ht. apply NR; [rewrite Rminus_diag_eq, Rabs_R0 by reflexivity; exact Hr|exact Ht]. }
  assert (DA : is_derive (fun s => - yw s + K s * (s - x0)) s0 (- (T * s0) + (k * (s0 - x0) + K s0))).
  { apply (is_derive_plus (fun s => - yw s) (fun s => K s * (s - x0))).
    - apply (is_derive_opp yw). apply yw_D; exact Hs0.
    - evar_last; [apply (is_derive_mult K (fun s => s - x0)); [exact Dk|apply (is_derive_minus (fun s => s) (fun _ => x0)); [apply is_derive_id|apply is_derive_const]|intros; apply Rmult_comm]|]. unfold minus, opp, zero, plus, mult, one; cbn. ring. }
  eexists. unfold partial_y. apply is_derive_Reals. rewrite <- Ef in DA at 1.
  apply (implicit_D (fun s => - yw s + K s * (s - x0)) (fun _ => 1) (fun t => foot x0 t) y0 (- (T * s0) + (k * (s0 - x0) + K s0)) 0).
  - apply (implicit_C (fun s => - yw s + K s * (s - x0)) (fun _ => 1) (fun t => foot x0 t) y0 e (1 - e)); [rewrite Ef; exact Hs0|].
    revert LX. apply filter_imp. intros t [A [B C]]. split; [exact B|]. split; [unfold FF in C; lra|]. intros u v H1 H2 H3.
    pose proof (FF_incr x0 t u v ltac:(lra) H2 ltac:(lra) ltac:(lra)) as I. unfold FF in I. lra.
  - revert LX. apply filter_imp. intros t [A [B C]]. unfold FF in C. lra.
  - exact DA.
  - apply (is_derive_const 1).
  - apply Rgt_not_eq. unfold e in *. assert (0 <= k * (s0 - x0)) by nra. lra.
Qed.
End Point.
Lemma turn_fixed x y s : e <= s <= 1 - e -> FF x y s = 0 ->
  mach_turn supn supn (Some g) (Some om0) ywall (Some x) (Some y) (Some (mw s)) = (Some (mw s), Some (mw s), Some s).
Proof using Hg HM0 HM1 Ha E1.
  intros Hs E. destruct (mw_spec s Hs) as [EW [Hm Em]]. destruct (c_bounds s Hs) as [Hc _]. pose proof (K_gt s Hs) as HK. unfold mach_turn. cbv zeta.
  rewrite PM_eval by (try assumption; rewrite Rabs_pos_eq; lra). rewrite ndiv_Some by lra. rewrite dasin_eval by (pose proof (inv_M (mw s) ltac:(lra)); lra). fold (mua (mw s)).
  change (nadd (nsub (Some om0) (Some (pm g (mw s)))) (Some (mua (mw s)))) with (Some (cpl g om0 (mw s))).
  rewrite dtan_eval by (apply Rgt_not_eq, cos_wall; exact Hc). fold (K s).
  rewrite (supn_root _ _ s).
  - rewrite EW. ncbn. do 3 f_equal. field.
  - unfold ywall. rewrite ramp_eval by lra. ncbn. f_equal. unfold FF in E. exact E.
  - intros t q Ht. unfold ywall. rewrite ramp_eval by lra. ncbn. intros H. injection H as <-. fold yw.
    destruct (MVT_cor2 yw _ s t Ht (fun c _ => rampf_D ang c)) as [c [EV Hcc]]. fold T in EV. pose proof T_neg as HT.
    assert (Hcl : s <= Rmax 0 (Rmin c 1)). { unfold Rmax, Rmin, e in *. repeat destruct Rle_dec; lra. }
    assert (T * Rmax 0 (Rmin c 1) * (t - s) <= T * s * (t - s)) by (apply Rmult_le_compat_r; [lra|nra]).
    assert (T * s * (t - s) < K s * (t - s)) by (apply Rmult_lt_compat_r; lra).
    unfold FF in E. nra.
Qed.
End Ramp.

(*@P C90_ramp_wave: The simple wave over an expanding ramp exists: for every gamma > 1, M0 >= 1, ramp angle in (-90, 0) that the flow can turn (M1 the Mach number after the turn), and every point with abscissa at least 1 on the characteristic of any wall point s0 of the curved part, there are exact root finders, and fields of Mach number and foot around the point - s0 at the point, where the Mach number is strictly between M0 and M1 - that a turn of the loop of mach reproduces at every point nearby, and with the directions of flow_prop they solve the steady Euler equations there. *)
Lemma ramp_wave : forall g M0 M1 ang s0 x0, 1 < g -> 1 <= M0 -> 1 <= M1 -> -90 < ang < 0 -> pm_deg g M1 = pm_deg g M0 - ang ->
  1/10000 < s0 < 1 - 1/10000 -> 1 <= x0 ->
  exists newton fsolve mach foot dir y0 yw0 c0 r, solves 0 newton /\ solves 0 fsolve /\ 0 < r /\
    let om0 := wall_om0 (Some g) (Some M0) in let yw := ywall_ramp (Some ang) in
    foot x0 y0 = s0 /\ M0 < mach x0 y0 < M1 /\ yw (Some s0) = Some yw0 /\
    p_plus (wall_flow_prop (Some g) om0 (Some (mach x0 y0))) = Some c0 /\ y0 - yw0 = tan (rd c0) * (x0 - s0) /\
    (forall x y, Rabs (x - x0) < r -> Rabs (y - y0) < r ->
       mach_turn newton fsolve (Some g) om0 yw (Some x) (Some y) (Some (mach x y)) = (Some (mach x y), Some (mach x y), Some (foot x y)) /\
       p_ang (wall_flow_prop (Some g) om0 (Some (mach x y))) = Some (dir x y)) /\
    steady_euler g dir mach x0 y0.
Proof.
  intros g M0 M1 ang s0 x0 Hg H0 H1 Ha E1 Hs Hx. rewrite !pm_deg_pm in E1 by assumption.
  set (om0 := pm g M0). set (F := foot g M0 ang). set (mach := fun x y => mw g M0 ang (F x y)). set (dir := fun x y => om0 - pm g (mach x y)).
  set (y0 := rampf ang s0 + K g M0 ang s0 * (x0 - s0)).
  destruct (near_root g M0 M1 ang Hg H0 H1 Ha E1 s0 x0 Hs Hx) as [r [Hr [Hre NR]]]. fold y0 in NR. fold F in NR.
  assert (Ef : F x0 y0 = s0) by (apply (foot_root g M0 M1 ang); try assumption; [lra|apply (F0 g M0 ang)]).
  destruct (mw_spec g M0 M1 ang Hg H0 H1 Ha E1 s0 ltac:(lra)) as [EW [Hm Em]]. destruct (al_ang ang Ha s0 ltac:(lra)) as [EA [Ba _]].
  destruct (c_bounds g M0 M1 ang Hg H0 H1 Ha E1 s0 ltac:(lra)) as [Hc _].
  assert (EO : wall_om0 (Some g) (Some M0) = Some om0) by (unfold wall_om0; now rewrite PM_eval by (try assumption; rewrite Rabs_pos_eq; lra)).
  assert (Mge : forall x y, Rabs (x - x0) < r -> Rabs (y - y0) < r -> 1 <= mach x y).
  { intros x y Bx By. destruct (NR x y Bx By) as [_ [Bf _]]. unfold mach. destruct (mw_spec g M0 M1 ang Hg H0 H1 Ha E1 (F x y) ltac:(lra)) as [_ [Q _]]. lra. }
  assert (TF : forall x y, Rabs (x - x0) < r -> Rabs (y - y0) < r ->
     mach_turn supn supn (Some g) (Some om0) (ywall_ramp (Some ang)) (Some x) (Some y) (Some (mach x y)) = (Some (mach x y), Some (mach x y), Some (F x y)) /\
     p_ang (wall_flow_prop (Some g) (Some om0) (Some (mach x y))) = Some (dir x y)).
  { intros x y Bx By. split; [|rewrite wfp_eval by (try assumption; now apply Mge); reflexivity]. destruct (NR x y Bx By) as [_ [Bf Ef']].
    apply (turn_fixed g M0 M1 ang); try assumption. lra. }
  exists supn, supn, mach, F, dir, y0, (rampf ang s0), (cpl g om0 (mach x0 y0)), r.
  split; [apply supn_solves|]. split; [apply supn_solves|]. split; [exact Hr|]. cbv zeta. rewrite EO. split; [exact Ef|].
  assert (EMa : mach x0 y0 = mw g M0 ang s0) by (unfold mach; now rewrite Ef).
  split.
  { rewrite EMa. fold om0 in Em. split; apply Rnot_le_lt; intros C.
    - assert (pm g (mw g M0 ang s0) <= om0); [|lra]. unfold om0. destruct C as [C|C]; [left; apply pm_incr; lra|rewrite C; lra].
    - assert (pm g M1 <= pm g (mw g M0 ang s0)); [|unfold om0 in Em; lra]. destruct C as [C|C]; [left; apply pm_incr; lra|rewrite C; lra]. }
  split; [apply ramp_eval; lra|]. split; [rewrite EMa, wfp_eval by lra; reflexivity|].
  split; [rewrite rd_rad, EMa; unfold y0, K; fold om0; ring|]. split; [exact TF|].
  apply (wall_euler supn supn g om0 (ywall_ramp (Some ang)) (rampf ang) (mw g M0 ang) mach dir F x0 y0 (Rmin r (Rmin (s0 - 1/10000) (1 - 1/10000 - s0)))); try assumption.
  - apply supn_solves.
  - repeat apply Rmin_glb_lt; lra.
  - intros s. apply ramp_eval. lra.
  - intros x y Bx By. assert (Rabs (x - x0) < r /\ Rabs (y - y0) < r) as [Bx' By'] by (split; eapply Rlt_le_trans; try eassumption; apply Rmin_l).
    split; [now apply Mge|]. now apply TF.
  - rewrite EMa. exact Hm.
  - intros s Bs. rewrite Ef in Bs. apply (mw_spec g M0 M1 ang); try assumption.
    pose proof (Rlt_le_trans _ _ _ Bs (Rmin_r _ _)) as B. pose proof (Rlt_le_trans _ _ _ B (Rmin_l _ _)). pose proof (Rlt_le_trans _ _ _ B (Rmin_r _ _)). 
    unfold Rabs in *. destruct Rcase_abs; lra.
  - rewrite Ef. eexists. apply rampf_D.
  - rewrite Ef. destruct (mw_D g M0 M1 ang Hg H0 H1 Ha E1 s0 ltac:(lra)) as [d D]. exists d. now apply is_derive_Reals.
  - exact (foot_x g M0 M1 ang Hg H0 H1 Ha E1 s0 x0 Hs Hx).
  - exact (foot_y g M0 M1 ang Hg H0 H1 Ha E1 s0 x0 Hs Hx).
Qed.
