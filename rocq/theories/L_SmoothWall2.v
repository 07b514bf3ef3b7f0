From Coquelicot Require Import Coquelicot.
From Verif Require Import L_Num Spec NumSpec M_Degree M_IterSolve M_MassFlow M_Isentropic M_Supersonic M_Fan M_SmoothWall FanSpec L_Isentropic L_Degree L_Supersonic L_Supersonic2 L_Fan L_Fan2 L_Fan3 L_SmoothWall.
Open Scope R_scope.

Lemma rampf_slope ang a b : a <= b -> rampf ang b - rampf ang a <= Rmax 0 (tan (rad ang)) * (b - a).
Proof.
  intros [H| ->]; [|rewrite !Rminus_diag_eq by reflexivity; lra].
  destruct (MVT_cor2 (rampf ang) _ a b H (fun c _ => rampf_D ang c)) as [c [-> _]].
  apply Rmult_le_compat_r; [lra|]. assert (0 <= Rmax 0 (Rmin c 1) <= 1) by (unfold Rmax, Rmin; repeat destruct Rle_dec; lra).
  unfold Rmax at 2. destruct Rle_dec; nra.
Qed.
Lemma rampf_neg ang x : x <= 0 -> rampf ang x = 0.
Proof. intros Hx. unfold rampf, sqp, Rmax. repeat destruct Rle_dec; try lra; try (replace x with 0 by lra; field); field. Qed.
Lemma tan_lt x y : -90 < x -> x < y -> y < 90 -> tan (rad x) < tan (rad y).
Proof.
  intros H1 H2 H3. apply tan_increasing.
  - replace (- PI / 2) with (rad (-90)) by (unfold rad; field). apply rad_lt; lra.
  - now apply rad_lt.
  - rewrite <- rad_90. now apply rad_lt.
Qed.
Lemma tan_le x y : -90 < x -> x <= y -> y < 90 -> tan (rad x) <= tan (rad y).
Proof. intros H1 [H2| ->] H3; [left; now apply tan_lt|lra]. Qed.
Lemma tan_rad0 : tan (rad 0) = 0. Proof. now rewrite rad_0, tan_0. Qed.
(** one turn of the loop, with exact root finders, on the ramp *)
Lemma turn_exact newton fsolve g om0 ang x y m r mw xw : solves 0 newton -> solves 0 fsolve -> 1 < g -> 1 <= m -> -90 < ang < 90 ->
  mach_turn newton fsolve (Some g) (Some om0) (ywall_ramp (Some ang)) (Some x) (Some y) (Some m) = (Some r, mw, xw) ->
  exists mwr xr a, mw = Some mwr /\ xw = Some xr /\ r = (m + mwr) / 2 /\ 1 <= Rabs mwr /\
    y - rampf ang xr + tan (rad (om0 - pm g m + mua m)) * (xr - x) = 0 /\
    wall_angle (ywall_ramp (Some ang)) (Some xr) = Some a /\ pm g mwr = om0 - a.
Proof.
  intros HN HF Hg Hm Ha ET. unfold mach_turn in ET. cbv zeta in ET.
  rewrite PM_eval in ET by (try assumption; rewrite Rabs_pos_eq; lra). rewrite ndiv_Some in ET by lra.
  rewrite dasin_eval in ET by (pose proof (inv_M m Hm); lra). fold (mua m) in ET.
  change (nadd (nsub (Some om0) (Some (pm g m))) (Some (mua m))) with (Some (om0 - pm g m + mua m)) in ET. set (c := om0 - pm g m + mua m) in *.
  match type of ET with (_, mach_wall _ _ _ _ ?F, _) = _ => set (xf := F) in * end.
  pose proof (f_equal (fun p => fst (fst p)) ET) as E1. pose proof (f_equal (fun p => snd (fst p)) ET) as E2. pose proof (f_equal snd ET) as E3.
  cbn [fst snd] in E1, E2, E3. clear ET. rewrite E2 in E1. subst xw.
  destruct mw as [mwr|]; [|discriminate E1]. cbn in E1. injection E1 as E1.
  destruct xf as [xr|] eqn:EX.
  2:{ exfalso. unfold mach_wall, Mach_PrandtlMeyer in E2. apply HN in E2. destruct E2 as [e [Ee _]]. unfold wall_angle in Ee.
      change (nadd None wall_eps) with (@None R) in Ee. change (nsub None wall_eps) with (@None R) in Ee.
      change (ywall_ramp (Some ang) None) with (@None R) in Ee.
      change (nsub (PrandtlMeyer_Mach (Some mwr) (Some g)) None = Some e) in Ee. destruct (PrandtlMeyer_Mach (Some mwr) (Some g)); discriminate Ee. }
  unfold xf in EX. apply HF in EX. destruct EX as [e [Ee He]].
  assert (e = 0) as -> by (pose proof (Rabs_pos e); destruct (Req_dec e 0); [assumption|pose proof (Rabs_pos_lt e H0); lra]).
  unfold mach_wall in E2. destruct (wall_angle (ywall_ramp (Some ang)) (Some xr)) as [a|] eqn:EA.
  2:{ exfalso. unfold Mach_PrandtlMeyer in E2. apply HN in E2. destruct E2 as [e' [Ee' _]].
      change (nsub (PrandtlMeyer_Mach (Some mwr) (Some g)) None = Some e') in Ee'. destruct (PrandtlMeyer_Mach (Some mwr) (Some g)); discriminate Ee'. }
  apply (Mach_PM_residual newton 0) in E2; [|assumption]. destruct E2 as [w [Ew Hw]].
  assert (Hab : 1 <= Rabs mwr) by (apply (proj1 (proj1 (pm_domain g mwr Hg))); eauto).
  rewrite PM_eval in Ew by assumption. injection Ew as <-.
  exists mwr, xr, a. split; [reflexivity|]. split; [reflexivity|]. split; [lra|]. split; [exact Hab|].
  split; [|split; [exact EA|]].
  - cbn beta in Ee. rewrite ramp_eval in Ee by assumption.
    unfold dtan, ntan, nradians in Ee. cbn in Ee. destruct Req_EM_T in Ee; [discriminate|]. injection Ee as Ee. exact Ee.
  - pose proof (Rabs_pos (pm g mwr - (om0 - a))) as P. destruct (Req_dec (pm g mwr - (om0 - a)) 0) as [|N]; [lra|pose proof (Rabs_pos_lt _ N); lra].
Qed.
Lemma turn_zero newton fsolve g om0 ang x y : solves 0 newton -> solves 0 fsolve -> 1 < g ->
  forall r mw xw, mach_turn newton fsolve (Some g) (Some om0) (ywall_ramp (Some ang)) (Some x) (Some y) (Some 0) <> (Some r, mw, xw).
Proof.
  intros HN HF Hg r mw xw ET. unfold mach_turn in ET. cbv zeta in ET.
  assert (EP : PrandtlMeyer_Mach (Some 0) (Some g) = None).
  { destruct (PrandtlMeyer_Mach (Some 0) (Some g)) as [w|] eqn:E; [|reflexivity]. exfalso.
    assert (1 <= Rabs 0) by (apply (proj1 (proj1 (pm_domain g 0 Hg))); eauto). rewrite Rabs_R0 in H. lra. }
  rewrite EP in ET. change (nadd (nsub (Some om0) None) (dasin (ndiv (Some 1) (Some 0)))) with (@None R) in ET.
  match type of ET with (_, mach_wall _ _ _ _ ?F, _) = _ => set (xf := F) in * end.
  pose proof (f_equal (fun p => fst (fst p)) ET) as E1. cbn [fst snd] in E1.
  destruct (mach_wall newton (Some g) (Some om0) (ywall_ramp (Some ang)) xf) as [mwr|] eqn:E2; [|discriminate E1].
  destruct xf as [xr|] eqn:EX.
  - unfold xf in EX. apply HF in EX. destruct EX as [e [Ee _]]. change (nadd (nsub (Some y) (ywall_ramp (Some ang) (Some xr))) None = Some e) in Ee. destruct (nsub (Some y) (ywall_ramp (Some ang) (Some xr))); discriminate Ee.
  - unfold mach_wall, Mach_PrandtlMeyer in E2. apply HN in E2. destruct E2 as [e [Ee _]].
    change (nsub (PrandtlMeyer_Mach (Some mwr) (Some g)) None = Some e) in Ee. destruct (PrandtlMeyer_Mach (Some mwr) (Some g)); discriminate Ee.
Qed.

Lemma abs_gt a b : ngt (nabs (nsub (Some a) (Some b))) (Some (1/1000000)) = Some (if Rlt_dec (1/1000000) (Rabs (a - b)) then true else false).
Proof. reflexivity. Qed.
Lemma mach_angle_pos M mu : is_mach_angle M mu -> 0 < mu <= 90. Proof. now intros [H _]. Qed.
(** the loop, when its first foot is on the flat part *)
Lemma loop_flat newton fsolve g M0 ang x y fuel m : solves 0 newton -> solves 0 fsolve -> 1 < g -> 1 < M0 -> -90 < ang < mua M0 ->
  tan (rad (mua M0)) * (x + 1/10000) <= y ->
  mach_at fuel newton fsolve (Some g) (Some M0) (wall_om0 (Some g) (Some M0)) (ywall_ramp (Some ang)) (Some x) (Some y) = Some m -> m = M0.
Proof.
  intros HN HF Hg HM Ha Hy E. unfold wall_om0 in E. rewrite PM_eval in E by (try assumption; rewrite Rabs_pos_eq; lra).
  assert (Hmu : 0 < mua M0 < 90).
  { destruct (mua_spec M0 ltac:(lra)) as [Hm Hs]. split; [lra|]. destruct (Rle_lt_or_eq_dec _ _ (proj2 Hm)) as [|Q]; [assumption|]. exfalso.
    rewrite Q, rd_rad, rad_90, sin_PI2 in Hs. assert (M0 = 1); [|lra]. apply (Rmult_eq_reg_r (1 / M0)); [|apply Rgt_not_eq; pos]. rewrite <- Hs at 2. field. lra. }
  assert (Ht : 0 < tan (rad (mua M0))) by (rewrite <- tan_rad0; apply tan_lt; lra).
  assert (Hr : Rmax 0 (tan (rad ang)) < tan (rad (mua M0))). { unfold Rmax. destruct Rle_dec; [apply tan_lt; lra|assumption]. }
  unfold mach_at in E. destruct fuel as [|fuel]; cbn [mach_loop] in E; rewrite abs_gt, Rminus_0_r, (Rabs_pos_eq M0) in E by lra; (destruct Rlt_dec in E; [|lra]); [discriminate|].
  destruct (mach_turn _ _ _ _ _ _ _ _) as [[m1 mw1] xw1] eqn:ET.
  destruct m1 as [m1|].
  2:{ destruct fuel; discriminate E. }
  apply turn_exact in ET; [|assumption|assumption|assumption|lra|lra].
  destruct ET as [mwr [xr [a [-> [-> [E1 [Hab [ER [EA EP]]]]]]]]].
  replace (pm g M0 - pm g M0 + mua M0) with (mua M0) in ER by ring.
  assert (Hx : xr <= - (1/10000)).
  { apply Rnot_lt_le. intros C. pose proof (rampf_slope ang (Rmin 0 xr) xr (Rmin_r _ _)) as K. rewrite (rampf_neg ang (Rmin 0 xr)) in K by apply Rmin_l.
    assert (0 <= xr - Rmin 0 xr) by (pose proof (Rmin_r 0 xr); lra). assert (- (1/10000) < Rmin 0 xr) by (apply Rmin_glb_lt; lra).
    pose proof (Rmin_l 0 xr).
    assert (rampf ang xr <= tan (rad (mua M0)) * (xr - Rmin 0 xr)) by nra.
    assert (0 < tan (rad (mua M0)) * (Rmin 0 xr + 1 / 10000)) by (apply Rmult_lt_0_compat; lra). nra. }
  destruct (ramp_angle ang xr ltac:(lra)) as [RA _]. rewrite RA in EA by assumption. injection EA as <-. rewrite Rminus_0_r in EP.
  rewrite <- (pm_abs g mwr) in EP. apply pm_inj in EP; [|assumption|assumption|lra].
  unfold Rabs in EP. destruct Rcase_abs as [N|N] in EP.
  - (* the negative root: the next turn has no value *)
    exfalso. assert (m1 = 0) as -> by lra. assert (EG : ngt (nabs (nsub (Some 0) (Some mwr))) (Some (1/1000000)) = Some true) by (rewrite abs_gt, Rabs_pos_eq by lra; destruct Rlt_dec; [reflexivity|lra]).
    destruct fuel as [|fuel]; cbn [mach_loop] in E; rewrite EG in E; [discriminate E|].
    destruct (mach_turn _ _ _ _ _ _ _ _) as [[m2 mw2] xw2] eqn:ET2. destruct m2 as [m2|]; [exact (turn_zero _ _ _ _ _ _ _ HN HF Hg _ _ _ ET2)|destruct fuel; discriminate E].
  - subst mwr. assert (m1 = M0) as -> by lra. destruct fuel as [|fuel]; cbn [mach_loop] in E; rewrite abs_gt, Rminus_diag_eq, Rabs_R0 in E by reflexivity; destruct Rlt_dec in E; try lra.
    all: now injection E.
Qed.
(*@P C90_uniform: Upstream of the first characteristic nothing is disturbed. On the ramp, any M0 > 1 and ramp angle below the Mach angle mu0 of M0, with exact root finders: at every point on or above the line of angle mu0 through (-1e-4, 0) - so also everywhere above the flat wall far upstream - if mach(x, y) returns a value it is M0, and the flow there is parallel to the flat wall with characteristics at +mu0 and -mu0. *)
Lemma smooth_uniform : forall fuel newton fsolve g M0 mu0 ang x y m, solves 0 newton -> solves 0 fsolve -> 1 < g -> 1 < M0 ->
  is_mach_angle M0 mu0 -> -90 < ang < mu0 -> tan (rd mu0) * (x + 1/10000) <= y ->
  mach_at fuel newton fsolve (Some g) (Some M0) (wall_om0 (Some g) (Some M0)) (ywall_ramp (Some ang)) (Some x) (Some y) = Some m ->
  m = M0 /\ wall_flow_prop (Some g) (wall_om0 (Some g) (Some M0)) (Some m) = {| p_ang := Some 0; p_plus := Some mu0; p_minus := Some (- mu0) |}.
Proof.
  intros fuel newton fsolve g M0 mu0 ang x y m HN HF Hg HM Hmu Ha Hy E. apply mua_uniq in Hmu; [|lra]. subst mu0. rewrite rd_rad in Hy.
  apply loop_flat in E; try assumption. split; [exact E|]. subst m. unfold wall_om0. rewrite PM_eval by (try assumption; rewrite Rabs_pos_eq; lra).
  rewrite wfp_eval by lra. f_equal; f_equal; ring.
Qed.
