(** * C37, C38, C39: star states, waves and symmetries of the Riemann problem *)
From Verif Require Import L_Num Spec NumSpec M_Isentropic M_MassFlow M_ShockWave M_Model1D M_Unsteady1D M_Riemann L_Isentropic L_Shock L_Model1D L_Unsteady L_Riemann1.
Open Scope R_scope.

(** ** an accepted star pressure is positive *)
Lemma zint g : 1 < g -> 1/2 * (g - 1) / g <> IZR (Int_part (1/2 * (g - 1) / g)).
Proof.
  intros Hg E. assert (H : 0 < 1/2 * (g - 1) / g < 1).
  { split; [pos|]. apply (Rlt_div_l (1/2 * (g - 1)) 1 g); lra. }
  rewrite E in H. destruct H as [H1 H2]. apply lt_IZR in H1, H2. lia.
Qed.
Lemma delta_uK_neg g q p : 1 < g -> positive_state q -> p < 0 -> delta_uK (obj g q) (Some p) = None.
Proof.
  intros Hg Hq H. pose proof Hq as [Hr Hp]. unfold delta_uK; cbn [obj st_p].
  rewrite ngt_false by lra. cbn [nif]. unfold delta_u_expansion.
  change (mk_state (Some g) (Some (f_rho q)) (Some (f_u q)) (Some (f_p q))) with (obj g q).
  rewrite asound_eval by (assumption || lra). cbn [obj st_g st_p]; ncbn. rewrite !ndiv_Some by lra.
  assert (Hx : p / f_p q < 0) by (apply (Rlt_div_l p 0 (f_p q)); lra).
  unfold npow. destruct (Rlt_dec 0 (p / f_p q)); [lra|]. destruct (Req_EM_T (p / f_p q) 0); [lra|].
  destruct (Req_EM_T _ _) as [h|h]; [exfalso; exact (zint g Hg h)|reflexivity].
Qed.
Lemma delta_uK_zero g q : 1 < g -> positive_state q ->
  delta_uK (obj g q) (Some 0) = Some (- (2 * flow_sound g q / (g - 1))).
Proof.
  intros Hg Hq. pose proof Hq as [Hr Hp]. unfold delta_uK; cbn [obj st_p].
  rewrite ngt_false by lra. cbn [nif]. unfold delta_u_expansion.
  change (mk_state (Some g) (Some (f_rho q)) (Some (f_u q)) (Some (f_p q))) with (obj g q).
  rewrite asound_eval by (assumption || lra). cbn [obj st_g st_p]; ncbn. rewrite !ndiv_Some by lra.
  replace (0 / f_p q) with 0 by (field; lra).
  unfold npow. destruct (Rlt_dec 0 0); [lra|]. destruct (Req_EM_T 0 0); [|lra].
  destruct (Rlt_dec 0 (1/2 * (g - 1) / g)) as [h|h]; [|exfalso; apply h; pos].
  ncbn. f_equal. field. lra.
Qed.
Lemma exact_pstar newton gL gR qL qR x p : solves 0 newton -> 1 < gL -> 1 < gR ->
  positive_state qL -> positive_state qR -> no_vacuum gL gR qL qR ->
  newton (riemann_du (obj gL qL) (obj gR qR)) x = Some p -> 0 < p /\ duR gL gR qL qR p = 0.
Proof.
  intros Hn HgL HgR HL HR Hv E. destruct (Hn _ _ _ E) as (e & Ee & He).
  assert (He0 : e = 0) by (destruct (Req_dec e 0); [assumption|pose proof (Rabs_pos_lt e H); lra]).
  subst e. clear He E. destruct (Rtotal_order p 0) as [h|[h|h]].
  - unfold riemann_du in Ee. rewrite (delta_uK_neg gL qL p HgL HL h) in Ee. discriminate.
  - subst p. unfold riemann_du in Ee. rewrite (delta_uK_zero gL qL HgL HL), (delta_uK_zero gR qR HgR HR) in Ee.
    cbn [obj st_u] in Ee. ncbn. apply Some_inj in Ee. unfold no_vacuum in Hv. lra.
  - split; [lra|]. rewrite riemann_du_eval in Ee by (assumption || lra). now apply Some_inj in Ee.
Qed.

(** ** closed form of the solution *)
Definition srho (g : R) (q : flow) (p : R) : R :=
  if Rlt_dec (f_p q) p then shrho g q p else isrho g q p.
Definition sq (s g : R) (q : flow) (p : R) : flow := mkflow (srho g q p) (f_u q + s * fK g q p) p.
Definition wout (s g : R) (q : flow) (p : R) : R :=
  if Rlt_dec (f_p q) p then f_u q + s * shj g q p / f_rho q else f_u q + s * flow_sound g q.
Definition win (s g : R) (q : flow) (p : R) : R :=
  if Rlt_dec (f_p q) p then f_u q + s * shj g q p / f_rho q
  else f_u q + s * fK g q p + s * flow_sound g (sq s g q p).

Lemma srho_pos g q p : 1 < g -> positive_state q -> 0 < p -> 0 < srho g q p.
Proof. intros; unfold srho; destruct (Rlt_dec (f_p q) p); [now apply shrho_pos|now apply isrho_pos]. Qed.
Lemma sq_pos s g q p : 1 < g -> positive_state q -> 0 < p -> positive_state (sq s g q p).
Proof. intros; split; cbn; [now apply srho_pos|assumption]. Qed.
Lemma shrho_gt g q p : 1 < g -> positive_state q -> f_p q < p -> f_rho q < shrho g q p.
Proof.
  intros Hg Hq H. pose proof Hq as [Hr Hp]. rewrite shrho_alt by (assumption || lra). unfold shD.
  assert (0 < (g + 1) * f_p q + (g - 1) * p) by pos.
  apply (Rlt_div_r (f_rho q) (f_rho q * ((g + 1) * p + (g - 1) * f_p q)) _ H0).
  apply Rmult_lt_compat_l; [assumption|]. nra.
Qed.
Lemma wout_alt s g q p : 1 < g -> positive_state q -> f_p q < p -> s = 1 \/ s = -1 ->
  (f_rho q * f_u q - shrho g q p * (f_u q + s * shdu g q p)) / (f_rho q - shrho g q p)
  = f_u q + s * shj g q p / f_rho q.
Proof.
  intros Hg Hq H Hs. pose proof Hq as [Hr Hp]. assert (H0 : 0 < p) by lra.
  pose proof (shrho_gt g q p Hg Hq H) as Hgt.
  destruct (shock_family_RH g q p s Hg Hq H0 Hs) as (Hm & _ & _). unfold mass_flux in Hm; cbn in Hm.
  set (w := f_u q + s * shj g q p / f_rho q) in *.
  apply (Rmult_eq_reg_r (f_rho q - shrho g q p)); [|lra].
  replace ((f_rho q * f_u q - shrho g q p * (f_u q + s * shdu g q p)) / (f_rho q - shrho g q p) * (f_rho q - shrho g q p))
    with (f_rho q * f_u q - shrho g q p * (f_u q + s * shdu g q p)) by (field; lra). lra.
Qed.
Lemma star_side_eval s g q p : 1 < g -> positive_state q -> 0 < p -> s = 1 \/ s = -1 ->
  star_side s (obj g q) (Some p) (Some (f_u q + s * fK g q p))
  = Some (obj g (sq s g q p), Some (wout s g q p), Some (win s g q p)).
Proof.
  intros Hg Hq Hp Hs. pose proof Hq as [Hr Hpq]. unfold star_side, wout, win. cbn [obj st_p].
  change (mk_state (Some g) (Some (f_rho q)) (Some (f_u q)) (Some (f_p q))) with (obj g q).
  unfold sq. unfold srho. destruct (Rlt_dec (f_p q) p) as [h|h].
  - rewrite ngt_true by exact h. cbn [nif]. rewrite rho_through_shock_eval by assumption.
    pose proof (shrho_gt g q p Hg Hq h) as Hgt. unfold massflow; cbn [obj st_rho st_u]. ncbn.
    rewrite ndiv_Some by lra. assert (Ef : fK g q p = shdu g q p) by (unfold fK; destruct (Rlt_dec (f_p q) p); [reflexivity|lra]).
    rewrite !Ef, wout_alt by assumption. reflexivity.
  - rewrite ngt_false by lra. cbn [nif]. rewrite rho_through_isentropic_eval by assumption.
    change (state_init (Some (isrho g q p)) (Some (f_u q + s * fK g q p)) (Some p) (Some (st_g (obj g q))))
      with (obj g (mkflow (isrho g q p) (f_u q + s * fK g q p) p)).
    rewrite !asound_eval by (lra || assumption || (split; cbn; [now apply isrho_pos|assumption])).
    cbn [obj st_u]. ncbn. reflexivity.
Qed.
Lemma riemann_eval newton gL gR qL qR S : solves 0 newton -> 1 < gL -> 1 < gR ->
  positive_state qL -> positive_state qR -> no_vacuum gL gR qL qR ->
  riemann_pb newton (obj gL qL) (obj gR qR) = Some S ->
  exists p, 0 < p /\ duR gL gR qL qR p = 0 /\
    S = mk_riemann (obj gL qL) (obj gR qR) (Some p) (Some (f_u qL - fK gL qL p))
      (obj gL (sq (-1) gL qL p)) (obj gR (sq 1 gR qR p))
      (Some (wout (-1) gL qL p)) (Some (win (-1) gL qL p)) (Some (f_u qL - fK gL qL p))
      (Some (win 1 gR qR p)) (Some (wout 1 gR qR p)).
Proof.
  intros Hn HgL HgR HL HR Hv E. unfold riemann_pb, uq_copy in E.
  destruct (newton _ _) as [p|] eqn:En.
  2:{ unfold star_side in E. cbn [ngt nlt nif] in E. destruct (st_p (obj gL qL)); cbn in E; discriminate. }
  destruct (exact_pstar newton gL gR qL qR _ p Hn HgL HgR HL HR Hv En) as [Hp Hd].
  exists p. split; [exact Hp|]. split; [exact Hd|]. unfold duR in Hd.
  assert (Eu : ustar_from_pstar (obj gL qL) (obj gR qR) (Some p) = Some (f_u qL - fK gL qL p)).
  { unfold ustar_from_pstar. rewrite !delta_uK_eval by assumption. cbn [obj st_u]; ncbn. f_equal. lra. }
  rewrite Eu in E.
  assert (E1 : f_u qL - fK gL qL p = f_u qL + -1 * fK gL qL p) by lra.
  assert (E2 : f_u qL - fK gL qL p = f_u qR + 1 * fK gR qR p) by lra.
  rewrite E1 in E at 1. rewrite star_side_eval in E by (assumption || lra).
  rewrite E2 in E at 1. rewrite star_side_eval in E by (assumption || lra).
  injection E as <-. reflexivity.
Qed.
Lemma joined s g q p : 1 < g -> positive_state q -> 0 < p -> s = 1 \/ s = -1 ->
  joined_by_wave s g q (sq s g q p) (wout s g q p) (win s g q p).
Proof.
  intros Hg Hq Hp Hs. unfold joined_by_wave, wout, win, sq, srho, fK; cbn [f_p].
  destruct (Rlt_dec (f_p q) p) as [h|h].
  - left. split; [exact h|]. split; [reflexivity|]. now apply shock_family_RH.
  - right. split; [lra|]. cbn [f_u].
    destruct (simple_wave g q p s Hg Hq Hp Hs) as (r1 & du & E1 & _ & E2 & H1 & H2).
    rewrite rho_through_isentropic_eval in E1 by assumption. rewrite delta_u_expansion_eval in E2 by assumption.
    apply Some_inj in E1, E2. subst r1 du. auto.
Qed.

(*@P C37_star_states: With an exact root finder and no vacuum: both star states have the same positive pressure p* and the same velocity, which is the contact wave speed; densities are positive, gases are kept; each star state is joined to its side, with the stored wave speeds, by a Rankine-Hugoniot shock when p* is higher than that side's pressure and by an isentropic centred wave otherwise. *)
Lemma star_states : forall newton gL gR qL qR S, solves 0 newton -> 1 < gL -> 1 < gR ->
  positive_state qL -> positive_state qR ->
  f_u qR - f_u qL < 2 * flow_sound gL qL / (gL - 1) + 2 * flow_sound gR qR / (gR - 1) ->
  riemann_pb newton (obj gL qL) (obj gR qR) = Some S ->
  exists p u rL rR w0 w1 w3 w4,
    r_pstar S = Some p /\ 0 < p /\ r_ustar S = Some u /\ r_w2 S = Some u /\
    r_qL S = obj gL qL /\ r_qR S = obj gR qR /\
    r_qsL S = obj gL (mkflow rL u p) /\ 0 < rL /\ r_qsR S = obj gR (mkflow rR u p) /\ 0 < rR /\
    r_w0 S = Some w0 /\ r_w1 S = Some w1 /\ r_w3 S = Some w3 /\ r_w4 S = Some w4 /\
    joined_by_wave (-1) gL qL (mkflow rL u p) w0 w1 /\
    joined_by_wave 1 gR qR (mkflow rR u p) w4 w3.
Proof.
  intros newton gL gR qL qR S Hn HgL HgR HL HR Hv E.
  destruct (riemann_eval newton gL gR qL qR S Hn HgL HgR HL HR Hv E) as (p & Hp & Hd & ->).
  unfold duR in Hd.
  assert (E1 : f_u qL - fK gL qL p = f_u qL + -1 * fK gL qL p) by lra.
  assert (E2 : f_u qL - fK gL qL p = f_u qR + 1 * fK gR qR p) by lra.
  exists p, (f_u qL - fK gL qL p), (srho gL qL p), (srho gR qR p).
  exists (wout (-1) gL qL p), (win (-1) gL qL p), (win 1 gR qR p), (wout 1 gR qR p).
  cbn [r_pstar r_ustar r_w2 r_qL r_qR r_qsL r_qsR r_w0 r_w1 r_w3 r_w4].
  pose proof (srho_pos gL qL p HgL HL Hp). pose proof (srho_pos gR qR p HgR HR Hp).
  repeat (split; [first [reflexivity|assumption|unfold sq; rewrite E1; reflexivity|unfold sq; rewrite E2; reflexivity]|]).
  split.
  - rewrite E1. apply joined; auto.
  - rewrite E2. apply joined; auto.
Qed.

(*@P C37_residual: For a root finder that only guarantees a residual of at most eps, the star velocity is within eps/2 of the velocity each side's wave relation gives at p*: the error is split evenly between the two waves. *)
Lemma star_residual : forall newton eps gL gR qL qR S p, solves eps newton -> 1 < gL -> 1 < gR ->
  positive_state qL -> positive_state qR ->
  riemann_pb newton (obj gL qL) (obj gR qR) = Some S -> r_pstar S = Some p -> 0 < p ->
  exists u dL dR, r_ustar S = Some u /\
    delta_uK (obj gL qL) (Some p) = Some dL /\ delta_uK (obj gR qR) (Some p) = Some dR /\
    Rabs (u - (f_u qL - dL)) <= eps / 2 /\ Rabs (u - (f_u qR + dR)) <= eps / 2.
Proof.
  intros newton eps gL gR qL qR S p Hn HgL HgR HL HR E Ep Hp.
  unfold riemann_pb, uq_copy in E.
  destruct (newton _ _) as [p'|] eqn:En.
  2:{ unfold star_side in E. cbn [ngt nlt nif] in E. destruct (st_p (obj gL qL)); cbn in E; discriminate. }
  set (u := 1/2 * (f_u qR + f_u qL + fK gR qR p - fK gL qL p)).
  assert (p' = p).
  { destruct (star_side (-1) _ _ _) as [[[a b] c]|]; [|discriminate].
    destruct (star_side 1 _ _ _) as [[[a' b'] c']|]; [|discriminate].
    injection E as <-. cbn in Ep. congruence. }
  subst p'. destruct (Hn _ _ _ En) as (e & Ee & He).
  rewrite riemann_du_eval in Ee by assumption. apply Some_inj in Ee. unfold duR in Ee.
  exists u, (fK gL qL p), (fK gR qR p).
  assert (Eu : ustar_from_pstar (obj gL qL) (obj gR qR) (Some p) = Some u).
  { unfold ustar_from_pstar. rewrite !delta_uK_eval by assumption. cbn [obj st_u]; ncbn. reflexivity. }
  split.
  - rewrite Eu in E.
    destruct (star_side (-1) _ _ _) as [[[a b] c]|]; [|discriminate].
    destruct (star_side 1 _ _ _) as [[[a' b'] c']|]; [|discriminate].
    injection E as <-. reflexivity.
  - split; [now apply delta_uK_eval|]. split; [now apply delta_uK_eval|].
    replace (u - (f_u qL - fK gL qL p)) with (e / 2) by (unfold u; lra).
    replace (u - (f_u qR + fK gR qR p)) with (- (e / 2)) by (unfold u; lra).
    rewrite Rabs_Ropp. unfold Rdiv. rewrite Rabs_mult, (Rabs_pos_eq (/ 2)) by lra. split; lra.
Qed.

(** ** an exact run: symmetric receding flows *)
Definition qm := mkflow (14/10) (-1) 1.
Definition qp := mkflow (14/10) 1 1.
Lemma sound_qm u : flow_sound (14/10) (mkflow (14/10) u 1) = 1.
Proof. unfold flow_sound; cbn [f_p f_rho]. replace (14/10 * 1 / (14/10)) with 1 by lra. apply sqrt_1. Qed.
(*@E C37_example: a root finder meeting the hypothesis and two receding flows (u = -1 and u = 1): the constructor succeeds, with an exact star pressure below 1 *)
Lemma C37_example_lemma : solves 0 (lazy_newton 0) /\ positive_state qm /\ positive_state qp /\
  f_u qp - f_u qm < 2 * flow_sound (14/10) qm / (14/10 - 1) + 2 * flow_sound (14/10) qp / (14/10 - 1) /\
  exists S p, riemann_pb (lazy_newton 0) (obj (14/10) qm) (obj (14/10) qp) = Some S /\
    r_pstar S = Some p /\ 0 < p < 1.
Proof.
  assert (Hm : positive_state qm) by (split; cbn; lra). assert (Hpq : positive_state qp) by (split; cbn; lra).
  assert (Hv : no_vacuum (14/10) (14/10) qm qp).
  { unfold no_vacuum, qm, qp. rewrite !sound_qm. cbn [f_u]. lra. }
  split; [apply lazy_newton_solves; lra|]. split; [exact Hm|]. split; [exact Hpq|]. split; [exact Hv|].
  destruct (star_pressure (14/10) (14/10) qm qp) as [[_ HE] _]; try lra; try assumption.
  assert (Hest : exists p, 0 < p < 1 /\ pstar_estimate_expansion (obj (14/10) qm) (obj (14/10) qp) = Some p).
  { destruct (estimate_eval (14/10) qm qp ltac:(lra) Hm Hpq) as [HD HN].
    unfold qm, qp in *. rewrite !sound_qm in *. cbn [f_p f_u] in *.
    rewrite !Rpower_one in *. eexists; split; [|apply HN; lra].
    replace ((1 + 1 - 1 / 2 * (14 / 10 - 1) * (1 - -1)) / (1 / 1 + 1 / 1)) with (8/10) by lra.
    split; [apply Rpower_pos|]. apply Rpower_lt_1; [lra|]. pos. }
  destruct Hest as (p & Hp & Ep).
  assert (Hdu : riemann_du (obj (14/10) qm) (obj (14/10) qp) (Some p) = Some 0).
  { apply two_expansions; try lra; try assumption; cbn; lra. }
  assert (En : lazy_newton 0 (riemann_du (obj (14/10) qm) (obj (14/10) qp)) (pstar_estimate_expansion (obj (14/10) qm) (obj (14/10) qp)) = Some p).
  { unfold lazy_newton. rewrite Ep, Hdu. destruct (Rle_dec (Rabs 0) 0) as [_|h]; [reflexivity|].
    exfalso; apply h; rewrite Rabs_R0; lra. }
  unfold riemann_pb, uq_copy. rewrite En.
  rewrite riemann_du_eval in Hdu by (assumption || lra). apply Some_inj in Hdu. unfold duR in Hdu.
  assert (Eu : ustar_from_pstar (obj (14/10) qm) (obj (14/10) qp) (Some p) = Some (f_u qm - fK (14/10) qm p)).
  { unfold ustar_from_pstar. rewrite !delta_uK_eval by (assumption || lra). cbn [obj st_u]; ncbn. f_equal. lra. }
  rewrite Eu.
  assert (E1 : f_u qm - fK (14/10) qm p = f_u qm + -1 * fK (14/10) qm p) by lra.
  assert (E2 : f_u qm - fK (14/10) qm p = f_u qp + 1 * fK (14/10) qp p) by lra.
  pose proof (star_side_eval (-1) (14/10) qm p ltac:(lra) Hm ltac:(lra) (or_intror eq_refl)) as SL.
  pose proof (star_side_eval 1 (14/10) qp p ltac:(lra) Hpq ltac:(lra) (or_introl eq_refl)) as SR.
  rewrite <- E1 in SL. rewrite <- E2 in SR. rewrite SL, SR.
  eexists _, p. split; [reflexivity|]. split; [reflexivity|exact Hp].
Qed.

(** ** C38: ordering *)
Lemma shock_lt g q p : 1 < g -> positive_state q -> 0 < p -> shdu g q p < shj g q p / f_rho q.
Proof.
  intros Hg Hq Hp. pose proof (shj_pos g q p Hg Hq Hp) as Hj. pose proof (shj_sq g q p Hg Hq Hp) as Hj2.
  rewrite shdu_j by assumption. pose proof Hq as [Hr Hpq].
  apply (Rlt_div_l (p - f_p q) (shj g q p / f_rho q) (shj g q p) Hj).
  replace (shj g q p / f_rho q * shj g q p) with (shj g q p ^ 2 / f_rho q) by (field; lra).
  rewrite Hj2. replace (f_rho q * shD g q p / 2 / f_rho q) with (shD g q p / 2) by (field; lra).
  unfold shD. nra.
Qed.
(** in the direction of the wave, outer edge beyond inner edge beyond the contact *)
Lemma wave_order s g q p : 1 < g -> positive_state q -> 0 < p -> s = 1 \/ s = -1 ->
  s * win s g q p <= s * wout s g q p /\ s * (f_u q + s * fK g q p) < s * win s g q p.
Proof.
  intros Hg Hq Hp Hs. assert (Hs2 : s * s = 1) by (destruct Hs; subst; ring).
  pose proof (sq_pos s g q p Hg Hq Hp) as Hsq. pose proof (sound_pos g q ltac:(lra) Hq) as Ha.
  pose proof (sound_pos g _ ltac:(lra) Hsq) as Ha1.
  unfold win, wout. destruct (Rlt_dec (f_p q) p) as [h|h].
  - split; [lra|]. pose proof (shock_lt g q p Hg Hq Hp) as H.
    assert (Ef : fK g q p = shdu g q p) by (unfold fK; destruct (Rlt_dec (f_p q) p); [reflexivity|lra]).
    rewrite Ef.
    replace (s * (f_u q + s * shdu g q p)) with (s * f_u q + (s * s) * shdu g q p) by ring.
    replace (s * (f_u q + s * shj g q p / f_rho q)) with (s * f_u q + (s * s) * (shj g q p / f_rho q)) by (unfold Rdiv; ring).
    rewrite Hs2. lra.
  - replace (s * (f_u q + s * fK g q p + s * flow_sound g (sq s g q p))) with
      (s * f_u q + (s * s) * fK g q p + (s * s) * flow_sound g (sq s g q p)) by ring.
    replace (s * (f_u q + s * flow_sound g q)) with (s * f_u q + (s * s) * flow_sound g q) by ring.
    replace (s * (f_u q + s * fK g q p)) with (s * f_u q + (s * s) * fK g q p) by ring.
    rewrite Hs2. split; [|lra].
    assert (E : flow_sound g (sq s g q p) = flow_sound g q * Rpower (p / f_p q) (1/2 * (g - 1) / g)).
    { unfold sq, srho. destruct (Rlt_dec (f_p q) p); [lra|]. now apply iso_sound. }
    rewrite E. unfold fK. destruct (Rlt_dec (f_p q) p); [lra|]. unfold exdu.
    assert (HP : Rpower (p / f_p q) (1/2 * (g - 1) / g) <= 1).
    { destruct Hq as [Hr Hpq]. destruct (Rle_lt_or_eq_dec p (f_p q) ltac:(lra)) as [h1|h1].
      - left. apply Rpower_lt_1; [split; [pos|apply (Rlt_div_l p 1 (f_p q)); lra]|pos].
      - subst p. replace (f_p q / f_p q) with 1 by (field; lra). rewrite Rpower_one; lra. }
    set (P := Rpower _ _) in *. clearbody P.
    assert (H1 : 0 <= flow_sound g q / (1/2 * (g - 1))) by pos.
    assert (flow_sound g q / (1/2 * (g - 1)) * (P - 1) <= 0) by nra.
    assert (flow_sound g q * P <= flow_sound g q) by nra. lra.
Qed.
Lemma lax s g q p : 1 < g -> positive_state q -> f_p q < p -> s = 1 \/ s = -1 ->
  flow_sound g q < s * (wout s g q p - f_u q) /\
  s * (wout s g q p - f_u (sq s g q p)) < flow_sound g (sq s g q p) /\ 0 < s * (wout s g q p - f_u (sq s g q p)).
Proof.
  intros Hg Hq h Hs. pose proof Hq as [Hr Hpq]. assert (Hp : 0 < p) by lra.
  assert (Hs2 : s * s = 1) by (destruct Hs; subst; ring).
  pose proof (sq_pos s g q p Hg Hq Hp) as Hsq. pose proof (sound_pos g q ltac:(lra) Hq) as Ha.
  pose proof (sound_pos g _ ltac:(lra) Hsq) as Ha1. pose proof (sound_sq g q ltac:(lra) Hq) as Ha2.
  pose proof (sound_sq g _ ltac:(lra) Hsq) as Ha12.
  pose proof (shj_pos g q p Hg Hq Hp) as Hj. pose proof (shj_sq g q p Hg Hq Hp) as Hj2.
  pose proof (shD_pos g q p Hg Hq Hp) as HD.
  pose proof (shock_family_RH g q p s Hg Hq Hp Hs) as (Hm & _ & _). unfold mass_flux in Hm; cbn [f_rho f_u f_p] in Hm.
  assert (Ew : wout s g q p = f_u q + s * shj g q p / f_rho q) by (unfold wout; destruct (Rlt_dec (f_p q) p); [reflexivity|lra]).
  assert (Eq : sq s g q p = mkflow (shrho g q p) (f_u q + s * shdu g q p) p).
  { unfold sq, srho, fK. destruct (Rlt_dec (f_p q) p); [reflexivity|lra]. }
  rewrite Ew. rewrite Eq in *. cbn [f_u f_p f_rho] in *.
  pose proof (shrho_pos g q p Hg Hq Hp) as Hr1.
  replace (s * (f_u q + s * shj g q p / f_rho q - f_u q)) with ((s * s) * (shj g q p / f_rho q)) by (unfold Rdiv; ring).
  rewrite Hs2, Rmult_1_l.
  assert (Ev : s * (f_u q + s * shj g q p / f_rho q - (f_u q + s * shdu g q p)) = shj g q p / shrho g q p).
  { apply (Rmult_eq_reg_l (shrho g q p)); [|lra].
    replace (shrho g q p * (s * (f_u q + s * shj g q p / f_rho q - (f_u q + s * shdu g q p)))) with
      (- s * (shrho g q p * (f_u q + s * shdu g q p - (f_u q + s * shj g q p / f_rho q)))) by ring.
    rewrite <- Hm. replace (- s * (f_rho q * (f_u q - (f_u q + s * shj g q p / f_rho q)))) with ((s * s) * shj g q p) by (field; lra).
    rewrite Hs2. field. lra. }
  rewrite Ev. split; [|split; [|pos]].
  - apply Rsqr_incrst_0; [|lra|left; pos]. rewrite !Rsqr_pow2, Ha2.
    replace ((shj g q p / f_rho q) ^ 2) with (shj g q p ^ 2 / f_rho q ^ 2) by (field; lra). rewrite Hj2.
    replace (f_rho q * shD g q p / 2 / f_rho q ^ 2) with (shD g q p / 2 / f_rho q) by (field; lra).
    unfold Rdiv at 1 3. apply Rmult_lt_compat_r; [pos|]. unfold shD. nra.
  - apply Rsqr_incrst_0; [|left; pos|left; exact Ha1]. rewrite !Rsqr_pow2, Ha12.
    replace ((shj g q p / shrho g q p) ^ 2) with (shj g q p ^ 2 / shrho g q p / shrho g q p) by (field; lra).
    unfold Rdiv at 1 3. apply Rmult_lt_compat_r; [pos|]. rewrite Hj2, shrho_alt by assumption.
    assert (0 < (g + 1) * f_p q + (g - 1) * p) by pos.
    replace (f_rho q * shD g q p / 2 / (f_rho q * shD g q p / ((g + 1) * f_p q + (g - 1) * p)))
      with (((g + 1) * f_p q + (g - 1) * p) / 2) by (field; repeat split; lra). nra.
Qed.

(*@P C38_ordering: With an exact root finder and no vacuum: waves[0] <= waves[1] < waves[2] < waves[3] <= waves[4]. *)
Lemma waves_ordered : forall newton gL gR qL qR S, solves 0 newton -> 1 < gL -> 1 < gR ->
  positive_state qL -> positive_state qR ->
  f_u qR - f_u qL < 2 * flow_sound gL qL / (gL - 1) + 2 * flow_sound gR qR / (gR - 1) ->
  riemann_pb newton (obj gL qL) (obj gR qR) = Some S ->
  exists w0 w1 w2 w3 w4, r_w0 S = Some w0 /\ r_w1 S = Some w1 /\ r_w2 S = Some w2 /\
    r_w3 S = Some w3 /\ r_w4 S = Some w4 /\ w0 <= w1 < w2 /\ w2 < w3 <= w4 /\
    left_fastest S = Some w0 /\ right_fastest S = Some w4.
Proof.
  intros newton gL gR qL qR S Hn HgL HgR HL HR Hv E.
  destruct (riemann_eval newton gL gR qL qR S Hn HgL HgR HL HR Hv E) as (p & Hp & Hd & ->).
  unfold left_fastest, right_fastest; cbn [r_w0 r_w1 r_w2 r_w3 r_w4].
  do 5 eexists. do 5 (split; [reflexivity|]). unfold duR in Hd.
  pose proof (wave_order (-1) gL qL p HgL HL Hp (or_intror eq_refl)) as [A1 A2].
  pose proof (wave_order 1 gR qR p HgR HR Hp (or_introl eq_refl)) as [B1 B2].
  repeat split; lra.
Qed.
(*@P C38_lax: Each shock is supersonic with respect to the undisturbed side and subsonic with respect to the star state behind it; it is a true compression in density. *)
Lemma shocks_lax : forall newton gL gR qL qR S, solves 0 newton -> 1 < gL -> 1 < gR ->
  positive_state qL -> positive_state qR ->
  f_u qR - f_u qL < 2 * flow_sound gL qL / (gL - 1) + 2 * flow_sound gR qR / (gR - 1) ->
  riemann_pb newton (obj gL qL) (obj gR qR) = Some S ->
  exists p u rL rR w0 w4, r_pstar S = Some p /\
    r_qsL S = obj gL (mkflow rL u p) /\ r_qsR S = obj gR (mkflow rR u p) /\
    r_w0 S = Some w0 /\ r_w4 S = Some w4 /\
    (f_p qL < p -> f_rho qL < rL /\ f_u qL - w0 > flow_sound gL qL /\ 0 < u - w0 < flow_sound gL (mkflow rL u p)) /\
    (f_p qR < p -> f_rho qR < rR /\ w4 - f_u qR > flow_sound gR qR /\ 0 < w4 - u < flow_sound gR (mkflow rR u p)).
Proof.
  intros newton gL gR qL qR S Hn HgL HgR HL HR Hv E.
  destruct (riemann_eval newton gL gR qL qR S Hn HgL HgR HL HR Hv E) as (p & Hp & Hd & ->).
  unfold duR in Hd.
  assert (E1 : f_u qL - fK gL qL p = f_u qL + -1 * fK gL qL p) by lra.
  assert (E2 : f_u qL - fK gL qL p = f_u qR + 1 * fK gR qR p) by lra.
  exists p, (f_u qL - fK gL qL p), (srho gL qL p), (srho gR qR p), (wout (-1) gL qL p), (wout 1 gR qR p).
  cbn [r_pstar r_qsL r_qsR r_w0 r_w4]. split; [reflexivity|].
  split; [unfold sq; rewrite E1; reflexivity|]. split; [unfold sq; rewrite E2; reflexivity|].
  split; [reflexivity|]. split; [reflexivity|]. split; intros h.
  - destruct (lax (-1) gL qL p HgL HL h (or_intror eq_refl)) as (A & B & C).
    split; [unfold srho; destruct (Rlt_dec (f_p qL) p); [now apply shrho_gt|lra]|].
    rewrite E1. fold (sq (-1) gL qL p). cbn [sq f_u] in B, C. lra.
  - destruct (lax 1 gR qR p HgR HR h (or_introl eq_refl)) as (A & B & C).
    split; [unfold srho; destruct (Rlt_dec (f_p qR) p); [now apply shrho_gt|lra]|].
    rewrite E2. fold (sq 1 gR qR p). cbn [sq f_u] in B, C. lra.
Qed.
(*@E C38_example: the hypotheses are met by the receding flows of C37_example; a shock on the left needs f_p qL < p, met when p* = 2 and pL = 1 *)
Lemma C38_example_lemma : f_p qm < 2 /\
  flow_sound (14/10) qm < -1 * (wout (-1) (14/10) qm 2 - f_u qm).
Proof.
  assert (Hm : positive_state qm) by (split; cbn; lra). split; [cbn; lra|].
  apply (lax (-1) (14/10) qm 2); try lra; try assumption. cbn; lra.
Qed.

(** ** C39: symmetries *)
Lemma fK_u g r u u' P p : fK g (mkflow r u P) p = fK g (mkflow r u' P) p.
Proof. reflexivity. Qed.
Lemma mirror_sq s g q p : sq (- s) g (mirror q) p = mirror (sq s g q p).
Proof.
  unfold sq, mirror; cbn [f_u f_rho f_p]. f_equal.
  change (fK g (mkflow (f_rho q) (- f_u q) (f_p q)) p) with (fK g q p). ring.
Qed.
Lemma mirror_sound g q : flow_sound g (mirror q) = flow_sound g q.
Proof. reflexivity. Qed.
Lemma mirror_wout s g q p : wout (- s) g (mirror q) p = - wout s g q p.
Proof.
  unfold wout. change (f_p (mirror q)) with (f_p q). rewrite mirror_sound.
  change (shj g (mirror q) p) with (shj g q p). change (f_u (mirror q)) with (- f_u q).
  change (f_rho (mirror q)) with (f_rho q).
  destruct (Rlt_dec (f_p q) p); unfold Rdiv; ring.
Qed.
Lemma mirror_win s g q p : win (- s) g (mirror q) p = - win s g q p.
Proof.
  unfold win. rewrite mirror_sq, mirror_sound. change (f_p (mirror q)) with (f_p q).
  change (shj g (mirror q) p) with (shj g q p). change (f_u (mirror q)) with (- f_u q).
  change (f_rho (mirror q)) with (f_rho q). change (fK g (mirror q) p) with (fK g q p).
  destruct (Rlt_dec (f_p q) p); unfold Rdiv; ring.
Qed.
Lemma copysym_obj g q : copysymmetric (obj g q) = obj g (mirror q).
Proof. reflexivity. Qed.
Lemma duR_unique gL gR qL qR p p' : 1 < gL -> 1 < gR -> positive_state qL -> positive_state qR ->
  0 < p -> 0 < p' -> duR gL gR qL qR p = 0 -> duR gL gR qL qR p' = 0 -> p = p'.
Proof.
  intros HgL HgR HL HR Hp Hp' E E'. apply (proj2 (star_pressure gL gR qL qR HgL HgR HL HR)); try assumption;
  rewrite riemann_du_eval by assumption; congruence.
Qed.
(*@P C39_mirror: Exchanging and mirroring the two states (copysymmetric) mirrors the whole solution: same star pressure, opposite star velocity, star states exchanged and mirrored, wave speeds negated in reverse order; for any two exact root finders. *)
Lemma riemann_mirror : forall newton newton' gL gR qL qR S S', solves 0 newton -> solves 0 newton' ->
  1 < gL -> 1 < gR -> positive_state qL -> positive_state qR ->
  f_u qR - f_u qL < 2 * flow_sound gL qL / (gL - 1) + 2 * flow_sound gR qR / (gR - 1) ->
  riemann_pb newton (obj gL qL) (obj gR qR) = Some S ->
  riemann_pb newton' (copysymmetric (obj gR qR)) (copysymmetric (obj gL qL)) = Some S' ->
  r_pstar S' = r_pstar S /\ r_ustar S' = nopp (r_ustar S) /\
  r_qsL S' = copysymmetric (r_qsR S) /\ r_qsR S' = copysymmetric (r_qsL S) /\
  r_w0 S' = nopp (r_w4 S) /\ r_w1 S' = nopp (r_w3 S) /\ r_w2 S' = nopp (r_w2 S) /\
  r_w3 S' = nopp (r_w1 S) /\ r_w4 S' = nopp (r_w0 S).
Proof.
  intros n n' gL gR qL qR S S' Hn Hn' HgL HgR HL HR Hv E E'. rewrite !copysym_obj in E'.
  destruct (riemann_eval n gL gR qL qR S Hn HgL HgR HL HR Hv E) as (p & Hp & Hd & ->).
  destruct (riemann_eval n' gR gL (mirror qR) (mirror qL) S' Hn' HgR HgL) as (p' & Hp' & Hd' & ->);
    try assumption. { unfold no_vacuum. rewrite !mirror_sound. cbn. lra. }
  assert (p' = p).
  { symmetry. apply (duR_unique gL gR qL qR); try assumption. unfold duR in *.
    change (fK gR (mirror qR) p') with (fK gR qR p') in Hd'. change (fK gL (mirror qL) p') with (fK gL qL p') in Hd'.
    cbn [mirror f_u] in Hd'. lra. }
  subst p'. cbn [r_pstar r_ustar r_w2 r_qL r_qR r_qsL r_qsR r_w0 r_w1 r_w3 r_w4].
  change (fK gR (mirror qR) p) with (fK gR qR p). rewrite !copysym_obj, <- !mirror_sq.
  replace (-1) with (-(1)) by ring. rewrite Ropp_involutive.
  rewrite !mirror_wout, !mirror_win. cbn [nopp].
  replace (wout 1 gL (mirror qL) p) with (- wout (-(1)) gL qL p) by (rewrite <- mirror_wout; f_equal; ring).
  replace (win 1 gL (mirror qL) p) with (- win (-(1)) gL qL p) by (rewrite <- mirror_win; f_equal; ring).
  unfold duR in Hd. cbn [mirror f_u].
  repeat split; f_equal; lra.
Qed.
(** the state object moved by a velocity v *)
Definition obj_shift (v : R) (q : state) : state :=
  mk_state (st_g q) (st_rho q) (nadd (st_u q) (Some v)) (st_p q).
(*@P C39_galilean: Adding any velocity v to both states adds v to every wave speed and velocity and leaves the star pressure, densities and pressures unchanged. *)
Lemma riemann_galilean : forall newton newton' gL gR qL qR v S S', solves 0 newton -> solves 0 newton' ->
  1 < gL -> 1 < gR -> positive_state qL -> positive_state qR ->
  f_u qR - f_u qL < 2 * flow_sound gL qL / (gL - 1) + 2 * flow_sound gR qR / (gR - 1) ->
  riemann_pb newton (obj gL qL) (obj gR qR) = Some S ->
  riemann_pb newton' (obj_shift v (obj gL qL)) (obj_shift v (obj gR qR)) = Some S' ->
  r_pstar S' = r_pstar S /\ r_ustar S' = nadd (r_ustar S) (Some v) /\
  r_qsL S' = obj_shift v (r_qsL S) /\ r_qsR S' = obj_shift v (r_qsR S) /\
  r_w0 S' = nadd (r_w0 S) (Some v) /\ r_w1 S' = nadd (r_w1 S) (Some v) /\
  r_w2 S' = nadd (r_w2 S) (Some v) /\ r_w3 S' = nadd (r_w3 S) (Some v) /\ r_w4 S' = nadd (r_w4 S) (Some v).
Proof.
  intros n n' gL gR qL qR v S S' Hn Hn' HgL HgR HL HR Hv E E'.
  change (obj_shift v (obj gL qL)) with (obj gL (galilean v qL)) in E'.
  change (obj_shift v (obj gR qR)) with (obj gR (galilean v qR)) in E'.
  destruct (riemann_eval n gL gR qL qR S Hn HgL HgR HL HR Hv E) as (p & Hp & Hd & ->).
  destruct (riemann_eval n' gL gR (galilean v qL) (galilean v qR) S' Hn' HgL HgR) as (p' & Hp' & Hd' & ->);
    try assumption. { unfold no_vacuum. rewrite !sound_gal. cbn. lra. }
  assert (p' = p).
  { symmetry. apply (duR_unique gL gR qL qR); try assumption. unfold duR in *.
    change (fK gR (galilean v qR) p') with (fK gR qR p') in Hd'. change (fK gL (galilean v qL) p') with (fK gL qL p') in Hd'.
    cbn [galilean f_u] in Hd'. lra. }
  subst p'. cbn [r_pstar r_ustar r_w2 r_qL r_qR r_qsL r_qsR r_w0 r_w1 r_w3 r_w4].
  assert (Gsq : forall s g q, sq s g (galilean v q) p = galilean v (sq s g q p)).
  { intros s g q; unfold sq, galilean; cbn [f_u f_rho f_p]. f_equal.
    change (fK g (mkflow (f_rho q) (f_u q + v) (f_p q)) p) with (fK g q p). ring. }
  assert (Gwo : forall s g q, wout s g (galilean v q) p = wout s g q p + v).
  { intros s g q; unfold wout. rewrite sound_gal. change (f_p (galilean v q)) with (f_p q).
    change (shj g (galilean v q) p) with (shj g q p). cbn [galilean f_u f_rho].
    destruct (Rlt_dec (f_p q) p); unfold Rdiv; ring. }
  assert (Gwi : forall s g q, win s g (galilean v q) p = win s g q p + v).
  { intros s g q; unfold win. rewrite Gsq, sound_gal. change (f_p (galilean v q)) with (f_p q).
    change (shj g (galilean v q) p) with (shj g q p). change (fK g (galilean v q) p) with (fK g q p).
    cbn [galilean f_u f_rho]. destruct (Rlt_dec (f_p q) p); unfold Rdiv; ring. }
  rewrite !Gsq, !Gwo, !Gwi. change (fK gL (galilean v qL) p) with (fK gL qL p).
  unfold obj_shift, obj. cbn [galilean f_u f_rho f_p st_g st_rho st_u st_p nadd].
  repeat split; f_equal; ring.
Qed.
(*@E C39_example: the receding flows of C37_example are their own mirror image, so the mirrored problem is also solved *)
Lemma C39_example_lemma : copysymmetric (obj (14/10) qp) = obj (14/10) qm /\
  exists S', riemann_pb (lazy_newton 0) (copysymmetric (obj (14/10) qp)) (copysymmetric (obj (14/10) qm)) = Some S'.
Proof.
  assert (E1 : copysymmetric (obj (14/10) qp) = obj (14/10) qm)
    by (rewrite copysym_obj; unfold mirror, qp, qm; cbn; do 2 f_equal; lra).
  assert (E2 : copysymmetric (obj (14/10) qm) = obj (14/10) qp)
    by (rewrite copysym_obj; unfold mirror, qp, qm; cbn; do 2 f_equal; lra).
  split; [exact E1|]. rewrite E1, E2.
  destruct C37_example_lemma as (_ & _ & _ & _ & S & p & E & _). now exists S.
Qed.
