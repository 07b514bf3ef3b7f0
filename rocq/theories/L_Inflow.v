(** * C68: the unsteady inflow problem *)
From Verif Require Import L_Num Spec NumSpec M_Isentropic M_MassFlow M_ShockWave M_Model1D M_Unsteady1D M_Riemann M_Inflow L_Isentropic L_Shock L_Model1D L_Unsteady L_Riemann1 L_Riemann2.
Open Scope R_scope.

Lemma delta_uR_K q p : delta_uR q p = delta_uK q p.
Proof. reflexivity. Qed.
Definition iu (g : R) (q : flow) (p : R) : R := f_u q + fK g q p.
Definition ik (g rtt : R) : R := g / (g - 1) * rtt.
Definition ib (g rtt u : R) : R := ik g rtt / (ik g rtt - u ^ 2 / 2).
Definition ipt (g rtt : R) (q : flow) (p : R) : R := p * Rpower (ib g rtt (iu g q p)) (g / (g - 1)).
Lemma ik_pos g rtt : 1 < g -> 0 < rtt -> 0 < ik g rtt.
Proof. intros. unfold ik. pos. Qed.
Lemma ib_ge g rtt u : 1 < g -> 0 < rtt -> u ^ 2 < 2 * g / (g - 1) * rtt -> 0 < ik g rtt - u ^ 2 / 2 /\ 1 <= ib g rtt u.
Proof.
  intros Hg Hr Hu. assert (E : 2 * g / (g - 1) * rtt = 2 * ik g rtt) by (unfold ik; field; lra).
  assert (D : 0 < ik g rtt - u ^ 2 / 2) by lra. split; [exact D|]. unfold ib. apply (Rle_div_r 1 (ik g rtt)); [exact D|]. pose proof (pow2_ge_0 u). lra.
Qed.
Lemma pt0_eval g rtt q p : 1 < g -> positive_state q -> 0 < p -> 0 < rtt -> iu g q p ^ 2 < 2 * g / (g - 1) * rtt ->
  pt0_from_pstar_rtt0 (obj g q) (Some p) (Some rtt) = Some (ipt g rtt q p).
Proof.
  intros Hg Hq Hp Hr Hu. destruct (ib_ge g rtt (iu g q p) Hg Hr Hu) as [D B]. unfold pt0_from_pstar_rtt0.
  rewrite delta_uR_K, delta_uK_eval by assumption. cbn [obj st_u st_g]. ncbn. rewrite ndiv_Some by lra. ncbn. fold (iu g q p).
  set (u := iu g q p) in *. change (g / (g - 1) * rtt) with (ik g rtt).
  rewrite ndiv_Some by lra. ncbn.
  replace (1 + 1 / 2 * u ^ 2 / (ik g rtt - 1 / 2 * u ^ 2)) with (ib g rtt u) by (unfold ib; field; lra).
  rewrite npow_Some by lra. reflexivity.
Qed.

(** for air the residual has no value outside the physical range *)
Lemma not_integer : 14/10 / (14/10 - 1) <> IZR (Int_part (14/10 / (14/10 - 1))).
Proof.
  intros E. replace (14/10 / (14/10 - 1)) with (35/10) in E by lra.
  assert (H : IZR 3 < IZR (Int_part (35/10)) < IZR 4) by lra. destruct H as [H1 H2]. apply lt_IZR in H1, H2. lia.
Qed.
Lemma pt0_air rtt q p v : positive_state q -> 0 < p -> 0 < rtt ->
  pt0_from_pstar_rtt0 (obj (14/10) q) (Some p) (Some rtt) = Some v -> iu (14/10) q p ^ 2 < 7 * rtt.
Proof.
  intros Hq Hp Hr. unfold pt0_from_pstar_rtt0.
  rewrite delta_uR_K, delta_uK_eval by (assumption || lra). cbn [obj st_u st_g]. ncbn. rewrite ndiv_Some by lra. ncbn. fold (iu (14/10) q p).
  set (u := iu (14/10) q p) in *. destruct (Rlt_dec (u ^ 2) (7 * rtt)) as [h|h]; [auto|].
  set (d := 14 / 10 / (14 / 10 - 1) * rtt - 1 / 2 * u ^ 2). assert (Hd : d <= 0) by (unfold d; lra).
  unfold ndiv. destruct (Req_EM_T d 0) as [z|z]; [discriminate|]. ncbn.
  assert (N : 1 + 1 / 2 * u ^ 2 / d < 0).
  { replace (1 + 1 / 2 * u ^ 2 / d) with ((d + 1 / 2 * u ^ 2) / d) by (field; lra). unfold d at 1.
    replace (14 / 10 / (14 / 10 - 1) * rtt - 1 / 2 * u ^ 2 + 1 / 2 * u ^ 2) with (7/2 * rtt) by field.
    replace (7 / 2 * rtt / d) with (- (7 / 2 * rtt / - d)) by (field; lra). assert (0 < 7 / 2 * rtt / - d) by (apply Rdiv_lt_0_compat; lra). lra. }
  unfold npow. destruct (Rlt_dec 0 (1 + 1 / 2 * u ^ 2 / d)); [lra|]. destruct (Req_EM_T (1 + 1 / 2 * u ^ 2 / d) 0); [lra|].
  destruct (Req_EM_T _ _) as [e|e]; [exfalso; exact (not_integer e)|discriminate].
Qed.

(** closed form of the solution *)
Lemma solve_eval fsolve o g q pt0 rtt p : in_qR o = obj g q -> 1 < g -> positive_state q -> 0 < p ->
  fsolve (fun p => (pt0_from_pstar_rtt0 (obj g q) p (Some rtt) - Some pt0)%num) (inflow_estimate (obj g q) (Some pt0)) = Some p ->
  solve_with_pt0_rtt0 fsolve o (Some pt0) (Some rtt) =
  Some (mk_inflow (obj g q) (Some (Some p)) (Some (Some (iu g q p)))
    (Some (compute_from_pt_rtt_u (obj g q) (Some pt0) (Some rtt) (Some (iu g q p)))) (Some (obj g (sq 1 g q p))) (in_waves o)).
Proof.
  intros Eo Hg Hq Hp E. unfold solve_with_pt0_rtt0. rewrite Eo, E, delta_uR_K, delta_uK_eval by assumption. unfold uq_copy.
  assert (Es : obj g (sq 1 g q p) = mk_state (Some g) (Some (srho g q p)) (Some (iu g q p)) (Some p)).
  { unfold obj, sq, iu; cbn [f_rho f_u f_p]. rewrite Rmult_1_l. reflexivity. }
  rewrite Es. unfold srho. destruct (Rlt_dec (f_p q) p) as [h|h]; cbn [obj st_p st_u st_g].
  - rewrite ngt_true by exact h. cbn [nif]. change (mk_state (Some g) (Some (f_rho q)) (Some (f_u q)) (Some (f_p q))) with (obj g q).
    rewrite rho_through_shock_eval by assumption. reflexivity.
  - rewrite ngt_false by lra. cbn [nif]. change (mk_state (Some g) (Some (f_rho q)) (Some (f_u q)) (Some (f_p q))) with (obj g q).
    rewrite rho_through_isentropic_eval by assumption. reflexivity.
Qed.
Lemma accepted fsolve eps o g q pt0 rtt S : solves eps fsolve -> eps < pt0 -> in_qR o = obj g q -> 1 < g -> positive_state q ->
  solve_with_pt0_rtt0 fsolve o (Some pt0) (Some rtt) = Some S ->
  exists p e, 0 < p /\ fsolve (fun p => (pt0_from_pstar_rtt0 (obj g q) p (Some rtt) - Some pt0)%num) (inflow_estimate (obj g q) (Some pt0)) = Some p /\
    pt0_from_pstar_rtt0 (obj g q) (Some p) (Some rtt) = Some (pt0 + e) /\ Rabs e <= eps.
Proof.
  intros Hs He Eo Hg Hq E. unfold solve_with_pt0_rtt0 in E. rewrite Eo in E.
  destruct (fsolve _ _) as [p|] eqn:Ef.
  2:{ cbn [obj st_p ngt nlt nif] in E. discriminate. }
  destruct (Hs _ _ _ Ef) as (e & Ee & Hb). destruct (pt0_from_pstar_rtt0 (obj g q) (Some p) (Some rtt)) as [v|] eqn:Ev; [|discriminate].
  cbn [nsub] in Ee. apply Some_inj in Ee. exists p, e. split.
  - destruct (Rtotal_order p 0) as [h|[h|h]]; [| |lra]; exfalso.
    + unfold pt0_from_pstar_rtt0 in Ev. rewrite delta_uR_K, delta_uK_neg in Ev by assumption. cbn [obj st_u st_g] in Ev. ncbn.
      cbn [nadd npowi nmul nsub] in Ev. rewrite ndiv_Some in Ev by lra. cbn in Ev. discriminate.
    + subst p. unfold pt0_from_pstar_rtt0 in Ev. destruct (npow _ _) as [z|]; [|discriminate]. cbn [nmul] in Ev. apply Some_inj in Ev.
      assert (X : e = - pt0) by lra. rewrite X, Rabs_Ropp in Hb. pose proof (Rle_abs pt0). lra.
  - split; [reflexivity|]. split; [rewrite Ev, <- Ee; apply f_equal; ring|exact Hb].
Qed.
Lemma qL_eval g q pt0 rtt u : 1 < g -> 0 < pt0 -> 0 < rtt -> u ^ 2 < 2 * g / (g - 1) * rtt ->
  exists r, let p1 := pt0 / Rpower (ib g rtt u) (g / (g - 1)) in 0 < r /\ 0 < p1 /\
  compute_from_pt_rtt_u (obj g q) (Some pt0) (Some rtt) (Some u) = mk_state dgamma (Some r) (Some u) (Some p1) /\
  Ptot (obj g (mkflow r u p1)) = Some pt0 /\ rTtot (obj g (mkflow r u p1)) = Some rtt.
Proof.
  intros Hg H1 H2 Hu. destruct (from_velocity g (Some (f_rho q)) (Some (f_u q)) (Some (f_p q)) pt0 rtt u Hg H1 H2 Hu) as (t & E & [Tr Tp] & Eu & A & B).
  assert (Ep : f_p t = pt0 / Rpower (ib g rtt u) (g / (g - 1))).
  { destruct (ib_ge g rtt u Hg H2 Hu) as [D Hb]. apply Some_inj. assert (X : Some (f_p t) = st_p (compute_from_pt_rtt_u (obj g q) (Some pt0) (Some rtt) (Some u))) by (unfold obj; rewrite E; reflexivity).
    rewrite X. unfold compute_from_pt_rtt_u, state_init; cbn [obj st_g st_p]; ncbn. rewrite (ndiv_Some g) by lra. ncbn. fold (ik g rtt).
    rewrite (ndiv_Some (1/2 * u ^ 2)) by lra. ncbn.
    replace (1 + 1 / 2 * u ^ 2 / (ik g rtt - 1 / 2 * u ^ 2)) with (ib g rtt u) by (unfold ib; field; lra).
    rewrite npow_Some by lra. rewrite ndiv_Some by (apply pos_nz, Rpower_pos). reflexivity. }
  exists (f_rho t). cbv zeta. rewrite <- Ep. split; [exact Tr|]. split; [exact Tp|]. split; [unfold obj; rewrite E, Eu; reflexivity|].
  rewrite <- Eu. destruct t. split; assumption.
Qed.

(*@P C68_inflow_partial: With an exact root finder, for every gas, initial state, total pressure pt0 and total rT rtt0 for which the solver returns and the inflow velocity is below the limit velocity of rtt0: all four accessors answer; the states on both sides of the contact have the same positive pressure and the same velocity; the right one keeps gamma and is joined to the initial state by a right-running wave, a Rankine-Hugoniot shock when its pressure is higher and an isentropic simple wave otherwise; density, velocity and pressure of the left one have, for the gas of the problem, exactly the requested total pressure and total rT. PARTIAL: the left state object gets gamma 1.4, see C68_other_gas_refuted, and the two fastest-wave accessors never work, see C68_fastest_refuted. *)
Lemma inflow_solution : forall fsolve g q pt0 rtt0 S, solves 0 fsolve -> 1 < g -> positive_state q -> 0 < pt0 -> 0 < rtt0 ->
  solve_with_pt0_rtt0 fsolve (inflow_init (obj g q)) (Some pt0) (Some rtt0) = Some S ->
  (forall u, inflow_ustar S = Some (Some u) -> u ^ 2 < 2 * g / (g - 1) * rtt0) ->
  exists p u rL rR wo wi,
    inflow_pstar S = Some (Some p) /\ inflow_ustar S = Some (Some u) /\ 0 < p /\ 0 < rL /\ 0 < rR /\
    inflow_qstarR S = Some (obj g (mkflow rR u p)) /\ joined_by_wave 1 g q (mkflow rR u p) wo wi /\
    inflow_qstarL S = Some (mk_state (Some (14/10)) (Some rL) (Some u) (Some p)) /\
    Ptot (obj g (mkflow rL u p)) = Some pt0 /\ rTtot (obj g (mkflow rL u p)) = Some rtt0.
Proof.
  intros fsolve g q pt0 rtt S Hs Hg Hq H1 H2 E Hlim.
  destruct (accepted fsolve 0 (inflow_init (obj g q)) g q pt0 rtt S Hs H1 eq_refl Hg Hq E) as (p & e & Hp & Ef & Ev & He).
  assert (e = 0) as -> by (destruct (Req_dec e 0) as [z|z]; [exact z|pose proof (Rabs_pos_lt e z); lra]).
  rewrite (solve_eval fsolve (inflow_init (obj g q)) g q pt0 rtt p eq_refl Hg Hq Hp Ef) in E. apply Some_inj in E. subst S.
  cbn [inflow_ustar inflow_pstar inflow_qstarL inflow_qstarR in_pstar in_ustar in_qsL in_qsR] in *.
  specialize (Hlim _ eq_refl). rewrite pt0_eval in Ev by assumption. apply Some_inj in Ev.
  destruct (qL_eval g q pt0 rtt (iu g q p) Hg H1 H2 Hlim) as (r & Hr & Hp1 & Eq & A & B). cbv zeta in *.
  assert (Ep : pt0 / Rpower (ib g rtt (iu g q p)) (g / (g - 1)) = p).
  { pose proof (Rpower_pos (ib g rtt (iu g q p)) (g / (g - 1))). unfold ipt in Ev. set (X := Rpower _ _) in *. clearbody X. replace pt0 with (p * X) by lra. field. lra. }
  rewrite Ep in *. exists p, (iu g q p), r, (srho g q p), (wout 1 g q p), (win 1 g q p).
  split; [reflexivity|]. split; [reflexivity|]. split; [exact Hp|]. split; [exact Hr|]. split; [now apply srho_pos|].
  assert (Es : sq 1 g q p = mkflow (srho g q p) (iu g q p) p) by (unfold sq, iu; rewrite Rmult_1_l; reflexivity).
  split; [rewrite Es; reflexivity|]. split; [rewrite <- Es; apply joined; auto|]. split; [rewrite Eq; reflexivity|]. split; assumption.
Qed.
(*@P C68_inflow_air: For gamma = 1.4 nothing is missing from the solution: whenever the solver returns, the inflow velocity is below the limit velocity, both star states have the same positive pressure and the same velocity and keep gamma, the right one is joined to the initial state by a right-running shock or simple wave, and the left one reports exactly the requested total pressure and total rT. *)
Lemma inflow_air : forall fsolve q pt0 rtt0 S, solves 0 fsolve -> positive_state q -> 0 < pt0 -> 0 < rtt0 ->
  solve_with_pt0_rtt0 fsolve (inflow_init (obj (14/10) q)) (Some pt0) (Some rtt0) = Some S ->
  exists p u rL rR wo wi,
    inflow_pstar S = Some (Some p) /\ inflow_ustar S = Some (Some u) /\ 0 < p /\ 0 < rL /\ 0 < rR /\ u ^ 2 < 7 * rtt0 /\
    inflow_qstarR S = Some (obj (14/10) (mkflow rR u p)) /\ joined_by_wave 1 (14/10) q (mkflow rR u p) wo wi /\
    inflow_qstarL S = Some (obj (14/10) (mkflow rL u p)) /\
    Ptot (obj (14/10) (mkflow rL u p)) = Some pt0 /\ rTtot (obj (14/10) (mkflow rL u p)) = Some rtt0.
Proof.
  intros fsolve q pt0 rtt S Hs Hq H1 H2 E.
  assert (Hg : 1 < 14/10) by lra.
  assert (Hlim : forall u, inflow_ustar S = Some (Some u) -> u ^ 2 < 7 * rtt).
  { destruct (accepted fsolve 0 (inflow_init (obj (14/10) q)) (14/10) q pt0 rtt S Hs H1 eq_refl Hg Hq E) as (p & e & Hp & Ef & Ev & He).
    rewrite (solve_eval fsolve (inflow_init (obj (14/10) q)) (14/10) q pt0 rtt p eq_refl Hg Hq Hp Ef) in E. apply Some_inj in E. subst S.
    intros u Eu. cbn [inflow_ustar in_ustar] in Eu. apply Some_inj, Some_inj in Eu. subst u. eapply pt0_air; eauto. }
  destruct (inflow_solution fsolve (14/10) q pt0 rtt S Hs Hg Hq H1 H2 E) as (p & u & rL & rR & wo & wi & A & B & C & D & F & G & I & J & K & L).
  { intros u Eu. specialize (Hlim u Eu). lra. }
  exists p, u, rL, rR, wo, wi. specialize (Hlim u B). auto 15.
Qed.
(*@P C68_residual: For a root finder that only guarantees a residual of at most eps below pt0, the two star states have the same velocity, the total conditions of the left state are still exact, and the error appears as a pressure jump of at most eps at the contact. *)
Lemma inflow_residual : forall fsolve eps g q pt0 rtt0 S, solves eps fsolve -> eps < pt0 -> 1 < g -> positive_state q -> 0 < pt0 -> 0 < rtt0 ->
  solve_with_pt0_rtt0 fsolve (inflow_init (obj g q)) (Some pt0) (Some rtt0) = Some S ->
  (forall u, inflow_ustar S = Some (Some u) -> u ^ 2 < 2 * g / (g - 1) * rtt0) ->
  exists p pL u rL rR,
    inflow_pstar S = Some (Some p) /\ inflow_qstarR S = Some (obj g (mkflow rR u p)) /\
    inflow_qstarL S = Some (mk_state (Some (14/10)) (Some rL) (Some u) (Some pL)) /\
    Ptot (obj g (mkflow rL u pL)) = Some pt0 /\ rTtot (obj g (mkflow rL u pL)) = Some rtt0 /\ Rabs (p - pL) <= eps.
Proof.
  intros fsolve eps g q pt0 rtt S Hs Hx Hg Hq H1 H2 E Hlim.
  destruct (accepted fsolve eps (inflow_init (obj g q)) g q pt0 rtt S Hs Hx eq_refl Hg Hq E) as (p & e & Hp & Ef & Ev & He).
  rewrite (solve_eval fsolve (inflow_init (obj g q)) g q pt0 rtt p eq_refl Hg Hq Hp Ef) in E. apply Some_inj in E. subst S.
  cbn [inflow_ustar inflow_pstar inflow_qstarL inflow_qstarR in_pstar in_ustar in_qsL in_qsR] in *.
  specialize (Hlim _ eq_refl). rewrite pt0_eval in Ev by assumption. apply Some_inj in Ev.
  destruct (qL_eval g q pt0 rtt (iu g q p) Hg H1 H2 Hlim) as (r & Hr & Hp1 & Eq & A & B). cbv zeta in *.
  exists p, (pt0 / Rpower (ib g rtt (iu g q p)) (g / (g - 1))), (iu g q p), r, (srho g q p).
  assert (Es : sq 1 g q p = mkflow (srho g q p) (iu g q p) p) by (unfold sq, iu; rewrite Rmult_1_l; reflexivity).
  split; [reflexivity|]. split; [rewrite Es; reflexivity|]. split; [rewrite Eq; reflexivity|]. split; [exact A|]. split; [exact B|].
  destruct (ib_ge g rtt (iu g q p) Hg H2 Hlim) as [_ Hb].
  assert (HX : 1 <= Rpower (ib g rtt (iu g q p)) (g / (g - 1))) by (apply Rpower_ge_1; [exact Hb|pos]).
  unfold ipt in Ev. set (X := Rpower _ _) in *. clearbody X. replace p with ((pt0 + e) / X) by (rewrite <- Ev; field; lra).
  replace ((pt0 + e) / X - pt0 / X) with (e / X) by (field; lra). unfold Rdiv. rewrite Rabs_mult, (Rabs_pos_eq (/ X)) by (left; apply Rinv_0_lt_compat; lra).
  apply Rle_trans with (Rabs e * 1); [|lra]. apply Rmult_le_compat_l; [apply Rabs_pos|]. rewrite <- Rinv_1. apply Rinv_le_contravar; lra.
Qed.
(*@P C68_other_gas_refuted: For every other gas and every nonzero inflow velocity, the left state object does not report the requested total rT. *)
Lemma inflow_other_gas : forall fsolve g q pt0 rtt0 S u, solves 0 fsolve -> 1 < g -> g <> 14/10 -> positive_state q -> 0 < pt0 -> 0 < rtt0 ->
  solve_with_pt0_rtt0 fsolve (inflow_init (obj g q)) (Some pt0) (Some rtt0) = Some S ->
  inflow_ustar S = Some (Some u) -> 0 < u ^ 2 < 2 * g / (g - 1) * rtt0 ->
  exists qL t, inflow_qstarL S = Some qL /\ st_g qL = Some (14/10) /\ rTtot qL = Some t /\ t <> rtt0.
Proof.
  intros fsolve g q pt0 rtt S u Hs Hg Hn Hq H1 H2 E Eu Hu.
  destruct (inflow_solution fsolve g q pt0 rtt S Hs Hg Hq H1 H2 E) as (p & u' & rL & rR & wo & wi & A & B & C & D & F & G & I & J & K & L).
  { intros v Ev. rewrite Eu in Ev. apply Some_inj, Some_inj in Ev. subst v. lra. }
  rewrite Eu in B. apply Some_inj, Some_inj in B. subst u'.
  eexists. eexists. split; [exact J|]. split; [reflexivity|].
  unfold rTtot in *. cbn [obj st_p st_rho st_g st_u f_rho f_u f_p nadd nsub nmul npowi] in *. rewrite !ndiv_Some in L by lra. rewrite !ndiv_Some by lra. cbn [nadd nsub nmul npowi] in *.
  split; [reflexivity|]. apply Some_inj in L. intros Z. rewrite <- L in Z.
  assert (X : (1/2 * (14/10 - 1) / (14/10) - 1/2 * (g - 1) / g) * u ^ 2 = 0) by lra.
  apply Rmult_integral in X. destruct X as [X|X]; [|lra]. apply Hn.
  assert (Y : 1/2 * (14/10 - 1) / (14/10) - 1/2 * (g - 1) / g = (1/2) * (14/10 - g) / (14/10 * g)) by (field; lra).
  rewrite Y in X. unfold Rdiv in X. apply Rmult_integral in X. destruct X as [X|X]; [lra|]. exfalso. revert X. apply Rinv_neq_0_compat. lra.
Qed.
(*@P C68_fastest_refuted: left_fastest and right_fastest raise AttributeError after every history of solve calls; the four other accessors raise it exactly before the first successful solve. *)
Lemma inflow_fastest : forall fsolve q l S, solve_all fsolve (inflow_init q) l = Some S ->
  inflow_left_fastest S = None /\ inflow_right_fastest S = None /\
  (inflow_pstar S = None <-> l = []) /\ (inflow_ustar S = None <-> l = []) /\ (inflow_qstarL S = None <-> l = []) /\ (inflow_qstarR S = None <-> l = []).
Proof.
  intros fsolve q l S E.
  assert (G : forall l o, in_waves o = None -> solve_all fsolve o l = Some S ->
    in_waves S = None /\ (l <> [] -> in_pstar S <> None /\ in_ustar S <> None /\ in_qsL S <> None /\ in_qsR S <> None)).
  { clear E. induction l0 as [|[a b] l0 IH]; intros o W E; [cbn in E; apply Some_inj in E; subst; split; [exact W|congruence]|].
    cbn [solve_all] in E. destruct (solve_with_pt0_rtt0 fsolve o a b) as [o1|] eqn:E1; [|discriminate].
    assert (W1 : in_waves o1 = None /\ in_pstar o1 <> None /\ in_ustar o1 <> None /\ in_qsL o1 <> None /\ in_qsR o1 <> None).
    { clear - E1 W. unfold solve_with_pt0_rtt0 in E1. destruct (ngt _ _) as [[|]|]; cbn [nif] in E1; [| |discriminate]; apply Some_inj in E1; subst o1; cbn; repeat split; congruence. }
    destruct W1 as [W1 X]. destruct (IH o1 W1 E) as [Y Z]. split; [exact Y|]. intros _. destruct l0; [cbn in E; apply Some_inj in E; subst; exact X|apply Z; congruence]. }
  destruct (G l (inflow_init q) eq_refl E) as [W X]. unfold inflow_left_fastest, inflow_right_fastest. rewrite W. split; [reflexivity|]. split; [reflexivity|].
  destruct l as [|a l].
  - cbn in E. apply Some_inj in E. subst S. cbn. tauto.
  - destruct X as (X1 & X2 & X3 & X4); [congruence|]. unfold inflow_pstar, inflow_ustar, inflow_qstarL, inflow_qstarR. repeat split; intros; congruence.
Qed.
(*@P C68_history: An object may be solved again and again: after every history of successful solve calls it holds what a fresh object holds after the last of them, and the initial state is unchanged. *)
Lemma inflow_history : forall fsolve q l pt0 rtt0 S, solve_all fsolve (inflow_init q) (app l ((pt0, rtt0) :: nil)) = Some S ->
  solve_with_pt0_rtt0 fsolve (inflow_init q) pt0 rtt0 = Some S /\ in_qR S = q.
Proof.
  intros fsolve q l pt0 rtt S E.
  assert (G : forall l o, in_waves o = None -> in_qR o = q -> solve_all fsolve o (app l ((pt0, rtt) :: nil)) = Some S -> solve_with_pt0_rtt0 fsolve (inflow_init q) pt0 rtt = Some S /\ in_qR S = q).
  { clear. induction l as [|[a b] l IH]; intros o W Q E; cbn [app solve_all] in E.
    - assert (E2 : solve_with_pt0_rtt0 fsolve o pt0 rtt = solve_with_pt0_rtt0 fsolve (inflow_init q) pt0 rtt).
      { unfold solve_with_pt0_rtt0. rewrite Q, W. reflexivity. }
      rewrite <- E2. destruct (solve_with_pt0_rtt0 fsolve o pt0 rtt) as [o1|] eqn:E1; [|discriminate]. apply Some_inj in E. subst o1. split; [reflexivity|].
      clear - E1 Q. unfold solve_with_pt0_rtt0 in E1. destruct (ngt _ _) as [[|]|]; cbn [nif] in E1; [| |discriminate]; apply Some_inj in E1; subst S; exact Q.
    - destruct (solve_with_pt0_rtt0 fsolve o a b) as [o1|] eqn:E1; [|discriminate]. apply (IH o1); [| |exact E].
      + clear - E1 W. unfold solve_with_pt0_rtt0 in E1. destruct (ngt _ _) as [[|]|]; cbn [nif] in E1; [| |discriminate]; apply Some_inj in E1; subst o1; exact W.
      + clear - E1 Q. unfold solve_with_pt0_rtt0 in E1. destruct (ngt _ _) as [[|]|]; cbn [nif] in E1; [| |discriminate]; apply Some_inj in E1; subst o1; exact Q. }
  exact (G l (inflow_init q) eq_refl eq_refl E).
Qed.

(** ** which inflow problems have a solution *)
Lemma u_range g q v : 1 < g -> positive_state q -> f_u q - 2 * flow_sound g q / (g - 1) < v -> exists p, 0 < p /\ iu g q p = v.
Proof.
  intros Hg Hq H. set (eps := (v - (f_u q - 2 * flow_sound g q / (g - 1))) / 2). assert (He : 0 < eps) by (unfold eps; lra).
  destruct (fK_small g q eps Hg Hq He) as (a & Ha & HA). destruct (fK_large g q (v - f_u q) Hg Hq) as (b & Hb & HB).
  assert (La : iu g q a < v) by (unfold iu; specialize (HA a ltac:(lra)); unfold eps in HA; lra).
  assert (Lb : v < iu g q b) by (unfold iu; specialize (HB b ltac:(lra)); lra).
  assert (Hab : a < b).
  { destruct (Rtotal_order a b) as [h|[h|h]]; [exact h|subst; lra|]. pose proof (fK_incr g q b a Hg Hq Hb h). unfold iu in *. lra. }
  destruct (IVT_value (iu g q) a b v Hab) as (p & Hp & E).
  - intros x Hx. unfold iu. apply (continuous_plus (V := R_NormedModule)); [apply continuous_const|apply fK_continuous; [exact Hg|exact Hq|lra]].
  - lra.
  - exists p. split; [lra|exact E].
Qed.
Lemma iu_incr g q x y : 1 < g -> positive_state q -> 0 < x -> x < y -> iu g q x < iu g q y.
Proof. intros H0 H1 H2 H3. unfold iu. pose proof (fK_incr g q x y H0 H1 H2 H3). lra. Qed.
Lemma ib_mono g rtt u v : 1 < g -> 0 < rtt -> 0 <= u <= v -> v ^ 2 < 2 * g / (g - 1) * rtt -> ib g rtt u <= ib g rtt v.
Proof.
  intros Hg Hr Hu Hv. assert (u ^ 2 <= v ^ 2) by nra. destruct (ib_ge g rtt u Hg Hr ltac:(lra)) as [D1 _]. destruct (ib_ge g rtt v Hg Hr Hv) as [D2 _].
  unfold ib, Rdiv. apply Rmult_le_compat_l; [left; now apply ik_pos|]. apply Rinv_le_contravar; lra.
Qed.
Lemma ipt_incr g rtt q x y : 1 < g -> positive_state q -> 0 < rtt -> 0 < x -> x < y -> 0 <= iu g q x -> iu g q y ^ 2 < 2 * g / (g - 1) * rtt -> ipt g rtt q x < ipt g rtt q y.
Proof.
  intros Hg Hq Hr Hx Hxy Hu Hl. pose proof (iu_incr g q x y Hg Hq Hx Hxy) as I. pose proof (ib_mono g rtt (iu g q x) (iu g q y) Hg Hr ltac:(lra) Hl) as B.
  assert (Hl' : iu g q x ^ 2 < 2 * g / (g - 1) * rtt) by nra. destruct (ib_ge g rtt (iu g q x) Hg Hr Hl') as [_ B1].
  unfold ipt. assert (P : Rpower (ib g rtt (iu g q x)) (g / (g - 1)) <= Rpower (ib g rtt (iu g q y)) (g / (g - 1))).
  { destruct B as [B|B]; [left; apply Rpower_lt_base; [lra|exact B|pos]|rewrite B; right; reflexivity]. }
  pose proof (Rpower_pos (ib g rtt (iu g q x)) (g / (g - 1))). nra.
Qed.
Lemma ipt_continuous g rtt q p : 1 < g -> positive_state q -> 0 < rtt -> 0 < p -> iu g q p ^ 2 < 2 * g / (g - 1) * rtt -> continuous (ipt g rtt q) p.
Proof.
  intros Hg Hq Hr Hp Hl. destruct (ib_ge g rtt (iu g q p) Hg Hr Hl) as [D B]. unfold ipt.
  apply (continuous_mult (K := R_AbsRing)); [apply continuous_id|].
  apply (continuous_comp (iu g q) (fun u => Rpower (ib g rtt u) (g / (g - 1)))).
  - unfold iu. apply (continuous_plus (V := R_NormedModule)); [apply continuous_const|now apply fK_continuous].
  - apply (ex_derive_continuous (K := R_AbsRing) (V := R_NormedModule)). unfold ib, Rpower. auto_derive. assert (D' : 0 < ik g rtt + - (iu g q p * (iu g q p * 1) * / 2)) by (cbn [pow] in D; lra).
    split; [lra|]. split; [|exact I]. apply Rmult_lt_0_compat; [now apply ik_pos|now apply Rinv_0_lt_compat].
Qed.
(*@P C68_one_solution: For every gas, initial state of velocity below 2a/(gamma-1) and total rT, there is a pressure p0, that of the gas brought to rest by a wave, such that the equation handed to the root finder has a root with non-negative velocity below the limit velocity exactly when pt0 is at least p0, and then exactly one. *)
Lemma inflow_one_solution : forall g q rtt0, 1 < g -> positive_state q -> 0 < rtt0 -> f_u q < 2 * flow_sound g q / (g - 1) ->
  let solution pt0 p := 0 < p /\ pt0_from_pstar_rtt0 (obj g q) (Some p) (Some rtt0) = Some pt0 /\
    exists u, (st_u (obj g q) + delta_uR (obj g q) (Some p))%num = Some u /\ 0 <= u /\ u ^ 2 < 2 * g / (g - 1) * rtt0 in
  exists p0, 0 < p0 /\ delta_uR (obj g q) (Some p0) = Some (- f_u q) /\
    forall pt0, ((exists p, solution pt0 p) <-> p0 <= pt0) /\ (forall p p', solution pt0 p -> solution pt0 p' -> p = p').
Proof.
  intros g q rtt Hg Hq Hr Hv solution.
  destruct (u_range g q 0 Hg Hq ltac:(lra)) as (p0 & Hp0 & E0). exists p0. split; [exact Hp0|].
  split; [rewrite delta_uR_K, delta_uK_eval by assumption; unfold iu in E0; f_equal; lra|].
  assert (SE : forall pt0 p, solution pt0 p <-> 0 < p /\ ipt g rtt q p = pt0 /\ 0 <= iu g q p /\ iu g q p ^ 2 < 2 * g / (g - 1) * rtt).
  { intros pt0 p. unfold solution. split.
    - intros (Hp & E & u & Eu & U0 & U1). rewrite delta_uR_K, delta_uK_eval in Eu by assumption. cbn [obj st_u nadd] in Eu. apply Some_inj in Eu. fold (iu g q p) in Eu. subst u.
      rewrite pt0_eval in E by assumption. apply Some_inj in E. auto.
    - intros (Hp & E & U0 & U1). split; [exact Hp|]. split; [rewrite pt0_eval by assumption; now rewrite E|]. exists (iu g q p).
      rewrite delta_uR_K, delta_uK_eval by assumption. cbn [obj st_u nadd]. auto. }
  assert (L0 : 0 < 2 * g / (g - 1) * rtt) by pos.
  assert (I0 : ipt g rtt q p0 = p0).
  { unfold ipt, ib. rewrite E0. pose proof (ik_pos g rtt Hg Hr). replace (ik g rtt / (ik g rtt - 0 ^ 2 / 2)) with 1 by (field; lra). rewrite Rpower_one. ring. }
  intros pt0. split.
  - split.
    + intros (p & S). apply SE in S. destruct S as (Hp & E & U0 & U1). rewrite <- E, <- I0 at 1.
      destruct (Rtotal_order p0 p) as [h|[h|h]]; [left; apply ipt_incr; auto; lra|subst; lra|]. pose proof (iu_incr g q p p0 Hg Hq Hp h). lra.
    + intros Hpt. set (B := pt0 / p0 + 1). assert (HB : 1 < B) by (unfold B; assert (0 < pt0 / p0) by (apply Rdiv_lt_0_compat; lra); lra).
      pose proof (ik_pos g rtt Hg Hr) as Hk. assert (E2 : 2 * g / (g - 1) * rtt = 2 * ik g rtt) by (unfold ik; field; lra).
      assert (Hi : 0 < / B < 1) by (split; [apply Rinv_0_lt_compat; lra|rewrite <- Rinv_1; apply Rinv_lt_contravar; lra]).
      set (v := sqrt (2 * ik g rtt * (1 - / B))). assert (Hv2 : v ^ 2 = 2 * ik g rtt * (1 - / B)) by (unfold v; apply sq_sqrt; nra).
      assert (Hvp : 0 < v) by (unfold v; apply sqrt_lt_R0; nra).
      destruct (u_range g q v Hg Hq ltac:(lra)) as (pt & Hpt0 & Et).
      assert (Hlt : p0 < pt).
      { destruct (Rtotal_order p0 pt) as [h|[h|h]]; [exact h|subst; lra|]. pose proof (iu_incr g q pt p0 Hg Hq Hpt0 h). lra. }
      assert (Lv : v ^ 2 < 2 * g / (g - 1) * rtt) by (rewrite E2, Hv2; nra).
      assert (Hbig : pt0 <= ipt g rtt q pt).
      { unfold ipt. rewrite Et. assert (Eb : ib g rtt v = B) by (unfold ib; rewrite Hv2; field; lra). rewrite Eb.
        assert (P : B <= Rpower B (g / (g - 1))).
        { rewrite <- (Rpower_1 B) at 1 by lra. apply Rle_Rpower; [lra|]. apply (Rle_div_r 1 g); lra. }
        assert (p0 * B <= pt * Rpower B (g / (g - 1))) by (apply Rmult_le_compat; lra).
        assert (p0 * B = pt0 + p0) by (unfold B; field; lra). lra. }
      assert (Lim : forall x, p0 <= x <= pt -> 0 <= iu g q x /\ iu g q x ^ 2 < 2 * g / (g - 1) * rtt).
      { intros x Hx. assert (0 <= iu g q x <= v); [|split; [lra|nra]].
        split; [destruct (proj1 Hx) as [h|h]; [pose proof (iu_incr g q p0 x Hg Hq Hp0 h); lra|subst; lra]|destruct (proj2 Hx) as [h|h]; [pose proof (iu_incr g q x pt Hg Hq ltac:(lra) h); lra|subst; lra]]. }
      destruct (IVT_value (ipt g rtt q) p0 pt pt0 Hlt) as (p & Hp & E).
      * intros x Hx. apply ipt_continuous; auto; [lra|apply Lim, Hx].
      * rewrite I0. lra.
      * exists p. apply SE. split; [lra|]. split; [exact E|]. now apply Lim.
  - intros p p' S S'. apply SE in S, S'. destruct S as (Hp & E & U0 & U1), S' as (Hp' & E' & U0' & U1').
    destruct (Rtotal_order p p') as [h|[h|h]]; [|exact h|].
    + pose proof (ipt_incr g rtt q p p' Hg Hq Hr Hp h U0 U1'). lra.
    + pose proof (ipt_incr g rtt q p' p Hg Hq Hr Hp' h U0' U1). lra.
Qed.

(** an exact root finder that tries one value *)
Definition try_value (p : R) (f : num -> num) (x0 : num) : num :=
  match f (Some p) with Some e => if Req_EM_T e 0 then Some p else None | None => None end.
Lemma try_value_solves p : solves 0 (try_value p).
Proof.
  intros f x r. unfold try_value. destruct (f (Some p)) as [e|] eqn:E; [|discriminate]. destruct (Req_EM_T e 0) as [z|z]; [|discriminate].
  intros H. apply Some_inj in H. subst r e. exists 0. rewrite Rabs_R0. split; [exact E|lra].
Qed.
(*@E C68_example: Gas at rest with rho = 0.2, p = 1, fed with pt0 = 512 and rtt0 = 12/7: an exact root finder gives p* = 4 and u* = 3 behind a shock; the hypotheses of the theorems above hold. *)
Lemma inflow_example : let q := mkflow (2/10) 0 1 in positive_state q /\ solves 0 (try_value 4) /\ f_u q < 2 * flow_sound (14/10) q / (14/10 - 1) /\
  exists S, solve_with_pt0_rtt0 (try_value 4) (inflow_init (obj (14/10) q)) (Some 512) (Some (12/7)) = Some S /\ inflow_pstar S = Some (Some 4) /\ inflow_ustar S = Some (Some 3) /\ f_p q < 4.
Proof.
  intros q. assert (Hq : positive_state q) by (split; cbn; lra). split; [exact Hq|]. split; [apply try_value_solves|].
  split; [cbn [q f_u]; pose proof (sound_pos (14/10) q ltac:(lra) Hq); apply Rdiv_lt_0_compat; lra|].
  assert (Eu : iu (14/10) q 4 = 3).
  { unfold iu, fK, q; cbn [f_u f_p f_rho]. destruct (Rlt_dec 1 4) as [_|h]; [|lra]. unfold shdu; cbn [f_p f_rho]. unfold shD; cbn [f_p f_rho].
    match goal with |- context[sqrt ?x] => replace x with 1 by lra end. rewrite sqrt_1. lra. }
  assert (Ev : pt0_from_pstar_rtt0 (obj (14/10) q) (Some 4) (Some (12/7)) = Some 512).
  { rewrite pt0_eval; [|lra|exact Hq|lra|lra|rewrite Eu; lra]. f_equal. unfold ipt. rewrite Eu. unfold ib, ik.
    replace (14 / 10 / (14 / 10 - 1) * (12 / 7) / (14 / 10 / (14 / 10 - 1) * (12 / 7) - 3 ^ 2 / 2)) with (2 ^ 2) by lra.
    rewrite <- Rpower_pow2 by lra. rewrite Rpower_mult. replace (2 * (14 / 10 / (14 / 10 - 1))) with (INR 7) by (cbn; lra). rewrite Rpower_pow by lra. lra. }
  rewrite (solve_eval (try_value 4) (inflow_init (obj (14/10) q)) (14/10) q 512 (12/7) 4 eq_refl); [|lra|exact Hq|lra|].
  - eexists. split; [reflexivity|]. cbn [inflow_pstar inflow_ustar in_pstar in_ustar]. rewrite Eu. split; [reflexivity|]. split; [reflexivity|cbn; lra].
  - unfold try_value. rewrite Ev. cbn [nsub]. destruct (Req_EM_T (512 - 512) 0) as [_|n]; [reflexivity|elim n; lra].
Qed.
