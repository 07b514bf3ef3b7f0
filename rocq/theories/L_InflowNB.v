From Verif Require Import L_Num Spec NumSpec InflowNBSpec M_Isentropic M_MassFlow M_ShockWave M_Model1D M_Unsteady1D M_Riemann M_Inflow M_InflowNB L_Isentropic L_MassFlow L_Shock L_Model1D L_Unsteady L_Riemann1 L_Riemann2 L_Nozzle1 L_Inflow.
Open Scope R_scope.
Open Scope list_scope.
Notation g0 := (14/10).

Definition q0 (M : R) : flow := mkflow 1 (M * sqrt g0) 1.
Lemma q0_pos M : positive_state (q0 M).
Proof. split; cbn; lra. Qed.
Lemma sg : 0 < sqrt g0.
Proof. apply sqrt_lt_R0; lra. Qed.
Lemma q0_sound M : flow_sound g0 (q0 M) = sqrt g0.
Proof. unfold flow_sound, q0; cbn. f_equal. lra. Qed.
Lemma q0_Mach M : f_u (q0 M) / flow_sound g0 (q0 M) = M.
Proof. rewrite q0_sound. cbn. pose proof sg. field. lra. Qed.
Lemma qi_eval M : inb_qi (Some M) = obj g0 (q0 M).
Proof. unfold inb_qi, state_init, obj, q0, dgamma. rewrite nsqrt_Some by lra. reflexivity. Qed.
Lemma init_qR M : in_qR (inflow_init (inb_qi (Some M))) = obj g0 (q0 M).
Proof. unfold inflow_init. rewrite qi_eval. reflexivity. Qed.
Lemma qi_Pt M : Ptot (obj g0 (q0 M)) = Some (pp g0 M).
Proof. rewrite Ptot_eval by (lra || apply q0_pos). rewrite q0_Mach. unfold pp. cbn [q0 f_p]. now rewrite Rmult_1_l. Qed.
Lemma qi_rTt M : rTtot (obj g0 (q0 M)) = Some (tt g0 M).
Proof. rewrite rTtot_eval by (lra || apply q0_pos). rewrite rTt_tt by (lra || apply q0_pos). rewrite q0_Mach. cbn [q0 f_p f_rho]. f_equal. field. Qed.

(** mass flow through static pressure, and through total conditions *)
Lemma mass_static g q : 1 < g -> positive_state q -> let m := f_u q / flow_sound g q in let rtt := f_p q / f_rho q * tt g m in
  f_rho q * f_u q = f_p q * (m * sqrt (tt g m)) * sqrt (g / rtt).
Proof.
  intros Hg Hq m rtt. pose proof (sound_pos g q ltac:(lra) Hq) as Ha. pose proof (sound_sq g q ltac:(lra) Hq) as H2.
  pose proof (tt_pos g m Hg) as Ht. destruct Hq as [Hr Hp].
  assert (E : f_rho q * flow_sound g q = f_p q * sqrt (tt g m) * sqrt (g / rtt)).
  { rewrite Rmult_assoc, <- sqrt_mult by first [lra|left; apply Rdiv_lt_0_compat; [lra|unfold rtt; pos]].
    rewrite <- (sqrt_sq (f_p q)) by lra. rewrite <- sqrt_mult by first [nra|left; apply Rmult_lt_0_compat; [lra|apply Rdiv_lt_0_compat; [lra|unfold rtt; pos]]].
    rewrite <- (sqrt_sq (f_rho q * flow_sound g q)) by nra. f_equal. rewrite Rpow_mult_distr, H2. unfold rtt. field. lra. }
  replace (f_u q) with (m * flow_sound g q) by (unfold m; field; lra).
  transitivity (m * (f_rho q * flow_sound g q)); [ring|]. rewrite E. ring.
Qed.
Definition kk : R := Rpower ((g0 + 1) / 2) (sexp g0).
Lemma kk_pos : 0 < kk.
Proof. apply Rpower_pos. Qed.
Lemma mass_total q pt rtt : positive_state q -> 0 < f_u q -> Ptot (obj g0 q) = Some pt -> rTtot (obj g0 q) = Some rtt -> let m := f_u q / flow_sound g0 q in
  0 < m /\ f_p q * pp g0 m = pt /\ f_p q / f_rho q * tt g0 m = rtt /\
  f_rho q * f_u q = f_p q * (m * sqrt (tt g0 m)) * sqrt (g0 / rtt) /\ f_rho q * f_u q = pt * sqrt (g0 / rtt) / kk / sig g0 m.
Proof.
  intros Hq Hu EP ET m. pose proof (sound_pos g0 q ltac:(lra) Hq) as Ha. assert (Hm : 0 < m) by (unfold m; apply Rdiv_lt_0_compat; lra).
  rewrite Ptot_eval in EP by (lra || assumption). fold m in EP. apply Some_inj in EP. fold (pp g0 m) in EP.
  rewrite rTtot_eval, rTt_tt in ET by (lra || assumption). fold m in ET. apply Some_inj in ET.
  split; [exact Hm|]. split; [exact EP|]. split; [exact ET|].
  pose proof (mass_static g0 q ltac:(lra) Hq) as E. cbv zeta in E. fold m in E. rewrite ET in E. split; [exact E|].
  rewrite E, mst_sig by lra. fold kk. rewrite <- EP. pose proof kk_pos. pose proof (sig_pos g0 m). field. lra.
Qed.
Lemma pp_lt_inv x y : 0 <= x -> 0 <= y -> pp g0 x < pp g0 y -> x < y.
Proof.
  intros Hx Hy H. destruct (Rtotal_order x y) as [h|[h|h]]; [exact h|subst; lra|]. pose proof (pp_incr g0 y x ltac:(lra) Hy h). lra.
Qed.
Lemma pp_inj x y : 0 <= x -> 0 <= y -> pp g0 x = pp g0 y -> x = y.
Proof.
  intros Hx Hy H. destruct (Rtotal_order x y) as [h|[h|h]]; [|exact h|]; [pose proof (pp_incr g0 x y ltac:(lra) Hx h)|pose proof (pp_incr g0 y x ltac:(lra) Hy h)]; lra.
Qed.

(** ** the body of the loop *)
Definition nrow (mf0 mf1 mf2 mff mffb ps Ms M1 M2 : R) : inb_row :=
  mk_inb (Some mf0) (Some mf1) (Some mf2) (Some mff) (Some mffb) (Some ps) (Some Ms) (Some M1) (Some M2)
    (ndiv (Some (mf1 - mf0)) (Some (mff - mf0))) (ndiv (Some (mf2 - mf0)) (Some (mff - mf0)))
    (ndiv (Some (mf1 - mf0)) (Some (mffb - mf0))) (ndiv (Some (mf2 - mf0)) (Some (mffb - mf0))).
Lemma iu_at_1 M : iu g0 (q0 M) 1 = M * sqrt g0.
Proof.
  unfold iu, fK. cbn [q0 f_u f_p]. destruct (Rlt_dec 1 1) as [h|_]; [lra|]. unfold exdu. cbn [q0 f_u f_p f_rho].
  replace (1 / 1) with 1 by field. rewrite Rpower_one. ring.
Qed.
Lemma lim_eq rtt : 2 * g0 / (g0 - 1) * rtt = 7 * rtt.
Proof. lra. Qed.
Section Body.
Context (fsolve : solver) (M0 pi ta : R) (inlet : inflow).
Hypothesis HS : solves 0 fsolve.
Hypothesis HM : 0 < M0.
Hypothesis Hpi : 1 <= pi.
Hypothesis Hta : 0 < ta.
Hypothesis EI : in_qR inlet = obj g0 (q0 M0).
Let rtt := ta * tt g0 M0.
Let pt := pi * pp g0 M0.
Lemma rtt_pos : 0 < rtt.
Proof. unfold rtt. pose proof (tt_pos g0 M0 ltac:(lra)). nra. Qed.
Lemma pt_ge : 1 < pt.
Proof. unfold pt. pose proof (pp_gt1 g0 M0 ltac:(lra) HM). nra. Qed.
Definition flow_f : flow := tq g0 pt rtt (sqrt ((Rpower (pt / 1) ((g0 - 1) / g0) - 1) * 2 / (g0 - 1))).
Lemma qf_eval : exists q, compute_from_pt_rtt_p (obj g0 (q0 M0)) (Some pt) (Some rtt) (Some 1) = obj g0 q /\ positive_state q /\ f_p q = 1 /\ 0 < f_u q /\ Ptot (obj g0 q) = Some pt /\ rTtot (obj g0 q) = Some rtt.
Proof.
  pose proof rtt_pos. pose proof pt_ge. destruct (from_pressure g0 (Some 1) (Some (M0 * sqrt g0)) (Some 1) pt rtt 1 ltac:(lra) ltac:(lra) ltac:(lra)) as (q & E & Q & P & U & A & B).
  exists q. split; [exact E|]. split; [exact Q|]. split; [exact P|]. split; [|split; assumption].
  destruct U as [U|U]; [exact U|]. exfalso. rewrite Ptot_eval in A by (lra || assumption). apply Some_inj in A. rewrite <- U, P in A.
  replace (0 / flow_sound g0 q) with 0 in A by (unfold Rdiv; ring). replace (tt g0 0) with 1 in A by (unfold tt; ring). rewrite Rpower_one in A. lra.
Qed.
Lemma qfb_eval : exists q, compute_from_pt_rtt_M (obj g0 (q0 M0)) (Some pt) (Some rtt) (Some M0) = obj g0 q /\ positive_state q /\ f_u q / flow_sound g0 q = M0 /\ Ptot (obj g0 q) = Some pt /\ rTtot (obj g0 q) = Some rtt.
Proof.
  pose proof rtt_pos. pose proof pt_ge. destruct (from_Mach g0 (Some 1) (Some (M0 * sqrt g0)) (Some 1) pt rtt M0 ltac:(lra) ltac:(lra) ltac:(lra)) as (q & E & Q & A & B & C).
  exists q. split; [exact E|]. split; [exact Q|]. split; [|split; assumption]. rewrite Mach_eval in A by (lra || assumption). now apply Some_inj in A.
Qed.
Lemma body_eval o r : inb_body fsolve (Some M0) (Some ta) inlet (Some pi) = Some (o, r) ->
  exists p rL qf qfb, let u := iu g0 (q0 M0) p in let qR := mkflow (srho g0 (q0 M0) p) u p in let qL := mkflow rL u p in
    in_qR o = obj g0 (q0 M0) /\ 0 < p /\ 0 < rL /\ u ^ 2 < 7 * rtt /\ ipt g0 rtt (q0 M0) p = pt /\
    Ptot (obj g0 qL) = Some pt /\ rTtot (obj g0 qL) = Some rtt /\
    positive_state qf /\ f_p qf = 1 /\ 0 < f_u qf /\ Ptot (obj g0 qf) = Some pt /\ rTtot (obj g0 qf) = Some rtt /\
    positive_state qfb /\ f_u qfb / flow_sound g0 qfb = M0 /\ Ptot (obj g0 qfb) = Some pt /\ rTtot (obj g0 qfb) = Some rtt /\
    joined_by_wave 1 g0 (q0 M0) qR (wout 1 g0 (q0 M0) p) (win 1 g0 (q0 M0) p) /\
    in_qsR o = Some (obj g0 qR) /\ in_qsL o = Some (obj g0 qL) /\
    (1/7 <= p -> r = nrow (M0 * sqrt g0) (f_rho qR * u) (rL * u) (f_rho qf * f_u qf) (f_rho qfb * f_u qfb) p (sqrt (1 + (p - 1) * (g0 + 1) / (2 * g0)))
         (u / flow_sound g0 qR) (u / flow_sound g0 qL)) /\ r_mf1 r = Some (f_rho qR * u) /\
    r_mf0 r = Some (M0 * sqrt g0) /\ r_mf2 r = Some (rL * u) /\ r_mff r = Some (f_rho qf * f_u qf) /\ r_mffb r = Some (f_rho qfb * f_u qfb) /\ r_ps r = Some p.
Proof.
  intros E. unfold inb_body in E. rewrite qi_eval, qi_Pt, qi_rTt in E. cbn [nmul] in E. change (ta * tt g0 M0) with rtt in E. change (pi * pp g0 M0) with pt in E.
  pose proof rtt_pos as Hr. pose proof pt_ge as Hp1. pose proof (q0_pos M0) as Q0.
  destruct (solve_with_pt0_rtt0 fsolve inlet (Some pt) (Some rtt)) as [S|] eqn:ES; [|discriminate].
  destruct (accepted fsolve 0 inlet g0 (q0 M0) pt rtt S HS ltac:(lra) EI ltac:(lra) Q0 ES) as (p & e & Hp & Ef & Ev & He).
  assert (e = 0) as -> by (destruct (Req_dec e 0) as [z|z]; [exact z|pose proof (Rabs_pos_lt e z); lra]). rewrite Rplus_0_r in Ev.
  pose proof (pt0_air rtt (q0 M0) p pt Q0 Hp Hr Ev) as Hl.
  rewrite (solve_eval fsolve inlet g0 (q0 M0) pt rtt p EI ltac:(lra) Q0 Hp Ef) in ES. apply Some_inj in ES. subst S.
  rewrite pt0_eval in Ev by (try assumption; rewrite ?lim_eq; lra). apply Some_inj in Ev.
  destruct (qL_eval g0 (q0 M0) pt rtt (iu g0 (q0 M0) p) ltac:(lra) ltac:(lra) Hr ltac:(rewrite lim_eq; exact Hl)) as (rL & HrL & Hp1' & Eq & A & B). cbv zeta in *.
  assert (Ep : pt / Rpower (ib g0 rtt (iu g0 (q0 M0) p)) (g0 / (g0 - 1)) = p).
  { pose proof (Rpower_pos (ib g0 rtt (iu g0 (q0 M0) p)) (g0 / (g0 - 1))). unfold ipt in Ev. set (X := Rpower _ _) in *. clearbody X. rewrite <- Ev. field. lra. }
  rewrite Ep in *. destruct qf_eval as (qf & Eqf & F1 & F2 & F3 & F4 & F5). destruct qfb_eval as (qfb & Eqfb & G1 & G2 & G3 & G4).
  set (u := iu g0 (q0 M0) p) in *. set (qR := mkflow (srho g0 (q0 M0) p) u p). set (qL := mkflow rL u p).
  assert (QR : positive_state qR) by (split; cbn; [now apply srho_pos; try lra|exact Hp]). assert (QL : positive_state qL) by (split; cbn; assumption).
  assert (Es : sq 1 g0 (q0 M0) p = qR) by (unfold sq, qR, u, iu; now rewrite Rmult_1_l). rewrite Es in E.
  exists p, rL, qf, qfb. cbv zeta. fold u. fold qR qL. unfold uq_copy in E. rewrite Eq in E.
  cbn [in_qsR in_qsL in_qR] in E. change (st_p (obj g0 (q0 M0))) with (Some 1 : num) in E. rewrite Eqf, Eqfb in E.
  change (mk_state dgamma (Some rL) (Some u) (Some p)) with (obj g0 qL) in E.
  rewrite !Mach_eval in E by (lra || assumption).
  apply Some_inj in E. pose proof (f_equal fst E) as Eo. pose proof (f_equal snd E) as Er. cbn [fst snd] in Eo, Er. clear E. subst o r.
  cbn [in_qR in_qsR in_qsL r_mf0 r_mf1 r_mf2 r_mff r_mffb r_ps]. split; [reflexivity|]. do 3 (split; [assumption|]). split; [exact Ev|]. do 2 (split; [assumption|]). do 9 (split; [assumption|]).
  split; [rewrite <- Es; apply joined; auto; lra|]. split; [reflexivity|]. split; [reflexivity|]. split.
  2:{ split; [reflexivity|]. split; [unfold massflow; cbn [obj q0 st_rho st_u f_rho f_u nmul]; now rewrite Rmult_1_l|]. split; [reflexivity|]. split; [reflexivity|]. split; [reflexivity|].
    change (st_p (obj g0 qR)) with (Some p : num). rewrite ndiv_Some by lra. f_equal. field. }
  intros H7. unfold nrow, massflow. change (st_p (obj g0 qR)) with (Some p : num).
  unfold Mn_Ps_ratio, dgamma. rewrite (ndiv_Some p 1) by lra. ncbn. rewrite ndiv_Some by lra. ncbn. rewrite nsqrt_Some by lra.
  replace (p / 1) with p by field. cbn [obj q0 f_rho f_u f_p st_rho st_u nmul nsub]. rewrite Rmult_1_l. reflexivity.
Qed.
End Body.

(** ** consequences for an unchanged total temperature *)
Lemma ipt_at_1 M : 0 < M -> ipt g0 (1 * tt g0 M) (q0 M) 1 = pp g0 M /\ iu g0 (q0 M) 1 ^ 2 < 7 * (1 * tt g0 M).
Proof.
  intros HM. rewrite iu_at_1. assert (S : (M * sqrt g0) ^ 2 = g0 * M ^ 2) by (rewrite Rpow_mult_distr, sq_sqrt by lra; ring).
  unfold ipt. rewrite iu_at_1. unfold ib, ik. rewrite S. split; [|unfold tt; nra].
  unfold pp. rewrite Rmult_1_l. f_equal. unfold tt. field. nra.
Qed.
Lemma p_range M pi p : 0 < M -> 1 <= pi -> 0 < p -> iu g0 (q0 M) p ^ 2 < 7 * (1 * tt g0 M) -> 0 <= iu g0 (q0 M) p -> ipt g0 (1 * tt g0 M) (q0 M) p = pi * pp g0 M ->
  (1 < pi -> 1 < p) /\ (pi = 1 -> p = 1).
Proof.
  intros HM Hpi Hp Hl Hu E. destruct (ipt_at_1 M HM) as [E1 L1]. pose proof (pp_gt1 g0 M ltac:(lra) HM) as HP. pose proof (tt_pos g0 M ltac:(lra)) as Ht.
  pose proof (q0_pos M) as Q. destruct (Rtotal_order p 1) as [h|[h|h]].
  - pose proof (ipt_incr g0 (1 * tt g0 M) (q0 M) p 1 ltac:(lra) Q ltac:(lra) Hp h Hu ltac:(rewrite lim_eq; exact L1)) as I. rewrite E, E1 in I. exfalso. nra.
  - rewrite h, E1 in E. split; [intros; exfalso; nra|auto].
  - assert (U1 : 0 <= iu g0 (q0 M) 1) by (rewrite iu_at_1; pose proof sg; nra).
    pose proof (ipt_incr g0 (1 * tt g0 M) (q0 M) 1 p ltac:(lra) Q ltac:(lra) ltac:(lra) h U1 ltac:(rewrite lim_eq; exact Hl)) as I. rewrite E, E1 in I.
    split; [auto|]. intros ->. lra.
Qed.
Lemma srho_q0 M p : 1 < p -> srho g0 (q0 M) p = (6 * p + 1) / (p + 6).
Proof.
  intros Hp. unfold srho. cbn [q0 f_p]. destruct (Rlt_dec 1 p) as [_|h]; [|lra]. unfold shrho. cbn [q0 f_p f_rho]. field. lra.
Qed.
Lemma sound_lt r s p : 0 < p -> 0 < r < s -> forall u, flow_sound g0 (mkflow s u p) < flow_sound g0 (mkflow r u p).
Proof.
  intros Hp H u. unfold flow_sound. cbn. apply sqrt_lt_1_alt. split; [left; apply Rdiv_lt_0_compat; nra|]. unfold Rdiv. apply Rmult_lt_compat_l; [nra|]. apply Rinv_lt_contravar; nra.
Qed.
Lemma div_lt_l a b c : 0 < c -> a < b * c -> a / c < b.
Proof. intros Hc H. apply (Rmult_lt_reg_r c); [exact Hc|]. unfold Rdiv. rewrite Rmult_assoc, Rinv_l by lra. lra. Qed.
Lemma div_gt_l a b c : 0 < c -> b * c < a -> b < a / c.
Proof. intros Hc H. apply (Rmult_lt_reg_r c); [exact Hc|]. unfold Rdiv. rewrite Rmult_assoc, Rinv_l by lra. lra. Qed.
Lemma div_lt_div a b c : 0 < c -> a < b -> a / c < b / c.
Proof. intros Hc H. apply Rmult_lt_compat_r; [now apply Rinv_0_lt_compat|exact H]. Qed.

Lemma body_facts fsolve M0 pi inlet o row : solves 0 fsolve -> 0 < M0 -> 1 < pi -> in_qR inlet = obj g0 (q0 M0) ->
  inb_body fsolve (Some M0) (Some 1) inlet (Some pi) = Some (o, row) -> (forall m, r_mf1 row = Some m -> 0 <= m) -> row_facts M0 pi row.
Proof.
  intros HS HM Hpi EI E Hm. destruct (body_eval fsolve M0 pi 1 inlet HS HM ltac:(lra) ltac:(lra) EI o row E) as (p & rL & qf & qfb & H). cbv zeta in H.
  set (u := iu g0 (q0 M0) p) in *. set (rR := srho g0 (q0 M0) p) in *. cbn [f_rho] in H.
  destruct H as (_ & Hp & HrL & Hl & Ei & AL & BL & F1 & F2 & F3 & F4 & F5 & G1 & G2 & G3 & G4 & J & _ & _ & Er & Em & _).
  pose proof (q0_pos M0) as Q. assert (HrR : 0 < rR) by (apply srho_pos; auto; lra). specialize (Hm _ Em). assert (Hu : 0 <= u) by nra.
  destruct (p_range M0 pi p HM ltac:(lra) Hp Hl Hu Ei) as [Hp1 _]. specialize (Hp1 Hpi). specialize (Er ltac:(lra)).
  pose proof sg as Sg. set (s := sqrt g0) in *.
  assert (Hu0 : M0 * s < u) by (unfold u; replace (M0 * s) with (iu g0 (q0 M0) 1) by apply iu_at_1; apply iu_incr; auto; lra).
  assert (ERR : rR = (6 * p + 1) / (p + 6)) by (now apply srho_q0).
  assert (HR1 : 1 < rR) by (rewrite ERR; apply div_gt_l; lra).
  assert (HT : rR < p) by (rewrite ERR; apply div_lt_l; nra).
  pose proof (tt_pos g0 M0 ltac:(lra)) as Ht0. assert (Ss : s ^ 2 = g0) by (apply sq_sqrt; lra).
  set (qL := mkflow rL u p) in *. set (qR := mkflow rR u p) in *. assert (QL : positive_state qL) by (split; cbn; assumption). assert (QR : positive_state qR) by (split; cbn; assumption).
  assert (HTL : p / rL < 1).
  { pose proof BL as B. rewrite rTtot_eval in B by (lra || assumption). apply Some_inj in B. cbn [qL f_p f_rho f_u] in B. unfold tt in B.
    assert (M0 ^ 2 * g0 < u ^ 2) by (rewrite <- Ss, <- Rpow_mult_distr; assert (0 < M0 * s) by nra; generalize dependent (M0 * s); intros z Hz1 Hz2; nra). lra. }
  assert (HLp : p < rL). { apply (Rmult_lt_compat_r rL) in HTL; [|exact HrL]. unfold Rdiv in HTL. rewrite Rmult_assoc, Rinv_l in HTL by lra. lra. }
  pose proof (sound_pos g0 qL ltac:(lra) QL) as aL. pose proof (sound_pos g0 qR ltac:(lra) QR) as aR.
  assert (AA : flow_sound g0 qL < flow_sound g0 qR) by (apply sound_lt; lra).
  assert (AL1 : flow_sound g0 qL < s).
  { unfold flow_sound, s. cbn [qL f_p f_rho]. apply sqrt_lt_1_alt. split; [left; apply Rdiv_lt_0_compat; nra|]. apply div_lt_l; nra. }
  set (M1 := u / flow_sound g0 qR) in *. set (M2 := u / flow_sound g0 qL) in *.
  assert (H12 : 0 < M1 < M2). { split; [apply Rdiv_lt_0_compat; nra|]. unfold M1, M2, Rdiv. apply Rmult_lt_compat_l; [nra|]. apply Rinv_lt_contravar; nra. }
  assert (H02 : M0 < M2) by (apply div_gt_l; nra).
  destruct (mass_total qL _ _ QL ltac:(cbn; nra) AL BL) as (_ & PL & _ & _ & ML). cbv zeta in ML, PL. cbn [qL f_u f_rho f_p] in ML, PL. fold qL in ML, PL. fold M2 in ML, PL.
  destruct (mass_total qf _ _ F1 F3 F4 F5) as (Hmf & PF & _ & SF & MF). cbv zeta in *. set (Mf := f_u qf / flow_sound g0 qf) in *. rewrite F2, Rmult_1_l in PF. rewrite F2, Rmult_1_l in SF.
  assert (Hub : 0 < f_u qfb). { pose proof (sound_pos g0 qfb ltac:(lra) G1). replace (f_u qfb) with (M0 * flow_sound g0 qfb) by (rewrite <- G2; field; lra). nra. }
  destruct (mass_total qfb _ _ G1 Hub G3 G4) as (_ & _ & _ & _ & MB). cbv zeta in MB. rewrite G2 in MB.
  destruct (mass_total (q0 M0) _ _ Q ltac:(cbn; apply Rmult_lt_0_compat; assumption) (qi_Pt M0) (qi_rTt M0)) as (_ & _ & _ & S0 & M00). cbv zeta in S0, M00. rewrite q0_Mach in S0, M00. cbn [q0 f_rho f_u f_p] in S0, M00. rewrite !Rmult_1_l in S0. rewrite Rmult_1_l in M00.
  rewrite Rmult_1_l in ML, MF, MB, SF. fold s in S0, M00.
  set (mf0 := M0 * s) in *. set (mf1 := rR * u) in *. set (mf2 := rL * u) in *. set (mff := f_rho qf * f_u qf) in *. set (mffb := f_rho qfb * f_u qfb) in *.
  pose proof kk_pos as Hk. pose proof (sig_pos g0 M0) as Z0. assert (HG : 0 < sqrt (g0 / tt g0 M0)) by (apply sqrt_lt_R0, Rdiv_lt_0_compat; lra).
  pose proof (pp_gt1 g0 M0 ltac:(lra) HM) as HP0.
  assert (EB : mffb = pi * mf0) by (rewrite MB, M00; field; lra).
  assert (Hf0 : 0 < mf0) by (unfold mf0; nra).
  assert (HMf : M0 < Mf) by (apply pp_lt_inv; [lra|lra|]; rewrite PF; nra).
  assert (O3 : mf0 < mff). { rewrite SF, S0. apply Rmult_lt_compat_r; [exact HG|]. apply mst_incr; lra. }
  assert (O1 : mf0 < mf1) by (unfold mf1; nra). assert (O2 : mf1 < mf2) by (unfold mf1, mf2; apply Rmult_lt_compat_r; nra).
  assert (O4 : mf0 < mffb) by (rewrite EB; nra).
  set (K := pi * pp g0 M0 * sqrt (g0 / tt g0 M0) / kk) in *. assert (HK : 0 < K) by (unfold K; apply Rdiv_lt_0_compat; [|exact Hk]; apply Rmult_lt_0_compat; [nra|exact HG]).
  assert (DK : forall a b, 0 < a -> a < b -> b <= 1 -> K / sig g0 a < K / sig g0 b).
  { intros a b Ha Hab Hb. unfold Rdiv. apply Rmult_lt_compat_l; [exact HK|]. pose proof (sig_pos g0 a). pose proof (sig_pos g0 b). apply Rinv_lt_contravar; [nra|]. apply sig_decr; lra. }
  set (Ms := sqrt (1 + (p - 1) * (g0 + 1) / (2 * g0))). assert (Ms2 : Ms ^ 2 = 1 + (p - 1) * (g0 + 1) / (2 * g0)) by (apply sq_sqrt; lra).
  assert (HMs : 1 < Ms). { rewrite <- sqrt_1. apply sqrt_lt_1_alt. lra. }
  exists mf0, mf1, mf2, mff, mffb, p, Ms, M1, M2, ((mf1 - mf0) / (mff - mf0)), ((mf2 - mf0) / (mff - mf0)), ((mf1 - mf0) / (mffb - mf0)), ((mf2 - mf0) / (mffb - mf0)), rR, rL, (pp g0 M0), (pp g0 1).
  assert (EU : mf1 / rR = u) by (unfold mf1; field; lra). rewrite EU.
  split. { rewrite Er. unfold nrow. rewrite !ndiv_Some by lra. reflexivity. }
  split; [reflexivity|]. split; [exact EB|]. split; [lra|]. split; [exact O3|]. split; [exact Hp1|]. split; [exact HMs|].
  split. { unfold Ps_ratio. ncbn. rewrite ndiv_Some by lra. ncbn. f_equal. rewrite Ms2. field. }
  split.
  { cbv zeta. assert (E1 : win 1 g0 (q0 M0) p = M0 * s + Ms * s /\ wout 1 g0 (q0 M0) p = M0 * s + Ms * s).
    { unfold wout, win. cbn [q0 f_p f_u f_rho]. destruct (Rlt_dec 1 p); [|lra].
      assert (X : 1 * shj g0 (mkflow 1 (M0 * sqrt g0) 1) p / 1 = Ms * s); [|unfold q0; rewrite X; split; reflexivity].
      unfold shj, shD. cbn [f_p f_rho]. unfold Ms, s. rewrite <- sqrt_mult by lra. unfold Rdiv at 1. rewrite Rinv_1, Rmult_1_r, Rmult_1_l. f_equal. field. }
    destruct E1 as [E1 E2]. rewrite E1, E2 in J. exact J. }
  split; [lra|]. split; [unfold mf2; field; lra|]. split; [exact Hu0|].
  split; [unfold pp; apply PtPs_eval; lra|]. split; [unfold pp; apply PtPs_eval; lra|]. split; [exact AL|].
  split; [exact H12|]. split; [exact H02|].
  split; [split; [apply Rdiv_lt_0_compat; lra|apply div_lt_div; lra]|]. split; [split; [apply Rdiv_lt_0_compat; lra|apply div_lt_div; lra]|].
  split.
  - intros H1. assert (O5 : mffb < mf2) by (rewrite MB, ML; apply DK; lra). split; [exact O5|]. apply div_gt_l; lra.
  - intros H1. assert (Mf <= 1). { destruct (Rle_lt_dec Mf 1) as [|G]; [assumption|]. pose proof (pp_incr g0 1 Mf ltac:(lra) ltac:(lra) G). lra. }
    assert (M2 < Mf). { apply pp_lt_inv; [lra|lra|]. rewrite PF, <- PL. pose proof (pp_pos g0 M2). nra. }
    split; [lra|]. assert (O6 : mf2 < mff) by (rewrite ML, MF; apply DK; lra). split; [exact O6|]. apply div_lt_l; lra.
Qed.

Lemma body_start fsolve M0 inlet o row : solves 0 fsolve -> 0 < M0 -> in_qR inlet = obj g0 (q0 M0) ->
  inb_body fsolve (Some M0) (Some 1) inlet (Some 1) = Some (o, row) -> (forall m, r_mf1 row = Some m -> 0 <= m) -> start_facts M0 row.
Proof.
  intros HS HM EI E Hm. destruct (body_eval fsolve M0 1 1 inlet HS HM ltac:(lra) ltac:(lra) EI o row E) as (p & rL & qf & qfb & H). cbv zeta in H. cbn [f_rho] in H.
  destruct H as (_ & Hp & HrL & Hl & Ei & AL & BL & F1 & F2 & F3 & F4 & F5 & G1 & G2 & G3 & G4 & J & _ & _ & Er & Em & _).
  pose proof (q0_pos M0) as Q. assert (HrR : 0 < srho g0 (q0 M0) p) by (apply srho_pos; auto; lra). specialize (Hm _ Em). assert (Hu : 0 <= iu g0 (q0 M0) p) by nra.
  destruct (p_range M0 1 p HM ltac:(lra) Hp Hl Hu Ei) as [_ Hp1]. specialize (Hp1 eq_refl). subst p. specialize (Er ltac:(lra)).
  pose proof sg as Sg. rewrite iu_at_1 in *. set (s := sqrt g0) in *. assert (Ss : s ^ 2 = g0) by (apply sq_sqrt; lra).
  assert (ER : srho g0 (q0 M0) 1 = 1).
  { unfold srho. cbn [q0 f_p]. destruct (Rlt_dec 1 1); [lra|]. unfold isrho. cbn [q0 f_p f_rho]. replace (1 / 1) with 1 by field. rewrite Rpower_one. ring. }
  rewrite ER in *. pose proof (tt_pos g0 M0 ltac:(lra)) as Ht0.
  assert (EL : rL = 1).
  { pose proof BL as B. rewrite rTtot_eval in B by (lra || (split; cbn; lra)). apply Some_inj in B. cbn [f_p f_rho f_u] in B. unfold tt in B. rewrite Rpow_mult_distr, Ss in B.
    assert (X : 1 / rL = 1) by lra. replace rL with (1 / (1 / rL)) by (field; lra). rewrite X. field. }
  subst rL. assert (EMM : M0 * s / flow_sound g0 (mkflow 1 (M0 * s) 1) = M0) by exact (q0_Mach M0). rewrite EMM in Er.
  destruct (mass_total qf _ _ F1 F3 F4 F5) as (Hmf & PF & _ & SF & _). cbv zeta in *. set (Mf := f_u qf / flow_sound g0 qf) in *. rewrite F2, Rmult_1_l in PF. rewrite F2, Rmult_1_l in SF.
  assert (Mf = M0) by (apply pp_inj; lra).
  assert (Hub : 0 < f_u qfb). { pose proof (sound_pos g0 qfb ltac:(lra) G1). replace (f_u qfb) with (M0 * flow_sound g0 qfb) by (rewrite <- G2; field; lra). nra. }
  destruct (mass_total qfb _ _ G1 Hub G3 G4) as (_ & _ & _ & _ & MB). cbv zeta in MB. rewrite G2 in MB.
  destruct (mass_total (q0 M0) _ _ Q ltac:(cbn; apply Rmult_lt_0_compat; assumption) (qi_Pt M0) (qi_rTt M0)) as (_ & _ & _ & S0 & M00). cbv zeta in S0, M00. rewrite q0_Mach in S0, M00. cbn [q0 f_rho f_u f_p] in S0, M00. rewrite !Rmult_1_l in S0. rewrite Rmult_1_l in M00.
  fold s in S0, M00. rewrite H, Rmult_1_l, <- S0 in SF. rewrite !Rmult_1_l in MB. rewrite <- M00 in MB.
  rewrite Er. unfold nrow, start_facts. fold s. rewrite SF, MB, !Rmult_1_l.
  replace (1 + (1 - 1) * (g0 + 1) / (2 * g0)) with 1 by lra. rewrite sqrt_1. replace (M0 * s - M0 * s) with 0 by ring.
  unfold ndiv. destruct (Req_EM_T 0 0) as [_|n]; [reflexivity|lra].
Qed.

Lemma loop_rows fsolve M0 ta : solves 0 fsolve -> 0 < M0 -> 0 < ta -> forall pis inlet rows, (forall x, In x pis -> 1 <= x) -> in_qR inlet = obj g0 (q0 M0) ->
  inb_loop fsolve (Some M0) (Some ta) inlet (map (@Some R) pis) = Some rows ->
  length rows = length pis /\ forall i pi row, nth_error pis i = Some pi -> nth_error rows i = Some row ->
    1 <= pi /\ exists inl o, in_qR inl = obj g0 (q0 M0) /\ inb_body fsolve (Some M0) (Some ta) inl (Some pi) = Some (o, row).
Proof.
  intros HS HM Hta. induction pis as [|x pis IH]; intros inlet rows Hx EI E; cbn [map inb_loop] in E.
  - apply Some_inj in E. subst rows. split; [reflexivity|]. intros [|i] pi row H; discriminate.
  - destruct (inb_body fsolve (Some M0) (Some ta) inlet (Some x)) as [[o r]|] eqn:EB; [|discriminate].
    destruct (inb_loop fsolve (Some M0) (Some ta) o (map (@Some R) pis)) as [l|] eqn:EL; [|discriminate]. apply Some_inj in E. subst rows.
    assert (H1 : 1 <= x) by (apply Hx; now left).
    destruct (body_eval fsolve M0 x ta inlet HS HM H1 Hta EI o r EB) as (p & rL & qf & qfb & EO & _). destruct (IH o l) as [A B]; [intros y Hy; apply Hx; now right|exact EO|exact EL|].
    split; [cbn; now rewrite A|]. intros [|i] pi row Hp Hr; cbn in Hp, Hr.
    + apply Some_inj in Hp, Hr. subst. split; [exact H1|]. exists inlet, o. auto.
    + exact (B i pi row Hp Hr).
Qed.

(*@P C102_rows: With an exact root finder, for every initial Mach number, every list of total-pressure ratios from 1 and every row of ratio above 1 whose inflow is not reversed: the mass flow at the initial Mach number is exactly pi times the initial one; mf0 < mf1 < mf2 and mf0 < mff; the transmitted wave is a shock, the plotted pressure ratio and Mach number are its own (related by Rankine-Hugoniot, its speed is that Mach number times the initial sound speed ahead of the initial velocity); both sides of the contact have one velocity, above the initial one, the inflow side is denser and has the imposed total pressure; 0 < M1 < M2, M0 < M2; the curves normalised by either final state are positive and ordered; when M2 is at most 1 the inflow overshoots the final state of the same Mach number (2fb above 1); and as long as the final state of the same static pressure is not supersonic M2 is below 1 and the inflow stays below that state (2f below 1). *)
Lemma inflow_rows : forall fsolve M0 pis rows, solves 0 fsolve -> 0 < M0 -> (forall x, In x pis -> 1 <= x) ->
  inb_run fsolve (Some M0) (Some 1) (map (@Some R) pis) = Some rows ->
  length rows = length pis /\
  forall i pi row, nth_error pis i = Some pi -> nth_error rows i = Some row -> 1 < pi -> (forall m, r_mf1 row = Some m -> 0 <= m) -> row_facts M0 pi row.
Proof.
  intros fsolve M0 pis rows HS HM Hx E. unfold inb_run in E. destruct (loop_rows fsolve M0 1 HS HM ltac:(lra) pis _ rows Hx (init_qR M0) E) as [A B].
  split; [exact A|]. intros i pi row Hp Hr H1 Hm. destruct (B i pi row Hp Hr) as (_ & inl & o & EI & EB). eapply body_facts; eauto.
Qed.
(*@P C102_start_refuted: At the ratio 1, where the notebook's range starts, all five mass flows are equal, so that none of the four normalised curves has a value there. *)
Lemma inflow_start : forall fsolve M0 pis rows i row, solves 0 fsolve -> 0 < M0 -> (forall x, In x pis -> 1 <= x) ->
  inb_run fsolve (Some M0) (Some 1) (map (@Some R) pis) = Some rows ->
  nth_error pis i = Some 1 -> nth_error rows i = Some row -> (forall m, r_mf1 row = Some m -> 0 <= m) -> start_facts M0 row.
Proof.
  intros fsolve M0 pis rows i row HS HM Hx E Hp Hr Hm. unfold inb_run in E. destruct (loop_rows fsolve M0 1 HS HM ltac:(lra) pis _ rows Hx (init_qR M0) E) as [_ B].
  destruct (B i 1 row Hp Hr) as (_ & inl & o & EI & EB). eapply body_start; eauto.
Qed.

(*@P C102_heated: For every total-temperature ratio, every ratio from 1 and every row: the final state of the initial Mach number carries pi/sqrt(taux) times the initial mass flow, that of the initial static pressure has a Mach number Mf with PtPs(Mf) = pi PtPs(M0) and the mass flow M0 sqrt(1.4) (Mf/M0) sqrt(TtTs(Mf)/TtTs(M0)) / sqrt(taux); the flows on the two sides of the contact have one velocity and the plotted static pressure, and the inflow side has exactly the imposed total pressure and temperature. *)
Lemma inflow_heated : forall fsolve M0 ta pis rows, solves 0 fsolve -> 0 < M0 -> 0 < ta -> (forall x, In x pis -> 1 <= x) ->
  inb_run fsolve (Some M0) (Some ta) (map (@Some R) pis) = Some rows ->
  length rows = length pis /\
  forall i pi row, nth_error pis i = Some pi -> nth_error rows i = Some row ->
  exists mf1 mf2 mff mffb ps rR rL Mf pt0 tt0 ttf, r_mf0 row = Some (M0 * sqrt (14/10)) /\ r_mf1 row = Some mf1 /\ r_mf2 row = Some mf2 /\ r_mff row = Some mff /\ r_mffb row = Some mffb /\ r_ps row = Some ps /\
    mffb * sqrt ta = pi * (M0 * sqrt (14/10)) /\
    PtPs_Mach (Some M0) (Some (14/10)) = Some pt0 /\ TtTs_Mach (Some M0) (Some (14/10)) = Some tt0 /\
    0 < Mf /\ PtPs_Mach (Some Mf) (Some (14/10)) = Some (pi * pt0) /\ TtTs_Mach (Some Mf) (Some (14/10)) = Some ttf /\
    mff * sqrt ta = Mf * sqrt (14/10) * sqrt (ttf / tt0) /\
    0 < rR /\ 0 < rL /\ mf1 / rR = mf2 / rL /\
    Ptot (mk_state (Some (14/10)) (Some rL) (Some (mf2 / rL)) (Some ps)) = Some (pi * pt0) /\
    rTtot (mk_state (Some (14/10)) (Some rL) (Some (mf2 / rL)) (Some ps)) = Some (ta * tt0) /\
    exists wo wi, joined_by_wave 1 (14/10) (mkflow 1 (M0 * sqrt (14/10)) 1) (mkflow rR (mf1 / rR) ps) wo wi.
Proof.
  intros fsolve M0 ta pis rows HS HM Hta Hx E. unfold inb_run in E. destruct (loop_rows fsolve M0 ta HS HM Hta pis _ rows Hx (init_qR M0) E) as [A B].
  split; [exact A|]. intros i pi row Hp Hr. destruct (B i pi row Hp Hr) as (H1 & inl & o & EI & EB).
  destruct (body_eval fsolve M0 pi ta inl HS HM H1 Hta EI o row EB) as (p & rL & qf & qfb & H). cbv zeta in H. cbn [f_rho] in H. set (u := iu g0 (q0 M0) p) in *. set (rR := srho g0 (q0 M0) p) in *.
  destruct H as (_ & Hpp & HrL & Hl & Ei & AL & BL & F1 & F2 & F3 & F4 & F5 & G1 & G2 & G3 & G4 & J & _ & _ & _ & R1 & R0 & R2 & Rf & Rb & Rp).
  pose proof sg as Sg. pose proof (tt_pos g0 M0 ltac:(lra)) as Ht0. pose proof (q0_pos M0) as Q. assert (HrR : 0 < rR) by (apply srho_pos; auto; lra).
  assert (Sta : 0 < sqrt ta) by now apply sqrt_lt_R0.
  destruct (mass_total qf _ _ F1 F3 F4 F5) as (Hmf & PF & _ & SF & _). cbv zeta in *. set (Mf := f_u qf / flow_sound g0 qf) in *. rewrite F2, Rmult_1_l in PF. rewrite F2, Rmult_1_l in SF.
  assert (Hub : 0 < f_u qfb). { pose proof (sound_pos g0 qfb ltac:(lra) G1). replace (f_u qfb) with (M0 * flow_sound g0 qfb) by (rewrite <- G2; field; lra). nra. }
  destruct (mass_total qfb _ _ G1 Hub G3 G4) as (_ & _ & _ & _ & MB). cbv zeta in MB. rewrite G2 in MB.
  destruct (mass_total (q0 M0) _ _ Q ltac:(cbn; apply Rmult_lt_0_compat; assumption) (qi_Pt M0) (qi_rTt M0)) as (_ & _ & _ & _ & M00). cbv zeta in M00. rewrite q0_Mach in M00. cbn [q0 f_rho f_u f_p] in M00. rewrite Rmult_1_l in M00.
  pose proof (tt_pos g0 Mf ltac:(lra)) as Htf.
  assert (SS : sqrt (g0 / (ta * tt g0 M0)) * sqrt ta = sqrt (g0 / tt g0 M0)).
  { rewrite <- sqrt_mult by (try lra; left; apply Rdiv_lt_0_compat; nra). f_equal. field. lra. }
  exists (rR * u), (rL * u), (f_rho qf * f_u qf), (f_rho qfb * f_u qfb), p, rR, rL, Mf, (pp g0 M0), (tt g0 M0), (tt g0 Mf).
  do 6 (split; [assumption|]). replace (rR * u / rR) with u by (field; lra). replace (rL * u / rL) with u by (field; lra).
  split. { rewrite MB, M00. rewrite <- SS. pose proof kk_pos. pose proof (sig_pos g0 M0). field. lra. }
  split; [unfold pp; apply PtPs_eval; lra|]. split; [apply TtTs_eval; lra|]. split; [exact Hmf|]. split; [rewrite <- PF; unfold pp; apply PtPs_eval; lra|]. split; [apply TtTs_eval; lra|].
  split. { rewrite SF. transitivity (Mf * (sqrt (tt g0 Mf) * (sqrt (g0 / (ta * tt g0 M0)) * sqrt ta))); [ring|]. rewrite SS. rewrite Rmult_assoc. f_equal.
    rewrite <- !sqrt_mult by first [lra|left; apply Rdiv_lt_0_compat; lra]. f_equal. field. lra. }
  split; [exact HrR|]. split; [exact HrL|]. split; [reflexivity|]. split; [exact AL|]. split; [exact BL|]. eexists _, _. exact J.
Qed.

(** ** roots of the equation: the non-reversed one is the largest; there is a reversed one *)
Lemma q0_range M : 0 < M < 5 -> f_u (q0 M) < 2 * flow_sound g0 (q0 M) / (g0 - 1).
Proof. intros H. rewrite q0_sound. cbn [q0 f_u]. pose proof sg. replace (2 * sqrt g0 / (g0 - 1)) with (5 * sqrt g0) by field. nra. Qed.
Definition eqn (M pt : R) : num -> num := fun p => nsub (pt0_from_pstar_rtt0 (obj g0 (q0 M)) p (Some (1 * tt g0 M))) (Some pt).
Lemma eqn_root M pt p : 0 < M -> 0 < pt -> (0 < p /\ iu g0 (q0 M) p ^ 2 < 7 * (1 * tt g0 M) /\ ipt g0 (1 * tt g0 M) (q0 M) p = pt) <-> eqn M pt (Some p) = Some 0.
Proof.
  intros HM Hpt. pose proof (tt_pos g0 M ltac:(lra)) as Ht. pose proof (q0_pos M) as Q. unfold eqn. split.
  - intros (Hp & Hl & E). rewrite pt0_eval by (try assumption; rewrite ?lim_eq; lra). rewrite E. cbn [nsub]. f_equal. ring.
  - intros E. destruct (pt0_from_pstar_rtt0 (obj g0 (q0 M)) (Some p) (Some (1 * tt g0 M))) as [v|] eqn:Ev; [|discriminate]. cbn [nsub] in E. apply Some_inj in E.
    assert (v = pt) by lra. subst v. clear E.
    assert (Hp : 0 < p).
    { destruct (Rtotal_order p 0) as [h|[h|h]]; [| |exact h]; exfalso.
      - unfold pt0_from_pstar_rtt0 in Ev. rewrite delta_uR_K, delta_uK_neg in Ev by (lra || assumption). cbn [obj st_u st_g] in Ev.
        cbn [nadd npowi nmul nsub] in Ev. rewrite ndiv_Some in Ev by lra. cbn in Ev. discriminate.
      - subst p. unfold pt0_from_pstar_rtt0 in Ev. destruct (npow _ _) as [z|]; [|discriminate]. cbn [nmul] in Ev. apply Some_inj in Ev. lra. }
    pose proof (pt0_air (1 * tt g0 M) (q0 M) p pt Q Hp ltac:(lra) Ev) as Hl. split; [exact Hp|]. split; [exact Hl|].
    rewrite pt0_eval in Ev by (try assumption; rewrite ?lim_eq; lra). now apply Some_inj in Ev.
Qed.
(** the root finder that returns the largest root, if there is one *)
Definition largest_root (f : num -> num) (x0 : num) : num :=
  let r := real (Lub_Rbar (fun p => f (Some p) = Some 0)) in
  match f (Some r) with Some e => if Req_EM_T e 0 then Some r else None | None => None end.
Lemma largest_root_solves : solves 0 largest_root.
Proof.
  intros f x r. unfold largest_root. set (m := real _). destruct (f (Some m)) as [e|] eqn:E; [|discriminate]. destruct (Req_EM_T e 0) as [z|z]; [|discriminate].
  intros H. apply Some_inj in H. subst r e. exists 0. rewrite Rabs_R0. split; [exact E|lra].
Qed.
Lemma largest_root_eval f x0 r : f (Some r) = Some 0 -> (forall p, f (Some p) = Some 0 -> p <= r) -> largest_root f x0 = Some r.
Proof.
  intros H1 H2. unfold largest_root. rewrite (is_lub_Rbar_unique _ r); [|split; [intros p Hp; cbn; now apply H2|intros b Hb; apply (Hb r H1)]].
  cbn [real]. rewrite H1. destruct (Req_EM_T 0 0); [reflexivity|lra].
Qed.
Lemma roots M pi : 0 < M < 5 -> 1 <= pi -> exists r, 1 <= r /\ eqn M (pi * pp g0 M) (Some r) = Some 0 /\ M * sqrt g0 <= iu g0 (q0 M) r /\ forall p, eqn M (pi * pp g0 M) (Some p) = Some 0 -> p <= r.
Proof.
  intros HM Hpi. set (pt := pi * pp g0 M). pose proof (tt_pos g0 M ltac:(lra)) as Ht. pose proof (q0_pos M) as Q. pose proof (pp_gt1 g0 M ltac:(lra) ltac:(lra)) as HP. pose proof sg as Sg.
  assert (Hpt : 1 < pt) by (unfold pt; nra).
  destruct (inflow_one_solution g0 (q0 M) (1 * tt g0 M) ltac:(lra) Q ltac:(lra) (q0_range M HM)) as (p0 & Hp0 & E0 & H). cbv zeta in H. destruct (H pt) as [[_ Hex] _].
  rewrite delta_uR_K, delta_uK_eval in E0 by (lra || assumption). apply Some_inj in E0. assert (U0 : iu g0 (q0 M) p0 = 0) by (unfold iu; lra).
  assert (p0 < 1). { destruct (Rlt_le_dec p0 1) as [|G]; [assumption|]. pose proof (iu_at_1 M) as U1. destruct (Req_dec p0 1) as [Z|]; [rewrite Z in U0; nra|]. pose proof (iu_incr g0 (q0 M) 1 p0 ltac:(lra) Q ltac:(lra) ltac:(lra)). nra. }
  destruct (Hex ltac:(lra)) as (r & Hr & Er & u & Eu & Hu & Hl). rewrite delta_uR_K, delta_uK_eval in Eu by (lra || assumption). cbn [obj st_u nadd] in Eu. apply Some_inj in Eu. fold (iu g0 (q0 M) r) in Eu. subst u.
  rewrite lim_eq in Hl. assert (RR : eqn M pt (Some r) = Some 0) by (unfold eqn; rewrite Er; cbn [nsub]; f_equal; ring).
  destruct (proj2 (eqn_root M pt r ltac:(lra) ltac:(lra)) RR) as (_ & _ & Ei).
  assert (R1 : 1 <= r). { destruct (p_range M pi r ltac:(lra) Hpi Hr Hl Hu Ei) as [A B]. destruct Hpi as [G|G]; [left; now apply A|right; symmetry; apply B; lra]. }
  exists r. split; [exact R1|]. split; [exact RR|]. split.
  { rewrite <- (iu_at_1 M). destruct R1 as [G|G]; [left; apply iu_incr; auto; lra|rewrite <- G; lra]. }
  intros p Ep. apply (eqn_root M pt p) in Ep; [|lra|lra]. destruct Ep as (Hp & Hl' & Ei'). destruct (Rle_lt_dec p r) as [|G]; [assumption|]. exfalso.
  pose proof (ipt_incr g0 (1 * tt g0 M) (q0 M) r p ltac:(lra) Q ltac:(lra) Hr G Hu ltac:(rewrite lim_eq; exact Hl')). lra.
Qed.
Lemma body_total fsolve M pi inlet p : 0 < M -> 1 <= pi -> in_qR inlet = obj g0 (q0 M) -> 0 < p ->
  fsolve (eqn M (pi * pp g0 M)) (inflow_estimate (obj g0 (q0 M)) (Some (pi * pp g0 M))) = Some p ->
  exists o row, inb_body fsolve (Some M) (Some 1) inlet (Some pi) = Some (o, row) /\ in_qR o = obj g0 (q0 M) /\ r_mf1 row = Some (srho g0 (q0 M) p * iu g0 (q0 M) p).
Proof.
  intros HM Hpi EI Hp Ef. unfold inb_body. rewrite qi_eval, qi_Pt, qi_rTt. cbn [nmul].
  rewrite (solve_eval fsolve inlet g0 (q0 M) (pi * pp g0 M) (1 * tt g0 M) p EI ltac:(lra) (q0_pos M) Hp Ef). cbn [in_qsR in_qsL in_qR].
  do 2 eexists. split; [reflexivity|]. split; [reflexivity|]. cbn [r_mf1]. unfold massflow, sq, iu. cbn [obj st_rho st_u f_rho f_u nmul]. now rewrite Rmult_1_l.
Qed.
(*@E C102_example: there is an exact root finder with which the notebook's cell completes for every initial Mach number below 5 and every list of ratios from 1, with no reversed inflow, so that the two theorems above describe every row of it. *)
Lemma inflow_nb_example : exists fsolve : (num -> num) -> num -> num, solves 0 fsolve /\ forall M0 pis, 0 < M0 < 5 -> (forall x, In x pis -> 1 <= x) ->
  exists rows, inb_run fsolve (Some M0) (Some 1) (map (@Some R) pis) = Some rows /\ forall row, In row rows -> exists m, r_mf1 row = Some m /\ 0 < m.
Proof.
  exists largest_root. split; [exact largest_root_solves|]. intros M pis HM. unfold inb_run. generalize (inflow_init (inb_qi (Some M))) (init_qR M).
  induction pis as [|x pis IH]; intros inlet EI Hx; cbn [map inb_loop].
  - exists nil. split; [reflexivity|]. intros row [].
  - assert (H1 : 1 <= x) by (apply Hx; now left). destruct (roots M x HM H1) as (r & R1 & RR & RU & RM).
    destruct (body_total largest_root M x inlet r ltac:(lra) H1 EI ltac:(lra) (largest_root_eval _ _ r RR RM)) as (o & row & EB & EO & Em). rewrite EB.
    destruct (IH o EO) as (l & El & Hl); [intros y Hy; apply Hx; now right|]. rewrite El. exists (row :: l). split; [reflexivity|].
    intros row' [<-|Hr]; [|now apply Hl]. eexists. split; [exact Em|]. pose proof sg. apply Rmult_lt_0_compat; [apply srho_pos; [lra|apply q0_pos|lra]|nra].
Qed.
(*@P C102_reversed_refuted: Below Mach 2 the equation solved for every ratio from 1 also has a root of reversed flow: some exact root finder makes the notebook draw a negative mass flow behind the wave. *)
Lemma inflow_reversed : forall M0 pi, 0 < M0 < 2 -> 1 <= pi -> exists fsolve row m, solves 0 fsolve /\
  inb_run fsolve (Some M0) (Some 1) (Some pi :: nil) = Some (row :: nil) /\ r_mf1 row = Some m /\ m < 0.
Proof.
  intros M pi HM Hpi. set (pt := pi * pp g0 M). set (rtt := 1 * tt g0 M). pose proof (tt_pos g0 M ltac:(lra)) as Ht. pose proof (q0_pos M) as Q. pose proof (pp_gt1 g0 M ltac:(lra) ltac:(lra)) as HP. pose proof sg as Sg.
  assert (Hr : 0 < rtt) by (unfold rtt; lra). assert (Hpt : 1 < pt) by (unfold pt; nra). assert (Ss : sqrt g0 ^ 2 = g0) by (apply sq_sqrt; lra).
  set (ul := sqrt (7 * rtt)). assert (Hul : 0 < ul) by (apply sqrt_lt_R0; lra). assert (Ul2 : ul ^ 2 = 7 * rtt) by (apply sq_sqrt; lra).
  assert (Hlow : f_u (q0 M) - 2 * flow_sound g0 (q0 M) / (g0 - 1) < - ul).
  { rewrite q0_sound. cbn [q0 f_u]. replace (2 * sqrt g0 / (g0 - 1)) with (5 * sqrt g0) by field. set (s := sqrt g0) in *.
    assert (ul ^ 2 < ((5 - M) * s) ^ 2). { rewrite Ul2, Rpow_mult_distr, Ss. unfold rtt, tt. nra. }
    assert (0 < (5 - M) * s) by nra. assert (ul < (5 - M) * s) by nra. lra. }
  destruct (u_range g0 (q0 M) (- ul) ltac:(lra) Q Hlow) as (pl & Hpl & El).
  destruct (u_range g0 (q0 M) 0 ltac:(lra) Q ltac:(lra)) as (p0 & Hp0 & E0).
  assert (I0 : ipt g0 rtt (q0 M) p0 = p0).
  { unfold ipt, ib. rewrite E0. pose proof (ik_pos g0 rtt ltac:(lra) Hr). replace (ik g0 rtt / (ik g0 rtt - 0 ^ 2 / 2)) with 1 by (field; lra). rewrite Rpower_one. ring. }
  assert (p0 < 1). { destruct (Rlt_le_dec p0 1) as [|G]; [assumption|]. pose proof (iu_at_1 M) as U1. destruct (Req_dec p0 1) as [Z|]; [rewrite Z in E0; nra|]. pose proof (iu_incr g0 (q0 M) 1 p0 ltac:(lra) Q ltac:(lra) ltac:(lra)). nra. }
  set (B := pt / pl + 1). assert (HB : 1 < B) by (unfold B; assert (0 < pt / pl) by (apply Rdiv_lt_0_compat; lra); lra).
  pose proof (ik_pos g0 rtt ltac:(lra) Hr) as Hk. assert (E2 : 7 * rtt = 2 * ik g0 rtt) by (unfold ik; field).
  assert (Hi : 0 < / B < 1) by (split; [apply Rinv_0_lt_compat; lra|rewrite <- Rinv_1; apply Rinv_lt_contravar; lra]).
  set (v := sqrt (2 * ik g0 rtt * (1 - / B))). assert (Hv2 : v ^ 2 = 2 * ik g0 rtt * (1 - / B)) by (unfold v; apply sq_sqrt; nra).
  assert (Hvp : 0 < v) by (unfold v; apply sqrt_lt_R0; nra). assert (Hvu : v < ul) by (clear - Ul2 Hv2 E2 Hi Hk Hvp Hul; nra).
  destruct (u_range g0 (q0 M) (- v) ltac:(lra) Q ltac:(lra)) as (pa & Hpa & Ea).
  assert (L1 : pl < pa). { destruct (Rlt_le_dec pl pa) as [|G]; [assumption|]. destruct (Req_dec pa pl) as [Z|]; [rewrite Z in Ea; lra|]. pose proof (iu_incr g0 (q0 M) pa pl ltac:(lra) Q Hpa ltac:(lra)). lra. }
  assert (L2 : pa < p0). { destruct (Rlt_le_dec pa p0) as [|G]; [assumption|]. destruct (Req_dec pa p0) as [Z|]; [rewrite Z in Ea; lra|]. pose proof (iu_incr g0 (q0 M) p0 pa ltac:(lra) Q Hp0 ltac:(lra)). lra. }
  assert (Hbig : pt < ipt g0 rtt (q0 M) pa).
  { unfold ipt. rewrite Ea. assert (Eb : ib g0 rtt (- v) = B) by (unfold ib; replace ((- v) ^ 2) with (v ^ 2) by ring; rewrite Hv2; field; lra). rewrite Eb.
    assert (P : B <= Rpower B (g0 / (g0 - 1))). { rewrite <- (Rpower_1 B) at 1 by lra. apply Rle_Rpower; lra. }
    assert (pl * B = pt + pl) by (unfold B; field; lra). assert (pl * B <= pa * Rpower B (g0 / (g0 - 1))) by (apply Rmult_le_compat; lra). lra. }
  assert (Lim : forall x, pa <= x <= p0 -> - v <= iu g0 (q0 M) x <= 0 /\ iu g0 (q0 M) x ^ 2 < 7 * rtt).
  { intros x Hx. assert (- v <= iu g0 (q0 M) x <= 0).
    { split; [destruct (proj1 Hx) as [h|h]; [pose proof (iu_incr g0 (q0 M) pa x ltac:(lra) Q Hpa h); lra|subst; lra]|destruct (proj2 Hx) as [h|h]; [pose proof (iu_incr g0 (q0 M) x p0 ltac:(lra) Q ltac:(lra) h); lra|subst; lra]]. }
    split; [assumption|]. rewrite <- Ul2. nra. }
  destruct (IVT_value (fun x => - ipt g0 rtt (q0 M) x) pa p0 (- pt) L2) as (p & Hp & E).
  - intros x Hx. apply (continuous_opp (V := R_NormedModule)). apply ipt_continuous; auto; [lra|lra|]. rewrite lim_eq. apply Lim, Hx.
  - rewrite I0. lra.
  - assert (Ei : ipt g0 rtt (q0 M) p = pt) by lra. destruct (Lim p Hp) as [Hu Hl].
    assert (Hlt : p < p0). { destruct (Req_dec p p0) as [Z|]; [|lra]. rewrite Z, I0 in Ei. lra. }
    assert (RR : eqn M pt (Some p) = Some 0) by (apply eqn_root; [lra|lra|]; split; [lra|]; split; assumption).
    assert (Ef : try_value p (eqn M pt) (inflow_estimate (obj g0 (q0 M)) (Some pt)) = Some p) by (unfold try_value; rewrite RR; destruct (Req_EM_T 0 0); [reflexivity|lra]).
    destruct (body_total (try_value p) M pi (inflow_init (inb_qi (Some M))) p ltac:(lra) Hpi (init_qR M) ltac:(lra) Ef) as (o & row & EB & _ & Em).
    exists (try_value p), row, (srho g0 (q0 M) p * iu g0 (q0 M) p). split; [apply try_value_solves|]. split; [unfold inb_run, inb_loop; rewrite EB; reflexivity|]. split; [exact Em|].
    pose proof (srho_pos g0 (q0 M) p ltac:(lra) Q ltac:(lra)). pose proof (iu_incr g0 (q0 M) p p0 ltac:(lra) Q ltac:(lra) Hlt). rewrite E0 in *. nra.
Qed.
