From Verif Require Import L_Num Spec NumSpec NozzleSpec DocSpec M_Isentropic M_MassFlow M_DocExamples L_Isentropic L_MassFlow L_Nozzle1.
Open Scope R_scope.

Lemma rest_iff g r p T M pt Tt : 1 < g -> 0 < r -> 0 < T -> 0 < Tt ->
  comes_to_rest g r p T (M * sound g r T) pt Tt <-> Tt = T * tt g M /\ pt = p * Rpower (tt g M) (g / (g - 1)).
Proof.
  intros Hg Hr HT HTt. pose proof (tt_pos g M Hg) as Ht. unfold comes_to_rest.
  rewrite <- (energy_tt g r M T Hg Hr HT).
  assert (Hc : 0 < cp g r) by (unfold cp; apply Rdiv_lt_0_compat; [apply Rmult_lt_0_compat|]; lra).
  assert (A : cp g r * Tt = cp g r * (tt g M * T) <-> Tt = T * tt g M).
  { split; [intros E|intros ->; ring]. apply Rmult_eq_reg_l in E; [rewrite E; ring|lra]. }
  rewrite A. split; intros [E1 E2]; (split; [assumption|]).
  - subst Tt. rewrite Rpower_mult_base in E2 by assumption.
    pose proof (Rpower_pos T (g / (g - 1))). pose proof (Rpower_pos (tt g M) (g / (g - 1))).
    set (a := Rpower T (g / (g - 1))) in *. set (b := Rpower (tt g M) (g / (g - 1))) in *.
    replace pt with (pt / (a * b) * (a * b)) by (field; lra). rewrite E2. field; lra.
  - subst Tt pt. rewrite Rpower_mult_base by assumption.
    pose proof (Rpower_pos T (g / (g - 1))). pose proof (Rpower_pos (tt g M) (g / (g - 1))). field. lra.
Qed.

Lemma mfr_iff g r M pt Tt A m : 1 < g -> 0 < r -> 0 < pt -> 0 < Tt ->
  mass_flow_rate g r M pt Tt A m <-> m = wmf g M * (pt * A) / sqrt (r * Tt).
Proof.
  intros Hg Hr Hp HT. pose proof (tt_pos g M Hg) as Ht.
  assert (K : forall p T, 0 < p -> 0 < T -> Tt = T * tt g M -> pt = p * Rpower (tt g M) (g / (g - 1)) ->
    p / (r * T) * (M * sound g r T) * A = wmf g M * (pt * A) / sqrt (r * Tt)).
  { intros p T Hp' HT' E1 E2. pose proof (wmf_physical g r M p T Hg Hr Hp' HT') as W.
    assert (0 < sqrt (r * Tt)) by (apply sqrt_lt_R0, Rmult_lt_0_compat; assumption).
    replace (tt g M * T) with Tt in W by (rewrite E1; ring).
    replace (Rpower (tt g M) (g / (g - 1)) * p) with pt in W by (rewrite E2; ring).
    rewrite <- W. field. lra. }
  split.
  - intros (p & T & Hp' & HT' & H & ->). apply rest_iff in H; try assumption. destruct H. now apply K.
  - intros ->. exists (pt / Rpower (tt g M) (g / (g - 1))), (Tt / tt g M).
    pose proof (Rpower_pos (tt g M) (g / (g - 1))).
    assert (P1 : 0 < pt / Rpower (tt g M) (g / (g - 1))) by (apply Rdiv_lt_0_compat; assumption).
    assert (P2 : 0 < Tt / tt g M) by (apply Rdiv_lt_0_compat; assumption).
    assert (E1 : Tt = Tt / tt g M * tt g M) by (field; lra).
    assert (E2 : pt = pt / Rpower (tt g M) (g / (g - 1)) * Rpower (tt g M) (g / (g - 1))) by (field; lra).
    split; [assumption|]. split; [assumption|]. split; [apply rest_iff; auto|]. symmetry; now apply K.
Qed.
Lemma same_flow_iff g M1 A1 M2 A2 : 1 < g -> same_flow g M1 A1 M2 A2 <-> wmf g M1 * A1 = wmf g M2 * A2.
Proof.
  intros Hg; split; intros H.
  - destruct (H 1 1 1 ltac:(lra) ltac:(lra) ltac:(lra)) as (m & H1 & H2).
    apply mfr_iff in H1; try lra. apply mfr_iff in H2; try lra.
    replace (1 * 1) with 1 in * by ring. rewrite sqrt_1 in *. lra.
  - intros r pt Tt Hr Hp HT. exists (wmf g M1 * (pt * A1) / sqrt (r * Tt)). split; apply mfr_iff; try assumption; [reflexivity|].
    unfold Rdiv; f_equal. replace (wmf g M1 * (pt * A1)) with (wmf g M1 * A1 * pt) by ring. rewrite H; ring.
Qed.
Lemma has_pressures_iff g M p pt : 1 < g -> has_pressures g M p pt <-> pt = p * Rpower (tt g M) (g / (g - 1)).
Proof.
  intros Hg; split.
  - intros (r & T & Tt & Hr & HT & HTt & H). apply rest_iff in H; tauto.
  - intros E. pose proof (tt_pos g M Hg). exists 1, 1, (tt g M). repeat (split; [lra|]). apply rest_iff; lra.
Qed.
Lemma has_temperatures_iff g r M T Tt : 1 < g -> 0 < r -> 0 < T -> has_temperatures g r M T Tt <-> Tt = T * tt g M.
Proof.
  intros Hg Hr HT. unfold has_temperatures. rewrite <- (energy_tt g r M T Hg Hr HT).
  assert (Hc : 0 < cp g r) by (unfold cp; apply Rdiv_lt_0_compat; [apply Rmult_lt_0_compat|]; lra).
  split; [intros E|intros ->; ring]. apply Rmult_eq_reg_l in E; [rewrite E; ring|lra].
Qed.

(*@P C105_stagnation: The stagnation recipe: for every static pressure, temperature and Mach number (of either sign) the two printed values are what the gas becomes when it is brought to rest, energy and entropy being conserved. *)
Lemma doc_stagnation_rest : forall r p T M, 0 < r -> 0 < p -> 0 < T ->
  exists ps Ts, doc_stagnation (Some p) (Some T) (Some M) = (Some ps, Some Ts) /\ comes_to_rest (14/10) r p T (M * sound (14/10) r T) ps Ts.
Proof.
  intros r p T M Hr Hp HT. unfold doc_stagnation, dgamma. rewrite PtPs_eval, TtTs_eval by lra.
  do 2 eexists. split; [reflexivity|]. pose proof (tt_pos (14/10) M ltac:(lra)).
  apply rest_iff; try lra. now apply Rmult_lt_0_compat.
Qed.

(*@P C105_exit_Mach_refuted: The exit Mach number recipe divides the static pressure by the total one. For every flow that moves (P < Pt) it returns nan, although the flow has exactly one Mach number, which the same function finds from Pt/P; and when it does return a number, as with the notebook's own 10 atm and 0.45 atm, no flow at any Mach number has these two pressures. *)
Lemma doc_exit_Mach_swapped : forall g P Pt, 1 < g -> 0 < P -> 0 < Pt ->
  (P < Pt -> doc_exit_Mach (Some P) (Some Pt) (Some g) = None /\
     exists M, 0 < M /\ Mach_PtPs (Some (Pt / P)) (Some g) = Some M /\ has_pressures g M P Pt /\
       forall M', 0 <= M' -> has_pressures g M' P Pt -> M' = M) /\
  (Pt < P -> (exists M, doc_exit_Mach (Some P) (Some Pt) (Some g) = Some M /\ 0 < M) /\ forall M, ~ has_pressures g M P Pt).
Proof.
  intros g P Pt Hg HP HPt. unfold doc_exit_Mach.
  assert (E : forall a b, 0 < a -> a < b -> 1 < b / a).
  { intros a b Ha Hab. apply (Rmult_lt_reg_r a); [assumption|]. unfold Rdiv; rewrite Rmult_assoc, Rinv_l; lra. }
  assert (S : forall q, 1 < q -> 0 < sqrt ((Rpower q ((g - 1) / g) - 1) * 2 / (g - 1)) /\
    Rpower (tt g (sqrt ((Rpower q ((g - 1) / g) - 1) * 2 / (g - 1)))) (g / (g - 1)) = q).
  { intros q Hq. assert (H1 : 1 < Rpower q ((g - 1) / g)).
    { rewrite <- (Rpower_O q) at 1 by lra. apply Rpower_lt; [assumption|]. now apply exp_pos_gi. }
    split.
    - apply sqrt_lt_R0. apply Rdiv_lt_0_compat; lra.
    - rewrite tt_Mach_TtTs by lra. rewrite Rpower_mult, gi_inv, Rpower_1 by lra. reflexivity. }
  rewrite ndiv_Some by lra. split; intros HH.
  - split.
    + apply Mach_PtPs_none; [assumption|]. split; [now apply Rdiv_lt_0_compat|].
      apply (Rmult_lt_reg_r Pt); [assumption|]. unfold Rdiv; rewrite Rmult_assoc, Rinv_l; lra.
    + pose proof (E P Pt HP HH) as Hq. destruct (S _ Hq) as [S1 S2].
      eexists. split; [exact S1|]. split; [apply Mach_PtPs_eval; lra|].
      assert (A : Pt = P * Rpower (tt g (sqrt ((Rpower (Pt / P) ((g - 1) / g) - 1) * 2 / (g - 1)))) (g / (g - 1))) by (rewrite S2; field; lra).
      split; [now apply has_pressures_iff|].
      intros M' HM' H'. apply has_pressures_iff in H'; [|assumption].
      assert (B : Pt / P = Rpower (tt g M') (g / (g - 1))) by (rewrite H'; field; lra).
      rewrite B. rewrite Rpower_mult, gg_inv, Rpower_1 by (try assumption; now apply tt_pos).
      rewrite tt_inv_abs, sqrt_sq_abs by assumption. symmetry; now apply Rabs_pos_eq.
  - split.
    + destruct (S _ (E Pt P HPt HH)) as [S1 _]. eexists; split; [apply Mach_PtPs_eval; [assumption|]|exact S1].
      pose proof (E Pt P HPt HH); lra.
    + intros M H'. apply has_pressures_iff in H'; [|assumption].
      pose proof (Rpower_ge_1 (tt g M) (g / (g - 1)) (tt_ge_1 g M Hg) (exp_pos_gg g Hg)). nra.
Qed.

(*@P C105_pipe_refuted: The pipe recipe divides the static temperature by the total one. For every flow that moves (T < Tt) the Mach number and the velocity are nan, although the flow has one Mach number and one velocity, which the same two functions find from Tt/T; and when numbers come out (Tt < T, as with the notebook's 390 K and 280 K) no flow has these temperatures, and the velocity printed is not even that of the gas with the two temperatures exchanged: its kinetic energy is smaller by the factor Tt/T. *)
Lemma doc_pipe_swapped : forall T Tt, 0 < T -> 0 < Tt ->
  (T < Tt -> doc_pipe_Mach (Some T) (Some Tt) = None /\ doc_pipe_velocity (Some T) (Some Tt) = None /\
     exists M V, 0 < M /\ Mach_TtTs (Some (Tt / T)) (Some (14/10)) = Some M /\ has_temperatures (14/10) (2871/10) M T Tt /\
       Velocity_MachTt (Some M) (Some Tt) (Some (2871/10)) (Some (14/10)) = Some V /\ V = M * sound (14/10) (2871/10) T) /\
  (Tt < T -> (forall M, ~ has_temperatures (14/10) (2871/10) M T Tt) /\
     exists V, doc_pipe_velocity (Some T) (Some Tt) = Some V /\ 0 < V /\
       V ^ 2 / 2 = cp (14/10) (2871/10) * (T - Tt) * (Tt / T)).
Proof.
  intros T Tt HT HTt. unfold doc_pipe_velocity, doc_pipe_Mach. unfold dgamma, dr.
  assert (E : forall a b, 0 < a -> a < b -> 1 < b / a).
  { intros a b Ha Hab. apply (Rmult_lt_reg_r a); [assumption|]. unfold Rdiv; rewrite Rmult_assoc, Rinv_l; lra. }
  assert (P : forall q, 1 < q -> 0 < (q - 1) * 2 / (14/10 - 1)) by (intros; lra).
  rewrite ndiv_Some by lra. split; intros HH.
  - assert (N : Mach_TtTs (Some (T / Tt)) (Some (14/10)) = None).
    { apply Mach_TtTs_none; [lra|]. apply (Rmult_lt_reg_r Tt); [assumption|]. unfold Rdiv; rewrite Rmult_assoc, Rinv_l; lra. }
    split; [exact N|]. split; [rewrite N; reflexivity|].
    pose proof (E T Tt HT HH) as Hq. do 2 eexists. split; [apply sqrt_lt_R0; exact (P _ Hq)|].
    split; [apply Mach_TtTs_eval; lra|].
    assert (Et : tt (14/10) (sqrt ((Tt / T - 1) * 2 / (14/10 - 1))) = Tt / T) by (apply tt_Mach_TtTs; lra).
    split; [apply has_temperatures_iff; try lra; rewrite Et; field; lra|].
    split; [apply Velocity_eval; lra|]. rewrite Et. unfold sound. do 2 f_equal. field; lra.
  - pose proof (E Tt T HTt HH) as Hq. split.
    + intros M H'. apply has_temperatures_iff in H'; try lra. pose proof (tt_ge_1 (14/10) M ltac:(lra)). nra.
    + rewrite Mach_TtTs_eval by lra. rewrite Velocity_eval by lra.
      rewrite tt_Mach_TtTs by lra. eexists. split; [reflexivity|].
      assert (Q : 0 < 14 / 10 * (2871 / 10) * Tt / (T / Tt)) by (apply Rdiv_lt_0_compat; lra).
      split; [apply Rmult_lt_0_compat; apply sqrt_lt_R0; [exact (P _ Hq)|exact Q]|].
      rewrite Rpow_mult_distr, !sq_sqrt by (left; first [exact (P _ Hq)|exact Q]). unfold cp. field. lra.
Qed.

(*@P C105_adapted: The supersonic nozzle recipe: for every exit area larger than the throat (and a root finder that stays on the side it starts from), the printed Mach number is supersonic, passes through the exit the mass flow of the sonic throat whatever the stagnation conditions, and is the only supersonic one that does. *)
Lemma doc_adapted_flow : forall newton At Ae, branch_solver (14/10) newton -> 0 < At -> At < Ae ->
  exists M, doc_adapted newton (Some At) (Some Ae) = Some M /\ 1 < M /\ same_flow (14/10) 1 At M Ae /\
    forall M', 1 <= M' -> same_flow (14/10) 1 At M' Ae -> M' = M.
Proof.
  intros newton At Ae [HN _] HA HAe. unfold doc_adapted, Mach_Sigma, dgamma. rewrite ndiv_Some by lra.
  assert (Hs : 1 < Ae / At).
  { apply (Rmult_lt_reg_r At); [assumption|]. unfold Rdiv; rewrite Rmult_assoc, Rinv_l; lra. }
  destruct (HN (Ae / At) 2 ltac:(lra) ltac:(lra)) as (M & E & HM & ES & _ & HS). specialize (HS Hs ltac:(lra)).
  exists M. split; [exact E|]. split; [assumption|].
  rewrite Sigma_eval in ES by lra. injection ES as ES.
  assert (U : forall x, 1 <= x -> same_flow (14/10) 1 At x Ae <-> sig (14/10) x = Ae / At).
  { intros x Hx. rewrite same_flow_iff by lra. rewrite sig_wmf by lra. pose proof (wmf_pos (14/10) x ltac:(lra) ltac:(lra)).
    split; intros H0.
    - apply (Rmult_eq_reg_r (wmf (14/10) x * At)); [|apply Rmult_integral_contrapositive; split; lra].
      transitivity (wmf (14/10) 1 * At); [field; lra|]. rewrite H0; field; lra.
    - replace (wmf (14/10) 1) with (wmf (14/10) 1 / wmf (14/10) x * wmf (14/10) x) by (field; lra). rewrite H0. field; lra. }
  split; [apply U; [lra|assumption]|]. intros M' HM' H'. apply U in H'; [|assumption].
  destruct (Rtotal_order M' M) as [L|[L|L]]; [|assumption|].
  - pose proof (sig_incr (14/10) M' M ltac:(lra) HM' L). lra.
  - pose proof (sig_incr (14/10) M M' ltac:(lra) ltac:(lra) L). lra.
Qed.

(*@P C105_mass_flow: The mass flow recipe: for every throat area and stagnation conditions the printed number is rho V A of the sonic throat, and every other Mach number passes strictly less through the same area. *)
Lemma doc_mass_flow_max : forall A pt Tt r, 0 < A -> 0 < pt -> 0 < Tt -> 0 < r ->
  exists m, doc_mass_flow (Some A) (Some pt) (Some Tt) (Some r) = Some m /\ mass_flow_rate (14/10) r 1 pt Tt A m /\
    forall M m', 0 < M -> M <> 1 -> mass_flow_rate (14/10) r M pt Tt A m' -> m' < m.
Proof.
  intros A pt Tt r HA Hp HT Hr. unfold doc_mass_flow, dgamma. rewrite WMF_eval by lra.
  assert (Hs : 0 < sqrt (r * Tt)) by (apply sqrt_lt_R0, Rmult_lt_0_compat; assumption).
  cbn [nmul]. rewrite nsqrt_Some by (left; now apply Rmult_lt_0_compat). rewrite ndiv_Some by lra.
  eexists. split; [reflexivity|]. split; [apply mfr_iff; lra|].
  intros M m' HM Hn H'. apply mfr_iff in H'; try lra. subst m'.
  pose proof (sig_gt_1 (14/10) M ltac:(lra) HM Hn) as S. rewrite sig_wmf in S by lra.
  pose proof (wmf_pos (14/10) M ltac:(lra) HM) as W.
  assert (wmf (14/10) M < wmf (14/10) 1).
  { replace (wmf (14/10) 1) with (wmf (14/10) 1 / wmf (14/10) M * wmf (14/10) M) by (field; lra). nra. }
  unfold Rdiv. apply Rmult_lt_compat_r; [now apply Rinv_0_lt_compat|]. apply Rmult_lt_compat_r; [now apply Rmult_lt_0_compat|assumption].
Qed.

(*@P C105_subsonic: The subsonic recipe: for every gamma in (1, 1.4], subsonic throat Mach number and exit area at least that of the throat, the printed Mach number is subsonic, not above that of the throat, passes the same mass flow through the exit as through the throat, and is the only subsonic one that does. *)
Lemma doc_subsonic_flow : forall newton g At Ae Mt, branch_solver g newton -> 1 < g <= 14/10 -> 0 < At -> At <= Ae -> 0 < Mt < 1 ->
  exists M, doc_subsonic newton (Some At) (Some Ae) (Some Mt) (Some g) = Some M /\ 0 < M < 1 /\ M <= Mt /\
    same_flow g Mt At M Ae /\ forall M', 0 < M' <= 1 -> same_flow g Mt At M' Ae -> M' = M.
Proof.
  intros newton g At Ae Mt HN Hg HA HAe HM. unfold doc_subsonic. cbv zeta. rewrite ndiv_Some by lra. rewrite Sigma_eval by lra. cbn [nmul].
  pose proof (sig_gt_1 g Mt ltac:(lra) ltac:(lra) ltac:(lra)) as S.
  assert (Hs : 1 <= Ae / At).
  { apply (Rmult_le_reg_r At); [assumption|]. unfold Rdiv; rewrite Rmult_assoc, Rinv_l; lra. }
  assert (H1 : 1 < Ae / At * sig g Mt) by nra.
  destruct (MachSub_branch newton g _ HN Hg ltac:(left; exact H1)) as (M & E & HM' & ES & _ & HL). specialize (HL H1).
  exists M. split; [exact E|]. split; [lra|].
  assert (U : forall x, 0 < x -> same_flow g Mt At x Ae <-> sig g x = Ae / At * sig g Mt).
  { intros x Hx. rewrite same_flow_iff by lra. rewrite !sig_wmf by lra.
    pose proof (wmf_pos g x ltac:(lra) Hx). pose proof (wmf_pos g Mt ltac:(lra) ltac:(lra)). pose proof (wmf_pos g 1 ltac:(lra) ltac:(lra)).
    split; intros H3.
    - replace (Ae / At) with (wmf g Mt * At / wmf g x / At) by (rewrite H3; field; lra). field; lra.
    - apply (f_equal (fun z => z * (wmf g x * wmf g Mt * At / wmf g 1))) in H3.
      transitivity (wmf g 1 / wmf g x * (wmf g x * wmf g Mt * At / wmf g 1)); [field; lra|]. rewrite H3. field; lra. }
  assert (Z : forall x, 0 < x <= 1 -> sig g x = sig g M -> x = M).
  { intros x Hx Ex. destruct (Rtotal_order x M) as [L|[L|L]]; [|assumption|].
    - pose proof (sig_decr g x M ltac:(lra) ltac:(lra) L ltac:(lra)). lra.
    - pose proof (sig_decr g M x ltac:(lra) ltac:(lra) L ltac:(lra)). lra. }
  split.
  - destruct (Rle_lt_dec M Mt) as [L|L]; [assumption|]. pose proof (sig_decr g Mt M ltac:(lra) ltac:(lra) L ltac:(lra)). nra.
  - split; [apply U; [lra|assumption]|]. intros M' H' HF. apply U in HF; [|lra]. apply Z; [assumption|lra].
Qed.

(*@E C105_example: the notebooks' own numbers meet the hypotheses above (the Mach 0.8 flow at 1e5 Pa and 280 K; the throat of 0.1 and exit of 0.25 square metres, the subsonic flow at Mach 0.85 of a gas of ratio 1.25), a root finder as required exists, and their pressures and temperatures (10 and 0.45 atm; 390 and 280 K) are the impossible ones *)
Lemma doc_example : (exists newton, branch_solver (14/10) newton) /\ (exists newton, branch_solver (125/100) newton) /\
  (exists ps, fst (doc_stagnation (Some 100000) (Some 280) (Some (8/10))) = Some ps /\ 100000 < ps) /\
  snd (doc_stagnation (Some 100000) (Some 280) (Some (8/10))) = Some (280 * (1128/1000)) /\
  (exists M, doc_exit_Mach (Some (10 * (101/100 * 1000000))) (Some (45/100 * (101/100 * 1000000))) (Some (11/10)) = Some M) /\
  (forall M, ~ has_pressures (11/10) M (10 * (101/100 * 1000000)) (45/100 * (101/100 * 1000000))) /\
  (forall M, ~ has_temperatures (14/10) (2871/10) M 390 280).
Proof.
  split; [apply branch_solver_exists; lra|]. split; [apply branch_solver_exists; lra|].
  split.
  - unfold doc_stagnation, dgamma; cbn [fst]. rewrite PtPs_eval by lra. eexists; split; [reflexivity|].
    assert (1 < Rpower (tt (14/10) (8/10)) (14/10/(14/10 - 1))).
    { rewrite <- (Rpower_O (tt (14/10) (8/10))) at 1 by (unfold tt; lra). apply Rpower_lt; unfold tt; lra. }
    lra.
  - split; [unfold doc_stagnation, dgamma; cbn [snd]; rewrite TtTs_eval; cbn [nmul]; f_equal; unfold tt; lra|].
    destruct (doc_exit_Mach_swapped (11/10) (10 * (101/100 * 1000000)) (45/100 * (101/100 * 1000000)) ltac:(lra) ltac:(lra) ltac:(lra)) as [_ H].
    destruct (H ltac:(lra)) as [[M [H1 _]] H2]. split; [now exists M|]. split; [exact H2|].
    destruct (doc_pipe_swapped 390 280 ltac:(lra) ltac:(lra)) as [_ K]. exact (proj1 (K ltac:(lra))).
Qed.
