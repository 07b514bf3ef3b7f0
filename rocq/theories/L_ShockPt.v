From Verif Require Import L_Num Spec NumSpec M_Isentropic M_ShockWave M_IterSolve L_Isentropic L_Shock.
Open Scope R_scope.

(** the true total pressure ratio of the gas with ratio [g] *)
Definition ptr (g M : R) : R :=
  psr g M * Rpower (tt g (sqrt (md2 g M))) (g / (g - 1)) / Rpower (tt g M) (g / (g - 1)).
Lemma ptr_dS g M : 1 < g -> 0 < M -> sdom g M -> ptr g M = exp (- dS g M / (g - 1)).
Proof.
  intros Hg HM HD. unfold ptr.
  pose proof (tsr_tt g M Hg HD) as E. pose proof (psr_pos g M Hg HD) as Hp.
  assert (HR : 0 < rhor g M) by (apply rhor_pos; lra).
  pose proof (tsr_pos g M Hg HD) as HT. pose proof (tt_pos g (sqrt (md2 g M)) Hg) as Ht.
  rewrite <- E. rewrite Rpower_mult_base by assumption.
  pose proof (Rpower_pos (tt g (sqrt (md2 g M))) (g / (g - 1))).
  pose proof (Rpower_pos (tsr g M) (g / (g - 1))).
  match goal with |- ?l = _ => replace l with (psr g M / Rpower (tsr g M) (g / (g - 1))) by (field; lra) end.
  unfold tsr. rewrite Rpower_div_base by assumption.
  rewrite <- (exp_ln (psr g M)) at 1 by assumption. unfold Rpower.
  unfold Rdiv at 1 2. rewrite Rinv_mult, Rinv_inv. rewrite <- !exp_Ropp, <- !exp_plus. f_equal.
  unfold dS. field; lra.
Qed.
Lemma Pt_eval_true M g : 1 < g -> sdom g M ->
  exists Pr m q1 q0, Ps_ratio (Some M) (Some g) = Some Pr /\ downstream_Mn (Some M) (Some g) = Some m /\
    PtPs_Mach (Some m) (Some g) = Some q1 /\ PtPs_Mach (Some M) (Some g) = Some q0 /\ Pr * q1 / q0 = ptr g M.
Proof.
  intros Hg HD. do 4 eexists. split; [now apply Ps_eval|]. split; [now apply Md_eval|].
  split; [now apply PtPs_eval|]. split; [now apply PtPs_eval|]. reflexivity.
Qed.
Lemma Pt_eval_14 M : sdom (14/10) M -> Pt_ratio (Some M) dgamma = Some (ptr (14/10) M).
Proof.
  intros HD. unfold Pt_ratio, dgamma. rewrite Ps_eval, Md_eval, !PtPs_eval by (assumption || lra). ncbn.
  rewrite ndiv_Some; [reflexivity|]. apply Rgt_not_eq, Rpower_pos.
Qed.
(*@P C14_air_partial: For gamma = 1.4 (the only gamma for which it holds, see C14_other_gamma_refuted), Pt_ratio is downstream over upstream total pressure computed with the library's own Ps_ratio, downstream_Mn and PtPs_Mach for that same gamma, and equals exp(-ds/r): the entropy jump. *)
Lemma Pt_ratio_air : forall M, 0 < M -> (14/10 - 1) / (2 * (14/10)) < M ^ 2 ->
  exists P Pr Rr m q1 q0, Pt_ratio (Some M) (Some (14/10)) = Some P /\
    Ps_ratio (Some M) (Some (14/10)) = Some Pr /\ Rho_ratio (Some M) (Some (14/10)) = Some Rr /\
    downstream_Mn (Some M) (Some (14/10)) = Some m /\
    PtPs_Mach (Some m) (Some (14/10)) = Some q1 /\ PtPs_Mach (Some M) (Some (14/10)) = Some q0 /\
    P = (Pr * q1) / q0 /\ ln P = - (ln Pr - 14/10 * ln Rr) / (14/10 - 1).
Proof.
  intros M HM HD. destruct (Pt_eval_true M (14/10) ltac:(lra) HD) as (Pr & m & q1 & q0 & E1 & E2 & E3 & E4 & E5).
  exists (ptr (14/10) M), Pr, (rhor (14/10) M), m, q1, q0.
  split; [now apply Pt_eval_14|]. split; [assumption|]. split; [apply Rho_eval; lra|].
  repeat (split; [assumption|]). split; [congruence|].
  rewrite ptr_dS by (lra || assumption). rewrite ln_exp. rewrite Ps_eval in E1 by lra. injection E1 as <-.
  unfold dS. field.
Qed.
(*@P C14_air_monotone_partial: For gamma = 1.4: Pt_ratio is 1 at Mn = 1, below 1 beyond, and strictly decreasing. *)
Lemma Pt_ratio_air_monotone :
  Pt_ratio (Some 1) (Some (14/10)) = Some 1 /\
  (forall M, 1 < M -> exists P, Pt_ratio (Some M) (Some (14/10)) = Some P /\ 0 < P < 1) /\
  decr_on (fun M => 1 <= M) (fun M => Pt_ratio M (Some (14/10))).
Proof.
  assert (E : forall M, 1 <= M -> Pt_ratio (Some M) (Some (14/10)) = Some (exp (- dS (14/10) M / (14/10 - 1)))).
  { intros M HM. assert (sdom (14/10) M) by (apply sdom_ge1; lra).
    etransitivity; [now apply (Pt_eval_14 M)|]. f_equal; apply ptr_dS; lra || assumption. }
  repeat split.
  - rewrite E, dS_1 by lra. f_equal. replace (- 0 / (14/10 - 1)) with 0 by field. apply exp_0.
  - intros M HM. rewrite E by lra. eexists; split; [reflexivity|]. split; [apply exp_pos|].
    apply Rlt_le_trans with (exp 0); [apply exp_increasing|rewrite exp_0; lra].
    pose proof (dS_incr (14/10) 1 M). rewrite dS_1 in H by lra.
    assert (0 < dS (14/10) M) by (apply H; try lra; apply sdom_ge1; lra). lra.
  - intros x y Hx Hy Hxy. rewrite !E by assumption. do 2 eexists; split; [reflexivity|]; split; [reflexivity|].
    apply exp_increasing. assert (dS (14/10) x < dS (14/10) y) by (apply dS_incr; try lra; apply sdom_ge1; lra). lra.
Qed.
(*@P C14_formula_any_gamma: The value the code asks for, for every gamma: what the total pressure ratio built from Ps_ratio, downstream_Mn and PtPs_Mach at the requested gamma would be is 1 at Mn=1 and below 1, decreasing, for Mn > 1 (so the specification is meaningful for every gamma). *)
Lemma Pt_spec_any_gamma : forall g, 1 < g ->
  let spec M := ndiv (nmul (Ps_ratio M (Some g)) (PtPs_Mach (downstream_Mn M (Some g)) (Some g))) (PtPs_Mach M (Some g)) in
  spec (Some 1) = Some 1 /\ decr_on (fun M => 1 <= M) spec.
Proof.
  intros g Hg spec.
  assert (E : forall M, 1 <= M -> spec (Some M) = Some (exp (- dS g M / (g - 1)))).
  { intros M HM. assert (D : sdom g M) by (now apply sdom_ge1). unfold spec.
    rewrite Ps_eval, Md_eval, !PtPs_eval by assumption. ncbn. rewrite ndiv_Some by (apply Rgt_not_eq, Rpower_pos).
    f_equal. rewrite <- ptr_dS by (lra || assumption). reflexivity. }
  split.
  - rewrite E, dS_1 by lra. f_equal. replace (- 0 / (g - 1)) with 0 by (field; lra). apply exp_0.
  - intros x y Hx Hy Hxy. rewrite !E by assumption. do 2 eexists; split; [reflexivity|]; split; [reflexivity|].
    apply exp_increasing. assert (dS g x < dS g y) by (apply dS_incr; try lra; apply sdom_ge1; lra).
    unfold Rdiv. apply Rmult_lt_compat_r; [pos|lra].
Qed.
(** Pt/Ps at a subsonic Mach number increases with gamma *)
Lemma ln1p_lt z : 0 < z -> ln (1 + z) < z.
Proof. intros Hz. rewrite <- (ln_exp z) at 2. apply ln_increasing; [lra|]. apply exp_ineq1; lra. Qed.
Lemma PtPs_gamma_incr m g1 g2 : 0 < m <= 1 -> 1 < g1 -> g1 < g2 ->
  Rpower (tt g1 m) (g1 / (g1 - 1)) < Rpower (tt g2 m) (g2 / (g2 - 1)).
Proof.
  intros Hm H1 H12. unfold Rpower. apply exp_increasing.
  set (y := m ^ 2 / 2). assert (Hy : 0 < y <= 1/2) by (unfold y; split; nra).
  assert (Ht : forall g, tt g m = 1 + (g - 1) * y) by (intros; unfold tt, y; field). rewrite !Ht. clear Ht. clearbody y.
  apply (strict_incr (fun g => g / (g - 1) * ln (1 + (g - 1) * y))
    (fun g => ((g - 1) * y * (1 + (g - 1)) / (1 + (g - 1) * y) - ln (1 + (g - 1) * y)) / (g - 1) ^ 2)); [assumption| |].
  - intros g Hg. assert (0 < (g - 1) * y) by (apply Rmult_lt_0_compat; lra). auto_derive; [repeat split; lra|].
    change (g + - (1)) with (g - 1). set (l := ln _). clearbody l. field. split; lra.
  - intros g Hg. assert (Hz : 0 < (g - 1) * y) by (apply Rmult_lt_0_compat; lra). apply Rdiv_lt_0_compat; [|nra].
    pose proof (ln1p_lt _ Hz). assert ((g - 1) * y <= (g - 1) * y * (1 + (g - 1)) / (1 + (g - 1) * y)).
    { apply Rmult_le_reg_r with (1 + (g - 1) * y); [lra|]. 
      replace ((g - 1) * y * (1 + (g - 1)) / (1 + (g - 1) * y) * (1 + (g - 1) * y)) with ((g - 1) * y * (1 + (g - 1))) by (field; lra).
      apply Rmult_le_compat_l; [lra|]. nra. }
    lra.
Qed.
(*@P C14_other_gamma_refuted: For every gamma > 1 other than 1.4 and every Mn >= 1, Pt_ratio is not the total pressure ratio of the gas with that gamma (the downstream Pt/Ps is computed with the default gamma): it is below it for gamma > 1.4 and above it for gamma < 1.4. In particular at Mn = 1 it is not 1. *)
Lemma Pt_ratio_refuted : forall g M, 1 < g -> 1 <= M ->
  exists P Pr m q1 q0, Pt_ratio (Some M) (Some g) = Some P /\
    Ps_ratio (Some M) (Some g) = Some Pr /\ downstream_Mn (Some M) (Some g) = Some m /\
    PtPs_Mach (Some m) (Some g) = Some q1 /\ PtPs_Mach (Some M) (Some g) = Some q0 /\
    (14/10 < g -> P < Pr * q1 / q0) /\ (g < 14/10 -> Pr * q1 / q0 < P) /\
    (M = 1 -> Pr * q1 / q0 = 1).
Proof.
  intros g M Hg HM. assert (D : sdom g M) by (now apply sdom_ge1).
  do 5 eexists. split.
  { unfold Pt_ratio, dgamma. rewrite Ps_eval, Md_eval, !PtPs_eval by (assumption || lra). ncbn.
    rewrite ndiv_Some by (apply Rgt_not_eq, Rpower_pos). reflexivity. }
  split; [now apply Ps_eval|]. split; [now apply Md_eval|]. split; [now apply PtPs_eval|]. split; [now apply PtPs_eval|].
  pose proof (psr_pos g M Hg D) as Hp. pose proof (Rpower_pos (tt g M) (g / (g - 1))) as Hq.
  assert (Hm : 0 < sqrt (md2 g M) <= 1).
  { destruct (downstream_exchange g M Hg ltac:(lra) D) as (m & E & H1 & H2 & _).
    destruct (downstream_involution g M Hg ltac:(lra) D) as (m' & E' & Hm' & _). rewrite Md_eval in E, E' by assumption.
    injection E as <-. injection E' as <-. split; [assumption|]. destruct HM as [HM|HM]; [left; now apply H2|right; apply H1; lra]. }
  repeat split.
  - intros H. unfold Rdiv. apply Rmult_lt_compat_r; [now apply Rinv_0_lt_compat|]. apply Rmult_lt_compat_l; [assumption|]. apply PtPs_gamma_incr; lra.
  - intros H. unfold Rdiv. apply Rmult_lt_compat_r; [now apply Rinv_0_lt_compat|]. apply Rmult_lt_compat_l; [assumption|]. apply PtPs_gamma_incr; lra.
  - intros ->. change (ptr g 1 = 1). rewrite ptr_dS, dS_1 by (lra || assumption). replace (- 0 / (g - 1)) with 0 by (field; lra). apply exp_0.
Qed.
(*@E C14_example: gamma = 5/3 (argon) at Mn = 2 is a case of the refutation, and gamma = 1.4 at Mn = 2 a case of the positive part. *)
Lemma C14_example_lemma : (1 < 5/3 /\ 14/10 < 5/3 /\ 1 <= 2) /\ (14/10 - 1) / (2 * (14/10)) < 2 ^ 2 /\
  Ps_ratio (Some 2) (Some (14/10)) = Some (9/2) /\ exists P, Pt_ratio (Some 2) (Some (14/10)) = Some P /\ 0 < P < 1.
Proof.
  split; [lra|]. split; [lra|]. split.
  - rewrite Ps_eval by lra. f_equal. unfold psr. field.
  - apply Pt_ratio_air_monotone. lra.
Qed.
(*@P C14_Mn_Pt_ratio: Mn_Pt_ratio returns 1 for every ratio above 1. *)
Lemma Mn_Pt_ratio_above : forall P g, 1 < P -> Mn_Pt_ratio (Some P) (Some g) = Some 1.
Proof. intros P g H; unfold Mn_Pt_ratio. now rewrite ngt_true by assumption. Qed.
