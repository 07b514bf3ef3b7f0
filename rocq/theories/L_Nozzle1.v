From Verif Require Import L_Num Spec NumSpec NozzleSpec M_Isentropic M_MassFlow M_ShockWave M_DefaultGas M_Nozzle L_Isentropic L_MassFlow L_Shock L_ShockPt L_Degree L_Oblique L_Oblique2.
Open Scope R_scope.

(** ** A solver meeting [branch_solver] *)
Definition sub_root (g s : R) : R := real (Lub_Rbar (fun x => 0 < x <= 1 /\ s <= sig g x)).
Definition sup_root (g s : R) : R := real (Lub_Rbar (fun x => 1 <= x /\ sig g x <= s)).
Lemma sub_root_spec g s : 1 < g -> 1 < s -> 0 < sub_root g s < 1 /\ sig g (sub_root g s) = s.
Proof.
  intros Hg Hs. destruct (sig_sub_exists g s Hg Hs) as [m [Hm E]].
  assert (L : sub_root g s = m).
  { unfold sub_root. rewrite (is_lub_Rbar_unique _ m); [reflexivity|]. split.
    - intros x [Hx Hx']. cbn. destruct (Rle_lt_dec x m); [assumption|].
      pose proof (sig_decr g m x Hg); lra.
    - intros b Hb. apply Hb; lra. }
  now rewrite L.
Qed.
Lemma sup_root_spec g s : 1 < g -> 1 < s -> 1 < sup_root g s /\ sig g (sup_root g s) = s.
Proof.
  intros Hg Hs. destruct (sig_sup_exists g s Hg Hs) as [m [Hm E]].
  assert (L : sup_root g s = m).
  { unfold sup_root. rewrite (is_lub_Rbar_unique _ m); [reflexivity|]. split.
    - intros x [Hx Hx']. cbn. destruct (Rle_lt_dec x m); [assumption|].
      pose proof (sig_incr g m x Hg); lra.
    - intros b Hb. apply Hb; lra. }
  now rewrite L.
Qed.
Definition ideal_newton (g : R) : solver := fun f x0 =>
  match x0, f (Some 1) with
  | Some x, Some e => let s := 1 - e in
      if Rlt_dec 1 s then (if Rlt_dec x 1 then Some (sub_root g s) else Some (sup_root g s))
      else Some 1
  | _, _ => None end.
Lemma ideal_newton_branch g : 1 < g -> branch_solver g (ideal_newton g).
Proof.
  intros Hg; split; [|reflexivity]. intros s x0 Hs Hx. unfold ideal_newton.
  rewrite Sigma_eval, sig_1 by lra; cbn [nsub].
  replace (1 - (1 - s)) with s by ring.
  destruct (Rlt_dec 1 s) as [H|H].
  - destruct (sub_root_spec g s Hg H), (sup_root_spec g s Hg H).
    destruct (Rlt_dec x0 1); eexists; (split; [reflexivity|]); rewrite ?Sigma_eval by lra;
      rewrite ?H1, ?H3; repeat split; intros; lra.
  - replace s with 1 by lra. exists 1; rewrite Sigma_eval, sig_1 by lra. repeat split; lra.
Qed.

(*@E C41_solver_exists: the hypothesis on the root finder used throughout C41-C43 can be met, for every gamma *)
Lemma branch_solver_exists : forall g, 1 < g -> exists newton, branch_solver g newton.
Proof. intros g Hg; exists (ideal_newton g); now apply ideal_newton_branch. Qed.

(** ** What the library's two inversions return with such a solver *)
Lemma guess_sub_lt g s : 1 < g <= 14/10 -> 1 < s ->
  exists x, MachSub_guess (Some s) (Some g) = Some x /\ 0 < x < 1.
Proof.
  intros Hg Hs. destruct (start_sub s g Hg ltac:(lra)) as (x & E & Hx & _).
  exists x; split; [assumption|]. split; [lra|]. unfold MachSub_guess in E; ncbn.
  rewrite !ndiv_Some in E by lra; ncbn.
  assert (P : 0 < (1 - 1 / s) * (4 * (g - 1) / (3 - g))).
  { apply Rmult_lt_0_compat; [|apply guess_coef; lra].
    assert (1 / s < 1) by (apply (Rmult_lt_reg_r s); [lra|]; unfold Rdiv; rewrite Rmult_assoc, Rinv_l by lra; lra). lra. }
  rewrite nsqrt_Some in E by lra. cbn [nsub] in E. apply sqrt_lt_R0 in P. injection E as <-. lra.
Qed.
Lemma guess_sup_gt g s : 1 < g < 3 -> 1 < s ->
  exists x, MachSup_guess (Some s) (Some g) = Some x /\ 1 < x.
Proof.
  intros Hg Hs. unfold MachSup_guess; ncbn. rewrite ndiv_Some by lra; ncbn.
  assert (P : 0 < (s - 1) * (4 * (g - 1) / (3 - g))) by (apply Rmult_lt_0_compat; [lra|apply guess_coef; lra]).
  rewrite nsqrt_Some by lra; ncbn. eexists; split; [reflexivity|]. apply sqrt_lt_R0 in P. lra.
Qed.
Lemma guess_at_1 g : 1 < g < 3 -> MachSub_guess (Some 1) (Some g) = Some 1 /\ MachSup_guess (Some 1) (Some g) = Some 1.
Proof.
  intros Hg; unfold MachSub_guess, MachSup_guess; ncbn. rewrite !ndiv_Some by lra; ncbn.
  replace (1 - 1 / 1) with 0 by lra. replace (1 - 1) with 0 by lra. rewrite Rmult_0_l.
  rewrite nsqrt_Some by lra. rewrite sqrt_0; ncbn. split; f_equal; lra.
Qed.
Lemma sig_sonic_unique g r : 1 < g -> 0 < r -> sig g r = 1 -> r = 1.
Proof. intros Hg Hr E. destruct (Req_dec r 1); [assumption|]. pose proof (sig_gt_1 g r Hg Hr). lra. Qed.
Lemma MachSub_branch newton g s : branch_solver g newton -> 1 < g <= 14/10 -> 1 <= s ->
  exists m, MachSub_Sigma newton (Some s) (Some g) = Some m /\ 0 < m <= 1 /\ sig g m = s /\
    Mach_Sigma_elt newton (Some s) (MachSub_guess (Some s) (Some g)) (Some g) = Some m /\ (1 < s -> m < 1).
Proof.
  intros [HN _] Hg Hs. destruct (Req_dec s 1) as [->|Hne].
  - destruct (guess_at_1 g ltac:(lra)) as [G1 G2]. destruct (HN 1 1 ltac:(lra) ltac:(lra)) as (r & E & Hr & ES & _).
    rewrite Sigma_eval in ES by lra. injection ES as ES.
    assert (r = 1) by (apply (sig_sonic_unique g); lra). subst r. exists 1.
    unfold MachSub_Sigma, Mach_Sigma, Mach_Sigma_elt. rewrite G1, nle_true by lra; cbn [nif].
    repeat split; try assumption; lra.
  - destruct (guess_sub_lt g s Hg ltac:(lra)) as (x & G & Hx).
    destruct (HN s x Hs ltac:(lra)) as (r & E & Hr & ES & H1 & H2).
    rewrite Sigma_eval in ES by lra. injection ES as ES. exists r.
    unfold MachSub_Sigma, Mach_Sigma, Mach_Sigma_elt. rewrite G, nle_true by lra; cbn [nif].
    specialize (H1 ltac:(lra) ltac:(lra)). repeat split; try assumption; lra.
Qed.
Lemma MachSup_branch newton g s : branch_solver g newton -> 1 < g < 3 -> 1 <= s ->
  exists m, MachSup_Sigma newton (Some s) (Some g) = Some m /\ 1 <= m /\ sig g m = s /\
    Mach_Sigma_elt newton (Some s) (MachSup_guess (Some s) (Some g)) (Some g) = Some m /\ (1 < s -> 1 < m).
Proof.
  intros [HN _] Hg Hs. destruct (Req_dec s 1) as [->|Hne].
  - destruct (guess_at_1 g ltac:(lra)) as [G1 G2]. destruct (HN 1 1 ltac:(lra) ltac:(lra)) as (r & E & Hr & ES & _).
    rewrite Sigma_eval in ES by lra. injection ES as ES.
    assert (r = 1) by (apply (sig_sonic_unique g); lra). subst r. exists 1.
    unfold MachSup_Sigma, Mach_Sigma, Mach_Sigma_elt. rewrite G2, nle_true by lra; cbn [nif]. rewrite G1.
    repeat split; try assumption; lra.
  - destruct (guess_sup_gt g s Hg ltac:(lra)) as (x & G & Hx).
    destruct (HN s x Hs ltac:(lra)) as (r & E & Hr & ES & H1 & H2).
    rewrite Sigma_eval in ES by lra. injection ES as ES. exists r.
    unfold MachSup_Sigma, Mach_Sigma, Mach_Sigma_elt. rewrite G, nle_false by lra; cbn [nif].
    specialize (H2 ltac:(lra) ltac:(lra)). repeat split; try assumption; lra.
Qed.

(** ** Gas dynamics of the shocked nozzle, any gamma *)
Lemma md2_form g M : 1 < g -> sdom g M -> md2 g M = M ^ 2 / (rhor g M * psr g M).
Proof.
  intros Hg HD. pose proof (sdom_den g M Hg HD). pose proof (psr_pos g M Hg HD) as P. pose proof (sdom_nz g M Hg HD).
  rewrite psr_alt in * by assumption. pose proof (rden_pos g M Hg). unfold md2, rhor, tt. field.
  repeat split; nra.
Qed.
(** the shock multiplies the sonic area by 1/ptr *)
Lemma sig_md g M : 1 < g -> 0 < M -> sdom g M -> sig g (sqrt (md2 g M)) = sig g M * ptr g M.
Proof.
  intros Hg HM HD. pose proof (md2_pos g M Hg HD) as Hd. pose proof (tt_pos g M Hg) as Ht.
  assert (Hm : 0 < sqrt (md2 g M)) by (now apply sqrt_lt_R0).
  pose proof (tt_pos g (sqrt (md2 g M)) Hg) as Ht'. pose proof (psr_pos g M Hg HD) as Hp.
  pose proof (tsr_tt g M Hg HD) as ET. pose proof (tsr_pos g M Hg HD) as HT.
  rewrite !sig_form by assumption. unfold ptr.
  rewrite !Rpower_mult_base by (try apply two_gp1_pos; assumption).
  set (t := tt g M) in *. set (t' := tt g (sqrt (md2 g M))) in *. set (m := sqrt (md2 g M)) in *.
  assert (EM : M * / m = psr g M * (Rpower t' (1 / 2) / Rpower t (1 / 2))).
  { assert (HR : 0 < rhor g M) by (apply rhor_pos; lra).
    apply Rsqr_inj; [apply Rmult_le_pos; [lra|left; now apply Rinv_0_lt_compat]| |].
    - apply Rmult_le_pos; [lra|]. pose proof (Rpower_pos t' (1/2)). pose proof (Rpower_pos t (1/2)). pos.
    - unfold Rsqr. replace (M * / m * (M * / m)) with (M ^ 2 / m ^ 2) by (field; lra).
      replace (m ^ 2) with (md2 g M) by (unfold m; rewrite sq_sqrt; lra).
      rewrite md2_form by assumption.
      replace (M ^ 2 / (M ^ 2 / (rhor g M * psr g M))) with (rhor g M * psr g M) by (field; repeat split; lra).
      replace (1/2) with (/2) by lra. rewrite !Rpower_sqrt by assumption.
      replace (psr g M * (sqrt t' / sqrt t) * (psr g M * (sqrt t' / sqrt t))) with
        (psr g M ^ 2 * ((sqrt t' * sqrt t') / (sqrt t * sqrt t))) by (field; apply Rgt_not_eq, sqrt_lt_R0; assumption).
      rewrite !sqrt_sqrt by lra. rewrite <- ET. unfold tsr. field. repeat split; lra. }
  replace (g / (g - 1)) with (sexp g + 1 / 2) by (unfold sexp; field; lra).
  rewrite !Rpower_plus.
  pose proof (Rpower_pos t' (1/2)). pose proof (Rpower_pos t (1/2)).
  pose proof (Rpower_pos t' (sexp g)). pose proof (Rpower_pos t (sexp g)).
  transitivity (Rpower (2 / (g + 1)) (sexp g) * Rpower t' (sexp g) / M * (M * / m)); [field; lra|].
  rewrite EM. field. lra.
Qed.
Lemma ptr_lt1 g M : 1 < g -> 1 < M -> 0 < ptr g M < 1.
Proof.
  intros Hg HM. rewrite ptr_dS by (try lra; apply sdom_ge1; lra). split; [apply exp_pos|].
  pose proof (dS_incr g 1 M Hg). rewrite dS_1 in H by assumption.
  assert (0 < dS g M) by (apply H; try lra; apply sdom_ge1; lra).
  apply Rlt_le_trans with (exp 0); [apply exp_increasing|rewrite exp_0; lra].
  assert (0 < dS g M / (g - 1)) by pos. unfold Rdiv in *; lra.
Qed.
Definition pp (g M : R) : R := Rpower (tt g M) (g / (g - 1)).
Lemma pp_pos g M : 0 < pp g M. Proof. apply Rpower_pos. Qed.
Lemma pp_incr g x y : 1 < g -> 0 <= x -> x < y -> pp g x < pp g y.
Proof.
  intros; unfold pp; apply Rpower_lt_base; [now apply tt_pos|now apply tt_incr|now apply exp_pos_gg].
Qed.
Lemma pp_gt1 g x : 1 < g -> 0 < x -> 1 < pp g x.
Proof. intros; apply Rpower_gt_1; [apply tt_gt_1; lra|now apply exp_pos_gg]. Qed.
Lemma md_lt1 g M : 1 < g -> 1 < M -> 0 < sqrt (md2 g M) < 1.
Proof.
  intros Hg HM. assert (D : sdom g M) by (apply sdom_ge1; lra).
  destruct (downstream_exchange g M Hg ltac:(lra) D) as (m & E & _ & H & _).
  rewrite Md_eval in E by assumption. injection E as <-. split; [apply sqrt_lt_R0; now apply md2_pos|now apply H].
Qed.
Lemma limits_order g m M s : 1 < g -> 0 < m < 1 -> 1 < M -> sig g m = s -> sig g M = s ->
  m < sqrt (md2 g M) /\ 1 < pp g m < pp g (sqrt (md2 g M)) / ptr g M /\
  pp g (sqrt (md2 g M)) / ptr g M < pp g M /\
  pp g (sqrt (md2 g M)) / ptr g M = pp g M / psr g M.
Proof.
  intros Hg Hm HM E1 E2. assert (D : sdom g M) by (apply sdom_ge1; lra).
  destruct (md_lt1 g M Hg HM) as [Ha Hb]. pose proof (ptr_lt1 g M Hg HM) as Hp.
  pose proof (sig_md g M Hg ltac:(lra) D) as ES. rewrite E2 in ES.
  assert (Hs : 1 < s) by (rewrite <- E2; apply sig_gt_1; lra).
  assert (Hlt : m < sqrt (md2 g M)).
  { destruct (Rlt_le_dec m (sqrt (md2 g M))) as [|L]; [assumption|exfalso].
    assert (s <= sig g (sqrt (md2 g M))).
    { destruct (Req_dec m (sqrt (md2 g M))) as [<-|]; [lra|]. rewrite <- E1; left; apply sig_decr; lra. }
    nra. }
  pose proof (pp_pos g (sqrt (md2 g M))). pose proof (pp_pos g M).
  assert (1 < psr g M).
  { replace 1 with (psr g 1) at 1 by (unfold psr; field; lra). apply psr_incr; lra. }
  assert (EQ : pp g (sqrt (md2 g M)) / ptr g M = pp g M / psr g M).
  { unfold ptr. fold (pp g (sqrt (md2 g M))) (pp g M). field. repeat split; lra. }
  split; [assumption|]. split; [split|split]; [apply pp_gt1; lra| | |assumption].
  - apply Rlt_le_trans with (pp g (sqrt (md2 g M))); [apply pp_incr; lra|].
    apply (Rmult_le_reg_r (ptr g M)); [lra|]. unfold Rdiv; rewrite Rmult_assoc, Rinv_l by lra. nra.
  - rewrite EQ. apply (Rmult_lt_reg_r (psr g M)); [lra|]. unfold Rdiv; rewrite Rmult_assoc, Rinv_l by lra. nra.
Qed.

Notation g0 := (14/10)%R.
Lemma lims newton s : branch_solver g0 newton -> 1 < s ->
  exists m M, MachSub_Sigma newton (Some s) dgamma = Some m /\ MachSup_Sigma newton (Some s) dgamma = Some M /\
    0 < m < 1 /\ 1 < M /\ sig g0 m = s /\ sig g0 M = s /\
    NPR_Ms_list newton (Some s) = mk_npr (Some (pp g0 m)) (Some (pp g0 (sqrt (md2 g0 M)) / ptr g0 M))
      (Some (pp g0 M)) (Some m) (Some (sqrt (md2 g0 M))) (Some M).
Proof.
  intros HN Hs.
  destruct (MachSub_branch newton g0 s HN ltac:(lra) ltac:(lra)) as (m & E1 & Hm & S1 & _ & Hm').
  destruct (MachSup_branch newton g0 s HN ltac:(lra) ltac:(lra)) as (M & E2 & HM & S2 & _ & HM').
  specialize (Hm' Hs); specialize (HM' Hs).
  exists m, M. split; [exact E1|]. split; [exact E2|]. do 4 (split; [lra|]).
  assert (D : sdom g0 M) by (apply sdom_ge1; lra).
  unfold NPR_Ms_list, Pi_ratio. pose proof (Pt_eval_14 M D) as EP. unfold dgamma in *. rewrite E1, E2.
  rewrite Md_eval, !PtPs_eval by (assumption || lra).
  rewrite EP. pose proof (ptr_lt1 g0 M ltac:(lra) HM'). rewrite ndiv_Some by lra. reflexivity.
Qed.

(*@P C41_order: For every exit-to-throat area ratio above 1 the three limit pressure ratios exist and 1 < choked-subsonic < shock-at-exit < choked-supersonic (default gas; exact root finder). *)
Lemma NPR_order : forall newton s, branch_solver (14/10) newton -> 1 < s ->
  exists n0 nsw n1, NPR_choked_subsonic newton (Some s) = Some n0 /\
    NPR_shock_at_exit newton (Some s) = Some nsw /\ NPR_choked_supersonic newton (Some s) = Some n1 /\
    1 < n0 /\ n0 < nsw /\ nsw < n1.
Proof.
  intros newton s HN Hs. destruct (lims newton s HN Hs) as (m & M & E1 & E2 & Hm & HM & S1 & S2 & L).
  destruct (limits_order g0 m M s ltac:(lra) Hm HM S1 S2) as (_ & O1 & O2 & _).
  exists (pp g0 m), (pp g0 (sqrt (md2 g0 M)) / ptr g0 M), (pp g0 M).
  unfold NPR_Ms_list in L. injection L as L1 L2 L3 L4 L5 L6.
  split; [exact L1|]. split; [exact L2|]. split; [exact L3|]. lra.
Qed.

(*@P C41_meaning: Each limit is the ratio of inlet total to exit static pressure of the regime it names: isentropic flow that is sonic at the throat and subsonic (resp. supersonic) at an exit of that area ratio; and, for shock-at-exit, the supersonic exit flow followed by a normal shock (static pressure multiplied by Ps_ratio). *)
Lemma NPR_meaning : forall newton s, branch_solver (14/10) newton -> 1 < s ->
  (exists m, 0 < m < 1 /\ Sigma_Mach (Some m) (Some (14/10)) = Some s /\
     NPR_choked_subsonic newton (Some s) = PtPs_Mach (Some m) (Some (14/10))) /\
  (exists M, 1 < M /\ Sigma_Mach (Some M) (Some (14/10)) = Some s /\
     NPR_choked_supersonic newton (Some s) = PtPs_Mach (Some M) (Some (14/10)) /\
     exists q P, PtPs_Mach (Some M) (Some (14/10)) = Some q /\ Ps_ratio (Some M) (Some (14/10)) = Some P /\
       forall pt ps, 0 < ps -> pt / ps = q -> 
         NPR_shock_at_exit newton (Some s) = Some (pt / (ps * P))).
Proof.
  intros newton s HN Hs. destruct (lims newton s HN Hs) as (m & M & E1 & E2 & Hm & HM & S1 & S2 & L).
  destruct (limits_order g0 m M s ltac:(lra) Hm HM S1 S2) as (_ & O1 & O2 & EQ).
  assert (D : sdom g0 M) by (apply sdom_ge1; lra).
  unfold NPR_Ms_list in L. injection L as L1 L2 L3 L4 L5 L6.
  split.
  - exists m. rewrite Sigma_eval by lra. rewrite S1. repeat split; try lra.
    unfold NPR_choked_subsonic. now rewrite E1.
  - exists M. rewrite Sigma_eval by lra. rewrite S2. repeat split; try lra.
    + unfold NPR_choked_supersonic. now rewrite E2.
    + exists (pp g0 M), (psr g0 M). rewrite PtPs_eval, Ps_eval by lra.
      repeat split. intros pt ps Hps Hq. etransitivity; [exact L2|]. f_equal. rewrite EQ, <- Hq.
      pose proof (psr_pos g0 M ltac:(lra) D). field; lra.
Qed.
(*@P C41_list_agrees: The internal list used by all other functions has these same three limits, the two isentropic exit Mach numbers, and the Mach number behind the exit shock. *)
Lemma NPR_list : forall newton s,
  NPR0 (NPR_Ms_list newton s) = NPR_choked_subsonic newton s /\
  NPRsw (NPR_Ms_list newton s) = NPR_shock_at_exit newton s /\
  NPR1 (NPR_Ms_list newton s) = NPR_choked_supersonic newton s /\
  l_Msub (NPR_Ms_list newton s) = MachSub_Sigma newton s (Some (14/10)) /\
  l_Msup (NPR_Ms_list newton s) = MachSup_Sigma newton s (Some (14/10)) /\
  l_Msh (NPR_Ms_list newton s) = downstream_Mn (MachSup_Sigma newton s (Some (14/10))) (Some (14/10)).
Proof. intros; repeat split; reflexivity. Qed.

(** ** The exit Mach number *)
Lemma shocked_eval cur s n : 1 < cur -> 0 < s -> 0 < n ->
  exists Ms, shocked_exit_Mach (Some cur) (Some s) (Some n) = Some Ms /\ 0 < Ms /\
    Ms * sqrt (tt cur Ms) = n / s / Rpower ((cur + 1) / 2) (sexp cur).
Proof.
  intros Hg Hs Hn. unfold shocked_exit_Mach; ncbn. rewrite (ndiv_Some (cur + 1) 2) by lra.
  rewrite (ndiv_Some n s) by lra. rewrite (ndiv_Some ((cur + 1) / 2)) by lra.
  rewrite npow_Some by lra.
  assert (Hc : 0 < Rpower ((cur + 1) / 2) ((cur + 1) / 2 / (cur - 1))) by apply Rpower_pos.
  rewrite ndiv_Some by lra; ncbn.
  replace ((cur + 1) / 2 / (cur - 1)) with (sexp cur) in * by (unfold sexp; field; lra).
  set (K := n / s / Rpower ((cur + 1) / 2) (sexp cur)).
  assert (HK : 0 < K) by (unfold K; pos).
  replace (1 + 2 * (cur - 1) * K * K) with (1 + 2 * (cur - 1) * K ^ 2) by ring.
  assert (HK2 : 0 < 2 * (cur - 1) * K ^ 2) by pos.
  rewrite nsqrt_Some by lra; ncbn. rewrite ndiv_Some by lra.
  set (w := sqrt (1 + 2 * (cur - 1) * K ^ 2)).
  assert (Hw : 1 < w) by (unfold w; rewrite <- sqrt_1 at 1; apply sqrt_lt_1_alt; lra).
  assert (Hw2 : w ^ 2 = 1 + 2 * (cur - 1) * K ^ 2) by (unfold w; apply sq_sqrt; lra).
  clearbody w.
  assert (HM : 0 < (w - 1) / (cur - 1)) by pos.
  rewrite nsqrt_Some by lra. eexists; split; [reflexivity|]. split; [now apply sqrt_lt_R0|].
  pose proof (sqrt_lt_R0 _ HM) as Hq.
  rewrite <- (sqrt_sq K) by lra. rewrite <- (sqrt_sq (sqrt ((w - 1) / (cur - 1)))) at 1 by lra.
  rewrite <- sqrt_mult by (try apply pow2_ge_0; left; now apply tt_pos). f_equal. unfold tt.
  rewrite sq_sqrt by lra.
  transitivity ((w ^ 2 - 1) / (2 * (cur - 1))); [field; lra|]. rewrite Hw2. field; lra.
Qed.
Lemma mst_incr g x y : 1 < g -> 0 <= x -> x < y -> x * sqrt (tt g x) < y * sqrt (tt g y).
Proof.
  intros Hg Hx Hxy. pose proof (tt_incr g x y Hg Hx Hxy). pose proof (tt_pos g x Hg).
  assert (0 < sqrt (tt g x)) by (now apply sqrt_lt_R0).
  assert (sqrt (tt g x) < sqrt (tt g y)) by (apply sqrt_lt_1_alt; lra). nra.
Qed.
Lemma mst_inj g x y : 1 < g -> 0 <= x -> 0 <= y -> x * sqrt (tt g x) = y * sqrt (tt g y) -> x = y.
Proof.
  intros Hg Hx Hy E. destruct (Rtotal_order x y) as [H|[H|H]]; [|assumption|].
  - pose proof (mst_incr g x y Hg Hx H); lra.
  - pose proof (mst_incr g y x Hg Hy H); lra.
Qed.
(** static-pressure mass flow: x sqrt(tt x) = pp(x) / sig(x) / ((g+1)/2)^sexp *)
Lemma mst_sig g x : 1 < g -> 0 < x ->
  x * sqrt (tt g x) = pp g x / sig g x / Rpower ((g + 1) / 2) (sexp g).
Proof.
  intros Hg Hx. rewrite sig_form by assumption. unfold pp.
  replace (g / (g - 1)) with (sexp g + / 2) by (unfold sexp; field; lra).
  rewrite Rpower_plus, Rpower_sqrt by (now apply tt_pos).
  rewrite Rpower_mult_base by (try apply two_gp1_pos; try apply tt_pos; assumption).
  pose proof (Rpower_pos (tt g x) (sexp g)). pose proof (Rpower_pos ((g + 1) / 2) (sexp g)).
  pose proof (Rpower_pos (2 / (g + 1)) (sexp g)).
  assert (E : Rpower ((g + 1) / 2) (sexp g) * Rpower (2 / (g + 1)) (sexp g) = 1).
  { rewrite <- Rpower_mult_base by pos. replace ((g + 1) / 2 * (2 / (g + 1))) with 1 by (field; lra). apply Rpower_one. }
  set (a := Rpower ((g + 1) / 2) (sexp g)) in *. set (b := Rpower (2 / (g + 1)) (sexp g)) in *.
  set (c := Rpower (tt g x) (sexp g)) in *. set (d := sqrt (tt g x)). clearbody a b c d.
  replace (c * d / (b * c / x) / a) with (x * d / (a * b)) by (field; repeat split; lra). rewrite E. field.
Qed.
(** the shocked formula, in terms of area ratio and total pressure loss *)
Lemma shocked_loss g s n Ms : 1 < g -> 0 < s -> 0 < n -> 0 < Ms ->
  Ms * sqrt (tt g Ms) = n / s / Rpower ((g + 1) / 2) (sexp g) -> sig g Ms = s * (pp g Ms / n).
Proof.
  intros Hg Hs Hn HM E. rewrite mst_sig in E by assumption.
  pose proof (Rpower_pos ((g + 1) / 2) (sexp g)). pose proof (sig_pos g Ms). pose proof (pp_pos g Ms).
  set (k := Rpower ((g + 1) / 2) (sexp g)) in *. clearbody k.
  assert (E' : pp g Ms / sig g Ms = n / s).
  { apply (f_equal (fun z => z * k)) in E. unfold Rdiv in E. rewrite !Rmult_assoc, Rinv_l in E by lra. 
    unfold Rdiv; lra. }
  apply (f_equal (fun z => z * sig g Ms * s / n)) in E'.
  replace (pp g Ms / sig g Ms * sig g Ms * s / n) with (s * (pp g Ms / n)) in E' by (field; lra).
  rewrite E'. field. lra.
Qed.
(** the shocked value between the two limits *)
Lemma shocked_between g s m M n Ms : 1 < g -> 0 < m < 1 -> 1 < M -> sig g m = s -> sig g M = s ->
  0 < Ms -> Ms * sqrt (tt g Ms) = n / s / Rpower ((g + 1) / 2) (sexp g) ->
  (pp g m <= n -> m <= Ms) /\ (n <= pp g (sqrt (md2 g M)) / ptr g M -> Ms <= sqrt (md2 g M)) /\
  (n = pp g m -> Ms = m) /\ (n = pp g (sqrt (md2 g M)) / ptr g M -> Ms = sqrt (md2 g M)).
Proof.
  intros Hg Hm HM S1 S2 H0 E. destruct (md_lt1 g M Hg HM) as [Hd _].
  assert (D : sdom g M) by (apply sdom_ge1; lra). pose proof (ptr_lt1 g M Hg HM) as Hp.
  pose proof (sig_pos g m) as Hs. rewrite S1 in Hs.
  pose proof (Rpower_pos ((g + 1) / 2) (sexp g)) as Hk. set (k := Rpower ((g + 1) / 2) (sexp g)) in *.
  assert (Em : m * sqrt (tt g m) = pp g m / s / k) by (rewrite mst_sig, S1 by lra; reflexivity).
  assert (Ed : sqrt (md2 g M) * sqrt (tt g (sqrt (md2 g M))) = pp g (sqrt (md2 g M)) / ptr g M / s / k).
  { rewrite mst_sig, sig_md, S2 by lra || assumption. fold k. field. repeat split; lra. }
  assert (LE : forall x y, x <= y -> x / s / k <= y / s / k).
  { intros x y Hxy. unfold Rdiv. repeat apply Rmult_le_compat_r; try assumption; left; now apply Rinv_0_lt_compat. }
  repeat split; intros Hn.
  - destruct (Rle_lt_dec m Ms) as [|L]; [assumption|]. pose proof (mst_incr g Ms m Hg ltac:(lra) L).
    pose proof (LE _ _ Hn). lra.
  - destruct (Rle_lt_dec Ms (sqrt (md2 g M))) as [|L]; [assumption|].
    pose proof (mst_incr g (sqrt (md2 g M)) Ms Hg ltac:(lra) L). pose proof (LE _ _ Hn). lra.
  - apply (mst_inj g); try lra. now rewrite E, Em, Hn.
  - apply (mst_inj g); try lra. now rewrite E, Ed, Hn.
Qed.

(** splits the tests of the regime selection *)
Lemma Ms_regimes newton s n : branch_solver g0 newton -> 1 < s -> 0 < n ->
  exists m M nsw, MachSub_Sigma newton (Some s) dgamma = Some m /\ MachSup_Sigma newton (Some s) dgamma = Some M /\
    0 < m < 1 /\ 1 < M /\ sig g0 m = s /\ sig g0 M = s /\ nsw = pp g0 (sqrt (md2 g0 M)) / ptr g0 M /\
    NPR_choked_subsonic newton (Some s) = Some (pp g0 m) /\ NPR_shock_at_exit newton (Some s) = Some nsw /\
    NPR_choked_supersonic newton (Some s) = Some (pp g0 M) /\
    NPR_Ms_list newton (Some s) = mk_npr (Some (pp g0 m)) (Some nsw)
      (Some (pp g0 M)) (Some m) (Some (sqrt (md2 g0 M))) (Some M) /\
    pp g0 m < nsw < pp g0 M /\
    forall cur,
    (n < pp g0 m -> Ms_from_AsAc_NPR newton cur (Some s) (Some n) = Mach_PtPs (Some n) dgamma) /\
    (pp g0 m <= n <= nsw -> Ms_from_AsAc_NPR newton cur (Some s) (Some n) = shocked_exit_Mach cur (Some s) (Some n)) /\
    (nsw < n -> Ms_from_AsAc_NPR newton cur (Some s) (Some n) = Some M).
Proof.
  intros HN Hs Hn. destruct (lims newton s HN Hs) as (m & M & E1 & E2 & Hm & HM & S1 & S2 & L).
  destruct (limits_order g0 m M s ltac:(lra) Hm HM S1 S2) as (_ & O1 & O2 & _).
  exists m, M, (pp g0 (sqrt (md2 g0 M)) / ptr g0 M).
  destruct (NPR_list newton (Some s)) as (L1 & L2 & L3 & _).
  rewrite <- L1, <- L2, <- L3, L. cbn [NPR0 NPRsw NPR1].
  do 11 (split; [first [assumption|lra|reflexivity]|]). split; [lra|].
  intros cur. unfold Ms_from_AsAc_NPR; rewrite L; cbn [NPR0 NPRsw NPR1 l_Msup].
  repeat split; intros H.
  - now rewrite nlt_true.
  - rewrite nlt_false, ngt_false by lra. reflexivity.
  - rewrite nlt_false, ngt_true by lra. reflexivity.
Qed.

(*@P C42_unchoked: Below the first limit the exit Mach number is subsonic, below the choked one, and its Pt/Ps is exactly NPR: the exit static pressure is the imposed one. (Every NPR >= 1, every area ratio > 1, whatever the current default gamma.) *)
Lemma Ms_unchoked : forall newton cur s n n0 m0, branch_solver (14/10) newton -> 1 < s -> 1 <= n ->
  NPR_choked_subsonic newton (Some s) = Some n0 -> n < n0 ->
  MachSub_Sigma newton (Some s) (Some (14/10)) = Some m0 ->
  exists Ms, Ms_from_AsAc_NPR newton cur (Some s) (Some n) = Some Ms /\ 0 <= Ms < m0 /\ m0 < 1 /\
    PtPs_Mach (Some Ms) (Some (14/10)) = Some n.
Proof.
  intros newton cur s n n0 m0 HN Hs Hn E0 Hlt Em0.
  destruct (Ms_regimes newton s n HN Hs ltac:(lra)) as (m & M & nsw & E1 & E2 & Hm & HM & S1 & S2 & EN & F0 & Fsw & F1 & L & O & R).
  destruct (R cur) as (R1 & _ & _). rewrite F0 in E0; injection E0 as <-. rewrite R1 by assumption.
  unfold dgamma in E1; rewrite E1 in Em0; injection Em0 as <-.
  unfold dgamma. rewrite Mach_PtPs_eval by lra. eexists; split; [reflexivity|].
  set (z := (Rpower n ((14/10 - 1) / (14/10)) - 1) * 2 / (14/10 - 1)).
  assert (Hz : 0 <= z).
  { unfold z. pose proof (Rpower_ge_1 n ((14/10 - 1) / (14/10)) Hn ltac:(lra)). apply Rmult_le_pos; lra. }
  assert (EP : pp g0 (sqrt z) = n).
  { unfold pp, tt. rewrite sq_sqrt by assumption. unfold z.
    replace (1 + 1 / 2 * (14/10 - 1) * ((Rpower n ((14/10 - 1) / (14/10)) - 1) * 2 / (14/10 - 1)))
      with (Rpower n ((14/10 - 1) / (14/10))) by field.
    apply Rpower_inv_exp; [lra|field]. }
  split; [|split; [lra|rewrite PtPs_eval by lra; f_equal; exact EP]]. split; [apply sqrt_pos|].
  destruct (Rlt_le_dec (sqrt z) m) as [|G]; [assumption|].
  destruct (Req_dec (sqrt z) m) as [Q|Q]; [rewrite Q in EP; lra|].
  pose proof (pp_incr g0 m (sqrt z) ltac:(lra) ltac:(lra) ltac:(lra)). lra.
Qed.

(*@P C42_shocked: Between the first two limits (both included) and with the default gas unchanged, the exit flow is subsonic between the choked isentropic Mach number and the Mach number behind an exit shock; and the throat-choked mass flow equals the mass flow through the exit at the imposed static pressure, for every inlet total state and every area: pt/ps = NPR at the exit exactly. *)
Lemma Ms_shocked : forall newton s n n0 nsw m0 M0 mh, branch_solver (14/10) newton -> 1 < s ->
  NPR_choked_subsonic newton (Some s) = Some n0 -> NPR_shock_at_exit newton (Some s) = Some nsw -> n0 <= n <= nsw ->
  MachSub_Sigma newton (Some s) (Some (14/10)) = Some m0 -> MachSup_Sigma newton (Some s) (Some (14/10)) = Some M0 ->
  downstream_Mn (Some M0) (Some (14/10)) = Some mh ->
  exists Ms t w1, Ms_from_AsAc_NPR newton (Some (14/10)) (Some s) (Some n) = Some Ms /\ m0 <= Ms <= mh /\ mh < 1 /\
    TtTs_Mach (Some Ms) (Some (14/10)) = Some t /\
    WeightMassFlow (Some 1) (Some 1) (Some (14/10)) = Some w1 /\
    forall r Tt pt Ac, 0 < r -> 0 < Tt -> 0 < pt -> 0 < Ac ->
      let ps := pt / n in let Ts := Tt / t in
      (ps / (r * Ts)) * (Ms * sound (14/10) r Ts) * (s * Ac) = w1 * pt * Ac / sqrt (r * Tt).
Proof.
  intros newton s n n0 nsw' m0 M0 mh HN Hs E0 Esw Hn Em0 EM0 Emh.
  destruct (NPR_order newton s HN Hs) as (a0 & b0 & c0 & Ea & Eb & _ & Ha & _). 
  assert (Hn1 : 1 < n) by (rewrite Ea in E0; injection E0 as <-; lra). clear a0 b0 c0 Ea Eb Ha.
  destruct (Ms_regimes newton s n HN Hs ltac:(lra)) as (m & M & nsw & E1 & E2 & Hm & HM & S1 & S2 & EN & F0 & Fsw & F1 & L & O & R).
  destruct (R (Some g0)) as (_ & R2 & _).
  rewrite F0 in E0; injection E0 as <-. rewrite Fsw in Esw; injection Esw as <-. rewrite R2 by assumption.
  unfold dgamma in E1, E2; rewrite E1 in Em0; injection Em0 as <-. rewrite E2 in EM0; injection EM0 as <-.
  rewrite Md_eval in Emh by (lra || (apply sdom_ge1; lra)). injection Emh as <-.
  destruct (shocked_eval g0 s n ltac:(lra) ltac:(lra) ltac:(lra)) as (Ms & EM & HMs & EF).
  destruct (shocked_between g0 s m M n Ms ltac:(lra) Hm HM S1 S2 HMs EF) as (B1 & B2 & _).
  pose proof (md_lt1 g0 M ltac:(lra) HM) as Hmd.
  exists Ms, (tt g0 Ms), (wmf g0 1). split; [exact EM|]. rewrite EN in Hn. split; [split; [apply B1|apply B2]; lra|].
  split; [lra|]. split; [apply TtTs_eval|]. split; [apply WMF_eval; lra|].
  intros r Tt pt Ac Hr HT Hp HA ps Ts.
  pose proof (tt_pos g0 Ms ltac:(lra)) as Htt.
  assert (HTs : 0 < Ts) by (unfold Ts; pos). assert (Hps : 0 < ps) by (unfold ps; pos).
  pose proof (wmf_physical g0 r Ms ps Ts ltac:(lra) Hr Hps HTs) as W.
  fold (pp g0 Ms) in W. pose proof (pp_pos g0 Ms) as HP.
  assert (ET : tt g0 Ms * Ts = Tt) by (unfold Ts; field; lra). rewrite ET in W.
  assert (Hq : 0 < sqrt (r * Tt)) by (apply sqrt_lt_R0; pos).
  set (f := ps / (r * Ts) * (Ms * sound (14 / 10) r Ts)) in *.
  assert (Ef : f = wmf g0 Ms * (pp g0 Ms * ps) / sqrt (r * Tt)).
  { rewrite <- W. field. repeat split; lra. }
  rewrite Ef. pose proof (sig_wmf g0 Ms ltac:(lra) HMs) as SW. pose proof (wmf_pos g0 Ms ltac:(lra) HMs) as HW.
  pose proof (shocked_loss g0 s n Ms ltac:(lra) ltac:(lra) ltac:(lra) HMs EF) as SL.
  assert (EW : wmf g0 1 = sig g0 Ms * wmf g0 Ms) by (rewrite SW; field; lra).
  rewrite EW, SL. unfold ps. field. repeat split; lra.
Qed.

(*@P C42_supersonic: Above the shock-at-exit limit the exit flow is the supersonic design flow (Sigma(Ms) = As/Ac, Ms > 1), whatever NPR. *)
Lemma Ms_supersonic : forall newton cur s n nsw, branch_solver (14/10) newton -> 1 < s ->
  NPR_shock_at_exit newton (Some s) = Some nsw -> nsw < n ->
  exists Ms, Ms_from_AsAc_NPR newton cur (Some s) (Some n) = Some Ms /\ 1 < Ms /\
    Sigma_Mach (Some Ms) (Some (14/10)) = Some s.
Proof.
  intros newton cur s n nsw' HN Hs Esw Hn.
  destruct (Ms_regimes newton s n HN Hs) as (m & M & nsw & E1 & E2 & Hm & HM & S1 & S2 & EN & F0 & Fsw & F1 & L & O & R).
  { destruct (NPR_order newton s HN Hs) as (a0 & b0 & c0 & Ea & Eb & _ & Ha & Hb & _).
    rewrite Eb in Esw; injection Esw as <-; lra. }
  destruct (R cur) as (_ & _ & R3). rewrite Fsw in Esw; injection Esw as <-. rewrite R3 by assumption.
  exists M. rewrite Sigma_eval by lra. repeat split; [lra|now rewrite S2].
Qed.

(*@P C42_limits: With the default gas unchanged the exit Mach number is exactly the choked subsonic one at the first limit (where the unchoked formula gives the same value: no jump), and exactly the Mach number behind an exit shock at the second. *)
Lemma Ms_limits : forall newton s n0 nsw m0 M0, branch_solver (14/10) newton -> 1 < s ->
  NPR_choked_subsonic newton (Some s) = Some n0 -> NPR_shock_at_exit newton (Some s) = Some nsw ->
  MachSub_Sigma newton (Some s) (Some (14/10)) = Some m0 -> MachSup_Sigma newton (Some s) (Some (14/10)) = Some M0 ->
  Ms_from_AsAc_NPR newton (Some (14/10)) (Some s) (Some n0) = Some m0 /\
  Mach_PtPs (Some n0) (Some (14/10)) = Some m0 /\
  Ms_from_AsAc_NPR newton (Some (14/10)) (Some s) (Some nsw) = downstream_Mn (Some M0) (Some (14/10)).
Proof.
  intros newton s n0 nsw' m0 M0 HN Hs E0 Esw Em0 EM0.
  destruct (Ms_regimes newton s 1 HN Hs ltac:(lra)) as (m & M & nsw & E1 & E2 & Hm & HM & S1 & S2 & EN & F0 & Fsw & F1 & L & O & _).
  rewrite F0 in E0; injection E0 as <-. rewrite Fsw in Esw; injection Esw as <-.
  unfold dgamma in E1, E2; rewrite E1 in Em0; injection Em0 as <-. rewrite E2 in EM0; injection EM0 as <-.
  assert (Hp : 1 < pp g0 m) by (apply pp_gt1; lra).
  rewrite Md_eval by (lra || (apply sdom_ge1; lra)).
  assert (X : forall n, pp g0 m <= n <= nsw -> Ms_from_AsAc_NPR newton (Some g0) (Some s) (Some n) = shocked_exit_Mach (Some g0) (Some s) (Some n)).
  { intros n Hn. destruct (Ms_regimes newton s n HN Hs ltac:(lra)) as (m' & M' & nsw' & E1' & E2' & _ & _ & _ & _ & EN' & _ & _ & _ & _ & _ & R).
    unfold dgamma in E1', E2'; rewrite E1 in E1'; injection E1' as <-. rewrite E2 in E2'; injection E2' as <-.
    destruct (R (Some g0)) as (_ & R2 & _). apply R2. rewrite EN', <- EN. lra. }
  split; [|split].
  - rewrite X by lra. destruct (shocked_eval g0 s (pp g0 m) ltac:(lra) ltac:(lra) ltac:(lra)) as (Ms & EM & HMs & EF).
    rewrite EM; f_equal.
    now apply (shocked_between g0 s m M (pp g0 m) Ms ltac:(lra) Hm HM S1 S2 HMs EF).
  - rewrite Mach_PtPs_eval by lra. f_equal. unfold pp.
    rewrite Rpower_inv_exp by (try apply tt_pos; try lra; field). unfold tt.
    replace ((1 + 1 / 2 * (14/10 - 1) * m ^ 2 - 1) * 2 / (14/10 - 1)) with (m ^ 2) by field. apply sqrt_sq; lra.
  - rewrite X by lra. destruct (shocked_eval g0 s nsw ltac:(lra) ltac:(lra) ltac:(lra)) as (Ms & EM & HMs & EF).
    rewrite EM; f_equal.
    now apply (shocked_between g0 s m M nsw Ms ltac:(lra) Hm HM S1 S2 HMs EF).
Qed.

(*@P C42_shocked_monotone: In the shocked range the exit Mach number strictly increases with NPR. *)
Lemma Ms_monotone : forall newton s n0 nsw, branch_solver (14/10) newton -> 1 < s ->
  NPR_choked_subsonic newton (Some s) = Some n0 -> NPR_shock_at_exit newton (Some s) = Some nsw ->
  incr_on (fun n => n0 <= n <= nsw) (fun n => Ms_from_AsAc_NPR newton (Some (14/10)) (Some s) n).
Proof.
  intros newton s n0 nsw' HN Hs E0 Esw x y Hx Hy Hxy.
  destruct (NPR_order newton s HN Hs) as (a0 & b0 & c0 & Ea & Eb & _ & Ha & _).
  rewrite Ea in E0; injection E0 as <-. clear Eb.
  assert (X : forall n, a0 <= n <= nsw' -> Ms_from_AsAc_NPR newton (Some g0) (Some s) (Some n) = shocked_exit_Mach (Some g0) (Some s) (Some n)).
  { intros n Hn. destruct (Ms_regimes newton s n HN Hs ltac:(lra)) as (m' & M' & nsw & E1' & E2' & _ & _ & _ & _ & EN' & F0 & Fsw & _ & _ & _ & R).
    rewrite Ea in F0; injection F0 as ->. rewrite Fsw in Esw; injection Esw as ->.
    destruct (R (Some g0)) as (_ & R2 & _). apply R2. lra. }
  rewrite !X by assumption.
  destruct (shocked_eval g0 s x ltac:(lra) ltac:(lra) ltac:(lra)) as (a & EA & HA & FA).
  destruct (shocked_eval g0 s y ltac:(lra) ltac:(lra) ltac:(lra)) as (b & EB & HB & FB).
  exists a, b. repeat split; try assumption.
  pose proof (Rpower_pos ((g0 + 1) / 2) (sexp g0)) as Hk. set (k := Rpower ((g0 + 1) / 2) (sexp g0)) in *.
  assert (x / s / k < y / s / k).
  { unfold Rdiv. repeat apply Rmult_lt_compat_r; try assumption; apply Rinv_0_lt_compat; lra. }
  destruct (Rlt_le_dec a b) as [|G]; [assumption|].
  destruct (Req_dec a b) as [->|]; [lra|]. pose proof (mst_incr g0 b a ltac:(lra) ltac:(lra) ltac:(lra)). lra.
Qed.

(*@P C42_default_gas_refuted: The shocked formula is only right while the default gas is 1.4: the limits use gamma = 1.4 frozen at import, the formula reads the current default. Whatever the NPR in the open shocked range, if the default gamma has been set to any other value above 1.4, the exit Mach number is strictly below the one that conserves mass. *)
Lemma Ms_default_gas : forall newton cur s n n0 nsw, branch_solver (14/10) newton -> 1 < s -> 14/10 < cur ->
  NPR_choked_subsonic newton (Some s) = Some n0 -> NPR_shock_at_exit newton (Some s) = Some nsw -> n0 <= n <= nsw ->
  exists a b, Ms_from_AsAc_NPR newton (Some cur) (Some s) (Some n) = Some a /\
    Ms_from_AsAc_NPR newton (Some (14/10)) (Some s) (Some n) = Some b /\ a < b.
Proof.
  intros newton cur s n n0 nsw' HN Hs Hc E0 Esw Hn.
  destruct (NPR_order newton s HN Hs) as (a0 & b0 & c0 & Ea & Eb & _ & Ha & _).
  rewrite Ea in E0; injection E0 as <-.
  destruct (Ms_regimes newton s n HN Hs ltac:(lra)) as (m & M & nsw & E1 & E2 & Hm & HM & S1 & S2 & EN & F0 & Fsw & F1 & L & O & R).
  rewrite Ea in F0; injection F0 as ->. rewrite Fsw in Esw; injection Esw as <-.
  destruct (R (Some g0)) as (_ & R2 & _). destruct (R (Some cur)) as (_ & R2' & _). rewrite R2, R2' by assumption.
  destruct (shocked_eval g0 s n ltac:(lra) ltac:(lra) ltac:(lra)) as (b & EB & HB & FB).
  destruct (shocked_eval cur s n ltac:(lra) ltac:(lra) ltac:(lra)) as (a & EA & HA & FA).
  exists a, b. split; [assumption|]. split; [assumption|].
  (* the constant ((g+1)/2)^sexp increases with g: compare through its logarithm *)
  assert (HK : Rpower ((g0 + 1) / 2) (sexp g0) < Rpower ((cur + 1) / 2) (sexp cur)).
  { unfold Rpower. apply exp_increasing.
    apply strict_incr with (f := fun g => sexp g * ln ((g + 1) / 2))
      (f' := fun g => (/ (2 * (g - 1))) - ln ((g + 1) / 2) / (g - 1) ^ 2); [assumption| |].
    - intros x Hx. unfold sexp. auto_derive; [repeat split; lra|set (l := ln _); replace (ln ((x + 1) * / 2)) with l by reflexivity; field; repeat split; lra].
    - intros x Hx. cbv beta.
      assert (LN : ln ((x + 1) / 2) < (x - 1) / 2).
      { assert (EX : 1 + (x - 1) / 2 < exp ((x - 1) / 2)) by (apply exp_ineq1; lra).
        replace (1 + (x - 1) / 2) with ((x + 1) / 2) in EX by field.
        apply ln_increasing in EX; [|lra]. now rewrite ln_exp in EX. }
      apply (Rmult_lt_reg_r ((x - 1) ^ 2)); [pos|].
      replace (0 * (x - 1) ^ 2) with 0 by ring.
      replace ((/ (2 * (x - 1)) - ln ((x + 1) / 2) / (x - 1) ^ 2) * (x - 1) ^ 2)
        with ((x - 1) / 2 - ln ((x + 1) / 2)) by (field; lra). lra. }
  pose proof (Rpower_pos ((g0 + 1) / 2) (sexp g0)) as HK0.
  set (k0 := Rpower ((g0 + 1) / 2) (sexp g0)) in *. set (k1 := Rpower ((cur + 1) / 2) (sexp cur)) in *.
  assert (n / s / k1 < n / s / k0).
  { unfold Rdiv. apply Rmult_lt_compat_l; [apply Rmult_lt_0_compat; [lra|apply Rinv_0_lt_compat; lra]|].
    apply Rinv_lt_contravar; [apply Rmult_lt_0_compat; lra|lra]. }
  destruct (Rlt_le_dec a b) as [|G]; [assumption|exfalso].
  assert (b * sqrt (tt g0 b) <= a * sqrt (tt g0 a)).
  { destruct (Req_dec a b) as [->|]; [lra|]. left; apply mst_incr; lra. }
  assert (sqrt (tt g0 a) <= sqrt (tt cur a)).
  { apply sqrt_le_1_alt. unfold tt. pose proof (sq_nonneg a). nra. }
  assert (a * sqrt (tt g0 a) <= a * sqrt (tt cur a)) by (apply Rmult_le_compat_l; lra). lra.
Qed.

(*@P C42_adapted_jet: Madapt equals the exit Mach number when the nozzle is unchoked or shocked; above the supersonic limit it expands isentropically to the imposed pressure (Pt/Ps = NPR); between the last two limits it is the Mach number behind the oblique shock, at the supersonic exit Mach number, that raises the exit pressure to the imposed one (pressure ratio NPR1/NPR, conserving total temperature); at the supersonic limit it is the exit Mach number itself. *)
Lemma Madapt_regimes : forall newton cur s n n0 nsw n1 M0, branch_solver (14/10) newton -> 1 < s -> 1 <= n ->
  NPR_choked_subsonic newton (Some s) = Some n0 -> NPR_shock_at_exit newton (Some s) = Some nsw ->
  NPR_choked_supersonic newton (Some s) = Some n1 -> MachSup_Sigma newton (Some s) (Some (14/10)) = Some M0 ->
  (n <= nsw -> Madapt_from_AsAc_NPR newton cur (Some s) (Some n) = Ms_from_AsAc_NPR newton cur (Some s) (Some n)) /\
  (n1 < n -> exists Ma, Madapt_from_AsAc_NPR newton cur (Some s) (Some n) = Some Ma /\ M0 < Ma /\
     PtPs_Mach (Some Ma) (Some (14/10)) = Some n) /\
  (nsw < n <= n1 -> exists Ma sigma th T t0 t1 mn, Madapt_from_AsAc_NPR newton cur (Some s) (Some n) = Some Ma /\
     0 < Ma /\ 0 < sigma < 90 /\
     Ps_ratio (Some (M0 * sin (sigma * (PI / 180)))) (Some (14/10)) = Some (n1 / n) /\
     deflection_Mach_sigma (Some M0) (Some sigma) (Some (14/10)) = Some th /\
     downstream_Mn (Some (M0 * sin (sigma * (PI / 180)))) (Some (14/10)) = Some mn /\
     mn = Ma * sin ((sigma - th) * (PI / 180)) /\
     Ts_ratio (Some (M0 * sin (sigma * (PI / 180)))) (Some (14/10)) = Some T /\
     TtTs_Mach (Some M0) (Some (14/10)) = Some t0 /\ TtTs_Mach (Some Ma) (Some (14/10)) = Some t1 /\ t0 = T * t1) /\
  (n = n1 -> Madapt_from_AsAc_NPR newton cur (Some s) (Some n) = Some M0).
Proof.
  intros newton cur s n n0 nsw' n1 M0 HN Hs Hn E0 Esw E1 EM0.
  destruct (Ms_regimes newton s n HN Hs ltac:(lra)) as (m & M & nsw & D1 & D2 & Hm & HM & S1 & S2 & EN & F0 & Fsw & F1 & L & O & R).
  rewrite F0 in E0; injection E0 as <-. rewrite Fsw in Esw; injection Esw as <-. rewrite F1 in E1; injection E1 as <-.
  unfold dgamma in D2; rewrite D2 in EM0; injection EM0 as <-.
  destruct (limits_order g0 m M s ltac:(lra) Hm HM S1 S2) as (_ & _ & _ & EQ).
  assert (HP : 1 < psr g0 M).
  { replace 1 with (psr g0 1) at 1 by (unfold psr; field; lra). apply psr_incr; lra. }
  pose proof (pp_pos g0 M) as HpM.
  unfold Madapt_from_AsAc_NPR, Ms_from_AsAc_NPR. rewrite L; cbn [NPR0 NPRsw NPR1 l_Msup].
  split; [|split; [|split]]; intros H.
  - rewrite (ngt_false n (pp g0 M)), (ngt_false n nsw) by lra. cbn [nif]. reflexivity.
  - rewrite (nlt_false n) by lra. rewrite (ngt_true n) by lra. cbn [nif].
    unfold dgamma. rewrite Mach_PtPs_eval by lra. eexists; split; [reflexivity|].
    set (z := (Rpower n ((14/10 - 1) / (14/10)) - 1) * 2 / (14/10 - 1)).
    assert (Hz : 0 <= z).
    { unfold z. pose proof (Rpower_ge_1 n ((14/10 - 1) / (14/10)) Hn ltac:(lra)). apply Rmult_le_pos; lra. }
    assert (EP : pp g0 (sqrt z) = n).
    { unfold pp, tt. rewrite sq_sqrt by assumption. unfold z.
      replace (1 + 1 / 2 * (14/10 - 1) * ((Rpower n ((14/10 - 1) / (14/10)) - 1) * 2 / (14/10 - 1)))
        with (Rpower n ((14/10 - 1) / (14/10))) by field.
      apply Rpower_inv_exp; [lra|field]. }
    split; [|rewrite PtPs_eval by lra; f_equal; exact EP].
    destruct (Rlt_le_dec M (sqrt z)) as [|G]; [assumption|].
    destruct (Req_dec (sqrt z) M) as [Q|Q]; [rewrite Q in EP; lra|].
    pose proof (pp_incr g0 (sqrt z) M ltac:(lra) (sqrt_pos z) ltac:(lra)). lra.
  - rewrite (nlt_false n) by lra. rewrite (ngt_false n (pp g0 M)), (ngt_true n nsw) by lra. cbn [nif].
    rewrite ndiv_Some by lra. unfold dgamma.
    destruct (shock_of_Psratio g0 M (pp g0 M / n) (psr g0 M) ltac:(lra) HM (Ps_eval M g0 ltac:(lra)))
      as (sigma & mn & th & Ma & T & t0 & t1 & mn1 & Q1 & Q2 & Q3 & Q4 & Q5 & Q6 & Q7 & Q8 & Q9 & Q10 & Q11 & Q12 & Q13).
    { rewrite EN, EQ in H. split.
      - apply (Rmult_le_reg_r n); [lra|]. unfold Rdiv; rewrite Rmult_assoc, Rinv_l by lra. lra.
      - apply (Rmult_lt_reg_r n); [lra|]. unfold Rdiv at 1; rewrite Rmult_assoc, Rinv_l by lra.
        destruct H as [H _]. apply (Rmult_lt_compat_r (psr g0 M)) in H; [|lra].
        unfold Rdiv in H at 1; rewrite Rmult_assoc, Rinv_l in H by lra. lra. }
    rewrite Q2 in *. exists Ma, sigma, th, T, t0, t1, mn1. repeat (split; [assumption|]). assumption.
  - subst n. rewrite (nlt_false _ (pp g0 m)) by lra. rewrite (ngt_false (pp g0 M) (pp g0 M)), (ngt_true _ nsw) by lra. cbn [nif].
    rewrite ndiv_Some by lra. replace (pp g0 M / pp g0 M) with 1 by (field; lra). unfold dgamma.
    rewrite (dsM_eval 1 g0 M 1) by (try lra; unfold psr; field). f_equal.
    destruct (sig_of_Mn M 1 ltac:(lra)) as [Hss Ess].
    destruct (m1_energy g0 M (asin (1 / M)) ltac:(lra) ltac:(lra) Hss) as [Hp He].
    { rewrite Ess. apply sdom_ge1; lra. }
    rewrite Ess in He. set (x := m1 g0 M (asin (1 / M))) in *. clearbody x.
    replace (tsr g0 1) with 1 in He by (unfold tsr, psr, rhor; field). rewrite Rmult_1_l in He.
    destruct (Rtotal_order x M) as [G|[G|G]]; [|assumption|].
    + pose proof (tt_incr g0 x M ltac:(lra) ltac:(lra) G). lra.
    + pose proof (tt_incr g0 M x ltac:(lra) ltac:(lra) G). lra.
Qed.

(*@E C42_example: with the ideal solver and As/Ac = 2 the three regimes are non-empty: an unchoked, a shocked and a supersonic NPR exist *)
Lemma C42_example_lemma : exists n0 nsw n1, 
  NPR_choked_subsonic (ideal_newton (14/10)) (Some 2) = Some n0 /\
  NPR_shock_at_exit (ideal_newton (14/10)) (Some 2) = Some nsw /\
  NPR_choked_supersonic (ideal_newton (14/10)) (Some 2) = Some n1 /\
  branch_solver (14/10) (ideal_newton (14/10)) /\
  1 <= (1 + n0) / 2 < n0 /\ n0 <= (n0 + nsw) / 2 <= nsw /\ nsw < n1.
Proof.
  pose proof (ideal_newton_branch g0 ltac:(lra)) as B.
  destruct (NPR_order (ideal_newton g0) 2 B ltac:(lra)) as (a & b & c & E1 & E2 & E3 & H1 & H2 & H3).
  exists a, b, c. repeat (split; [assumption|]). lra.
Qed.
