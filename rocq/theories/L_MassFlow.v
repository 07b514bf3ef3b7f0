From Verif Require Import L_Num Spec NumSpec M_Isentropic M_MassFlow L_Isentropic.
Open Scope R_scope.

(** Logarithm of the area ratio, and the area ratio. *)
Definition sexp (g : R) : R := 1 / 2 * (g + 1) / (g - 1).
Definition lsig (g M : R) : R := sexp g * (ln (2 / (g + 1)) + ln (tt g M)) - ln M.
Definition sig (g M : R) : R := exp (lsig g M).

Lemma sexp_pos g : 1 < g -> 0 < sexp g.
Proof. intros; unfold sexp; apply Rdiv_lt_0_compat; lra. Qed.
Lemma two_gp1_pos g : 1 < g -> 0 < 2 / (g + 1).
Proof. intros; apply Rdiv_lt_0_compat; lra. Qed.
Lemma sig_pos g M : 0 < sig g M.
Proof. apply exp_pos. Qed.
Lemma sig_form g M : 1 < g -> 0 < M ->
  sig g M = Rpower (2 / (g + 1) * tt g M) (sexp g) / M.
Proof.
  intros Hg HM. unfold sig, lsig, Rpower.
  rewrite ln_mult by (try apply two_gp1_pos; try apply tt_pos; assumption).
  unfold Rminus; rewrite exp_plus, exp_Ropp, (exp_ln M) by assumption. reflexivity.
Qed.

Lemma Sigma_eval M g : 1 < g -> 0 < M -> Sigma_Mach (Some M) (Some g) = Some (sig g M).
Proof.
  intros Hg HM; rewrite sig_form by assumption.
  unfold Sigma_Mach; ncbn. rewrite !ndiv_Some by lra; ncbn.
  rewrite npow_Some; [now rewrite ndiv_Some by lra|].
  apply Rmult_lt_0_compat; [now apply two_gp1_pos|now apply tt_pos].
Qed.

Lemma lsig_derive g M : 1 < g -> 0 < M ->
  is_derive (lsig g) M ((M ^ 2 - 1) / (M * tt g M)).
Proof.
  intros Hg HM. pose proof (tt_pos g M Hg) as Ht. unfold lsig, tt in *.
  auto_derive.
  - repeat split; try lra.
  - unfold sexp; field. repeat split; try lra; nra.
Qed.
Lemma lsig_1 g : 1 < g -> lsig g 1 = 0.
Proof.
  intros Hg; unfold lsig. rewrite ln_1, sonic_tt by assumption.
  rewrite <- ln_mult by (apply Rdiv_lt_0_compat; lra).
  replace (2 / (g + 1) * ((g + 1) / 2)) with 1 by (field; lra). rewrite ln_1; ring.
Qed.
Lemma sig_1 g : 1 < g -> sig g 1 = 1.
Proof. intros; unfold sig; rewrite lsig_1 by assumption; apply exp_0. Qed.
Lemma lsig_decr g x y : 1 < g -> 0 < x -> x < y -> y <= 1 -> lsig g y < lsig g x.
Proof.
  intros Hg Hx Hxy Hy.
  apply strict_decr with (f' := fun M => (M ^ 2 - 1) / (M * tt g M)); [assumption| |].
  - intros z Hz; apply lsig_derive; [assumption|lra].
  - intros z Hz. pose proof (tt_pos g z Hg).
    assert (0 < (1 - z ^ 2) / (z * tt g z)) by
      (apply Rdiv_lt_0_compat; [nra|apply Rmult_lt_0_compat; lra]).
    replace ((z ^ 2 - 1) / (z * tt g z)) with (- ((1 - z ^ 2) / (z * tt g z)));
      [lra|field; split; lra].
Qed.
Lemma lsig_incr g x y : 1 < g -> 1 <= x -> x < y -> lsig g x < lsig g y.
Proof.
  intros Hg Hx Hxy.
  apply strict_incr with (f' := fun M => (M ^ 2 - 1) / (M * tt g M)); [assumption| |].
  - intros z Hz; apply lsig_derive; [assumption|lra].
  - intros z Hz. pose proof (tt_pos g z Hg).
    apply Rdiv_lt_0_compat; [nra|apply Rmult_lt_0_compat; lra].
Qed.
Lemma sig_decr g x y : 1 < g -> 0 < x -> x < y -> y <= 1 -> sig g y < sig g x.
Proof. intros; apply exp_increasing; now apply lsig_decr. Qed.
Lemma sig_incr g x y : 1 < g -> 1 <= x -> x < y -> sig g x < sig g y.
Proof. intros; apply exp_increasing; now apply lsig_incr. Qed.
Lemma sig_gt_1 g M : 1 < g -> 0 < M -> M <> 1 -> 1 < sig g M.
Proof.
  intros Hg HM Hn; rewrite <- (sig_1 g Hg).
  destruct (Rlt_dec M 1); [apply sig_decr|apply sig_incr]; lra.
Qed.
Lemma sig_continuous g M : 1 < g -> 0 < M -> continuous (sig g) M.
Proof.
  intros Hg HM. apply (continuous_comp (lsig g) exp).
  - eapply derive_continuous; now apply lsig_derive.
  - eapply derive_continuous; auto_derive; [exact I|reflexivity].
Qed.

(*@P C06_minimum: A/A* is at least 1, and equal to 1 exactly at Mach 1. *)
Lemma Sigma_minimum : forall M g, 1 < g -> 0 < M ->
  exists s, Sigma_Mach (Some M) (Some g) = Some s /\ 1 <= s /\ (s = 1 <-> M = 1).
Proof.
  intros M g Hg HM; eexists; split; [now apply Sigma_eval|].
  destruct (Req_dec M 1) as [->|N].
  - rewrite sig_1 by assumption; split; [lra|tauto].
  - pose proof (sig_gt_1 g M Hg HM N); split; [lra|]. split; intros; lra.
Qed.
(*@P C06_subsonic_decreasing: A/A* strictly decreases on (0,1]. *)
Lemma Sigma_decreasing : forall g, 1 < g ->
  decr_on (fun M => 0 < M <= 1) (fun M => Sigma_Mach M (Some g)).
Proof.
  intros g Hg x y Hx Hy Hxy. exists (sig g x), (sig g y).
  rewrite !Sigma_eval by lra. repeat split; apply sig_decr; lra.
Qed.
(*@P C06_supersonic_increasing: A/A* strictly increases on [1,inf). *)
Lemma Sigma_increasing : forall g, 1 < g ->
  incr_on (fun M => 1 <= M) (fun M => Sigma_Mach M (Some g)).
Proof.
  intros g Hg x y Hx Hy Hxy. exists (sig g x), (sig g y).
  rewrite !Sigma_eval by lra. repeat split; apply sig_incr; lra.
Qed.
(*@E C06_example: gamma = 3, M = 2: Sigma = (1/2*(1+4))^1/2 = 5/4 *)
Lemma C06_example_lemma : Sigma_Mach (Some 2) (Some 3) = Some (5/4).
Proof.
  rewrite Sigma_eval, sig_form by lra. f_equal. unfold sexp, tt.
  replace (1 / 2 * (3 + 1) / (3 - 1)) with 1 by field. rewrite Rpower_1 by lra. lra.
Qed.

(** ** Mass flow *)
Definition wmf (g M : R) : R := sqrt g * M * Rpower (tt g M) (-1 / 2 * (g + 1) / (g - 1)).
Lemma WMF_eval M r g : 1 < g -> WeightMassFlow (Some M) r (Some g) = Some (wmf g M).
Proof.
  intros Hg; unfold WeightMassFlow. rewrite nsqrt_Some by lra; ncbn.
  rewrite ndiv_Some by lra. rewrite npow_Some by (now apply tt_pos). reflexivity.
Qed.
Lemma wmf_pos g M : 1 < g -> 0 < M -> 0 < wmf g M.
Proof.
  intros; unfold wmf. apply Rmult_lt_0_compat; [|apply Rpower_pos].
  apply Rmult_lt_0_compat; [apply sqrt_lt_R0; lra|assumption].
Qed.
Lemma sexp_neg g : -1 / 2 * (g + 1) / (g - 1) = - sexp g.
Proof. unfold sexp, Rdiv; ring. Qed.
Lemma sig_wmf g M : 1 < g -> 0 < M -> sig g M = wmf g 1 / wmf g M.
Proof.
  intros Hg HM. rewrite sig_form by assumption. unfold wmf. rewrite sexp_neg.
  rewrite sonic_tt, !Rpower_Ropp by assumption.
  pose proof (tt_pos g M Hg).
  rewrite Rpower_mult_base by (try apply two_gp1_pos; assumption).
  replace (2 / (g + 1)) with (1 / ((g + 1) / 2)) by (field; lra).
  rewrite (Rpower_div_base 1) by lra. rewrite Rpower_one.
  pose proof (Rpower_pos ((g + 1) / 2) (sexp g)). pose proof (Rpower_pos (tt g M) (sexp g)).
  assert (0 < sqrt g) by (apply sqrt_lt_R0; lra).
  field. repeat split; lra.
Qed.
(** mass flow parameter rho V sqrt(r Tt)/Pt of an isentropic stream of static state (ps,Ts) *)
Lemma wmf_physical g r M ps Ts : 1 < g -> 0 < r -> 0 < ps -> 0 < Ts ->
  ps / (r * Ts) * (M * sound g r Ts) * sqrt (r * (tt g M * Ts))
    / (Rpower (tt g M) (g / (g - 1)) * ps) = wmf g M.
Proof.
  intros Hg Hr Hp HT. pose proof (tt_pos g M Hg) as Ht. unfold wmf, sound.
  replace (g * r * Ts) with (g * (r * Ts)) by ring.
  replace (r * (tt g M * Ts)) with (tt g M * (r * Ts)) by ring.
  assert (0 < r * Ts) by (now apply Rmult_lt_0_compat).
  rewrite (sqrt_mult g), (sqrt_mult (tt g M)) by lra.
  assert (E : sqrt (tt g M) = Rpower (tt g M) (1 / 2)).
  { replace (1 / 2) with (/ 2) by lra. now rewrite Rpower_sqrt. }
  rewrite E.
  replace (-1 / 2 * (g + 1) / (g - 1)) with (1 / 2 + - (g / (g - 1))) by (field; lra).
  rewrite Rpower_plus, Rpower_Ropp.
  pose proof (Rpower_pos (tt g M) (g / (g - 1))).
  assert (S : sqrt (r * Ts) * sqrt (r * Ts) = r * Ts) by (apply sqrt_sqrt; lra).
  replace (ps / (r * Ts) * (M * (sqrt g * sqrt (r * Ts))) * (Rpower (tt g M) (1 / 2) * sqrt (r * Ts))
    / (Rpower (tt g M) (g / (g - 1)) * ps))
   with ((sqrt (r * Ts) * sqrt (r * Ts)) * (M * sqrt g * Rpower (tt g M) (1 / 2)) / (r * Ts)
     / Rpower (tt g M) (g / (g - 1))) by (field; repeat split; lra).
  rewrite S. field; repeat split; lra.
Qed.

(*@P C07_mass_flow: WeightMassFlow is rho V sqrt(r Tt)/Pt for every perfect-gas static state (ps,Ts), with rho = ps/(r Ts), V = M a, and the library's own Tt/Ts and Pt/Ps. *)
Lemma WMF_physical : forall M g r ps Ts, 1 < g -> 0 < r -> 0 < ps -> 0 < Ts ->
  exists w t q, WeightMassFlow (Some M) (Some r) (Some g) = Some w /\
    TtTs_Mach (Some M) (Some g) = Some t /\ PtPs_Mach (Some M) (Some g) = Some q /\
    w = (ps / (r * Ts)) * (M * sound g r Ts) * sqrt (r * (t * Ts)) / (q * ps).
Proof.
  intros M g r ps Ts Hg Hr Hp HT. do 3 eexists.
  split; [now apply WMF_eval|]; split; [apply TtTs_eval|]; split; [now apply PtPs_eval|].
  symmetry; now apply wmf_physical.
Qed.
(*@P C07_mass_flow_maximal: The mass flow is largest exactly at Mach 1. *)
Lemma WMF_max : forall M g r, 1 < g -> 0 < M ->
  exists w w1, WeightMassFlow (Some M) (Some r) (Some g) = Some w /\
    WeightMassFlow (Some 1) (Some r) (Some g) = Some w1 /\ 0 < w <= w1 /\ (w = w1 <-> M = 1).
Proof.
  intros M g r Hg HM. exists (wmf g M), (wmf g 1).
  rewrite !WMF_eval by assumption. split; [reflexivity|]; split; [reflexivity|].
  pose proof (wmf_pos g M Hg HM) as Hw. pose proof (sig_wmf g M Hg HM) as E.
  assert (E2 : wmf g 1 = sig g M * wmf g M) by (rewrite E; field; lra).
  destruct (Req_dec M 1) as [->|N]; [split; [lra|tauto]|].
  pose proof (sig_gt_1 g M Hg HM N). split; [nra|]. split; intros; nra.
Qed.
(*@P C07_Sigma_is_ratio: Sigma is the ratio of the sonic to the local mass flow. *)
Lemma Sigma_ratio : forall M g r, 1 < g -> 0 < M ->
  exists w w1, WeightMassFlow (Some M) (Some r) (Some g) = Some w /\
    WeightMassFlow (Some 1) (Some r) (Some g) = Some w1 /\ w <> 0 /\
    Sigma_Mach (Some M) (Some g) = Some (w1 / w).
Proof.
  intros M g r Hg HM. exists (wmf g M), (wmf g 1). rewrite !WMF_eval, Sigma_eval by assumption.
  pose proof (wmf_pos g M Hg HM). repeat split; [lra|]. f_equal; now apply sig_wmf.
Qed.

(** ** Inversion *)
Lemma sig_sub_exists g s : 1 < g -> 1 < s -> exists M, 0 < M < 1 /\ sig g M = s.
Proof.
  intros Hg Hs.
  set (c := Rpower (2 / (g + 1)) (sexp g)).
  assert (Hc : 0 < c < 1).
  { split; [apply Rpower_pos|]. apply Rpower_lt_1; [|now apply sexp_pos].
    split; [now apply two_gp1_pos|]. apply (Rmult_lt_reg_r (g + 1)); [lra|]. field_simplify; lra. }
  assert (Hlow : forall M, 0 < M -> c / M <= sig g M).
  { intros M HM; rewrite sig_form by assumption.
    apply Rmult_le_compat_r; [left; now apply Rinv_0_lt_compat|].
    pose proof (tt_ge_1 g M Hg). pose proof (two_gp1_pos g Hg).
    unfold c. apply Rle_Rpower_l; [left; now apply sexp_pos|]. nra. }
  assert (Hm : 0 < c / s < 1).
  { split; [apply Rdiv_lt_0_compat; lra|]. apply (Rmult_lt_reg_r s); [lra|].
    unfold Rdiv; rewrite Rmult_assoc, Rinv_l by lra; lra. }
  destruct (IVT_value (fun x => - sig g x) (c / s) 1 (- s)) as [m [Hm1 Hm2]].
  - lra.
  - intros x Hx. apply (continuous_opp (sig g) x), sig_continuous; lra.
  - rewrite sig_1 by assumption. split; [|lra].
    apply Ropp_le_contravar. eapply Rle_trans; [|apply Hlow; lra].
    right; field; split; lra.
  - assert (E : sig g m = s) by lra.
    exists m; split; [split; [lra|]|assumption].
    destruct (Req_dec m 1) as [->|]; [|lra]. rewrite sig_1 in E by assumption; lra.
Qed.
Lemma sig_sup_exists g s : 1 < g -> 1 < s -> exists M, 1 < M /\ sig g M = s.
Proof.
  intros Hg Hs.
  set (k := (g - 1) / (g + 1)).
  assert (Hk : 0 < k) by (apply Rdiv_lt_0_compat; lra).
  assert (Hlow : forall M, 0 < M -> Rpower k (sexp g) * Rpower M (2 / (g - 1)) <= sig g M).
  { intros M HM; rewrite sig_form by assumption.
    assert (A : Rpower (k * M ^ 2) (sexp g) <= Rpower (2 / (g + 1) * tt g M) (sexp g)).
    { apply Rle_Rpower_l; [left; now apply sexp_pos|]. split.
      - apply Rmult_lt_0_compat; [assumption|nra].
      - unfold k, tt. pose proof (two_gp1_pos g Hg).
        replace ((g - 1) / (g + 1) * M ^ 2) with (2 / (g + 1) * (1 / 2 * (g - 1) * M ^ 2)) by (field; lra).
        nra. }
    rewrite Rpower_mult_base in A by nra.
    apply (Rmult_le_reg_r M); [assumption|].
    unfold Rdiv at 2; rewrite (Rmult_assoc _ (/ M)), Rinv_l, Rmult_1_r by lra.
    eapply Rle_trans; [|apply A]. right. rewrite Rmult_assoc. f_equal.
    rewrite <- (Rpower_pow2 M), Rpower_mult by assumption.
    rewrite <- (Rpower_1 M) at 2 by assumption. rewrite <- Rpower_plus. f_equal.
    unfold sexp; field; lra. }
  set (m0 := Rpower (s / Rpower k (sexp g)) ((g - 1) / 2)).
  assert (Hm0 : 0 < m0) by apply Rpower_pos.
  pose proof (Rpower_pos k (sexp g)) as Hkp.
  assert (Hs0 : s <= sig g m0).
  { eapply Rle_trans; [|apply Hlow; assumption]. right. unfold m0. rewrite Rpower_mult.
    replace ((g - 1) / 2 * (2 / (g - 1))) with 1 by (field; lra).
    rewrite Rpower_1; [field; lra|]. apply Rdiv_lt_0_compat; lra. }
  set (m1 := Rmax m0 2).
  assert (Hm1 : m0 <= m1 /\ 2 <= m1) by (split; [apply Rmax_l|apply Rmax_r]).
  assert (Hs1 : s <= sig g m1).
  { destruct (Rle_lt_dec 1 m0) as [H|H].
    - destruct (Req_dec m0 m1) as [<-|]; [assumption|].
      left; eapply Rle_lt_trans; [apply Hs0|]. apply sig_incr; lra.
    - unfold m1. rewrite Rmax_right by lra.
      eapply Rle_trans; [|apply Hlow; lra]. unfold m0 in H.
      assert (s / Rpower k (sexp g) <= Rpower 2 (2 / (g - 1))).
      { assert (A : s / Rpower k (sexp g) < 1).
        { destruct (Rlt_le_dec (s / Rpower k (sexp g)) 1) as [|Hx]; [assumption|].
          assert (1 <= Rpower (s / Rpower k (sexp g)) ((g - 1) / 2)) by (apply Rpower_ge_1; lra). lra. }
        assert (1 < Rpower 2 (2 / (g - 1))).
        { apply Rpower_gt_1; [lra|apply Rdiv_lt_0_compat; lra]. } lra. }
      apply (Rmult_le_compat_r (Rpower k (sexp g))) in H0; [|lra].
      unfold Rdiv in H0 at 1. rewrite Rmult_assoc, Rinv_l in H0 by lra. lra. }
  destruct (IVT_value (sig g) 1 m1 s) as [m [Hma Hmb]].
  - lra.
  - intros x Hx; apply sig_continuous; lra.
  - rewrite sig_1 by assumption; lra.
  - exists m; split; [|assumption].
    destruct (Req_dec m 1) as [->|]; [|lra]. rewrite sig_1 in Hmb by assumption; lra.
Qed.
(*@P C08_unique_subsonic: For each sigma > 1 exactly one subsonic Mach number has that area ratio. *)
Lemma Sigma_sub_unique : forall g s, 1 < g -> 1 < s ->
  exists M, (0 < M < 1 /\ Sigma_Mach (Some M) (Some g) = Some s) /\
    forall M', 0 < M' < 1 /\ Sigma_Mach (Some M') (Some g) = Some s -> M' = M.
Proof.
  intros g s Hg Hs. destruct (sig_sub_exists g s Hg Hs) as [M [HM E]].
  exists M; rewrite Sigma_eval by lra. split; [now rewrite E|].
  intros M' [HM' E']. rewrite Sigma_eval in E' by lra. injection E' as E'.
  destruct (Rtotal_order M' M) as [H|[H|H]]; [|assumption|].
  - pose proof (sig_decr g M' M Hg); lra.
  - pose proof (sig_decr g M M' Hg); lra.
Qed.
(*@P C08_unique_supersonic: For each sigma > 1 exactly one supersonic Mach number has that area ratio. *)
Lemma Sigma_sup_unique : forall g s, 1 < g -> 1 < s ->
  exists M, (1 < M /\ Sigma_Mach (Some M) (Some g) = Some s) /\
    forall M', 1 < M' /\ Sigma_Mach (Some M') (Some g) = Some s -> M' = M.
Proof.
  intros g s Hg Hs. destruct (sig_sup_exists g s Hg Hs) as [M [HM E]].
  exists M; rewrite Sigma_eval by lra. split; [now rewrite E|].
  intros M' [HM' E']. rewrite Sigma_eval in E' by lra. injection E' as E'.
  destruct (Rtotal_order M' M) as [H|[H|H]]; [|assumption|].
  - pose proof (sig_incr g M' M Hg); lra.
  - pose proof (sig_incr g M M' Hg); lra.
Qed.
(*@P C08_residual: Whatever root finder honours its contract (a returned value has residual at most eps), the Mach number returned by MachSub_Sigma, MachSup_Sigma or Mach_Sigma has the requested area ratio within eps. *)
Lemma Mach_Sigma_residual : forall newton eps s g M, solves eps newton ->
  MachSub_Sigma newton (Some s) (Some g) = Some M \/
  MachSup_Sigma newton (Some s) (Some g) = Some M \/
  (exists M0, Mach_Sigma newton (Some s) M0 (Some g) = Some M) ->
  exists s', Sigma_Mach (Some M) (Some g) = Some s' /\ Rabs (s' - s) <= eps.
Proof.
  intros newton eps s g M HN H.
  assert (K : exists M0, Mach_Sigma newton (Some s) M0 (Some g) = Some M).
  { destruct H as [H|[H|H]]; [eexists; exact H|eexists; exact H|exact H]. }
  destruct K as [M0 K]. destruct (HN _ _ _ K) as [e [E He]].
  destruct (Sigma_Mach (Some M) (Some g)) as [s'|]; [|discriminate].
  exists s'; split; [reflexivity|]. ncbn. injection E as <-. assumption.
Qed.
(*@P C08_exact_root: If the root finder's answer is an exact root on the requested branch, MachSub_Sigma (resp. MachSup_Sigma) undoes Sigma_Mach on that branch. *)
Lemma Mach_Sigma_exact : forall newton g M M', solves 0 newton -> 1 < g ->
  (forall s, Sigma_Mach (Some M) (Some g) = Some s -> 0 < M < 1 ->
     MachSub_Sigma newton (Some s) (Some g) = Some M' -> 0 < M' < 1 -> M' = M) /\
  (forall s, Sigma_Mach (Some M) (Some g) = Some s -> 1 < M ->
     MachSup_Sigma newton (Some s) (Some g) = Some M' -> 1 < M' -> M' = M).
Proof.
  intros newton g M M' HN Hg. split; intros s E HM E' HM'.
  - destruct (Mach_Sigma_residual newton 0 s g M' HN (or_introl E')) as [s' [E1 E2]].
    assert (s' = s) by (pose proof (Rabs_pos (s' - s)); destruct (Req_dec (s' - s) 0); [lra|];
      pose proof (Rabs_pos_lt _ H0); lra). subst s'.
    rewrite Sigma_eval in E, E1 by lra. assert (Q : sig g M = sig g M') by congruence.
    destruct (Rtotal_order M' M) as [H|[H|H]]; [|assumption|].
    + pose proof (sig_decr g M' M Hg); lra.
    + pose proof (sig_decr g M M' Hg); lra.
  - destruct (Mach_Sigma_residual newton 0 s g M' HN (or_intror (or_introl E'))) as [s' [E1 E2]].
    assert (s' = s) by (pose proof (Rabs_pos (s' - s)); destruct (Req_dec (s' - s) 0); [lra|];
      pose proof (Rabs_pos_lt _ H0); lra). subst s'.
    rewrite Sigma_eval in E, E1 by lra. assert (Q : sig g M = sig g M') by congruence.
    destruct (Rtotal_order M' M) as [H|[H|H]]; [|assumption|].
    + pose proof (sig_incr g M' M Hg); lra.
    + pose proof (sig_incr g M M' Hg); lra.
Qed.
(** Initial estimates *)
Lemma guess_coef g : 1 < g -> g < 3 -> 0 < 4 * (g - 1) / (3 - g).
Proof. intros; apply Rdiv_lt_0_compat; lra. Qed.
(*@P C08_start_supersonic: MachSup_Sigma starts the root finder at or above Mach 1, for every sigma >= 1 and 1 < gamma < 3. *)
Lemma start_sup : forall s g, 1 < g < 3 -> 1 <= s ->
  exists m, MachSup_guess (Some s) (Some g) = Some m /\ 1 <= m /\
  forall newton, MachSup_Sigma newton (Some s) (Some g) = Mach_Sigma newton (Some s) (Some m) (Some g).
Proof.
  intros s g Hg Hs. assert (E : MachSup_guess (Some s) (Some g) =
    Some (1 + sqrt ((s - 1) * (4 * (g - 1) / (3 - g))))).
  { unfold MachSup_guess; ncbn; rewrite ndiv_Some by lra; ncbn. rewrite nsqrt_Some; [reflexivity|].
    pose proof (guess_coef g); apply Rmult_le_pos; lra. }
  eexists; split; [exact E|]. split.
  - match goal with |- context [sqrt ?x] => pose proof (sqrt_pos x) end; lra.
  - intros newton; unfold MachSup_Sigma; now rewrite E.
Qed.
(*@P C08_start_subsonic: For 1 < gamma <= 7/5 MachSub_Sigma starts the root finder in (0,1]. *)
Lemma start_sub : forall s g, 1 < g <= 14/10 -> 1 <= s ->
  exists m, MachSub_guess (Some s) (Some g) = Some m /\ 0 < m <= 1 /\
  forall newton, MachSub_Sigma newton (Some s) (Some g) = Mach_Sigma newton (Some s) (Some m) (Some g).
Proof.
  intros s g Hg Hs.
  assert (Hi : 0 < / s <= 1).
  { split; [apply Rinv_0_lt_compat; lra|]. rewrite <- Rinv_1. apply Rinv_le_contravar; lra. }
  assert (Hc : 0 < 4 * (g - 1) / (3 - g) <= 1).
  { split; [apply guess_coef; lra|]. apply (Rmult_le_reg_r (3 - g)); [lra|].
    unfold Rdiv; rewrite Rmult_assoc, Rinv_l by lra. lra. }
  assert (E : MachSub_guess (Some s) (Some g) =
    Some (1 - sqrt ((1 - 1 / s) * (4 * (g - 1) / (3 - g))))).
  { unfold MachSub_guess; ncbn; rewrite !ndiv_Some by lra; ncbn. rewrite nsqrt_Some; [reflexivity|].
    apply Rmult_le_pos; unfold Rdiv in *; lra. }
  eexists; split; [exact E|]. split.
  - match goal with |- context [sqrt ?x] => set (z := x); pose proof (sqrt_pos z) end.
    assert (sqrt z < 1).
    { rewrite <- sqrt_1. apply sqrt_lt_1_alt. unfold z. unfold Rdiv at 1 4; split; [apply Rmult_le_pos; lra|].
      assert (1 - 1 * / s < 1) by lra. nra. } lra.
  - intros newton; unfold MachSub_Sigma; now rewrite E.
Qed.
(*@P C08_start_subsonic_refuted: For gamma = 1.5 (and others above 1.4) the requested branch is left: MachSub_Sigma starts the root finder at a negative Mach number. *)
Lemma start_sub_refuted : exists s g, 1 < g < 3 /\ 1 < s /\
  exists m, MachSub_guess (Some s) (Some g) = Some m /\ m < 0.
Proof.
  exists 9, (3/2). split; [lra|]; split; [lra|].
  eexists; split.
  - unfold MachSub_guess; ncbn; rewrite !ndiv_Some by lra; ncbn. rewrite nsqrt_Some by lra. reflexivity.
  - ncbn. assert (1 < sqrt ((1 - 1 / 9) * (4 * (3 / 2 - 1) / (3 - 3 / 2)))).
    { rewrite <- sqrt_1 at 1. apply sqrt_lt_1_alt. lra. } lra.
Qed.
(*@E C08_example: a solver meeting the contract exists, and returns a Mach number for sigma = 5/4, gamma = 3 when started at the exact root 2 *)
Lemma C08_example_lemma : solves 0 (lazy_newton 0) /\
  Mach_Sigma (lazy_newton 0) (Some (5/4)) (Some 2) (Some 3) = Some 2.
Proof.
  split; [apply lazy_newton_solves; lra|].
  unfold Mach_Sigma, lazy_newton. rewrite C06_example_lemma; ncbn.
  destruct (Rle_dec _ _) as [|N]; [reflexivity|].
  exfalso; apply N. replace (5/4 - 5/4) with 0 by lra. rewrite Rabs_R0; lra.
Qed.
(*@E C07_example: gamma = 3, M = 2: mass flow the weighted mass flow is sqrt 3 * 2 / 5, the sonic one sqrt 3 / 2, Sigma = 5/4. *)
Lemma C07_example_lemma : WeightMassFlow (Some 2) (Some 287) (Some 3) = Some (2 * sqrt 3 / 5) /\
  WeightMassFlow (Some 1) (Some 287) (Some 3) = Some (sqrt 3 / 2) /\ Sigma_Mach (Some 2) (Some 3) = Some (5/4).
Proof.
  assert (E : forall M, -1 / 2 * (3 + 1) / (3 - 1) = - (1) /\ tt 3 M = 1 + M ^ 2) by (intros; split; [|unfold tt]; field).
  assert (W : forall M, wmf 3 M = sqrt 3 * M / (1 + M ^ 2)).
  { intros M. unfold wmf. destruct (E M) as [-> ->]. rewrite Rpower_Ropp, Rpower_1 by nra. reflexivity. }
  rewrite !WMF_eval, !W by lra. split; [f_equal; field|]. split; [f_equal; field|].
  destruct (Sigma_ratio 2 3 287 ltac:(lra) ltac:(lra)) as (w & w1 & E1 & E2 & _ & ->).
  rewrite WMF_eval, W in E1, E2 by lra. injection E1 as <-. injection E2 as <-. f_equal. assert (0 < sqrt 3) by (apply sqrt_lt_R0; lra). field. lra.
Qed.
