(** * C110: geometric convergence, and the convergence study of the notebook *)
From Verif Require Import Num L_Num PolySpec SmoothSpec LinalgSpec L_Poly M_Spectral M_SpectralNB L_Spectral L_Spectral2 L_Spectral3 L_Spectral4 L_SpectralErr.
Open Scope R_scope.

(*@P C110_geometric: Spectral convergence: if the derivatives of the function satisfy |f^(m)| <= K m! / r^m on [xmin, xmax] for every m (an analytic function), the error of the first derivative at every collocation point is at most 4 K/r (npts-1) ((xmax-xmin)/(4 r))^(npts-1), for every number of points: it decreases geometrically as soon as xmax - xmin < 4 r. *)
Lemma geometric : forall npts xmin xmax history F K r,
  (2 <= npts)%nat -> xmin < xmax -> 0 < r -> derivatives_on xmin xmax F -> (forall m y, xmin <= y <= xmax -> Rabs (F m y) <= K * INR (fact m) / r ^ m) ->
  let c := matder_run history (cheb_init npts (Some (Some xmin)) (Some (Some xmax))) in
  let x := cheb_x npts (cb_xmin c) (cb_xmax c) in
  exists A, fst (matder 1%nat c) = Matrix A /\
  forall i, (i < npts)%nat -> exists xi d, x i = Some xi /\ xmin <= xi <= xmax /\
    matvec npts A (fun j => option_map (F 0%nat) (x j)) i = Some d /\
    Rabs (d - F 1%nat xi) <= 4 * K / r * (INR (npts - 1) * ((xmax - xmin) / (4 * r)) ^ (npts - 1)).
Proof.
  intros n a b h F K r Hn Hab Hr HF HB c x.
  destruct (derivative_error n a b h 1%nat F (K * INR (fact n) / r ^ n) Hn Hab ltac:(lia) HF (HB n)) as (A & E & HA). fold c in E. fold c in HA. fold x in HA.
  exists A. split; [exact E|]. intros i Hi. destruct (HA i Hi) as (xi & d & Ex & Ix & Ed & _ & H1). exists xi, d. repeat (split; [assumption|]).
  eapply Rle_trans; [exact (H1 eq_refl)|]. right. destruct n as [|n]; [lia|]. replace (S n - 1)%nat with n by lia.
  assert (r ^ n <> 0) by (apply pow_nonzero; lra). pose proof (INR_fact_neq_0 (S n)).
  replace ((b - a) / (4 * r)) with ((b - a) / 4 * / r) by (field; lra). rewrite Rpow_mult_distr, pow_inv. cbn [pow]. field. repeat split; assumption || lra.
Qed.

(** ** the derivatives of the Gaussian *)
Fixpoint Hg (m : nat) : list R := match m with O => 1 :: nil | S k => padd (pder (Hg k)) (plin 0 (-2) (Hg k)) end.
Definition gj (m : nat) (u : R) : R := peval (Hg m) u * exp (- u ^ 2).
Lemma gj_jet : jet gj.
Proof.
  intros m x. unfold gj. cbn [Hg]. rewrite padd_eval, plin_eval. evar_last.
  - apply (is_derive_mult (peval (Hg m)) (fun u => exp (- u ^ 2)) x (peval (pder (Hg m)) x) (-2 * x * exp (- x ^ 2))).
    + apply is_derive_peval.
    + auto_derive; [trivial|]. cbn [pow]. rewrite Rmult_1_r. ring.
    + intros. apply Rmult_comm.
  - unfold plus, mult; cbn -[pow]. ring.
Qed.
Lemma gj_rec m u : gj (S m) u = -2 * ((u - 0) * gj m u + INR m * gj (pred m) u).
Proof.
  apply (jet_ext (fun m => gj (S m)) (fun m u => -2 * ((u - 0) * gj m u + INR m * gj (pred m) u))).
  - intros k z. apply gj_jet.
  - apply (jet_scal (-2) (fun m u => (u - 0) * gj m u + INR m * gj (pred m) u)). apply jet_lin, gj_jet.
  - intros x. unfold gj. cbn [Hg INR pred]. rewrite padd_eval, plin_eval. cbn [pder padd peval]. ring.
Qed.
Lemma gj_bound r U : 0 < r -> 0 <= U -> exists K, 0 < K /\ forall m u, Rabs u <= U -> Rabs (gj m u) <= K * INR (fact m) / r ^ m.
Proof.
  intros Hr HU. set (T := 2 * U * r + 2 * r * r). assert (T0 : 0 <= T) by (unfold T; nra).
  destruct (nfloor_ex T T0) as [N [_ HN]]. set (W := Rmax 1 T). assert (W1 : 1 <= W) by apply Rmax_l. assert (WT : T <= W) by apply Rmax_r.
  exists (W ^ S N). split; [apply pow_lt; lra|]. intros m u Hu.
  set (a m := Rabs (gj m u) / INR (fact m) * r ^ m).
  assert (A0 : forall m, 0 <= a m). { intros k. unfold a. apply Rmult_le_pos; [apply Rcomplements.Rdiv_le_0_compat; [apply Rabs_pos|apply INR_fact_lt_0]|apply pow_le; lra]. }
  assert (ST : forall k V, a k <= V -> a (pred k) <= V -> a (S k) * INR (S k) <= T * V).
  { intros k V H1 H2. assert (V0 : 0 <= V) by (pose proof (A0 k); lra).
    assert (E : a (S k) * INR (S k) <= 2 * U * r * a k + 2 * r * r * (match k with O => 0 | S j => a j end)).
    { unfold a at 1. rewrite gj_rec, Rminus_0_r. rewrite Rabs_mult. replace (Rabs (-2)) with 2 by (rewrite Rabs_left; lra).
      pose proof (INR_fact_lt_0 k) as Fk. assert (Rk : 0 < r ^ k) by (apply pow_lt; lra).
      assert (Hs : INR (fact (S k)) = INR (S k) * INR (fact k)) by (rewrite <- mult_INR; reflexivity). assert (Sk : 0 < INR (S k)) by (apply lt_0_INR; lia).
      replace (2 * Rabs (u * gj k u + INR k * gj (pred k) u) / INR (fact (S k)) * r ^ S k * INR (S k)) with (Rabs (u * gj k u + INR k * gj (pred k) u) * (2 * r * r ^ k / INR (fact k))).
      2:{ rewrite Hs. cbn [pow]. field. lra. }
      assert (C0 : 0 <= 2 * r * r ^ k / INR (fact k)) by (apply Rcomplements.Rdiv_le_0_compat; nra).
      eapply Rle_trans; [apply Rmult_le_compat_r; [exact C0|apply Rabs_triang]|]. rewrite !Rabs_mult, Rmult_plus_distr_r.
      apply Rplus_le_compat.
      - replace (2 * U * r * a k) with (U * Rabs (gj k u) * (2 * r * r ^ k / INR (fact k))) by (unfold a; field; lra).
        apply Rmult_le_compat_r; [exact C0|]. apply Rmult_le_compat_r; [apply Rabs_pos|exact Hu].
      - destruct k as [|j]; [cbn [INR]; rewrite Rabs_R0; lra|]. right. rewrite Rabs_pos_eq by apply pos_INR. cbn [pred]. unfold a.
        assert (Hj : INR (fact (S j)) = INR (S j) * INR (fact j)) by (rewrite <- mult_INR; reflexivity). assert (0 < INR (S j)) by (apply lt_0_INR; lia). pose proof (INR_fact_lt_0 j).
        rewrite Hj. cbn [pow]. field. lra. }
    eapply Rle_trans; [exact E|]. unfold T. assert (match k with O => 0 | S j => a j end <= V) by (destruct k; [exact V0|exact H2]).
    assert (0 <= 2 * U * r) by nra. assert (0 <= 2 * r * r) by nra. rewrite Rmult_plus_distr_r. apply Rplus_le_compat; apply Rmult_le_compat_l; assumption. }
  assert (I0 : a 0%nat <= 1). { unfold a, gj. cbn [Hg peval fact INR pow]. rewrite Rmult_0_r, Rplus_0_r, Rmult_1_l, Rabs_pos_eq by (left; apply exp_pos).
    replace (exp (- (u * (u * 1))) / 1 * 1) with (exp (- (u * (u * 1)))) by field. assert (G : exp (- (u * (u * 1))) <= exp 0) by (destruct (Req_dec u 0) as [->|Z]; [right; f_equal; ring|left; apply exp_increasing; assert (0 < u * u) by nra; lra]).
    rewrite exp_0 in G. exact G. }
  assert (P : forall k, a k <= W ^ k /\ a (S k) <= W ^ S k).
  { intros k; induction k as [|k [H1 H2]].
    - split; [exact I0|]. pose proof (ST 0%nat 1 I0 I0) as SS. cbn [INR] in SS. cbn [pow]. lra.
    - split; [exact H2|]. assert (Q : W ^ k <= W ^ S k) by (cbn [pow]; pose proof (pow_le W k ltac:(lra)); nra).
      pose proof (ST (S k) (W ^ S k) H2 ltac:(cbn [pred]; lra)) as SS. pose proof (A0 (S (S k))). assert (1 <= INR (S (S k))) by (apply (le_INR 1); lia).
      assert (0 <= W ^ S k) by (apply pow_le; lra). change (W ^ S (S k)) with (W * W ^ S k). nra. }
  assert (Q : forall k, a k <= W ^ S N).
  { assert (M : forall k, (k <= S N)%nat -> a k <= W ^ S N). { intros k Hk. eapply Rle_trans; [apply P|]. apply Rle_pow; [exact W1|exact Hk]. }
    intros k. induction k as [k IH] using lt_wf_ind. destruct (le_lt_dec k (S N)) as [L|L]; [apply M, L|]. destruct k as [|k]; [lia|].
    pose proof (ST k (W ^ S N) (IH k ltac:(lia)) (IH (pred k) ltac:(lia))) as SS. assert (INR N + 1 <= INR (S k)) by (rewrite <- S_INR; apply le_INR; lia).
    assert (0 <= W ^ S N) by (apply pow_le; lra). pose proof (A0 (Datatypes.S k)). nra. }
  specialize (Q m). unfold a in Q. pose proof (INR_fact_lt_0 m). assert (0 < r ^ m) by (apply pow_lt; lra).
  replace (Rabs (gj m u)) with (Rabs (gj m u) / INR (fact m) * r ^ m * (INR (fact m) / r ^ m)) by (field; lra).
  replace (W ^ S N * INR (fact m) / r ^ m) with (W ^ S N * (INR (fact m) / r ^ m)) by (field; lra). apply Rmult_le_compat_r; [|exact Q]. apply Rcomplements.Rdiv_le_0_compat; lra.
Qed.

(** ** the notebook *)
Definition gs (m : nat) (y : R) : R := gj m (y - 1 / 10).
Lemma gs_jet : jet gs.
Proof.
  intros m y. unfold gs. evar_last. { apply (is_derive_comp (gj m) (fun y => y - 1 / 10)); [apply gj_jet|auto_derive; [trivial|reflexivity]]. }
  unfold scal; cbn. unfold mult; cbn. ring.
Qed.
Lemma gs_0 y : gs 0%nat y = exp (- (y - 1 / 10) ^ 2).
Proof. unfold gs, gj. cbn [Hg peval]. ring. Qed.
Lemma nb_f_eval y : nb_f (Some y) = Some (gs 0%nat y).
Proof. rewrite gs_0. reflexivity. Qed.
Lemma nb_df_eval y : nb_df (Some y) = Some (gs 1%nat y).
Proof. unfold nb_df. rewrite nb_f_eval. cbn [nsub nopp nmul]. f_equal. unfold gs at 2. rewrite gj_rec. cbn [pred INR]. unfold gs. ring. Qed.
Lemma nb_df2_eval y : nb_df2 (Some y) = Some (gs 2%nat y).
Proof. unfold nb_df2. rewrite nb_f_eval. cbn [nsub nopp nmul npowi]. f_equal. unfold gs at 2. rewrite gj_rec. cbn [pred INR]. rewrite gj_rec. cbn [pred INR]. unfold gs. ring. Qed.
Lemma gs_Derive m y : Derive_n (fun z => exp (- (z - 1 / 10) ^ 2)) m y = gs m y.
Proof. rewrite (Derive_n_ext _ (gs 0%nat)) by (intros; now rewrite gs_0). apply jet_Derive_n, gs_jet. Qed.
(*@P C110_notebook: The three functions of the worked example (docs/examples/common.numspectral.ipynb) are exp(-(x-0.1)^2) and its first and second derivatives, at every x. *)
Lemma notebook_functions : forall x,
  nb_f (Some x) = Some (exp (- (x - 1 / 10) ^ 2)) /\
  nb_df (Some x) = Some (Derive (fun z => exp (- (z - 1 / 10) ^ 2)) x) /\
  nb_df2 (Some x) = Some (Derive_n (fun z => exp (- (z - 1 / 10) ^ 2)) 2%nat x).
Proof.
  intros x. rewrite gs_Derive. change (Derive (fun z => exp (- (z - 1 / 10) ^ 2)) x) with (Derive_n (fun z => exp (- (z - 1 / 10) ^ 2)) 1%nat x). rewrite gs_Derive.
  split; [reflexivity|]. split; [apply nb_df_eval|apply nb_df2_eval].
Qed.
Lemma half_pow n : INR n * (1 / 2) ^ n <= 1.
Proof.
  assert (P : INR n <= 2 ^ n). { induction n; [cbn; lra|]. rewrite S_INR. cbn [pow]. assert (1 <= 2 ^ n) by (apply pow_R1_Rle; lra). lra. }
  assert (0 < 2 ^ n) by (apply pow_lt; lra). replace (1 / 2) with (/ 2) by lra. rewrite pow_inv. apply Rmult_le_reg_r with (2 ^ n); [assumption|]. rewrite Rmult_assoc, Rinv_l by lra. lra.
Qed.
Lemma rsum_le_const n a e : (forall k, (k < n)%nat -> a k <= e) -> rsum n a <= INR n * e.
Proof. induction n; intros H; [cbn; lra|]. cbn [rsum]. rewrite S_INR. pose proof (H n ltac:(lia)). pose proof (IHn ltac:(auto)). lra. Qed.
(*@P C110_convergence: The convergence study of the worked example: for every rate q > 0 there is a constant K such that for every number of points n >= 2 the quadratic mean error of the computed first derivative is a number between 0 and K q^n: it decreases faster than every geometric sequence. *)
Lemma notebook_error : forall q, 0 < q -> exists K, 0 < K /\ forall n, (2 <= n)%nat -> exists e, nb_err n = Some e /\ 0 <= e <= K * q ^ n.
Proof.
  intros q Hq. destruct (gj_bound (/ q) (11 / 10) ltac:(now apply Rinv_0_lt_compat) ltac:(lra)) as (K & K0 & HK). exists (4 * K). split; [lra|]. intros n Hn.
  assert (B : forall y, -1 <= y <= 1 -> Rabs (gs n y) <= K * INR (fact n) * q ^ n).
  { intros y Hy. eapply Rle_trans; [apply HK; apply Rabs_le; lra|]. right. rewrite pow_inv. field. apply pow_nonzero; lra. }
  destruct (derivative_error n (-1) 1 nil 1%nat gs (K * INR (fact n) * q ^ n) Hn ltac:(lra) ltac:(lia) (fun m x _ => gs_jet m x) B) as (A & E & HA). cbn [matder_run] in E, HA.
  unfold nb_err. change (cheb_init n None None) with (cheb_init n (Some (Some (-1))) (Some (Some 1))).
  set (c := cheb_init n (Some (Some (-1))) (Some (Some 1))) in *. cbv zeta. rewrite E.
  set (e0 := 4 * K * q ^ n). assert (E0 : 0 <= e0) by (unfold e0; pose proof (pow_lt q n Hq); nra).
  assert (T : forall i, (i < n)%nat -> exists t, npowi (nsub (nb_df (cheb_x n (cb_xmin c) (cb_xmax c) i)) (matvec n A (fun i => nb_f (cheb_x n (cb_xmin c) (cb_xmax c) i)) i)) 2 = Some t /\ 0 <= t <= e0 ^ 2).
  { intros i Hi. destruct (HA i Hi) as (xi & d & Ex & Ix & Ed & _ & H1). specialize (H1 eq_refl).
    assert (Ed' : matvec n A (fun i => nb_f (cheb_x n (cb_xmin c) (cb_xmax c) i)) i = Some d).
    { rewrite <- Ed. unfold matvec. f_equal. apply FunctionalExtensionality.functional_extensionality. intros j. destruct (cheb_x n (cb_xmin c) (cb_xmax c) j) as [z|]; [rewrite nb_f_eval|]; reflexivity. }
    rewrite Ed', Ex, nb_df_eval. cbn [nsub npowi]. eexists. split; [reflexivity|]. split; [apply pow2_ge_0|].
    rewrite <- (pow2_abs). apply pow_incr. split; [apply Rabs_pos|]. rewrite Rabs_minus_sym. eapply Rle_trans; [exact H1|].
    replace ((1 - -1) / 4) with (1 / 2) by lra. pose proof (INR_fact_lt_0 n). pose proof (half_pow (n - 1)). pose proof (pow_lt q n Hq).
    replace (4 * INR (n - 1) * (1 / 2) ^ (n - 1) * (K * INR (fact n) * q ^ n) / INR (fact n)) with (4 * K * q ^ n * (INR (n - 1) * (1 / 2) ^ (n - 1))) by (field; lra).
    fold e0. rewrite <- (Rmult_1_r e0) at 2. apply Rmult_le_compat_l; assumption. }
  set (term := fun i => npowi _ 2).
  assert (V : exists t, (forall i, (i < n)%nat -> term i = Some (t i)) /\ forall i, (i < n)%nat -> 0 <= t i <= e0 ^ 2).
  { exists (fun i => match term i with Some t => t | None => 0 end). split; intros i Hi; destruct (T i Hi) as (t & Et & Bt); unfold term; rewrite Et; auto. }
  destruct V as (t & Et & Bt). rewrite (nsum_Some n term t Et). unfold nofnat. cbn [ndiv].
  assert (N0 : 0 < INR n) by (apply lt_0_INR; lia). destruct (Req_EM_T (INR n) 0) as [Z|_]; [lra|].
  pose proof (rsum_nonneg n t (fun k Hk => proj1 (Bt k Hk))) as S0. pose proof (rsum_le_const n t (e0 ^ 2) (fun k Hk => proj2 (Bt k Hk))) as S1.
  assert (D0 : 0 <= rsum n t / INR n) by (apply Rcomplements.Rdiv_le_0_compat; lra).
  unfold nsqrt. destruct (Rle_dec 0 (rsum n t / INR n)) as [_|Z]; [|contradiction].
  eexists. split; [reflexivity|]. split; [apply sqrt_pos|]. fold e0. rewrite <- (sqrt_pow2 e0 E0). apply sqrt_le_1_alt.
  apply Rmult_le_reg_r with (INR n); [exact N0|]. unfold Rdiv. rewrite Rmult_assoc, Rinv_l by lra. lra.
Qed.
(*@E C110_example: the exponential on [0, 1/2]: all its derivatives are itself, bounded by 2; four points give its first derivative within 2/1000, whatever was computed before. *)
Lemma accuracy_example : derivatives_on 0 (1 / 2) (fun _ => exp) /\
  let c := matder_run (2 :: 3 :: nil)%nat (cheb_init 4 (Some (Some 0)) (Some (Some (1 / 2)))) in
  let x := cheb_x 4 (cb_xmin c) (cb_xmax c) in
  exists A, fst (matder 1%nat c) = Matrix A /\
  forall i, (i < 4)%nat -> exists xi d, x i = Some xi /\ matvec 4 A (fun j => option_map exp (x j)) i = Some d /\ Rabs (d - exp xi) <= 2 / 1000.
Proof.
  assert (D : derivatives_on 0 (1 / 2) (fun _ => exp)) by (intros m x _; auto_derive; [trivial|ring]).
  split; [exact D|]. 
  assert (X : exp (1 / 2) <= 2).
  { apply Rnot_lt_le. intros L. assert (exp (1 / 2) * exp (1 / 2) = exp 1) by (rewrite <- exp_plus; f_equal; field). pose proof exp_le_3. nra. }
  assert (B : forall y, 0 <= y <= 1 / 2 -> Rabs (exp y) <= 2).
  { intros y Hy. rewrite Rabs_pos_eq by (left; apply exp_pos). eapply Rle_trans; [|exact X]. destruct (Req_dec y (1 / 2)) as [->|N]; [right; reflexivity|left; apply exp_increasing; lra]. }
  destruct (derivative_error 4 0 (1 / 2) (2 :: 3 :: nil)%nat 1%nat (fun _ => exp) 2 ltac:(lia) ltac:(lra) ltac:(lia) D B) as (A & E & HA).
  exists A. split; [exact E|]. intros i Hi. destruct (HA i Hi) as (xi & d & Ex & _ & Ed & _ & H1). exists xi, d. split; [exact Ex|]. split; [exact Ed|].
  eapply Rle_trans; [exact (H1 eq_refl)|]. cbn [Nat.sub fact Nat.mul Nat.add pow]. rewrite ?INR_IZR_INZ. cbn. lra.
Qed.
