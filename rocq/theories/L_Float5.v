(** * C88: the shock of given pressure ratio in binary64 arithmetic *)
From Coq Require Import Reals List ZArith Lra Lia Psatz.
From Flocq Require Import Core.
From Verif Require Import M_Float L_Float L_Float2 L_Float4.
Open Scope R_scope.

Lemma fl_sqrt x m (d : Z) k : (d = 2 ^ k)%Z -> (0 <= k <= 1000)%Z -> 0 <= x -> (4503599627370497 <= m <= 9007199254740990)%Z ->
  ((IZR m - / 2) / IZR d) ^ 2 < x < ((IZR m + / 2) / IZR d) ^ 2 -> fl (sqrt x) = Some (IZR m / IZR d).
Proof.
  intros Ed Hk Hx Hm [A B]. assert (D : 0 < IZR d) by (rewrite Ed; apply (IZR_lt 0); apply Z.pow_pos_nonneg; lia). assert (I : 0 < / IZR d) by now apply Rinv_0_lt_compat.
  assert (m0 : 4503599627370497 <= IZR m <= 9007199254740990) by (split; apply IZR_le; lia).
  assert (S : (IZR m - / 2) / IZR d < sqrt x < (IZR m + / 2) / IZR d).
  { split.
    - rewrite <- (sqrt_pow2 ((IZR m - / 2) / IZR d)) by (apply Rmult_le_pos; lra). apply sqrt_lt_1_alt. split; [apply pow2_ge_0|exact A].
    - rewrite <- (sqrt_pow2 ((IZR m + / 2) / IZR d)) by (apply Rmult_le_pos; lra). apply sqrt_lt_1_alt. lra. }
  unfold Rdiv in *. apply fl_q with k; auto.
  - split; [apply Rle_trans with ((IZR m - / 2) * / IZR d); [apply Rmult_le_compat_r; lra|lra]|apply Rlt_le_trans with ((IZR m + / 2) * / IZR d); [lra|apply Rmult_le_compat_r; lra]].
  - left. apply Rabs_def1; unfold Rdiv; lra.
Qed.
(** Mach 3 and gamma = 1.4 *)
Lemma Ps3 : float_Ps_ratio (Some 3) (Some (6305039478318694 / 4503599627370496)) = Some (5817149518686891 / 562949953421312).
Proof.
  unfold float_Ps_ratio, fmul, fadd, fsub, fdiv, fop2.
  near (2 * (6305039478318694 / 4503599627370496)) 6305039478318694%Z 51%Z.
  near ((6305039478318694 / 4503599627370496) + 1) 5404319552844595%Z 51%Z.
  destruct (Req_EM_T (5404319552844595 / 2251799813685248) 0) as [Z|_]; [exfalso; lra|].
  near (6305039478318694 / 2251799813685248 / (5404319552844595 / 2251799813685248)) 5254199565265579%Z 52%Z.
  near (3 * 3) 5066549580791808%Z 49%Z.
  near (5066549580791808 / 562949953421312 - 1) 4503599627370496%Z 49%Z.
  near (5254199565265579 / 4503599627370496 * (4503599627370496 / 562949953421312)) 5254199565265579%Z 49%Z.
  near (1 + 5254199565265579 / 562949953421312) 5817149518686891%Z 49%Z.
  reflexivity.
Qed.
Lemma Mn3 : float_Mn_Ps_ratio (Some (5817149518686891 / 562949953421312)) (Some (6305039478318694 / 4503599627370496)) = Some (6755399441055745 / 2251799813685248).
Proof.
  unfold float_Mn_Ps_ratio, fmul, fadd, fsub, fdiv, fop2, fsqrt.
  near (5817149518686891 / 562949953421312 - 1) 5254199565265579%Z 49%Z.
  near ((6305039478318694 / 4503599627370496) + 1) 5404319552844595%Z 51%Z.
  near (5254199565265579 / 562949953421312 * (5404319552844595 / 2251799813685248)) 6305039478318695%Z 48%Z.
  near (2 * (6305039478318694 / 4503599627370496)) 6305039478318694%Z 51%Z.
  destruct (Req_EM_T (6305039478318694 / 2251799813685248) 0) as [Z|_]; [exfalso; lra|].
  near (6305039478318695 / 281474976710656 / (6305039478318694 / 2251799813685248)) 4503599627370497%Z 49%Z.
  near (1 + 4503599627370497 / 562949953421312) 5066549580791809%Z 49%Z.
  destruct (Rlt_dec (5066549580791809 / 562949953421312) 0) as [Z|_]; [exfalso; lra|].
  apply (fl_sqrt _ 6755399441055745%Z 2251799813685248%Z 51%Z); [reflexivity|lia|lra|lia|split; lra].
Qed.
Lemma Sine3 : float_shock_sine (Some 3) (Some (5817149518686891 / 562949953421312)) (Some (6305039478318694 / 4503599627370496)) = Some (4503599627370497 / 4503599627370496).
Proof.
  unfold float_shock_sine. rewrite Mn3. unfold fdiv. destruct (Req_EM_T 3 0) as [Z|_]; [exfalso; lra|].
  near (6755399441055745 / 2251799813685248 / 3) 4503599627370497%Z 52%Z.
  reflexivity.
Qed.
Lemma Zf_mono g P Q : F g -> 1 < g <= 2 -> P <= Q -> Zf g P <= Zf g Q.
Proof.
  intros Fg G H. assert (A := a1_bp g Fg G). unfold Zf. apply rn_le, Rplus_le_compat_l, rn_le. unfold Rdiv. apply Rmult_le_compat_r; [apply Rlt_le, Rinv_0_lt_compat; lra|].
  apply rn_le, Rmult_le_compat_r; [lra|]. apply rn_le. lra.
Qed.
Lemma p49 : 2 ^ 49 = 562949953421312. Proof. rewrite pw; reflexivity. Qed.
(*@P C88_defined_partial: In binary64 arithmetic, for every double 1 < gamma <= 2, every double Mach number M up to 2^400 and every pressure ratio 1 <= P <= Ps_ratio(N), where N is a normal Mach number at least 2^-49 M below M: the argument of the arc sine in deflection_Mach_ShockPsratio and downstreamMach_Mach_ShockPsratio is a number of (0, 1], so that the shock angle is not nan; for P = Ps_ratio(N) it is N / M with a relative error of at most 2^-48. *)
Lemma shock_sine_defined : forall gamma M N P PN, b64 gamma -> b64 M -> b64 N -> b64 P -> 1 < gamma <= 2 -> 1 <= N -> N * (1 + / 2 ^ 49) <= M -> M <= bpow radix2 400 ->
  float_Ps_ratio (Some N) (Some gamma) = Some PN -> 1 <= P <= PN ->
  exists s, float_shock_sine (Some M) (Some P) (Some gamma) = Some s /\ 0 < s <= 1 /\ float_arcsin_defined (Some s) /\ (P = PN -> Rabs (s - N / M) <= N / M * / 2 ^ 48).
Proof.
  intros g M N P PN Bg [FM _] BN [FP _] G HN HM LM EN HP. assert (Fg := proj1 Bg). rewrite p49 in HM.
  assert (LN : N <= bpow radix2 400) by lra.
  destruct (float_Ps_accuracy g N Bg BN G ltac:(lra)) as (PN' & N' & E1 & E2 & D). rewrite EN in E1. injection E1 as <-. rewrite p49 in D. apply abs_split in D.
  destruct (Ps_float g N Fg G ltac:(lra)) as [E3 B3]. rewrite EN in E3. injection E3 as ->.
  destruct (Mn_float g (Pf g N) Fg G (F_rn _) B3) as [E4 B4]. rewrite E2 in E4. injection E4 as ->.
  destruct (Mn_float g P Fg G FP ltac:(lra)) as [E5 B5].
  set (n := rn (sqrt (Zf g P))) in *. set (n' := rn (sqrt (Zf g (Pf g N)))) in *.
  assert (n1 : 1 <= n) by (apply rn_ge; [apply F1|]; rewrite <- sqrt_1; now apply sqrt_le_1_alt).
  assert (nn : n <= n') by (apply rn_le, sqrt_le_1_alt, Zf_mono; easy || lra).
  assert (nM : n <= M) by (unfold Rdiv in D; lra).
  assert (P0 := bpow_gt_0 radix2 (-400)).
  assert (IM : bpow radix2 (-400) <= / M). { replace (bpow radix2 (-400)) with (/ bpow radix2 400) by (now rewrite <- bpow_opp). apply Rinv_le_contravar; lra. }
  assert (q1 : bpow radix2 (-400) <= n / M <= 1).
  { split; [unfold Rdiv; nra|]. apply Rmult_le_reg_r with M; [lra|]. unfold Rdiv. rewrite Rmult_assoc, Rinv_l by lra. lra. }
  assert (r1 : bpow radix2 (-400) <= rn (n / M) <= 1) by (split; [apply rn_ge; [apply F_bpow; lia|lra]|apply rn_le_F; [apply F1|lra]]).
  exists (rn (n / M)). split.
  { unfold float_shock_sine. rewrite E5. unfold fdiv. destruct (Req_EM_T M 0) as [Z|_]; [lra|]. apply (fl_pos _ 0); [rewrite <- one_bp; lra|lia]. }
  split; [lra|]. split; [cbn; lra|]. intros EP. subst P. fold n n' in D. assert (ES : n = n') by reflexivity. rewrite <- ES in D.
  assert (E := rel_pos (n / M) (Rle_trans _ _ _ (bpow_le radix2 (-1022) (-400) ltac:(lia)) (proj1 q1))). apply abs_split in E. rewrite p48.
  assert (X : N / M * (1 - / 562949953421312) <= n / M <= N / M * (1 + / 562949953421312)).
  { unfold Rdiv in *. assert (i0 : 0 < / M) by lra. split.
    - replace (N * / M * (1 - / 562949953421312)) with ((N - N * / 562949953421312) * / M) by ring. apply Rmult_le_compat_r; lra.
    - replace (N * / M * (1 + / 562949953421312)) with ((N + N * / 562949953421312) * / M) by ring. apply Rmult_le_compat_r; lra. }
  assert (Y : 0 < N / M) by (apply Rdiv_lt_0_compat; lra). apply Rabs_le. set (y := N / M) in *. set (x := n / M) in *. lra.
Qed.
(*@P C88_nan_refuted: In binary64 arithmetic the strongest shock itself can be lost: with gamma = 1.4 and the Mach number 3, for the pressure ratio P = Ps_ratio(3) of the normal shock the argument of the arc sine exceeds 1, so that deflection_Mach_ShockPsratio(3, P) and downstreamMach_Mach_ShockPsratio(3, P) are nan instead of the normal shock. *)
Lemma shock_sine_nan : exists g P s, fl (7 / 5) = Some g /\ float_Ps_ratio (Some 3) (Some g) = Some P /\ float_shock_sine (Some 3) (Some P) (Some g) = Some s /\ 1 < s /\
  ~ float_arcsin_defined (Some s).
Proof.
  exists (6305039478318694 / 4503599627370496). eexists. eexists. split; [fnear 6305039478318694%Z 52%Z; reflexivity|].
  split; [exact Ps3|]. split; [exact Sine3|]. split; [lra|]. cbn [float_arcsin_defined]. lra.
Qed.
(*@E C88_example: the hypotheses of C88_defined_partial hold for gamma = 1.5, M = 3, N = 2 and P = 4. *)
Lemma shock_sine_ex : exists PN, b64 (3 / 2) /\ b64 3 /\ b64 2 /\ b64 4 /\ 2 * (1 + / 2 ^ 49) <= 3 /\ 3 <= bpow radix2 400 /\ float_Ps_ratio (Some 2) (Some (3 / 2)) = Some PN /\ 1 <= 4 <= PN.
Proof.
  assert (E : float_Ps_ratio (Some 2) (Some (3 / 2)) = Some (5179139571476070 / 1125899906842624)).
  { unfold float_Ps_ratio, fmul, fadd, fsub, fdiv, fop2.
    near (2 * (3 / 2)) 6755399441055744%Z 51%Z. near (3 / 2 + 1) 5629499534213120%Z 51%Z. destruct (Req_EM_T (5629499534213120 / 2251799813685248) 0) as [Z|_]; [exfalso; lra|].
    near (6755399441055744 / 2251799813685248 / (5629499534213120 / 2251799813685248)) 5404319552844595%Z 52%Z.
    near (2 * 2) 4503599627370496%Z 50%Z. near (4503599627370496 / 1125899906842624 - 1) 6755399441055744%Z 51%Z.
    near (5404319552844595 / 4503599627370496 * (6755399441055744 / 2251799813685248)) 8106479329266892%Z 51%Z.
    near (1 + 8106479329266892 / 2251799813685248) 5179139571476070%Z 50%Z. reflexivity. }
  exists (5179139571476070 / 1125899906842624).
  split; [replace (3 / 2) with (IZR 3 * bpow radix2 (-1)) by (cbn; lra); apply b64_mant; cbn; lia|].
  split; [apply (b64_IZR 3); cbn; lia|]. split; [apply (b64_IZR 2); cbn; lia|]. split; [apply (b64_IZR 4); cbn; lia|].
  split; [rewrite p49; lra|]. split; [apply Rle_trans with (bpow radix2 2); [change (bpow radix2 2) with 4; lra|apply bpow_le; lia]|]. split; [exact E|lra].
Qed.
