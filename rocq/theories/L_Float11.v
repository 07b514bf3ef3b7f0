(** * Binary64 starting points of the inversion of the section ratio *)
From Coq Require Import Bool Reals List ZArith Lra Lia Psatz.
From Coquelicot Require Import Coquelicot.
From Flocq Require Import Core.
From Verif Require Import Num M_Isentropic M_MassFlow L_Num L_Isentropic L_MassFlow M_Float M_FloatPow FloatSpec L_Float L_Float2 L_Float6 L_Float7 L_Float9 L_Float10.
Open Scope R_scope.

Lemma lsig_quad_sub g M : 1 < g <= 2 -> 0 < M <= 1 -> (M - 1) ^ 2 / 2 <= lsig g M.
Proof.
  intros G H. destruct (Req_dec M 1) as [->|N]; [rewrite lsig_1 by lra; lra|].
  assert (D : (fun M => lsig g M - (M - 1) ^ 2 / 2) 1 < (fun M => lsig g M - (M - 1) ^ 2 / 2) M); [|cbv beta in D; rewrite lsig_1 in D by lra; lra].
  apply (strict_decr (fun M => lsig g M - (M - 1) ^ 2 / 2) (fun M => (M ^ 2 - 1) / (M * tt g M) - (M - 1))); [lra| |].
  - intros x Hx. apply (is_derive_minus (lsig g) (fun M => (M - 1) ^ 2 / 2) x ((x ^ 2 - 1) / (x * tt g x)) (x - 1)); [apply lsig_derive; lra|]. auto_derive; [easy|]. field.
  - intros x Hx. assert (T : 0 < tt g x) by (apply tt_pos; lra). assert (T2 : tt g x <= 3 / 2) by (unfold tt; nra).
    assert (P : 0 < x * tt g x) by (apply Rmult_lt_0_compat; lra).
    assert (Q : (x ^ 2 - 1) / (x * tt g x) - (x - 1) = (x - 1) * ((x + 1 - x * tt g x) / (x * tt g x))) by (field; lra).
    rewrite Q. assert (0 < (x + 1 - x * tt g x) / (x * tt g x)); [apply Rdiv_lt_0_compat; nra|nra].
Qed.
Lemma lsig_quad_sup g M : 1 < g <= 2 -> 1 <= M <= 5 / 4 -> (M - 1) ^ 2 / 2 <= lsig g M.
Proof.
  intros G H. destruct (Req_dec M 1) as [->|N]; [rewrite lsig_1 by lra; lra|].
  assert (D : (fun M => lsig g M - (M - 1) ^ 2 / 2) 1 < (fun M => lsig g M - (M - 1) ^ 2 / 2) M); [|cbv beta in D; rewrite lsig_1 in D by lra; lra].
  apply (strict_incr (fun M => lsig g M - (M - 1) ^ 2 / 2) (fun M => (M ^ 2 - 1) / (M * tt g M) - (M - 1))); [lra| |].
  - intros x Hx. apply (is_derive_minus (lsig g) (fun M => (M - 1) ^ 2 / 2) x ((x ^ 2 - 1) / (x * tt g x)) (x - 1)); [apply lsig_derive; lra|]. auto_derive; [easy|]. field.
  - intros x Hx. assert (T : 0 < tt g x) by (apply tt_pos; lra). assert (T2 : tt g x <= 1 + x ^ 2 / 2) by (unfold tt; nra).
    assert (P : 0 < x * tt g x) by (apply Rmult_lt_0_compat; lra).
    assert (Q : (x ^ 2 - 1) / (x * tt g x) - (x - 1) = (x - 1) * ((x + 1 - x * tt g x) / (x * tt g x))) by (field; lra).
    assert (x * tt g x < x + 1). { apply Rle_lt_trans with (x * (1 + x ^ 2 / 2)); [apply Rmult_le_compat_l; lra|]. nra. }
    rewrite Q. apply Rmult_lt_0_compat; [lra|]. apply Rdiv_lt_0_compat; lra.
Qed.
Lemma sig_away g M : 1 < g <= 2 -> 0 < M -> / 1048576 <= Rabs (M - 1) -> 1 + / 2199023255552 <= sig g M.
Proof.
  intros G H A. assert (K : forall l, / 2199023255552 <= l -> 1 + / 2199023255552 <= exp l) by (intros l Hl; pose proof (exp_ineq1_le l); lra).
  assert (E : forall x, / 1048576 <= Rabs x -> / 2199023255552 <= x ^ 2 / 2).
  { intros x Hx. rewrite <- (pow2_abs x). assert ((/ 1048576) ^ 2 <= Rabs x ^ 2) by (apply pow_incr; lra). lra. }
  destruct (Rle_dec M 1); [|destruct (Rle_dec M (5 / 4))].
  - apply K. eapply Rle_trans; [apply (E _ A)|]. apply lsig_quad_sub; lra.
  - apply K. eapply Rle_trans; [apply (E _ A)|]. apply lsig_quad_sup; lra.
  - apply Rle_trans with (sig g (5 / 4)); [|left; apply sig_incr; lra]. apply K. apply Rle_trans with ((5 / 4 - 1) ^ 2 / 2); [lra|]. apply lsig_quad_sup; lra.
Qed.
Lemma sig_upper g M : 9 / 8 <= g <= 2 -> / 1024 <= M <= 16 -> sig g M <= 2 ^ 82.
Proof.
  intros G H. assert (g1 : 1 < g) by lra. rewrite sig_form by lra. assert (T := tt_pos g M g1).
  assert (B0 : 0 < 2 / (g + 1) * tt g M) by (apply Rmult_lt_0_compat; [apply Rdiv_lt_0_compat; lra|exact T]).
  assert (B : 2 / (g + 1) * tt g M <= 256).
  { assert (D : 0 < 2 / (g + 1) <= 1) by (split; [apply Rdiv_lt_0_compat; lra|apply Rmult_le_reg_r with (g + 1); [lra|]; unfold Rdiv; rewrite Rmult_assoc, Rinv_l by lra; lra]).
    assert (M ^ 2 <= 256) by (replace 256 with (16 ^ 2) by ring; apply pow_incr; lra). assert (0 <= M ^ 2) by apply pow2_ge_0.
    assert (tt g M <= 129) by (unfold tt; nra). nra. }
  assert (S : 0 < sexp g <= 9).
  { split; [now apply sexp_pos|]. unfold sexp. apply Rmult_le_reg_r with (g - 1); [lra|]. unfold Rdiv. rewrite Rmult_assoc, Rinv_l by lra. lra. }
  assert (P : Rpower (2 / (g + 1) * tt g M) (sexp g) <= 2 ^ 72).
  { apply Rle_trans with (Rpower 256 (sexp g)); [apply Rle_Rpower_l; lra|]. apply Rle_trans with (Rpower 256 9); [apply Rle_Rpower; lra|].
    replace 9 with (INR 9) by (cbn; lra). rewrite Rpower_pow by lra. lra. }
  assert (I : / M <= 1024) by (rewrite <- (Rinv_inv 1024); apply Rinv_le_contravar; lra).
  assert (0 < Rpower (2 / (g + 1) * tt g M) (sexp g)) by apply exp_pos. assert (0 < / M) by (apply Rinv_0_lt_compat; lra).
  apply Rle_trans with (2 ^ 72 * 1024); [|lra]. unfold Rdiv. apply Rmult_le_compat; lra.
Qed.
Lemma Sigma_float p g M : libm_pow p -> b64 g -> b64 M -> 9 / 8 <= g <= 2 -> / 1024 <= M <= 16 -> / 1048576 <= Rabs (M - 1) ->
  exists s, float_Sigma_Mach p (Some M) (Some g) = Some s /\ F s /\ 1 + / 4398046511104 <= s <= 2 ^ 83.
Proof.
  intros L Bg BM G H A. destruct (Sigma_close p g M L Bg BM G H) as (s & x & E & Ex & X & Q). rewrite Sigma_eval in Ex by lra. injection Ex as <-.
  exists s. split; [exact E|]. assert (U := sig_upper g M G H). assert (W := sig_away g M ltac:(lra) ltac:(lra) A). apply abs_split in Q.
  replace (2 ^ 43) with 8796093022208 in Q by (rewrite pw; reflexivity). split; [|split; [lra|]].
  - unfold float_Sigma_Mach, fdiv in E. destruct (fpow _ _ _) as [v|]; [|discriminate]. destruct (Req_EM_T M 0); [discriminate|]. unfold fl in E.
    destruct (Rlt_dec _ _); [|discriminate]. injection E as <-. apply F_rn.
  - apply Rle_trans with (2 * sig g M); [lra|]. replace (2 ^ 83) with (2 * 2 ^ 82) by ring. lra.
Qed.
Lemma F4 : F 4. Proof. apply (F_IZR 4); cbn; lia. Qed.
Lemma F3 : F 3. Proof. apply (F_IZR 3); cbn; lia. Qed.
(** the constant factor *)
Lemma guess_coef g : F g -> 9 / 8 <= g <= 2 ->
  exists c, fdiv (fmul (Some 4) (fsub (Some g) (Some 1))) (fsub (Some 3) (Some g)) = Some c /\ F c /\ / 4 <= c <= 4.
Proof.
  intros Fg G. rewrite sub1 by (assumption || lra). assert (Fm : F (4 * (g - 1))).
  { replace (4 * (g - 1)) with ((g - 1) * 2 * 2) by ring. do 2 apply twice_F. apply gm1; [exact Fg|lra]. }
  unfold fmul, fsub, fop2. rewrite (fl_pos (4 * (g - 1)) 2) by (try lia; change (bpow radix2 2) with 4; lra). rewrite (rn_F _ Fm).
  rewrite (fl_pos (3 - g) 1) by (try lia; change (bpow radix2 1) with 2; lra).
  assert (D : 1 <= rn (3 - g) <= 15 / 8).
  { split; [apply rn_ge; [apply F1|lra]|]. apply rn_le_F; [|lra]. replace (15 / 8) with (IZR 15 * bpow radix2 (-3)) by (cbn; lra). apply F_mant; cbn; lia. }
  unfold fdiv. destruct (Req_EM_T (rn (3 - g)) 0); [lra|]. set (d := rn (3 - g)) in *.
  assert (C : / 4 <= 4 * (g - 1) / d <= 4).
  { assert (I : / d <= 1) by (rewrite <- Rinv_1; apply Rinv_le_contravar; lra). assert (I2 : 8 / 15 <= / d) by (replace (8 / 15) with (/ (15 / 8)) by field; apply Rinv_le_contravar; lra).
    unfold Rdiv. nra. }
  rewrite (fl_pos _ 2) by (try lia; change (bpow radix2 2) with 4; lra). eexists. split; [reflexivity|]. split; [apply F_rn|]. split; [apply rn_ge|apply rn_le_F; [apply F4|lra]]; [|lra].
  replace (/ 4) with (bpow radix2 (-2)) by (cbn; lra). apply F_bpow. lia.
Qed.
(** [1 - sqrt (z c)], [1 + sqrt (z c)] *)
Lemma root_of z c : 0 <= z <= 2 ^ 84 -> / 17592186044416 <= z -> / 4 <= c <= 4 ->
  exists q, fsqrt (fmul (Some z) (Some c)) = Some q /\ / 8388608 <= q <= 2 ^ 50 /\ (z <= 1 -> q <= 2).
Proof.
  intros Z Z2 C. unfold fmul, fop2. assert (P : / 70368744177664 <= z * c <= 2 ^ 86) by (split; [nra|replace (2 ^ 86) with (2 ^ 84 * 4) by ring; apply Rmult_le_compat; lra]).
  change (2 ^ 86) with (bpow radix2 86) in P at 1 || replace (2 ^ 86) with (bpow radix2 86) in P by (cbn; lra).
  change (/ 70368744177664) with (bpow radix2 (-46)) in P.
  assert (P0 : 0 <= z * c) by (pose proof (bpow_gt_0 radix2 (-46)); lra).
  rewrite (fl_pos _ 86) by (try lia; lra). unfold fsqrt.
  assert (R1 : bpow radix2 (-46) <= rn (z * c) <= bpow radix2 86) by (split; [apply rn_ge|apply rn_le_F]; try apply F_bpow; try lia; lra).
  pose proof (bpow_gt_0 radix2 (-46)) as B46. destruct (Rlt_dec _ 0); [lra|]. set (y := rn (z * c)) in *.
  assert (S1 : / 8388608 <= sqrt y) by (replace (/ 8388608) with (sqrt (bpow radix2 (-46))); [apply sqrt_le_1_alt; lra|]; replace (bpow radix2 (-46)) with (/ 8388608 * / 8388608) by (cbn; lra); apply sqrt_square; lra).
  assert (S2 : sqrt y <= bpow radix2 43) by (replace (bpow radix2 43) with (sqrt (bpow radix2 86)); [apply sqrt_le_1_alt; lra|]; replace (bpow radix2 86) with (bpow radix2 43 * bpow radix2 43) by (rewrite <- bpow_plus; reflexivity); apply sqrt_square, bpow_ge_0).
  rewrite (fl_pos _ 43) by (try lia; lra). eexists. split; [reflexivity|]. split; [split|].
  - change (/ 8388608) with (bpow radix2 (-23)) in *. apply rn_ge; [apply F_bpow; lia|exact S1].
  - apply Rle_trans with (bpow radix2 43); [apply rn_le_F; [apply F_bpow; lia|exact S2]|]. cbn. lra.
  - intros H. apply rn_le_F; [apply F2|]. replace 2 with (sqrt 4) by (replace 4 with (2 * 2) by ring; apply sqrt_square; lra). apply sqrt_le_1_alt. apply rn_le_F; [apply F4|]. nra.
Qed.
(*@P C115_defined_partial: Whatever accurate C library computes the power, for every double 9/8 <= gamma <= 2 and every double Mach number between 2^-10 and 16 that is at least 2^-20 away from 1: the section ratio computed in binary64 arithmetic is above 1, and the two starting points that the inversions compute from it are numbers, one below 1 and the other above. PARTIAL: nearer to the throat this is false, see C115_throat_refuted. *)
Lemma guesses_defined : forall p gamma M, libm_pow p -> b64 gamma -> b64 M -> 9 / 8 <= gamma <= 2 -> / 1024 <= M <= 16 -> / 2 ^ 20 <= Rabs (M - 1) ->
  exists s a b, float_Sigma_Mach p (Some M) (Some gamma) = Some s /\ 1 < s /\
  float_MachSub_guess (Some s) (Some gamma) = Some a /\ a < 1 /\ float_MachSup_guess (Some s) (Some gamma) = Some b /\ 1 < b.
Proof.
  intros p g M L Bg BM G H A. replace (2 ^ 20) with 1048576 in A by (rewrite pw; reflexivity).
  destruct (Sigma_float p g M L Bg BM G H A) as (s & E & Fs & S). destruct (guess_coef g (proj1 Bg) G) as (c & Ec & _ & C).
  assert (P83 : 2 ^ 83 = bpow radix2 83) by (cbn; lra).
  assert (F44 : F (1 - / 17592186044416)).
  { replace (1 - / 17592186044416) with (IZR (2 ^ 44 - 1) * bpow radix2 (-44)) by (cbn; lra). apply F_mant; cbn; lia. }
  assert (F42 : F (/ 4398046511104)) by (change (/ 4398046511104) with (bpow radix2 (-42)); apply F_bpow; lia).
  assert (Isub : exists z, fsub (Some 1) (fdiv (Some 1) (Some s)) = Some z /\ / 17592186044416 <= z <= 1).
  { unfold fdiv. destruct (Req_EM_T s 0); [lra|].
    assert (I : 0 < / s <= 1 - / 8796093022208).
    { split; [apply Rinv_0_lt_compat; lra|]. apply Rle_trans with (/ (1 + / 4398046511104)); [apply Rinv_le_contravar; lra|]. lra. }
    replace (1 / s) with (/ s) by (unfold Rdiv; ring). rewrite (fl_pos _ 0) by (try lia; rewrite <- one_bp; lra).
    assert (R1 : 0 <= rn (/ s) <= 1 - / 17592186044416) by (split; [apply rn_ge; [apply generic_format_0|lra]|apply rn_le_F; [exact F44|lra]]).
    unfold fsub, fop2. rewrite (fl_pos _ 0) by (try lia; rewrite <- one_bp; lra). eexists. split; [reflexivity|]. split; [apply rn_ge|apply rn_le_F; [apply F1|]; lra]; [|lra].
    change (/ 17592186044416) with (bpow radix2 (-44)). apply F_bpow; lia. }
  assert (Isup : exists z, fsub (Some s) (Some 1) = Some z /\ / 4398046511104 <= z <= 2 ^ 83).
  { unfold fsub, fop2. rewrite (fl_pos _ 83) by (try lia; rewrite <- P83; lra). eexists. split; [reflexivity|]. split; [apply rn_ge; [exact F42|lra]|apply rn_le_F; [rewrite P83; apply F_bpow; lia|lra]]. }
  destruct Isub as (z & Ez & Z), Isup as (y & Ey & Y).
  destruct (root_of z c) as (q & Eq & Q & Q1); [split; [lra|apply Rle_trans with 1; [lra|apply pow_R1_Rle; lra]]|lra|exact C|].
  destruct (root_of y c) as (r & Er & R1 & _); [split; [lra|apply Rle_trans with (2 ^ 83); [lra|apply Rle_pow; [lra|lia]]]|lra|exact C|].
  specialize (Q1 ltac:(lra)).
  exists s, (rn (1 - q)), (rn (1 + r)). split; [exact E|]. split; [lra|]. unfold float_MachSub_guess, float_MachSup_guess. rewrite Ez, Ey, Ec, Eq, Er.
  assert (Fm : F (1 - / 8388608)) by (replace (1 - / 8388608) with (IZR (2 ^ 23 - 1) * bpow radix2 (-23)) by (cbn; lra); apply F_mant; cbn; lia).
  assert (Fp : F (1 + / 8388608)) by (replace (1 + / 8388608) with (IZR (2 ^ 23 + 1) * bpow radix2 (-23)) by (cbn; lra); apply F_mant; cbn; lia).
  split; [|split; [|split]].
  - unfold fsub, fop2. apply (fl_bound _ 1); [apply F1| |rewrite one_bp; apply bpow_lt; lia]. apply Rabs_le. lra.
  - apply Rle_lt_trans with (1 - / 8388608); [apply rn_le_F; [exact Fm|lra]|lra].
  - unfold fadd, fop2. apply (fl_pos _ 51); [|lia]. split; [lra|]. apply Rle_trans with (1 + 2 ^ 50); [lra|]. cbn. lra.
  - apply Rlt_le_trans with (1 + / 8388608); [lra|]. apply rn_ge; [exact Fp|lra].
Qed.
(*@E C115_example: gamma = 1.5, the Mach number 2 and the correctly rounded power *)
Lemma C115_ex : libm_pow (fun x y => rn (Rpower x y)) /\ b64 (3 / 2) /\ b64 2 /\ 9 / 8 <= 3 / 2 <= 2 /\ / 1024 <= 2 <= 16 /\ / 2 ^ 20 <= Rabs (2 - 1).
Proof.
  destruct C114_ex as (A & B & C & D & E). repeat (split; [assumption|]). rewrite Rabs_pos_eq by lra. replace (2 ^ 20) with 1048576 by (rewrite pw; reflexivity). lra.
Qed.

(** ** At the throat *)
Lemma pred_1 : pred radix2 fmt 1 = 1 - / 9007199254740992.
Proof. rewrite one_bp, (pred_bpow radix2 fmt 0). cbn. lra. Qed.
Lemma below_1 x : F x -> x < 1 -> x <= 1 - / 9007199254740992.
Proof. intros Fx H. rewrite <- pred_1. apply pred_ge_gt; try typeclasses eauto; [exact Fx|apply F1|exact H]. Qed.
Lemma rn_below_1 x : x < 1 - / 18014398509481984 -> rn x < 1.
Proof.
  intros H. apply Rle_lt_trans with (1 - / 9007199254740992); [|lra]. rewrite <- pred_1.
  apply round_N_le_midp; try typeclasses eauto; [apply generic_format_pred; try typeclasses eauto; apply F1|].
  rewrite succ_pred; try typeclasses eauto; [|apply F1]. rewrite pred_1. lra.
Qed.
Lemma rn_above_1 x : 1 + / 9007199254740992 < x -> 1 + / 4503599627370496 <= rn x.
Proof.
  intros H. assert (S : succ radix2 fmt 1 = 1 + / 4503599627370496).
  { rewrite succ_eq_pos by lra. f_equal. change 1 with (bpow radix2 0) at 1. rewrite ulp_bpow. cbn. lra. }
  rewrite <- S. apply round_N_ge_midp; try typeclasses eauto; [apply generic_format_succ; try typeclasses eauto; apply F1|].
  rewrite pred_succ; try typeclasses eauto; [|apply F1]. rewrite S. lra.
Qed.
(** the quotient 2 / (gamma + 1) for gamma = 97 / 64 is rounded down by more than half of the spacing *)
Lemma q161 : / 2 <= rn (128 / 161) <= IZR 7161003134204018 * bpow radix2 (-53).
Proof.
  assert (FK : F (IZR 7161003134204018 * bpow radix2 (-53))) by (apply F_mant; cbn; lia).
  split; [apply rn_ge; [change (/ 2) with (bpow radix2 (-1)); apply F_bpow; lia|lra]|].
  apply round_N_le_midp; try typeclasses eauto; [exact FK|].
  rewrite succ_eq_pos by (apply Rmult_le_pos; [apply IZR_le; lia|apply bpow_ge_0]).
  assert (U : bpow radix2 (-53) <= ulp radix2 fmt (IZR 7161003134204018 * bpow radix2 (-53))).
  { apply Rle_trans with (ulp radix2 fmt (bpow radix2 (-1))); [rewrite ulp_bpow; apply bpow_le; cbn; lia|]. apply ulp_le_pos; try typeclasses eauto; [apply bpow_ge_0|]. cbn. lra. }
  cbn -[ulp] in U |- *. lra.
Qed.
(*@P C115_throat_refuted: At the throat itself rounding can put the computed section ratio below 1, and then both starting points are not numbers: for gamma = 97/64 and Mach 1 this happens with every accurate C library, so that inverting the section ratio of Mach 1 starts from nan. *)
Lemma throat_refuted : forall p, libm_pow p -> b64 (97 / 64) /\ b64 1 /\ exists s, float_Sigma_Mach p (Some 1) (Some (97 / 64)) = Some s /\ s < 1 /\
  float_MachSub_guess (Some s) (Some (97 / 64)) = None /\ float_MachSup_guess (Some s) (Some (97 / 64)) = None.
Proof.
  intros p L. split; [replace (97 / 64) with (IZR 97 * bpow radix2 (-6)) by (cbn; lra); apply b64_mant; cbn; lia|]. split; [apply (b64_IZR 1); cbn; lia|].
  assert (Fg : F (97 / 64)) by (replace (97 / 64) with (IZR 97 * bpow radix2 (-6)) by (cbn; lra); apply F_mant; cbn; lia).
  assert (Fp1 : F (161 / 64)) by (replace (161 / 64) with (IZR 161 * bpow radix2 (-6)) by (cbn; lra); apply F_mant; cbn; lia).
  assert (Fh1 : F (161 / 128)) by (replace (161 / 128) with (IZR 161 * bpow radix2 (-7)) by (cbn; lra); apply F_mant; cbn; lia).
  assert (Fh : F (1 / 2 * (97 / 64 - 1))) by (apply halfg_F; [exact Fg|lra]).
  assert (E1 : fadd (Some (97 / 64)) (Some 1) = Some (161 / 64)).
  { unfold fadd, fop2. replace (97 / 64 + 1) with (161 / 64) by lra. rewrite (fl_pos _ 2) by (try lia; change (bpow radix2 2) with 4; lra). now rewrite rn_F. }
  assert (E2 : fmul (Some (1 / 2)) (Some (161 / 64)) = Some (161 / 128)).
  { unfold fmul, fop2. replace (1 / 2 * (161 / 64)) with (161 / 128) by lra. rewrite (fl_pos _ 1) by (try lia; change (bpow radix2 1) with 2; lra). now rewrite rn_F. }
  assert (E3 : fadd (Some 1) (fmul (fmul (Some (1 / 2)) (fsub (Some (97 / 64)) (Some 1))) (fmul (Some 1) (Some 1))) = Some (161 / 128)).
  { rewrite half1 by (assumption || lra). unfold fmul, fop2. rewrite Rmult_1_r. rewrite (fl_pos 1 0) by (try lia; rewrite <- one_bp; lra). rewrite (rn_F 1 F1), Rmult_1_r.
    rewrite (fl_pos _ 0) by (try lia; rewrite <- one_bp; lra). rewrite (rn_F _ Fh). unfold fadd, fop2. replace (1 + 1 / 2 * (97 / 64 - 1)) with (161 / 128) by lra.
    rewrite (fl_pos _ 1) by (try lia; change (bpow radix2 1) with 2; lra). now rewrite rn_F. }
  assert (E4 : exists b, fmul (fdiv (Some 2) (Some (161 / 64))) (Some (161 / 128)) = Some b /\ F b /\ / 2 <= b <= 1 - / 9007199254740992).
  { unfold fdiv. destruct (Req_EM_T (161 / 64) 0); [lra|]. replace (2 / (161 / 64)) with (128 / 161) by lra. rewrite (fl_pos _ 0) by (try lia; rewrite <- one_bp; lra).
    destruct q161 as [Q1 Q2]. set (q := rn (128 / 161)) in *. assert (Q3 : q * (161 / 128) < 1 - / 18014398509481984) by (cbn in Q2; lra).
    unfold fmul, fop2. rewrite (fl_pos _ 0) by (try lia; rewrite <- one_bp; lra). eexists. split; [reflexivity|]. split; [apply F_rn|]. split.
    - apply rn_ge; [change (/ 2) with (bpow radix2 (-1)); apply F_bpow; lia|]. lra.
    - apply below_1; [apply F_rn|]. now apply rn_below_1. }
  assert (E5 : exists e, fdiv (Some (161 / 128)) (fsub (Some (97 / 64)) (Some 1)) = Some e /\ F e /\ 2 <= e <= 4).
  { rewrite sub1 by (assumption || lra). unfold fdiv. destruct (Req_EM_T (97 / 64 - 1) 0); [lra|]. replace (161 / 128 / (97 / 64 - 1)) with (161 / 66) by lra.
    rewrite (fl_pos _ 2) by (try lia; change (bpow radix2 2) with 4; lra). eexists. split; [reflexivity|]. split; [apply F_rn|]. split; [apply rn_ge; [apply F2|lra]|apply rn_le_F; [apply F4|lra]]. }
  destruct E4 as (b & Eb & Fb & B), E5 as (e & Ee & Fe & He).
  assert (R1 : Rpower b e <= b ^ 2).
  { replace (b ^ 2) with (Rpower b (INR 2)) by (apply Rpower_pow; lra). change (INR 2) with 2. unfold Rpower. apply exp_le. assert (ln b <= 0) by (rewrite <- ln_1; apply ln_le; lra). nra. }
  assert (R2 : / 16 <= Rpower b e).
  { apply Rle_trans with (Rpower b (INR 4)).
    - rewrite Rpower_pow by lra. apply Rle_trans with ((/ 2) ^ 4); [lra|]. apply pow_incr; lra.
    - replace (INR 4) with 4 by (cbn; lra). unfold Rpower. apply exp_le. assert (ln b <= 0) by (rewrite <- ln_1; apply ln_le; lra). nra. }
  assert (R3 : b ^ 2 <= (1 - / 9007199254740992) ^ 2) by (apply pow_incr; lra).
  destruct (L b e Fb Fe) as [Fv Hv]; [lra| |].
  { split; [apply Rle_trans with (bpow radix2 (-4)); [apply bpow_le; lia|cbn; lra]|]. apply Rle_trans with (bpow radix2 0); [|apply bpow_le; lia]. rewrite <- one_bp. lra. }
  apply abs_split in Hv. replace (2 ^ 52) with 4503599627370496 in Hv by (rewrite pw; reflexivity). set (s := p b e) in *.
  assert (S1 : / 32 <= s < 1).
  { split; [lra|]. apply Rle_lt_trans with ((1 - / 9007199254740992) ^ 2 * (1 + / 4503599627370496)); [|lra]. clear - Hv R1 R3 R2. nra. }
  assert (S2 := below_1 s Fv (proj2 S1)).
  assert (ES : float_Sigma_Mach p (Some 1) (Some (97 / 64)) = Some s).
  { unfold float_Sigma_Mach. rewrite E1, E2, E3, Eb, Ee. unfold fpow. destruct (Rlt_dec 0 b); [|lra]. fold s. rewrite (fl_pos s 0) by (try lia; rewrite <- one_bp; lra).
    rewrite (rn_F _ Fv). unfold fdiv. destruct (Req_EM_T 1 0); [lra|]. rewrite Rdiv_1. rewrite (fl_pos s 0) by (try lia; rewrite <- one_bp; lra). now rewrite (rn_F _ Fv). }
  exists s. split; [exact ES|]. split; [easy|].
  destruct (guess_coef (97 / 64) Fg) as (c & Ec & _ & C); [lra|].
  assert (N : forall z, - 64 <= z <= - / 9007199254740992 -> fsqrt (fmul (Some z) (Some c)) = None).
  { intros z Z. unfold fmul, fop2. assert (P : - 256 <= z * c <= - / 72057594037927936) by (split; nra).
    rewrite (fl_bound _ 256); [|apply (F_IZR 256); cbn; lia|apply Rabs_le; lra|change 256 with (bpow radix2 8); apply bpow_lt; lia].
    unfold fsqrt. destruct (Rlt_dec _ 0) as [|K]; [reflexivity|]. exfalso. apply K. apply Rle_lt_trans with (- / 72057594037927936); [|lra].
    apply rn_le_F; [|lra]. apply generic_format_opp. change (/ 72057594037927936) with (bpow radix2 (-56)). apply F_bpow; lia. }
  unfold float_MachSub_guess, float_MachSup_guess. rewrite Ec. split.
  - assert (I : / (1 - / 9007199254740992) <= / s <= 32) by (split; [apply Rinv_le_contravar; lra|rewrite <- (Rinv_inv 32); apply Rinv_le_contravar; lra]).
    unfold fdiv. destruct (Req_EM_T s 0); [lra|]. replace (1 / s) with (/ s) by (unfold Rdiv; ring).
    rewrite (fl_pos _ 5) by (try lia; change (bpow radix2 5) with 32; lra). assert (A1 := rn_above_1 (/ s) ltac:(lra)).
    assert (A2 : rn (/ s) <= 32) by (apply rn_le_F; [apply (F_IZR 32); cbn; lia|lra]). unfold fsub, fop2.
    rewrite (fl_bound _ 32); [|apply (F_IZR 32); cbn; lia|apply Rabs_le; lra|change 32 with (bpow radix2 5); apply bpow_lt; lia].
    rewrite N; [reflexivity|]. split.
    + apply rn_ge; [|lra]. apply generic_format_opp. apply (F_IZR 64); cbn; lia.
    + apply rn_le_F; [|lra]. apply generic_format_opp. change (/ 9007199254740992) with (bpow radix2 (-53)). apply F_bpow; lia.
  - unfold fsub, fop2. rewrite (fl_bound _ 32); [|apply (F_IZR 32); cbn; lia|apply Rabs_le; lra|change 32 with (bpow radix2 5); apply bpow_lt; lia].
    rewrite N; [reflexivity|]. split.
    + apply rn_ge; [|lra]. apply generic_format_opp. apply (F_IZR 64); cbn; lia.
    + apply rn_le_F; [|lra]. apply generic_format_opp. change (/ 9007199254740992) with (bpow radix2 (-53)). apply F_bpow; lia.
Qed.
