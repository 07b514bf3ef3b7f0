(** * Lemmas about the binary64 models *)
From Coq Require Import Reals List ZArith Lra Lia.
From Flocq Require Import Core Sterbenz Mult_error Relative.
From Verif Require Import M_Float FloatSpec.
Import ListNotations.
Open Scope R_scope.

Notation F := (generic_format radix2 fmt).
#[global] Instance prec53 : Prec_gt_0 53.
Proof. easy. Qed.
#[global] Instance fmt_valid : Valid_exp fmt.
Proof. apply FLT_exp_valid; easy. Qed.
#[global] Instance fmt_mono : Monotone_exp fmt.
Proof. apply FLT_exp_monotone. Qed.

Lemma rn_le x y : x <= y -> rn x <= rn y.
Proof. intros; apply round_le; try typeclasses eauto; easy. Qed.
Lemma rn_F x : F x -> rn x = x.
Proof. intros; apply round_generic; try typeclasses eauto; easy. Qed.
Lemma F_rn x : F (rn x).
Proof. apply generic_format_round; typeclasses eauto. Qed.
Lemma rn_ge a x : F a -> a <= x -> a <= rn x.
Proof. intros A H; rewrite <- (rn_F a A); now apply rn_le. Qed.
Lemma rn_le_F a x : F a -> x <= a -> rn x <= a.
Proof. intros A H; rewrite <- (rn_F a A); now apply rn_le. Qed.
Lemma F_bpow e : (-1074 <= e)%Z -> F (bpow radix2 e).
Proof. intro; apply generic_format_bpow; unfold fmt, FLT_exp; lia. Qed.
Lemma F_IZR n : (Z.abs n < 2 ^ 53)%Z -> F (IZR n).
Proof.
  intro H. apply generic_format_FLT; exists (Float radix2 n 0); [unfold F2R; cbn; ring|exact H|cbn; lia].
Qed.
Lemma F_mant n e : (Z.abs n < 2 ^ 53)%Z -> (-1074 <= e)%Z -> F (IZR n * bpow radix2 e).
Proof. intros H L. apply generic_format_FLT; exists (Float radix2 n e); [reflexivity|exact H|exact L]. Qed.
Lemma fl_Some x : Rabs (rn x) < bpow radix2 1024 -> fl x = Some (rn x).
Proof. intro H; unfold fl; destruct Rlt_dec; easy. Qed.
Lemma fl_bound x B : F B -> Rabs x <= B -> B < bpow radix2 1024 -> fl x = Some (rn x).
Proof.
  intros HB H L; apply fl_Some; apply Rle_lt_trans with B; [|easy].
  apply abs_round_le_generic; try typeclasses eauto; easy.
Qed.
Lemma half_ulp x : Rabs (rn x - x) <= / 2 * ulp radix2 fmt x.
Proof. apply error_le_half_ulp; typeclasses eauto. Qed.

(** the spacing of the numbers below [y] *)
Lemma ulp_spacing y h : F y -> 0 < y -> F h -> 0 < h -> y * bpow radix2 (-52) <= h -> ulp radix2 fmt y <= h.
Proof.
  intros Fy Py Fh Ph H. destruct (Rlt_or_le y (bpow radix2 (-1021))) as [L|L].
  - unfold fmt. rewrite ulp_FLT_small; [|easy|rewrite Rabs_pos_eq; [exact L|lra]].
    assert (G := ulp_le_abs radix2 fmt h ltac:(lra) Fh).
    assert (K : ulp radix2 fmt 0 <= ulp radix2 fmt h) by (apply ulp_ge_ulp_0; typeclasses eauto). unfold fmt in *. rewrite ulp_FLT_0 in K by easy. rewrite Rabs_pos_eq in G by lra. cbn beta in *. lra.
  - eapply Rle_trans; [|exact H]. rewrite <- (Rabs_pos_eq y) at 2 by lra.
    apply ulp_FLT_le; try easy. rewrite Rabs_pos_eq by lra.
    eapply Rle_trans; [|exact L]. apply bpow_le; lia.
Qed.


Lemma fl_below xStop z : b64 xStop -> 0 <= z <= xStop -> fl z = Some (rn z).
Proof.
  intros FS Z. apply fl_bound with xStop; [apply FS| |].
  - rewrite Rabs_pos_eq; lra.
  - assert (G := proj2 FS). rewrite Rabs_pos_eq in G by lra. easy.
Qed.
Lemma b64_below xStop z : b64 xStop -> F z -> 0 <= z <= xStop -> b64 z.
Proof. intros FS A Z; split; [easy|]. assert (G := proj2 FS). rewrite Rabs_pos_eq in * by lra. lra. Qed.

Section RK4.
Context (xStop h : R) (FS : b64 xStop) (Fh : b64 h) (Ph : 0 < h) (Hh : h < xStop / 2)
  (N : bpow radix2 (-1020) <= xStop) (U : xStop * bpow radix2 (-52) <= h).
Lemma PS : 0 < xStop. Proof. assert (G := bpow_gt_0 radix2 (-1020)); lra. Qed.
Lemma half_F : F (xStop / 2).
Proof.
  assert (P := PS). destruct FS as [A _].
  replace (xStop / 2) with (xStop * bpow radix2 (-1)) by (change (bpow radix2 (-1)) with (/ 2); lra).
  apply Mult_error.mult_bpow_exact_FLT; [easy|].
  assert (G : (-1020 < mag radix2 xStop)%Z); [|lia].
  apply mag_gt_bpow. rewrite Rabs_pos_eq by lra. exact N.
Qed.
(** near the end the remaining distance is computed exactly *)
Lemma last_exact x : F x -> 0 <= x < xStop -> rn (xStop - x) <= h -> rn (xStop - x) = xStop - x.
Proof.
  intros Fx [X0 X1] H. apply rn_F. destruct FS as [A _].
  destruct (Rle_or_lt (xStop / 2) (xStop - x)) as [L|L].
  - assert (G := rn_ge _ _ half_F L). lra.
  - apply sterbenz; try typeclasses eauto; try easy. lra.
Qed.
Lemma step_inside x : F x -> 0 <= x < xStop -> h <= rn (xStop - x) -> x + h <= xStop.
Proof.
  intros Fx X H. destruct (Rle_or_lt h (xStop - x)) as [L|L]; [lra|].
  destruct Fh as [Fh' _].
  assert (K := rn_le_F _ _ Fh' (Rlt_le _ _ L)). assert (E := last_exact x Fx X K). lra.
Qed.
Lemma advance x : F x -> 0 <= x < xStop -> h <= rn (xStop - x) -> x + h / 2 <= rn (x + h) <= xStop.
Proof.
  intros Fx X H. assert (I := step_inside x Fx X H). assert (P := PS). split.
  - assert (G := half_ulp (x + h)).
    assert (M : ulp radix2 fmt (x + h) <= ulp radix2 fmt xStop).
    { apply ulp_le_pos; try typeclasses eauto; lra. }
    assert (S : ulp radix2 fmt xStop <= h) by (apply ulp_spacing; try easy; apply FS || apply Fh).
    apply Rabs_le_inv in G. lra.
  - apply rn_le_F; [apply FS|easy].
Qed.
Inductive climbs : R -> list R -> Prop :=
| climbs_end : climbs xStop []
| climbs_step x x' X : x < x' -> b64 x' -> x' <= xStop -> climbs x' X -> climbs x (x' :: X).

Lemma rk4_runs {Y} (step : R -> Y -> R -> Y) n : forall x y, F x -> 0 <= x <= xStop -> xStop - x <= INR n * (h / 2) ->
  exists X Ys, float_rk4_loop step n x y xStop h = Some (X, Ys) /\ climbs x X /\ length Ys = length X.
Proof.
  induction n as [|n IH]; intros x y Fx X M.
  - cbn in M. assert (x = xStop) by lra. subst x.
    exists [], []. cbn. destruct Rlt_dec; [lra|]. repeat split; constructor.
  - cbn [float_rk4_loop]. destruct Rlt_dec as [L|L].
    2:{ assert (x = xStop) by lra. subst x. exists [], []. repeat split; constructor. }
    rewrite (fl_below xStop _ FS) by lra. destruct (Rlt_dec (rn (xStop - x)) h) as [D|D].
    + assert (E := last_exact x Fx (conj (proj1 X) L) (Rlt_le _ _ D)).
      rewrite E. replace (x + (xStop - x)) with xStop by ring.
      rewrite (fl_below xStop _ FS) by lra. rewrite (rn_F xStop) by apply FS.
      assert (G : float_rk4_loop step n xStop (step x y (xStop - x)) xStop (xStop - x) = Some ([], [])).
      { destruct n; cbn; destruct Rlt_dec; try lra; reflexivity. }
      rewrite G. eexists _, _. split; [reflexivity|]. split; [|reflexivity].
      constructor; [lra|easy|lra|constructor].
    + apply Rnot_lt_le in D.
      assert (A := advance x Fx (conj (proj1 X) L) D). assert (I := step_inside x Fx (conj (proj1 X) L) D).
      rewrite (fl_below xStop _ FS) by lra.
      destruct (IH (rn (x + h)) (step x y h)) as (Xs & Ys & E & C & LL).
      { apply F_rn. } { lra. } { rewrite S_INR in M. lra. }
      rewrite E. eexists _, _. split; [reflexivity|]. split; [|cbn; congruence].
      constructor; [lra|apply (b64_below xStop); [apply FS|apply F_rn|lra]|lra|exact C].
Qed.
End RK4.

(** ** RK4 *)
Lemma climbs_props xStop x X : climbs xStop x X -> increasing (x :: X) /\ last X x = xStop /\ List.Forall b64 X.
Proof.
  induction 1 as [|x x' X L B M C (I & E & A)]; [repeat split; constructor|].
  repeat split; [exact L|exact I| |constructor; easy].
  destruct X; [exact E|]. cbn [last] in *. rewrite <- E. clear. revert r. induction X; intro; [reflexivity|cbn in *; apply IHX].
Qed.

(*@P C81_reaches_partial: In binary64 arithmetic, for 0 <= x < xStop and a step between xStop / 2^52 and half of xStop, RK4 ends after at most 2 (xStop - x) / h + 2 passes whatever the right-hand side is; the abscissae start at x, are strictly increasing finite doubles and end exactly at xStop, one value of y per abscissa. *)
Lemma float_rk4_reaches : forall (Y : Type) (step : R -> Y -> R -> Y) (x xStop h : R) (y : Y),
  b64 x -> b64 xStop -> b64 h -> 0 <= x < xStop -> bpow radix2 (-1020) <= xStop ->
  xStop / 2 ^ 52 <= h < xStop / 2 ->
  exists passes X Ys, INR passes <= 2 * (xStop - x) / h + 2 /\
    float_RK4 step passes x y xStop h = Some (x :: X, y :: Ys) /\
    increasing (x :: X) /\ last X x = xStop /\ List.Forall b64 X /\ length Ys = length X.
Proof.
  intros Y step x xStop h y Bx BS Bh X N H.
  assert (P : 0 < xStop / 2 ^ 52) by (apply Rdiv_lt_0_compat; [lra|apply pow_lt; lra]).
  assert (Q : 0 < h) by lra.
  assert (U : xStop * bpow radix2 (-52) <= h).
  { replace (bpow radix2 (-52)) with (/ 2 ^ 52); [exact (proj1 H)|]. cbn. field. }
  set (r := 2 * (xStop - x) / h).
  assert (R0 : 0 <= r) by (unfold r; apply Rmult_le_pos; [lra|apply Rlt_le, Rinv_0_lt_compat; lra]).
  destruct (archimed r) as [A1 A2].
  assert (Z0 : (0 <= up r)%Z) by (apply le_IZR; lra).
  destruct (rk4_runs xStop h BS Bh Q (proj2 H) N U step (Z.to_nat (up r)) x y) as (Xs & Ys & E & C & L).
  { apply Bx. } { lra. }
  { rewrite INR_IZR_INZ, Z2Nat.id by easy. replace (xStop - x) with (r * (h / 2)) by (unfold r; field; lra).
    apply Rmult_le_compat_r; lra. }
  exists (Z.to_nat (up r)), Xs, Ys. repeat split.
  - rewrite INR_IZR_INZ, Z2Nat.id by easy. lra.
  - unfold float_RK4. now rewrite E.
  - apply (climbs_props _ _ _ C).
  - apply (climbs_props _ _ _ C).
  - apply (climbs_props _ _ _ C).
  - exact L.
Qed.
Lemma b64_IZR n : (Z.abs n < 2 ^ 53)%Z -> b64 (IZR n).
Proof.
  intro H. split; [now apply F_IZR|]. rewrite <- abs_IZR. apply Rlt_trans with (IZR (2 ^ 53)); [now apply IZR_lt|].
  change (IZR (2 ^ 53)) with (bpow radix2 53). apply bpow_lt; lia.
Qed.
Lemma b64_mant n e : (Z.abs n < 2 ^ 53)%Z -> (-1074 <= e <= 0)%Z -> b64 (IZR n * bpow radix2 e).
Proof.
  intros H L. split; [now apply F_mant|]. rewrite Rabs_mult, (Rabs_pos_eq (bpow radix2 e)) by apply bpow_ge_0.
  apply Rle_lt_trans with (Rabs (IZR n) * 1).
  - apply Rmult_le_compat_l; [apply Rabs_pos|]. change 1 with (bpow radix2 0). apply bpow_le; lia.
  - rewrite Rmult_1_r. apply (proj2 (b64_IZR n H)).
Qed.
(*@E C81_reaches_example: the hypotheses hold when integrating from 0 to 10 with steps of 1/4 *)
Lemma float_rk4_example : b64 0 /\ b64 10 /\ b64 (1 / 4) /\ 0 <= 0 < 10 /\ bpow radix2 (-1020) <= 10 /\ 10 / 2 ^ 52 <= 1 / 4 < 10 / 2.
Proof.
  split; [apply (b64_IZR 0); cbn; lia|]. split; [apply (b64_IZR 10); cbn; lia|].
  split; [replace (1 / 4) with (IZR 1 * bpow radix2 (-2)) by (cbn; lra); apply b64_mant; cbn; lia|].
  split; [lra|]. split; [|lra].
  apply Rle_trans with (bpow radix2 0); [apply bpow_le; lia|cbn; lra].
Qed.

Lemma ulp_lower x : 0 < x -> x / 2 ^ 53 <= ulp radix2 fmt x.
Proof.
  intro P. assert (G := ulp_FLT_gt radix2 (-1074) 53 x). rewrite Rabs_pos_eq in G by lra.
  change (FLT_exp (-1074) 53) with fmt in G. change (bpow radix2 (-(53))) with (/ IZR (2 ^ 53)) in G.
  unfold Rdiv. assert (E : 2 ^ 53 = IZR (2 ^ 53)) by (rewrite pow_IZR; reflexivity). rewrite E. lra.
Qed.
Lemma absorbed x h : F x -> 0 < x -> 0 <= h < x / 2 ^ 54 -> rn (x + h) = x.
Proof.
  intros Fx P H. apply Rle_antisym.
  - apply round_N_le_midp; try typeclasses eauto; [exact Fx|]. rewrite succ_eq_pos by lra.
    assert (G := ulp_lower x P). replace (x / 2 ^ 53) with (2 * (x / 2 ^ 54)) in G by (cbn; field). lra.
  - apply rn_ge; [easy|lra].
Qed.
Lemma stalls {Y} (step : R -> Y -> R -> Y) x xStop : b64 x -> b64 xStop -> 0 < x < xStop ->
  forall fuel y h, 0 <= h < x / 2 ^ 54 -> float_rk4_loop step fuel x y xStop h = None.
Proof.
  intros Bx BS X. induction fuel as [|k IH]; intros y h H; cbn [float_rk4_loop]; destruct Rlt_dec; try lra; [reflexivity|].
  rewrite (fl_below xStop _ BS) by lra.
  assert (D : 0 <= rn (xStop - x)) by (apply rn_ge; [apply generic_format_0|lra]).
  set (h' := if Rlt_dec (rn (xStop - x)) h then rn (xStop - x) else h).
  assert (H' : 0 <= h' < x / 2 ^ 54) by (unfold h'; destruct Rlt_dec; lra).
  rewrite fl_Some; rewrite (absorbed x h' (proj1 Bx) (proj1 X) H'); [|apply Bx].
  now rewrite IH.
Qed.
(*@P C81_stall_refuted: In binary64 arithmetic RK4 never ends when 0 < x < xStop and the step is below x / 2^54: x + h is rounded to x and the loop runs for ever, whatever the right-hand side. *)
Lemma float_rk4_stalls : forall (Y : Type) (step : R -> Y -> R -> Y) (x xStop h : R) (y : Y),
  b64 x -> b64 xStop -> b64 h -> 0 < x < xStop -> 0 < h < x / 2 ^ 54 ->
  forall passes, float_RK4 step passes x y xStop h = None.
Proof.
  intros Y step x xStop h y Bx BS Bh X H passes. unfold float_RK4. rewrite (stalls step x xStop); try easy. lra.
Qed.
(*@E C81_stall_example: such a call: from 1 to 2 with the step 2^-60 *)
Lemma float_rk4_stall_example : b64 1 /\ b64 2 /\ b64 (bpow radix2 (-60)) /\ 0 < 1 < 2 /\ 0 < bpow radix2 (-60) < 1 / 2 ^ 54.
Proof.
  split; [apply (b64_IZR 1); cbn; lia|]. split; [apply (b64_IZR 2); cbn; lia|].
  split; [rewrite <- (Rmult_1_l (bpow radix2 (-60))); apply (b64_mant 1); cbn; lia|].
  cbn. lra.
Qed.

Lemma up_one : rn (1 + IZR 3 * bpow radix2 (-54)) = 1 + IZR 4 * bpow radix2 (-54).
Proof.
  assert (F1 : F (1 + IZR 4 * bpow radix2 (-54))).
  { replace (1 + IZR 4 * bpow radix2 (-54)) with (IZR (2 ^ 52 + 1) * bpow radix2 (-52)) by (cbn; lra). apply F_mant; cbn; lia. }
  assert (F0 : F 1) by (apply (F_IZR 1); cbn; lia).
  assert (S : succ radix2 fmt 1 = 1 + IZR 4 * bpow radix2 (-54)).
  { rewrite succ_eq_pos by lra. f_equal. change 1 with (bpow radix2 0) at 1. rewrite ulp_bpow. cbn. lra. }
  apply Rle_antisym.
  - apply rn_le_F; [easy|]. apply Rplus_le_compat_l, Rmult_le_compat_r; [apply bpow_ge_0|lra].
  - apply round_N_ge_midp; try typeclasses eauto; [easy|]. rewrite <- S at 2. rewrite pred_succ; try typeclasses eauto; [|easy].
    cbn. lra.
Qed.
(*@P C81_overshoot_refuted: In binary64 arithmetic RK4 can end beyond xStop, not at xStop: from -1 to 3 / 2^54 with the step 2 it makes one step and ends at 4 / 2^54. *)
Lemma float_rk4_overshoot : forall (Y : Type) (step : R -> Y -> R -> Y) (y : Y),
  b64 (-1) /\ b64 (3 * bpow radix2 (-54)) /\ b64 2 /\
  exists passes Ys, float_RK4 step passes (-1) y (3 * bpow radix2 (-54)) 2 = Some (-1 :: 4 * bpow radix2 (-54) :: [], Ys).
Proof.
  intros Y step y. split; [apply (b64_IZR (-1)); cbn; lia|]. split; [apply (b64_mant 3); cbn; lia|].
  split; [apply (b64_IZR 2); cbn; lia|].
  assert (F4 : F (IZR 4 * bpow radix2 (-54))) by (apply F_mant; cbn; lia).
  exists 1%nat. eexists. unfold float_RK4. cbn [float_rk4_loop].
  assert (K : bpow radix2 (-54) = / IZR (2 ^ 54)) by reflexivity.
  assert (K' : IZR (2 ^ 54) = 18014398509481984) by reflexivity.
  destruct Rlt_dec as [L|L]; [|exfalso; apply L; rewrite K, K'; lra].
  replace (3 * bpow radix2 (-54) - -1) with (1 + IZR 3 * bpow radix2 (-54)) by ring.
  rewrite fl_Some; rewrite up_one; [|rewrite Rabs_pos_eq by (rewrite K, K'; lra);
    apply Rlt_trans with (bpow radix2 1); [rewrite K, K'; cbn; lra|apply bpow_lt; lia]].
  destruct Rlt_dec as [D|D]; [|exfalso; apply D; rewrite K, K'; lra].
  replace (-1 + (1 + IZR 4 * bpow radix2 (-54))) with (IZR 4 * bpow radix2 (-54)) by ring.
  rewrite fl_Some; rewrite (rn_F _ F4); [|apply b64_mant; cbn; lia].
  destruct Rlt_dec as [M|M]; [exfalso; rewrite K, K' in M; lra|]. reflexivity.
Qed.

Lemma err z : Rabs (rn z - z) <= Rabs z / 2 ^ 53 + bpow radix2 (-1075).
Proof.
  destruct (relative_error_N_FLT'_ex radix2 (-1074) 53 ltac:(easy) (fun x => negb (Z.even x)) z) as (e & n & E & N & _ & Q).
  change (round radix2 (FLT_exp (-1074) 53) (Znearest (fun x => negb (Z.even x))) z) with (rn z) in Q.
  rewrite Q. replace (z * (1 + e) + n - z) with (z * e + n) by ring.
  eapply Rle_trans; [apply Rabs_triang|]. apply Rplus_le_compat.
  - rewrite Rabs_mult. unfold Rdiv. apply Rmult_le_compat_l; [apply Rabs_pos|]. eapply Rle_trans; [exact E|].
    unfold u_ro. change (bpow radix2 (-(53) + 1)) with (/ IZR (2 ^ 52)).
    assert (K : 2 ^ 53 = IZR (2 ^ 53)) by (rewrite pow_IZR; reflexivity). rewrite K. cbn. lra.
  - eapply Rle_trans; [exact N|]. right. change (-1075)%Z with (-1074 + -1)%Z. rewrite bpow_plus. cbn. ring.
Qed.
Lemma end_bound {Y} (step : R -> Y -> R -> Y) xStop m : - m <= xStop <= m ->
  forall fuel x y h X Ys, F x -> - m <= x -> x <= xStop + m / 2 ^ 50 + bpow radix2 (-1073) -> 0 <= h ->
  float_rk4_loop step fuel x y xStop h = Some (X, Ys) ->
  xStop <= last X x <= xStop + m / 2 ^ 50 + bpow radix2 (-1073).
Proof.
  intros MS. assert (K : 2 ^ 53 = 9007199254740992) by (rewrite pow_IZR; reflexivity).
  assert (K0 : 2 ^ 50 = 1125899906842624) by (rewrite pow_IZR; reflexivity).
  induction fuel as [|k IH]; intros x y h X Ys Fx Mx Ux Hh; cbn [float_rk4_loop]; destruct Rlt_dec as [L|L].
  - discriminate.
  - intro E; injection E as <- <-. cbn [last]. split; [now apply Rnot_lt_le|exact Ux].
  - destruct (fl (xStop - x)) as [d|] eqn:D; [|discriminate].
    unfold fl in D. destruct Rlt_dec as [_|] in D; [|discriminate]. injection D as D.
    set (h' := if Rlt_dec d h then d else h).
    destruct (fl (x + h')) as [x'|] eqn:E; [|discriminate].
    unfold fl in E. destruct Rlt_dec as [_|] in E; [|discriminate]. injection E as E.
    destruct float_rk4_loop as [[Xs Yss]|] eqn:RR; [|discriminate].
    intro Q; injection Q as <- <-.
    assert (D0 : 0 <= d) by (rewrite <- D; apply rn_ge; [apply generic_format_0|lra]).
    assert (H0 : 0 <= h') by (unfold h'; destruct Rlt_dec; lra).
    assert (H1 : h' <= d) by (unfold h'; destruct Rlt_dec; lra).
    assert (X0 : x <= x') by (rewrite <- E; apply rn_ge; [easy|lra]).
    assert (X1 : x' <= rn (x + d)) by (rewrite <- E; apply rn_le; lra).
    assert (Fx' : F x') by (rewrite <- E; apply F_rn).
    assert (A := err (xStop - x)). rewrite D in A. rewrite (Rabs_pos_eq (xStop - x)) in A by lra. apply Rabs_le_inv in A.
    assert (B := err (x + d)). apply Rabs_le_inv in B.
    assert (T : bpow radix2 (-1073) = 4 * bpow radix2 (-1075)).
    { change (-1073)%Z with (2 + -1075)%Z. rewrite bpow_plus. reflexivity. }
    assert (T0 := bpow_gt_0 radix2 (-1075)).
    assert (U' : x' <= xStop + m / 2 ^ 50 + bpow radix2 (-1073)).
    { clear IH RR. rewrite T. clear T. revert A B T0. rewrite K, K0. generalize (bpow radix2 (-1075)). intros t A B T0. assert (C : Rabs (x + d) <= 3 * m + t) by (apply Rabs_le; split; lra).
      lra. }
    assert (G := IH x' _ _ _ _ Fx' ltac:(lra) U' H0 RR).
    replace (last (x' :: Xs) x) with (last Xs x'); [exact G|].
    destruct Xs as [|z Xs]; [reflexivity|]. cbn [last]. clear. revert z. induction Xs; intro; [reflexivity|cbn in *; apply IHXs].
  - intro E; injection E as <- <-. cbn [last]. split; [now apply Rnot_lt_le|exact Ux].
Qed.
(*@P C81_end: In binary64 arithmetic, whenever RK4 returns, its last abscissa is xStop up to rounding: not before xStop and at most m / 2^50 + 2^-1073 beyond it, m being the larger of |x| and |xStop|. *)
Lemma float_rk4_end : forall (Y : Type) (step : R -> Y -> R -> Y) (x xStop h : R) (y : Y) passes X Ys,
  b64 x -> b64 xStop -> b64 h -> x <= xStop -> 0 <= h ->
  float_RK4 step passes x y xStop h = Some (x :: X, y :: Ys) ->
  xStop <= last X x <= xStop + Rmax (Rabs x) (Rabs xStop) / 2 ^ 50 + bpow radix2 (-1073).
Proof.
  intros Y step x xStop h y passes X Ys Bx BS Bh L H E. unfold float_RK4 in E.
  destruct float_rk4_loop as [[Xs Yss]|] eqn:RR; [|discriminate]. injection E as -> ->.
  set (m := Rmax (Rabs x) (Rabs xStop)).
  assert (M1 : Rabs x <= m) by apply Rmax_l. assert (M2 : Rabs xStop <= m) by apply Rmax_r.
  apply Rabs_le_inv in M1. apply Rabs_le_inv in M2.
  assert (P : 0 <= m / 2 ^ 50) by (apply Rmult_le_pos; [lra|apply Rlt_le, Rinv_0_lt_compat, pow_lt; lra]).
  assert (P' := bpow_gt_0 radix2 (-1073)).
  apply (end_bound step xStop m M2 passes x y h X Ys); try easy; [apply Bx|lra].
Qed.
