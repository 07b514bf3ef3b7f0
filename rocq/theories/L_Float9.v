(** * Accuracy of the binary64 functions with powers *)
From Coq Require Import Bool Reals List ZArith Lra Lia Psatz.
From Flocq Require Import Core.
From Verif Require Import Num M_Isentropic M_MassFlow M_Fanno M_Rayleigh L_Isentropic L_MassFlow L_Fanno L_Rayleigh M_Float M_FloatPow FloatSpec L_Float L_Float2 L_Float6 L_Float7 L_Float8.
Open Scope R_scope.

Lemma ln_le x y : 0 < x -> x <= y -> ln x <= ln y.
Proof. intros H [L| ->]; [left; now apply ln_increasing|right; reflexivity]. Qed.
Lemma near_libm v x : 0 < x -> Rabs (v - x) <= x / 2 ^ 52 -> near 3 v x.
Proof.
  intros X A. replace (2 ^ 52) with 4503599627370496 in A by (rewrite pw; reflexivity). apply abs_split in A. unfold near. cbn [pow].
  split; [exact X|]. split.
  - apply Rle_trans with (x * (1 - 2 / 9007199254740992)); [apply Rmult_le_compat_l; lra|lra].
  - apply Rle_trans with (x * (1 + 2 / 9007199254740992) * ((1 - / 9007199254740992) * ((1 - / 9007199254740992) * ((1 - / 9007199254740992) * 1)))); [apply Rmult_le_compat_r; lra|].
    rewrite <- (Rmult_1_r x) at 2. rewrite Rmult_assoc. apply Rmult_le_compat_l; lra.
Qed.
Lemma Rpower_INR w n : 0 < w -> Rpower w (INR n) = w ^ n.
Proof. intros. now apply Rpower_pow. Qed.
Lemma Rpower_mult2 x y z : 0 < x -> 0 < y -> Rpower (x * y) z = Rpower x z * Rpower y z.
Proof. intros. symmetry. now apply Rpower_mult_distr. Qed.
Lemma near_pow k a A y N : near k a A -> 0 <= y <= INR N -> near (k * N) (Rpower a y) (Rpower A y).
Proof.
  intros H Y. pose proof (near_pos _ _ _ H) as a0. destruct H as (A0 & P & Q). pose proof (w_pos k) as W. pose proof (w_le k) as W1.
  set (w := (1 - / 9007199254740992) ^ k) in *.
  assert (E : (1 - / 9007199254740992) ^ (k * N) <= Rpower w y).
  { rewrite pow_mult. fold w. rewrite <- Rpower_INR by assumption. unfold Rpower. apply Raux.exp_le. 
    assert (ln w <= 0) by (rewrite <- ln_1; apply ln_le; lra). nra. }
  assert (A1 : 0 < Rpower A y) by apply exp_pos. assert (a1 : 0 < Rpower a y) by apply exp_pos. split; [exact A1|]. split.
  - apply Rle_trans with (Rpower A y * Rpower w y); [apply Rmult_le_compat_l; lra|]. rewrite <- Rpower_mult2 by assumption. apply Rle_Rpower_l; [lra|]. split; [apply Rmult_lt_0_compat; lra|exact P].
  - apply Rle_trans with (Rpower a y * Rpower w y); [apply Rmult_le_compat_l; lra|]. rewrite <- Rpower_mult2 by assumption. apply Rle_Rpower_l; [lra|]. split; [apply Rmult_lt_0_compat; lra|exact Q].
Qed.
Lemma exp_w m : exp (- (INR m * / 9007199254740992)) >= (1 - / 9007199254740992) ^ m.
Proof.
  induction m as [|m IH]; [cbn; rewrite Rmult_0_l, Ropp_0, exp_0; lra|]. rewrite S_INR. cbn [pow].
  replace (- ((INR m + 1) * / 9007199254740992)) with (- / 9007199254740992 + - (INR m * / 9007199254740992)) by ring. rewrite exp_plus.
  apply Rle_ge. apply Rmult_le_compat; [lra|apply Rlt_le, w_pos| |lra]. pose proof (exp_ineq1_le (- / 9007199254740992)). lra.
Qed.
Lemma near_expo A b B m : Rabs ((b - B) * ln A) <= INR m * / 9007199254740992 -> near m (Rpower A b) (Rpower A B).
Proof.
  intros H. apply Rabs_le_inv in H. assert (E : forall x y, (x - y) * ln A >= - (INR m * / 9007199254740992) -> Rpower A y * (1 - / 9007199254740992) ^ m <= Rpower A x).
  { intros x y G. replace (Rpower A x) with (Rpower A y * exp ((x - y) * ln A)) by (unfold Rpower; rewrite <- exp_plus; f_equal; ring).
    apply Rmult_le_compat_l; [apply Rlt_le, exp_pos|]. apply Rle_trans with (exp (- (INR m * / 9007199254740992))); [apply Rge_le, exp_w|apply Raux.exp_le; lra]. }
  split; [apply exp_pos|]. split; apply E; lra.
Qed.
Lemma ln_bpow e : ln (bpow radix2 e) = IZR e * ln 2.
Proof. rewrite bpow_exp. change (IZR radix2) with 2. apply ln_exp. Qed.
Lemma ln2_range : 0 < ln 2 <= 3 / 4.
Proof.
  split; [rewrite <- ln_1; apply ln_increasing; lra|]. rewrite <- (ln_exp (3 / 4)). apply ln_le; [lra|].
  assert (H : 1 + 3 / 32 <= exp (3 / 32)) by (pose proof (exp_ineq1_le (3 / 32)); lra).
  replace (3 / 4) with (3/32+3/32+3/32+3/32+(3/32+3/32+3/32+3/32)) by field. rewrite !exp_plus. set (x := exp (3 / 32)) in *. clearbody x.
  assert (Q : (1 + 3 / 32) * (1 + 3 / 32) <= x * x) by (apply Rmult_le_compat; lra).
  assert (Q2 : (1 + 3 / 32) * (1 + 3 / 32) * ((1 + 3 / 32) * (1 + 3 / 32)) <= x * x * (x * x)) by (apply Rmult_le_compat; lra).
  replace (x * x * x * x * (x * x * x * x)) with (x * x * (x * x) * (x * x * (x * x))) by ring.
  assert (Q3 : ((1 + 3 / 32) * (1 + 3 / 32) * ((1 + 3 / 32) * (1 + 3 / 32))) * ((1 + 3 / 32) * (1 + 3 / 32) * ((1 + 3 / 32) * (1 + 3 / 32))) <= x * x * (x * x) * (x * x * (x * x))) by (apply Rmult_le_compat; lra).
  lra.
Qed.
(** exponent of a power in terms of the exponents of its operands *)
Definition pk (a b : fexp) : Z := (Z.max 1 (Z.max (Z.abs (fst (bnd a))) (Z.abs (snd (bnd a)))) * 2 ^ Z.max 0 (snd (bnd b)))%Z.
Definition pcnt (a b : fexp) : nat := (cnt a * Z.to_nat (2 ^ Z.max 0 (snd (bnd b))) + cnt b * Z.to_nat (pk a b) + 3)%nat.
Definition fneg (b : bool) (x : fnum) : fnum := if b then match x with Some v => Some (- v) | None => None end else x.
Definition rneg (b : bool) (x : R) : R := if b then - x else x.
Lemma F_neg x : F x -> F (- x). Proof. apply generic_format_opp. Qed.
Lemma ln_in p v : inb p v -> Rabs (ln v) <= IZR (Z.max (Z.abs (fst p)) (Z.abs (snd p))) * ln 2.
Proof.
  intros [A B]. assert (P := bpow_gt_0 radix2 (fst p)). destruct ln2_range as [L _].
  assert (ln (bpow radix2 (fst p)) <= ln v) by (apply ln_le; lra). assert (ln v <= ln (bpow radix2 (snd p))) by (apply ln_le; lra).
  rewrite ln_bpow in *. apply Rabs_le. set (m := Z.max (Z.abs (fst p)) (Z.abs (snd p))).
  assert (IZR (- m) <= IZR (fst p)) by (apply IZR_le; lia). assert (IZR (snd p) <= IZR m) by (apply IZR_le; lia). rewrite opp_IZR in *. split; [|nra]. 
  apply Rle_trans with (IZR (fst p) * ln 2); [nra|lra].
Qed.
Lemma near_ln k a A : (Z.of_nat k <= 1000000)%Z -> near k a A -> Rabs (ln A) <= Rabs (ln a) + / 100.
Proof.
  intros K N. pose proof (near_pos _ _ _ N) as a0. destruct N as (A0 & P & Q). pose proof (w_lin k). pose proof (w_pos k). pose proof (w_le k).
  assert (INR k <= 1000000). { rewrite INR_IZR_INZ. now apply IZR_le. }
  set (w := (1 - / 9007199254740992) ^ k) in *. assert (W : 1 - / 1000 <= w) by lra.
  assert (LW : - / 100 <= ln w <= 0).
  { split; [|rewrite <- ln_1; apply ln_le; lra]. rewrite <- (ln_exp (- / 100)). apply ln_le; [apply exp_pos|]. apply Rle_trans with (1 - / 1000); [|exact W].
    assert (E := exp_ineq1_le (/ 100)). rewrite exp_Ropp. apply Rmult_le_reg_r with (exp (/ 100)); [apply exp_pos|]. rewrite Rinv_l by (apply Rgt_not_eq, exp_pos). 
    apply Rle_trans with ((1 - / 1000) * (1 + / 100)); [lra|]. apply Rmult_le_compat_l; lra. }
  assert (L1 : ln A + ln w <= ln a) by (rewrite <- ln_mult by lra; apply ln_le; [apply Rmult_lt_0_compat; lra|exact P]).
  assert (L2 : ln a + ln w <= ln A) by (rewrite <- ln_mult by lra; apply ln_le; [apply Rmult_lt_0_compat; lra|exact Q]).
  clearbody w. unfold Rabs. destruct (Rcase_abs (ln A)), (Rcase_abs (ln a)); lra.
Qed.
Lemma near_abs k v x : (Z.of_nat k <= 1000000)%Z -> near k v x -> Rabs (v - x) <= v * (INR k * (1 + / 100)) * / 9007199254740992.
Proof.
  intros K N. pose proof (near_pos _ _ _ N) as V. destruct N as (X & P & Q). pose proof (w_lin k). pose proof (w_pos k). pose proof (w_le k).
  assert (INR k <= 1000000). { rewrite INR_IZR_INZ. now apply IZR_le. }
  pose proof (pos_INR k). set (w := (1 - / 9007199254740992) ^ k) in *. clearbody w. set (t := INR k) in *. clearbody t.
  apply Rabs_le. split.
  - assert (X1 : x * (1 - t * / 9007199254740992) <= v) by (apply Rle_trans with (2 := P); apply Rmult_le_compat_l; lra).
    assert (X2 : x <= v * (1 + t * (1 + / 100) * / 9007199254740992)).
    { apply Rmult_le_reg_r with (1 - t * / 9007199254740992); [lra|]. apply Rle_trans with (1 := X1). rewrite <- (Rmult_1_r v) at 1. rewrite Rmult_assoc. apply Rmult_le_compat_l; [lra|].
      set (q := t * / 9007199254740992). assert (0 <= q <= / 1000) by (unfold q; lra). replace (t * (1 + / 100) * / 9007199254740992) with (q * (1 + / 100)) by (unfold q; ring). nra. }
    lra.
  - assert (v * (1 - t * / 9007199254740992) <= x) by (apply Rle_trans with (2 := Q); apply Rmult_le_compat_l; lra).
    assert (0 <= v * t) by nra. lra.
Qed.
Theorem pow_sound p a b neg : libm_pow p -> wf a -> chk a = true -> wf b -> chk b = true -> (pk a b <=? 1000)%Z = true ->
  (Z.of_nat (cnt a) <= 1000000)%Z -> (Z.of_nat (cnt b) <= 1000000)%Z ->
  exists v, fpow p (fxf a) (fneg neg (fxf b)) = Some v /\ F v /\ inb (- pk a b - 1, pk a b + 1)%Z v /\ near (pcnt a b) v (Rpower (fxr a) (rneg neg (fxr b))).
Proof.
  intros L Wa Ca Wb Cb HK Na Nb. apply Z.leb_le in HK.
  destruct (fexp_sound a Wa Ca) as (x & -> & NX & BX & FX). destruct (fexp_sound b Wb Cb) as (y & -> & NY & BY & FY).
  unfold pcnt. set (N := (2 ^ Z.max 0 (snd (bnd b)))%Z) in *. set (m := Z.max (Z.abs (fst (bnd a))) (Z.abs (snd (bnd a)))) in *.
  assert (EK : pk a b = (Z.max 1 m * N)%Z) by reflexivity. set (K := pk a b) in *. clearbody K.
  assert (N1 : (1 <= N)%Z) by (unfold N; assert (0 < 2 ^ Z.max 0 (snd (bnd b)))%Z by (apply Z.pow_pos_nonneg; lia); lia).
  assert (x0 := near_pos _ _ _ NX). assert (y0 := near_pos _ _ _ NY).
  assert (YN : 0 <= y <= INR (Z.to_nat N)).
  { split; [lra|]. rewrite INR_IZR_INZ, Z2Nat.id by lia. destruct BY as [_ BY]. apply Rle_trans with (1 := BY). unfold N. change 2%Z with (radix2 : Z). rewrite IZR_Zpower by lia. apply bpow_le. lia. }
  assert (LX := ln_in _ _ BX). fold m in LX. destruct ln2_range as [l0 l1].
  assert (MK : IZR m * IZR N <= IZR K). { rewrite EK, mult_IZR. apply Rmult_le_compat_r; [apply IZR_le; lia|apply IZR_le; lia]. }
  assert (m0 : 0 <= IZR m) by (apply IZR_le; unfold m; lia).
  assert (YN' : y <= IZR N) by (rewrite INR_IZR_INZ, Z2Nat.id in YN by lia; lra).
  assert (PW : Rabs (y * ln x) <= IZR K * ln 2).
  { rewrite Rabs_mult, (Rabs_pos_eq y) by lra. apply Rle_trans with (IZR N * (IZR m * ln 2)); [apply Rmult_le_compat; try lra; apply Rabs_pos|]. nra. }
  assert (PS : Rabs (rneg neg y * ln x) <= IZR K * ln 2). { destruct neg; cbn [rneg]; [rewrite Ropp_mult_distr_l_reverse, Rabs_Ropp|]; exact PW. }
  assert (PB : bpow radix2 (- K) <= Rpower x (rneg neg y) <= bpow radix2 K).
  { apply Rabs_le_inv in PS. rewrite !bpow_exp. unfold Rpower. change (IZR radix2) with 2. rewrite opp_IZR. split; apply Raux.exp_le; lra. }
  assert (FY' : F (rneg neg y)) by (destruct neg; cbn [rneg]; [now apply F_neg|exact FY]).
  assert (K0 : (0 <= K)%Z) by nia.
  destruct (L x (rneg neg y) FX FY' x0) as [FP EP]. { split; [apply Rle_trans with (2 := proj1 PB)|apply Rle_trans with (1 := proj2 PB)]; apply bpow_le; lia. }
  set (v := p x (rneg neg y)) in *. assert (R0 : 0 < Rpower x (rneg neg y)) by apply exp_pos.
  assert (VB : bpow radix2 (- K - 1) <= v <= bpow radix2 (K + 1)).
  { assert (EP' := EP). replace (2 ^ 52) with 4503599627370496 in EP' by (rewrite pw; reflexivity). apply abs_split in EP'. 
    unfold Z.sub. rewrite !bpow_plus. change (bpow radix2 1) with 2. change (bpow radix2 (- (1))) with (/ 2). lra. }
  exists v. split.
  { unfold fpow. replace (fneg neg (Some y)) with (Some (rneg neg y)) by now destruct neg. destruct (Rlt_dec 0 x); [|lra]. fold v.
    rewrite (fl_pos v (K + 1)) by (lia || (assert (Q := bpow_gt_0 radix2 (- K - 1)); lra)). now rewrite rn_F. }
  split; [exact FP|]. split; [exact VB|].
  assert (N3 := near_libm _ _ R0 EP). assert (A0 : 0 < fxr a) by apply NX.
  assert (NP : near (cnt a * Z.to_nat N) (Rpower x (rneg neg y)) (Rpower (fxr a) (rneg neg y))).
  { assert (G := near_pow _ _ _ y _ NX YN). destruct neg; cbn [rneg]; [|exact G]. rewrite !Rpower_Ropp. now apply near_inv. }
  assert (NE : near (cnt b * Z.to_nat K) (Rpower (fxr a) (rneg neg y)) (Rpower (fxr a) (rneg neg (fxr b)))).
  { apply near_expo. replace (rneg neg y - rneg neg (fxr b)) with (rneg neg (y - fxr b)) by (destruct neg; cbn [rneg]; ring).
    replace (Rabs (rneg neg (y - fxr b) * ln (fxr a))) with (Rabs (y - fxr b) * Rabs (ln (fxr a))) by (destruct neg; cbn [rneg]; rewrite Rabs_mult, ?Rabs_Ropp; reflexivity).
    assert (D := near_abs _ _ _ Nb NY). assert (LA := near_ln _ _ _ Na NX). rewrite mult_INR, (INR_IZR_INZ (Z.to_nat K)), Z2Nat.id by lia.
    assert (c0 := pos_INR (cnt b)). set (c := INR (cnt b)) in *. clearbody c.
    assert (LA2 : Rabs (ln (fxr a)) <= 76 / 100 * IZR (Z.max 1 m)).
    { assert (1 <= IZR (Z.max 1 m)) by (apply IZR_le; lia). assert (IZR m <= IZR (Z.max 1 m)) by (apply IZR_le; lia). nra. }
    apply Rle_trans with (y * (c * (1 + / 100)) * / 9007199254740992 * (76 / 100 * IZR (Z.max 1 m))); [apply Rmult_le_compat; [apply Rabs_pos|apply Rabs_pos|exact D|exact LA2]|].
    rewrite EK, mult_IZR. assert (1 <= IZR (Z.max 1 m)) by (apply IZR_le; lia). set (M := IZR (Z.max 1 m)) in *. set (n := IZR N) in *. clearbody M n. clear - y0 YN' c0 H.
    replace (y * (c * (1 + / 100)) * / 9007199254740992 * (76 / 100 * M)) with (c * M * (y * (7676 / 10000)) * / 9007199254740992) by field.
    replace (c * (M * n) * / 9007199254740992) with (c * M * n * / 9007199254740992) by ring. apply Rmult_le_compat_r; [lra|]. apply Rmult_le_compat_l; [apply Rmult_le_pos; lra|lra]. }
  assert (G := near_trans _ _ _ _ _ N3 (near_trans _ _ _ _ _ NP NE)). eapply near_le; [|exact G]. lia.
Qed.
