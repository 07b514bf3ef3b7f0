(** * Binary64 Mach number from the total to static pressure ratio, and back *)
From Coq Require Import Bool Reals List ZArith Lra Lia Psatz.
From Flocq Require Import Core.
From Verif Require Import Num M_Isentropic L_Isentropic M_Float M_FloatPow FloatSpec L_Float L_Float2 L_Float6 L_Float7 L_Float9 L_Float10.
Open Scope R_scope.

Lemma tt_range g M : 9 / 8 <= g <= 2 -> / 1024 <= M <= 16 -> 1 + / 16777216 <= tt g M <= 129.
Proof.
  intros G H. unfold tt. assert (M ^ 2 <= 256) by (replace 256 with (16 ^ 2) by ring; apply pow_incr; lra).
  assert (/ 1048576 <= M ^ 2) by (replace (/ 1048576) with ((/ 1024) ^ 2) by lra; apply pow_incr; lra). split; nra.
Qed.
(** the temperature ratio that Mach_PtPs recovers from the pressure ratio *)
Lemma back_to_T p g M : libm_pow p -> b64 g -> b64 M -> 9 / 8 <= g <= 2 -> / 1024 <= M <= 16 ->
  exists P w, float_PtPs_Mach p (Some M) (Some g) = Some P /\ fpow p (Some P) (fdiv (fsub (Some g) (Some 1)) (Some g)) = Some w /\ F w /\
  Rabs (w - tt g M) <= tt g M / 2 ^ 44.
Proof.
  intros L [Fg _] [FM _] G H. destruct (range_facts g M) as (_ & _ & G1 & M0 & Wg & W1 & W2 & WM & Wg1 & Wh & Wk); [easy|].
  destruct (pow_sound p (dT g M) (dE g) false L) as (P & EP & FP & BP & NP); [cbn [wf dT]; tauto|reflexivity|cbn [wf dE]; tauto|reflexivity|reflexivity|cbn; lia|cbn; lia|].
  cbn [rneg] in NP. rewrite dT_r in NP. change (fxr (dE g)) with (g / (g - 1)) in NP.
  set (l := (- pk (dT g M) (dE g) - 1)%Z) in *. set (h := (pk (dT g M) (dE g) + 1)%Z) in *. vm_compute in l. vm_compute in h.
  destruct (pow_sound p (FC P l h) (FDiv (dg1 g) (cg g)) false L) as (w & Ew & Fw & _ & Nw); [split; [exact FP|exact BP]|reflexivity|cbn [wf]; tauto|reflexivity|reflexivity|cbn; lia|cbn; lia|].
  cbn [rneg] in Nw. change (fxr (FC P l h)) with P in Nw. change (fxr (FDiv (dg1 g) (cg g))) with ((g - 1) / g) in Nw.
  exists P, w. split; [|split; [|split; [exact Fw|]]].
  - rewrite <- EP. unfold float_PtPs_Mach. rewrite half1, sub1 by assumption. reflexivity.
  - rewrite <- Ew. rewrite sub1 by assumption. reflexivity.
  - assert (Y : 0 <= (g - 1) / g <= INR 1).
    { split; [apply Rmult_le_pos; [lra|left; apply Rinv_0_lt_compat; lra]|]. cbn [INR]. apply Rmult_le_reg_r with g; [lra|]. unfold Rdiv. rewrite Rmult_assoc, Rinv_l by lra. lra. }
    assert (N2 := near_pow _ _ _ _ 1 NP Y). rewrite Rpower_mult in N2. replace (g / (g - 1) * ((g - 1) / g)) with 1 in N2 by (field; lra).
    assert (T0 : 0 < tt g M) by (apply tt_pos; lra). rewrite (Rpower_1 _ T0) in N2. assert (N := near_trans _ _ _ _ _ Nw N2).
    apply (near_close _ 9) in N; [exact N|apply Nat.ltb_lt; reflexivity|lia].
Qed.
(*@P C116_accuracy: Whatever accurate C library computes the powers, for every double 9/8 <= gamma <= 2 and every double Mach number between 2^-10 and 16: Mach_PtPs(PtPs_Mach(M)) is a number and differs from M by at most (M + 1/((gamma-1) M)) / 2^42. *)
Lemma PtPs_round_trip : forall p gamma M, libm_pow p -> b64 gamma -> b64 M -> 9 / 8 <= gamma <= 2 -> / 1024 <= M <= 16 ->
  exists P M', float_PtPs_Mach p (Some M) (Some gamma) = Some P /\ float_Mach_PtPs p (Some P) (Some gamma) = Some M' /\
  Rabs (M' - M) <= (M + 1 / ((gamma - 1) * M)) / 2 ^ 42.
Proof.
  intros p g M L Bg BM G H. destruct (back_to_T p g M L Bg BM G H) as (P & w & EP & Ew & Fw & Hw). destruct Bg as [Fg _], BM as [FM _].
  assert (T := tt_range g M G H). replace (2 ^ 44) with 17592186044416 in Hw by (rewrite pw; reflexivity).
  assert (W := abs_split _ _ _ Hw). assert (W1 : 1 + / 33554432 <= w <= 256) by lra.
  assert (D : / 33554432 <= rn (w - 1) <= 256).
  { split; [apply rn_ge; [change (/ 33554432) with (bpow radix2 (-25)); apply F_bpow; lia|lra]|apply rn_le_F; [apply (F_IZR 256); cbn; lia|lra]]. }
  set (d := rn (w - 1)) in *. set (e := FSqrt (FDiv (FMul (FC d (-25) 8) c2) (dg1 g))).
  assert (Fg1 : F (g - 1)) by (apply gm1; [exact Fg|lra]).
  destruct (fexp_sound e) as (M' & EM & NM & _).
  { cbn [e wf c2 dg1]. change (bpow radix2 (-25)) with (/ 33554432). change (bpow radix2 8) with 256. change (bpow radix2 1) with 2. change (bpow radix2 (-3)) with (/ 8). change (bpow radix2 0) with 1.
    pose proof F2. assert (F d) by apply F_rn. repeat split; first [assumption|lra]. }
  { reflexivity. }
  exists P, M'. split; [exact EP|]. split.
  - unfold float_Mach_PtPs. rewrite Ew, (sub1 g) by (assumption || lra). unfold fsub, fop2. rewrite (fl_pos _ 8) by (try lia; change (bpow radix2 8) with 256; lra). exact EM.
  - change (cnt e) with 2%nat in NM. cbn [e fxr c2 dg1] in NM. apply (near_close _ 2) in NM; [|cbn; lia|lia]. change (53 - 2)%nat with 51%nat in NM.
    replace (2 ^ 51) with 2251799813685248 in NM by (rewrite pw; reflexivity). replace (2 ^ 42) with 4398046511104 by (rewrite pw; reflexivity).
    assert (Hd := rel_minus w 1 Fw F1). fold d in Hd. rewrite (Rabs_pos_eq (w - 1)) in Hd by lra. apply abs_split in Hd.
    set (k := 1 / ((g - 1) * M)). set (x := M + k). assert (gM : 0 < (g - 1) * M) by (apply Rmult_lt_0_compat; lra).
    assert (k0 : 0 < k) by (unfold k; apply Rdiv_lt_0_compat; lra).
    assert (ET : tt g M = 1 + (g - 1) / 2 * M ^ 2) by (unfold tt; lra).
    assert (Q : Rabs (d * 2 / (g - 1) - M * M) <= x / 6597069766656 * M).
    { assert (A : Rabs (d - (g - 1) / 2 * M ^ 2) <= tt g M * (/ 17592186044416 + / 4503599627370496)).
      { apply Rabs_le. lra. }
      replace (d * 2 / (g - 1) - M * M) with ((d - (g - 1) / 2 * M ^ 2) * (2 / (g - 1))) by (field; lra). rewrite Rabs_mult, (Rabs_pos_eq (2 / (g - 1))) by (left; apply Rdiv_lt_0_compat; lra).
      apply Rle_trans with (tt g M * (/ 17592186044416 + / 4503599627370496) * (2 / (g - 1))); [apply Rmult_le_compat_r; [left; apply Rdiv_lt_0_compat; lra|exact A]|].
      replace (tt g M * (/ 17592186044416 + / 4503599627370496) * (2 / (g - 1))) with ((2 / (g - 1) + M * M) * (/ 17592186044416 + / 4503599627370496)) by (rewrite ET; field; lra).
      replace (x / 6597069766656 * M) with ((1 / (g - 1) + M * M) / 6597069766656) by (unfold x, k; field; lra).
      assert (1 / (g - 1) > 0) by (apply Rdiv_lt_0_compat; lra). replace (2 / (g - 1)) with (2 * (1 / (g - 1))) by (field; lra). set (j := 1 / (g - 1)) in *. assert (0 < M * M) by nra. clearbody j. lra. }
    assert (S := sqrt_err (d * 2 / (g - 1)) M (x / 6597069766656) ltac:(lra) ltac:(apply Rmult_le_pos; [lra|left; apply Rinv_0_lt_compat; lra]) Q).
    apply abs_split in S. apply abs_split in NM. apply Rabs_le. set (r := sqrt (d * 2 / (g - 1))) in *.
    assert (x0 : M <= x) by (unfold x; lra). clearbody x r. lra.
Qed.
(*@P C116_small_Mach: At small Mach numbers nothing of the Mach number is left: for every double 9/8 <= gamma <= 2 and every double Mach number 0 < M <= 2^-30, with every accurate C library, Mach_PtPs(PtPs_Mach(M)) is not a number or is off by at least M itself. *)
Lemma PtPs_small : forall p gamma M, libm_pow p -> b64 gamma -> b64 M -> 9 / 8 <= gamma <= 2 -> 0 < M <= / 2 ^ 30 ->
  exists P, float_PtPs_Mach p (Some M) (Some gamma) = Some P /\ (forall M', float_Mach_PtPs p (Some P) (Some gamma) = Some M' -> M <= Rabs (M' - M)).
Proof.
  intros p g M L Bg BM G H. replace (2 ^ 30) with 1073741824 in H by (rewrite pw; reflexivity). assert (Fg := proj1 Bg).
  destruct (float_TtTs_small g M Bg BM ltac:(lra)) as [E1 _]; [split; [lra|]; change (bpow radix2 (-27)) with (/ 134217728); lra|].
  assert (Ge : exists e, fdiv (Some g) (fsub (Some g) (Some 1)) = Some e /\ F e).
  { rewrite sub1 by (assumption || lra). unfold fdiv. destruct (Req_EM_T (g - 1) 0); [lra|].
    assert (I : 0 < / (g - 1) <= 8) by (split; [apply Rinv_0_lt_compat; lra|rewrite <- (Rinv_inv 8); apply Rinv_le_contravar; lra]).
    rewrite (fl_pos _ 4) by (try lia; change (bpow radix2 4) with 16; unfold Rdiv; nra). eexists. split; [reflexivity|apply F_rn]. }
  destruct Ge as (e & Ee & Fe).
  assert (Gf : exists f, fdiv (fsub (Some g) (Some 1)) (Some g) = Some f /\ F f /\ 0 <= f <= 1).
  { rewrite sub1 by (assumption || lra). unfold fdiv. destruct (Req_EM_T g 0); [lra|].
    assert (I : 0 <= (g - 1) / g <= 1).
    { split; [apply Rmult_le_pos; [lra|left; apply Rinv_0_lt_compat; lra]|]. apply Rmult_le_reg_r with g; [lra|]. unfold Rdiv. rewrite Rmult_assoc, Rinv_l by lra. lra. }
    rewrite (fl_pos _ 0) by (try lia; rewrite <- one_bp; lra). eexists. split; [reflexivity|]. split; [apply F_rn|]. split; [apply rn_ge; [apply generic_format_0|lra]|apply rn_le_F; [apply F1|lra]]. }
  destruct Gf as (f & Ef & Ff & Hf).
  assert (Small : forall x, / 2 <= x <= 2 -> bpow radix2 (-1022) <= x <= bpow radix2 1022).
  { intros x Hx. split; [apply Rle_trans with (bpow radix2 (-1)); [apply bpow_le; lia|cbn; lra]|apply Rle_trans with (bpow radix2 1); [cbn; lra|apply bpow_le; lia]]. }
  assert (P52 : 2 ^ 52 = 4503599627370496) by (rewrite pw; reflexivity).
  assert (R1 : Rpower 1 e = 1) by (unfold Rpower; rewrite ln_1, Rmult_0_r; apply exp_0).
  destruct (L 1 e F1 Fe) as [FP HP]; [lra|rewrite R1; apply Small; lra|]. rewrite R1, P52 in HP. apply abs_split in HP. set (P := p 1 e) in *.
  exists P. split.
  { unfold float_PtPs_Mach. unfold float_TtTs_Mach in E1. rewrite E1, Ee. unfold fpow. destruct (Rlt_dec 0 1); [|lra]. fold P. rewrite (fl_pos P 1) by (try lia; rewrite <- two_bp; lra). now rewrite (rn_F _ FP). }
  assert (R2 : 1 - / 4503599627370496 <= Rpower P f <= 1 + / 4503599627370496).
  { assert (P0 : 0 < P) by lra. destruct (Rle_dec P 1).
    - assert (ln P <= 0) by (rewrite <- ln_1; apply ln_le; lra). split.
      + apply Rle_trans with P; [lra|]. rewrite <- (Rpower_1 P P0) at 1. unfold Rpower. apply exp_le. nra.
      + apply Rle_trans with 1; [|lra]. apply Rle_trans with (exp 0); [unfold Rpower; apply exp_le; nra|rewrite exp_0; lra].
    - assert (0 <= ln P) by (rewrite <- ln_1; apply ln_le; lra). split.
      + apply Rle_trans with 1; [lra|]. apply Rle_trans with (exp 0); [rewrite exp_0; lra|unfold Rpower; apply exp_le; nra].
      + apply Rle_trans with P; [|lra]. rewrite <- (Rpower_1 P P0) at 2. unfold Rpower. apply exp_le. nra. }
  destruct (L P f FP Ff) as [Fw Hw]; [lra|apply Small; lra|]. rewrite P52 in Hw. apply abs_split in Hw. set (w := p P f) in *.
  intros M' EM. unfold float_Mach_PtPs in EM. rewrite Ef in EM. unfold fpow in EM. destruct (Rlt_dec 0 P); [|lra]. fold w in EM.
  rewrite (fl_pos w 1) in EM by (try lia; rewrite <- two_bp; lra). rewrite (rn_F _ Fw) in EM. rewrite (sub1 g) in EM by (assumption || lra).
  unfold fsub, fop2, fmul, fop2 in EM. rewrite (fl_bound (w - 1) 2) in EM; [|apply F2|apply Rabs_le; lra|rewrite two_bp; apply bpow_lt; lia].
  set (d := rn (w - 1)) in *. assert (Hd : - 1 <= d <= 1).
  { split; [apply rn_ge; [apply generic_format_opp, F1|lra]|apply rn_le_F; [apply F1|lra]]. }
  rewrite (fl_bound (d * 2) 2) in EM; [|apply F2|apply Rabs_le; lra|rewrite two_bp; apply bpow_lt; lia]. rewrite (rn_F (d * 2)) in EM by (apply twice_F, F_rn).
  unfold fdiv in EM. destruct (Req_EM_T (g - 1) 0); [lra|].
  assert (I : 1 <= / (g - 1) <= 8) by (split; [rewrite <- Rinv_1; apply Rinv_le_contravar; lra|rewrite <- (Rinv_inv 8); apply Rinv_le_contravar; lra]).
  assert (F16 : F 16) by (apply (F_IZR 16); cbn; lia).
  rewrite (fl_bound (d * 2 / (g - 1)) 16) in EM; [|exact F16|apply Rabs_le; unfold Rdiv; nra|change 16 with (bpow radix2 4); apply bpow_lt; lia].
  unfold fsqrt in EM. set (q := rn (d * 2 / (g - 1))) in *. destruct (Rlt_dec q 0) as [|Nq]; [discriminate|]. assert (Hq : 0 <= q) by lra. clear Nq.
  assert (Q16 : q <= 16) by (apply rn_le_F; [exact F16|unfold Rdiv; nra]).
  assert (S16 : 0 <= sqrt q <= 16) by (split; [apply sqrt_pos|]; apply Rle_trans with (sqrt (16 * 16)); [apply sqrt_le_1_alt; lra|rewrite sqrt_square; lra]).
  rewrite (fl_pos (sqrt q) 4) in EM by (try lia; change (bpow radix2 4) with 16; lra). injection EM as <-.
  destruct (Req_dec q 0) as [Z|N].
  - rewrite Z, sqrt_0, (rn_F 0 (generic_format_0 _ _)). rewrite Rminus_0_l, Rabs_Ropp, Rabs_pos_eq; lra.
  - assert (d0 : 0 < d).
    { apply Rnot_le_lt. intro K. assert (q <= 0); [|lra]. apply rn_le_F; [apply generic_format_0|]. unfold Rdiv. nra. }
    assert (w1 : 1 < w). { apply Rnot_le_lt. intro K. assert (d <= 0); [|lra]. apply rn_le_F; [apply generic_format_0|lra]. }
    assert (W2 : 1 + / 4503599627370496 <= w) by (apply (gamma_gap w Fw w1)).
    assert (D2 : / 4503599627370496 <= d) by (apply rn_ge; [change (/ 4503599627370496) with (bpow radix2 (-52)); apply F_bpow; lia|lra]).
    assert (Q2 : / 4503599627370496 <= q) by (apply rn_ge; [change (/ 4503599627370496) with (bpow radix2 (-52)); apply F_bpow; lia|unfold Rdiv; nra]).
    assert (S2 : / 67108864 <= rn (sqrt q)).
    { apply rn_ge; [change (/ 67108864) with (bpow radix2 (-26)); apply F_bpow; lia|]. replace (/ 67108864) with (sqrt (/ 67108864 * / 67108864)) by (apply sqrt_square; lra). apply sqrt_le_1_alt. lra. }
    rewrite Rabs_pos_eq; lra.
Qed.
(*@E C116_example: gamma = 1.5 with the Mach numbers 2 and 2^-30, and the correctly rounded power *)
Lemma C116_ex : libm_pow (fun x y => rn (Rpower x y)) /\ b64 (3 / 2) /\ b64 2 /\ 9 / 8 <= 3 / 2 <= 2 /\ / 1024 <= 2 <= 16 /\ b64 (bpow radix2 (-30)) /\ 0 < bpow radix2 (-30) <= / 2 ^ 30.
Proof.
  destruct C114_ex as (A & B & C & D & E). repeat (split; [assumption|]). split.
  - replace (bpow radix2 (-30)) with (IZR 1 * bpow radix2 (-30)) by ring. apply b64_mant; cbn; lia.
  - cbn. lra.
Qed.
