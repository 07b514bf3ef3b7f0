(** * The binary64 models against the exact models *)
From Coq Require Import Reals ZArith Lra Lia.
From Flocq Require Import Core.
From Verif Require Import Num M_Isentropic M_ShockWave L_Isentropic L_Shock M_Float L_Float L_Float2.
Open Scope R_scope.

(*@P C82_close: For every double 1 < gamma <= 2 and every double Mach number between 2^-400 and 2^400, TtTs_Mach computed in binary64 arithmetic is the exact value of the formula with a relative error of at most 2^-51. *)
Lemma float_TtTs_close : forall gamma M, b64 gamma -> b64 M -> 1 < gamma <= 2 -> bpow radix2 (-400) <= M <= bpow radix2 400 ->
  exists T X, float_TtTs_Mach (Some M) (Some gamma) = Some T /\ TtTs_Mach (Some M) (Some gamma) = Some X /\
    Rabs (T - X) <= X / 2 ^ 51.
Proof.
  intros g M [Fg _] _ G H. assert (P0 := bpow_gt_0 radix2 (-400)). exists (Tf g M), (tt g M).
  split; [apply TtTs_float; try easy; lra|]. split; [reflexivity|].
  assert (E := Tf_err g M Fg G H). cbv zeta in E. unfold tt. replace (M ^ 2) with (M * M) by ring.
  replace (2 ^ 51) with 2251799813685248 by (rewrite pw; reflexivity).
  assert (A0 : 0 <= 1 / 2 * (g - 1) * (M * M)) by (apply Rmult_le_pos; [lra|apply Rmult_le_pos; lra]).
  set (A := 1 / 2 * (g - 1) * (M * M)) in *. clearbody A. eapply Rle_trans; [exact E|]. lra.
Qed.
Lemma cf_exact g : F g -> 1 < g <= 2 ->
  let c0 := 2 * g / (g + 1) in c0 - 21 / 10 * c0 / 9007199254740992 <= cf g <= c0 + 21 / 10 * c0 / 9007199254740992.
Proof.
  intros Fg G c0. assert (A1 := a1_bp g Fg G).
  assert (A : Rabs (a1f g - (g + 1)) <= (g + 1) / 9007199254740992).
  { apply rel_pos. apply Rle_trans with 1; [|lra]. rewrite one_bp. apply bpow_le; lia. }
  apply abs_split in A. assert (C := cf_err g Fg G). apply abs_split in C.
  assert (E : cf g * (a1f g / (2 * g)) * c0 = cf g * (a1f g / (g + 1))) by (unfold c0; field; lra).
  assert (c1 : 0 < c0) by (apply Rdiv_lt_0_compat; lra).
  set (w := a1f g / (g + 1)) in *.
  assert (W : 1 - 1 / 9007199254740992 <= w <= 1 + 1 / 9007199254740992).
  { unfold w. split; apply Rmult_le_reg_r with (g + 1); try lra; unfold Rdiv; rewrite ?Rmult_assoc, ?Rinv_l by lra; lra. }
  assert (D : c0 - c0 / 9007199254740992 <= cf g * w <= c0 + c0 / 9007199254740992).
  { rewrite <- E. replace (c0 - c0 / 9007199254740992) with ((1 - 1 / 9007199254740992) * c0) by (unfold Rdiv; ring).
    replace (c0 + c0 / 9007199254740992) with ((1 + 1 / 9007199254740992) * c0) by (unfold Rdiv; ring).
    split; apply Rmult_le_compat_r; lra. }
  assert (C1 := cf_bp g Fg G).
  assert (I : cf g - cf g / 9007199254740992 <= cf g * w <= cf g + cf g / 9007199254740992).
  { replace (cf g - cf g / 9007199254740992) with (cf g * (1 - 1 / 9007199254740992)) by (unfold Rdiv; ring).
    replace (cf g + cf g / 9007199254740992) with (cf g * (1 + 1 / 9007199254740992)) by (unfold Rdiv; ring).
    split; apply Rmult_le_compat_l; lra. }
  set (x := cf g * w) in *. clearbody x. clear - D I c1 C1. clearbody c0. set (c := cf g) in *. clearbody c. lra.
Qed.
(*@P C83_close: For every double 1 < gamma <= 2 and every double 1 <= M <= 2^400, Ps_ratio computed in binary64 arithmetic is the exact value of the formula with a relative error of at most 2^-49. *)
Lemma float_Ps_close : forall gamma M, b64 gamma -> b64 M -> 1 < gamma <= 2 -> 1 <= M <= bpow radix2 400 ->
  exists P X, float_Ps_ratio (Some M) (Some gamma) = Some P /\ Ps_ratio (Some M) (Some gamma) = Some X /\
    Rabs (P - X) <= X / 2 ^ 49.
Proof.
  intros g M [Fg _] _ G H. destruct (Ps_float g M Fg G H) as [E1 B1].
  exists (Pf g M), (psr g M). split; [exact E1|]. split; [apply Ps_eval; lra|].
  unfold psr. replace (M ^ 2) with (M * M) by ring. clear E1 B1.
  replace (2 ^ 49) with 562949953421312 by (rewrite pw; reflexivity).
  assert (MM : 1 <= M * M) by nra.
  assert (S : Rabs (rn (M * M) - M * M) <= M * M / 9007199254740992).
  { apply rel_pos. apply Rle_trans with 1; [|easy]. rewrite one_bp. apply bpow_le; lia. }
  assert (S1 : 1 <= rn (M * M)) by (apply rn_ge; [apply F1|easy]).
  assert (Fs : F (rn (M * M))) by apply F_rn. unfold Pf. set (s := rn (M * M)) in *.
  assert (T := rel_minus s 1 Fs F1). rewrite (Rabs_pos_eq (s - 1)) in T by lra.
  assert (Tz := zrn _ (-52) ltac:(lia) (small_gap s Fs S1)). set (t := rn (s - 1)) in *.
  assert (t0 : 0 <= t) by (destruct Tz as [E|?]; [lra|assert (P := bpow_gt_0 radix2 (-52)); lra]).
  assert (C1 := cf_bp g Fg G). assert (CE := cf_exact g Fg G). cbv zeta in CE.
  assert (R := rel0 (cf g * t) (zweak _ (-52) (-60) ltac:(lia) (zmul _ _ _ (proj1 C1) Tz))).
  set (r := rn (cf g * t)) in *. assert (Fr : F r) by apply F_rn.
  assert (r0 : 0 <= r) by (apply rn_ge; [apply generic_format_0|nra]).
  assert (Pe := rel_plus 1 r F1 Fr). rewrite (Rabs_pos_eq (1 + r)) in Pe by lra.
  apply abs_split in S. apply abs_split in T. apply abs_split in R. apply abs_split in Pe.
  set (c0 := 2 * g / (g + 1)) in *. set (c := cf g) in *.
  assert (c01 : 1 <= c0 <= 4 / 3).
  { unfold c0. split; apply Rmult_le_reg_r with (g + 1); try lra; unfold Rdiv; rewrite ?Rmult_assoc, ?Rinv_l by lra; lra. }
  set (W := M * M - 1) in *.
  assert (W0 : 0 <= W) by (unfold W; lra).
  assert (TW : W - 21 / 10 * (W + 1) / 9007199254740992 <= t <= W + 21 / 10 * (W + 1) / 9007199254740992).
  { unfold W. clear - S T MM. set (m := M * M) in *. clearbody m t s. lra. }
  (* c0 t and c t *)
  assert (Y1 : c0 * W - 21 / 10 * (c0 * W + c0) / 9007199254740992 <= c0 * t <= c0 * W + 21 / 10 * (c0 * W + c0) / 9007199254740992).
  { replace (c0 * W - 21 / 10 * (c0 * W + c0) / 9007199254740992) with (c0 * (W - 21 / 10 * (W + 1) / 9007199254740992)) by (unfold Rdiv; ring).
    replace (c0 * W + 21 / 10 * (c0 * W + c0) / 9007199254740992) with (c0 * (W + 21 / 10 * (W + 1) / 9007199254740992)) by (unfold Rdiv; ring).
    split; apply Rmult_le_compat_l; lra. }
  assert (Y2 : c0 * t - 21 / 10 * (c0 * t) / 9007199254740992 <= c * t <= c0 * t + 21 / 10 * (c0 * t) / 9007199254740992).
  { replace (c0 * t - 21 / 10 * (c0 * t) / 9007199254740992) with ((c0 - 21 / 10 * c0 / 9007199254740992) * t) by (unfold Rdiv; ring).
    replace (c0 * t + 21 / 10 * (c0 * t) / 9007199254740992) with ((c0 + 21 / 10 * c0 / 9007199254740992) * t) by (unfold Rdiv; ring).
    split; apply Rmult_le_compat_r; lra. }
  assert (Z : 0 <= c0 * W) by (apply Rmult_le_pos; lra).
  apply Rabs_le. clear - R Pe Y1 Y2 Z c01 r0.
  set (x := c0 * W) in *. set (y := c0 * t) in *. set (v := c * t) in *. set (p := rn (1 + r)) in *.
  clearbody x y v p r c0. lra.
Qed.
