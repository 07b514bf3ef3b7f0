(** * Lemmas about the binary64 models: temperature ratio and shock pressure ratio *)
From Coq Require Import Reals List ZArith Lra Lia Psatz.
From Flocq Require Import Core Sterbenz Mult_error Relative Plus_error.
From Verif Require Import M_Float L_Float.
Open Scope R_scope.

Lemma pw (k : nat) : (2 ^ k)%R = IZR (2 ^ Z.of_nat k).
Proof. apply pow_IZR. Qed.
Lemma p53 : 2 ^ 53 = 9007199254740992. Proof. rewrite pw; reflexivity. Qed.
Lemma p50 : 2 ^ 50 = 1125899906842624. Proof. rewrite pw; reflexivity. Qed.
Lemma bp53 : bpow radix2 (-53) = / 9007199254740992. Proof. reflexivity. Qed.
Lemma bp52 : bpow radix2 (-52) = / 4503599627370496. Proof. reflexivity. Qed.
Lemma F1 : F 1. Proof. apply (F_IZR 1); cbn; lia. Qed.
Lemma F2 : F 2. Proof. apply (F_IZR 2); cbn; lia. Qed.

(** relative error of one operation with a normal result *)
Lemma rel z : bpow radix2 (-1022) <= Rabs z -> Rabs (rn z - z) <= Rabs z / 9007199254740992.
Proof.
  intro H. assert (G := relative_error_N_FLT radix2 (-1074) 53 ltac:(easy) (fun x => negb (Z.even x)) z H).
  change (round radix2 (FLT_exp (-1074) 53) (Znearest (fun x => negb (Z.even x))) z) with (rn z) in G.
  eapply Rle_trans; [exact G|]. right. change (bpow radix2 (-(53) + 1)) with (/ IZR (2 ^ 52)). cbn [Z.pow Z.pow_pos Pos.iter Z.mul Pos.mul].
  unfold Rdiv. field.
Qed.
Lemma rel_pos z : bpow radix2 (-1022) <= z -> Rabs (rn z - z) <= z / 9007199254740992.
Proof.
  intro H. assert (P := bpow_gt_0 radix2 (-1022)). assert (G := rel z). rewrite Rabs_pos_eq in G by lra. now apply G.
Qed.
(** sums and differences of doubles *)
Lemma rel_plus x y : F x -> F y -> Rabs (rn (x + y) - (x + y)) <= Rabs (x + y) / 9007199254740992.
Proof.
  intros A B. destruct (FLT_plus_error_N_ex radix2 (-1074) 53 (fun x => negb (Z.even x)) x y A B) as (e & E & Q).
  change (round radix2 (FLT_exp (-1074) 53) (Znearest (fun x => negb (Z.even x))) (x + y)) with (rn (x + y)) in Q.
  rewrite Q. replace ((x + y) * (1 + e) - (x + y)) with ((x + y) * e) by ring.
  rewrite Rabs_mult. unfold Rdiv. apply Rmult_le_compat_l; [apply Rabs_pos|]. eapply Rle_trans; [exact E|].
  unfold u_ro. change (bpow radix2 (-(53) + 1)) with (/ IZR (2 ^ 52)). cbn [Z.pow Z.pow_pos Pos.iter Z.mul Pos.mul]. lra.
Qed.
Lemma rel_minus x y : F x -> F y -> Rabs (rn (x - y) - (x - y)) <= Rabs (x - y) / 9007199254740992.
Proof. intros A B. unfold Rminus at 2 4. apply rel_plus; [easy|now apply generic_format_opp]. Qed.

Lemma fl_pos x e : 0 <= x <= bpow radix2 e -> (-1074 <= e < 1024)%Z -> fl x = Some (rn x).
Proof.
  intros X E. apply fl_bound with (bpow radix2 e); [apply F_bpow; lia|rewrite Rabs_pos_eq; lra|apply bpow_lt; lia].
Qed.
Lemma rn_pos x e : 0 <= x <= bpow radix2 e -> (-1074 <= e)%Z -> 0 <= rn x <= bpow radix2 e.
Proof.
  intros X E. split; [apply rn_ge; [apply generic_format_0|lra]|apply rn_le_F; [now apply F_bpow|lra]].
Qed.
Lemma mul_bp a b e f : 0 <= a <= bpow radix2 e -> 0 <= b <= bpow radix2 f -> 0 <= a * b <= bpow radix2 (e + f).
Proof. intros A B. split; [nra|]. rewrite bpow_plus. apply Rmult_le_compat; lra. Qed.

(** gamma of a double *)
Lemma gamma_gap g : F g -> 1 < g -> 1 + bpow radix2 (-52) <= g.
Proof.
  intros A H. assert (G := succ_le_lt radix2 fmt 1 g F1 A H). rewrite succ_eq_pos in G by lra.
  change 1 with (bpow radix2 0) in G at 2. rewrite ulp_bpow in G. exact G.
Qed.
Lemma gm1 g : F g -> 1 < g <= 2 -> F (g - 1).
Proof. intros A H. apply sterbenz; try typeclasses eauto; [easy|apply F1|lra]. Qed.
Lemma half_F x : F x -> bpow radix2 (-1000) <= Rabs x -> F (1 / 2 * x).
Proof.
  intros A H. replace (1 / 2 * x) with (x * bpow radix2 (-1)) by (change (bpow radix2 (-1)) with (/ 2); lra).
  apply mult_bpow_exact_FLT; [easy|]. assert (G : (-1000 < mag radix2 x)%Z) by (apply mag_gt_bpow; exact H). lia.
Qed.
Lemma twice_F x : F x -> F (x * 2).
Proof.
  intros A. destruct (Req_dec x 0) as [->|N]; [rewrite Rmult_0_l; apply generic_format_0|].
  change 2 with (bpow radix2 1). apply mult_bpow_pos_exact_FLT; [easy|lia].
Qed.

Definition Tf (g M : R) : R := rn (1 + rn (1 / 2 * (g - 1) * rn (M * M))).
Definition Mf (g T : R) : R := rn (sqrt (rn (rn (T - 1) * 2 / (g - 1)))).
Lemma one_bp : 1 = bpow radix2 0. Proof. reflexivity. Qed.
Lemma two_bp : 2 = bpow radix2 1. Proof. reflexivity. Qed.
Lemma sq_bp M : 0 <= M <= bpow radix2 400 -> 0 <= rn (M * M) <= bpow radix2 800.
Proof. intro H. apply rn_pos; [|lia]. change 800%Z with (400 + 400)%Z. now apply mul_bp. Qed.
Lemma prod_bp g M : 1 < g <= 2 -> 0 <= M <= bpow radix2 400 -> 0 <= 1 / 2 * (g - 1) * rn (M * M) <= bpow radix2 800.
Proof.
  intros G H. change 800%Z with (0 + 800)%Z. apply mul_bp; [|now apply sq_bp]. rewrite <- one_bp. lra.
Qed.
Lemma sum_bp x e : (0 <= e)%Z -> 0 <= x <= bpow radix2 e -> 0 <= 1 + x <= bpow radix2 (e + 1).
Proof.
  intros E X. split; [lra|]. rewrite bpow_plus. change (bpow radix2 1) with 2.
  assert (G : bpow radix2 0 <= bpow radix2 e) by (apply bpow_le; lia). rewrite <- one_bp in G. lra.
Qed.
Lemma Tf_bp g M : 1 < g <= 2 -> 0 <= M <= bpow radix2 400 -> 1 <= Tf g M <= bpow radix2 801.
Proof.
  intros G H. assert (P := prod_bp g M G H). assert (Q := rn_pos _ _ P ltac:(lia)).
  assert (S := sum_bp _ 800 ltac:(lia) Q). unfold Tf. split; [apply rn_ge; [apply F1|lra]|].
  apply rn_le_F; [apply F_bpow; lia|apply S].
Qed.
Lemma TtTs_float g M : F g -> 1 < g <= 2 -> 0 <= M <= bpow radix2 400 ->
  float_TtTs_Mach (Some M) (Some g) = Some (Tf g M).
Proof.
  intros Fg G H. assert (Fm := gm1 g Fg G). assert (Gap := gamma_gap g Fg (proj1 G)).
  assert (Fh : F (1 / 2 * (g - 1))).
  { apply half_F; [easy|]. rewrite Rabs_pos_eq by lra.
    apply Rle_trans with (bpow radix2 (-52)); [apply bpow_le; lia|lra]. }
  assert (P := prod_bp g M G H). assert (Q := rn_pos _ _ P ltac:(lia)).
  unfold float_TtTs_Mach, fadd, fsub, fmul, fop2.
  rewrite (fl_pos (g - 1) 0) by (try lia; rewrite <- one_bp; lra). rewrite (rn_F _ Fm).
  rewrite (fl_pos (1 / 2 * (g - 1)) 0) by (try lia; rewrite <- one_bp; lra). rewrite (rn_F _ Fh).
  rewrite (fl_pos (M * M) 800) by (lia || (change 800%Z with (400 + 400)%Z; now apply mul_bp)).
  rewrite (fl_pos _ 800) by (easy || lia).
  rewrite (fl_pos _ (800 + 1)) by (lia || (apply sum_bp; [lia|easy])). reflexivity.
Qed.
Lemma quot_bp g T : F g -> 1 < g <= 2 -> F T -> 1 <= T <= bpow radix2 801 ->
  0 <= rn (T - 1) * 2 / (g - 1) <= bpow radix2 854.
Proof.
  intros Fg G FT H. assert (Gap := gamma_gap g Fg (proj1 G)). assert (B := bpow_gt_0 radix2 (-52)).
  assert (D : 0 <= rn (T - 1) <= bpow radix2 801) by (apply rn_pos; [lra|lia]).
  unfold Rdiv. change 854%Z with (801 + 1 + 52)%Z. apply mul_bp.
  - apply mul_bp; [easy|]. rewrite <- two_bp. lra.
  - split; [apply Rlt_le, Rinv_0_lt_compat; lra|].
    replace (bpow radix2 52) with (/ bpow radix2 (-52)) by (rewrite <- bpow_opp; reflexivity).
    apply Rinv_le_contravar; lra.
Qed.
Lemma sqrt_bp x e : 0 <= x <= bpow radix2 (2 * e) -> 0 <= sqrt x <= bpow radix2 e.
Proof.
  intro H. split; [apply sqrt_pos|]. rewrite <- (sqrt_Rsqr (bpow radix2 e)) by apply bpow_ge_0.
  apply sqrt_le_1_alt. unfold Rsqr. rewrite <- bpow_plus. replace (e + e)%Z with (2 * e)%Z by ring. lra.
Qed.
Lemma Mach_float g T : F g -> 1 < g <= 2 -> F T -> 1 <= T <= bpow radix2 801 ->
  float_Mach_TtTs (Some T) (Some g) = Some (Mf g T).
Proof.
  intros Fg G FT H. assert (Fm := gm1 g Fg G). assert (Q := quot_bp g T Fg G FT H).
  assert (D : 0 <= rn (T - 1) <= bpow radix2 801) by (apply rn_pos; [lra|lia]).
  unfold float_Mach_TtTs, fadd, fsub, fmul, fop2, fdiv, fsqrt.
  rewrite (fl_pos (T - 1) 801) by (try lia; lra).
  rewrite (fl_pos (g - 1) 0) by (try lia; rewrite <- one_bp; lra). rewrite (rn_F _ Fm).
  rewrite (fl_pos _ (801 + 1)) by (lia || (apply mul_bp; [easy|rewrite <- two_bp; lra])).
  rewrite (rn_F (rn (T - 1) * 2)) by (apply twice_F, F_rn).
  destruct Req_EM_T as [Z|_]; [lra|]. rewrite (fl_pos _ 854) by (easy || lia).
  assert (QQ := rn_pos _ _ Q ltac:(lia)). destruct Rlt_dec as [L|_]; [lra|].
  rewrite (fl_pos _ 427) by (lia || now apply sqrt_bp). reflexivity.
Qed.
Lemma Tf_mono g M N : 1 < g -> 0 <= M <= N -> Tf g M <= Tf g N.
Proof.
  intros G H. unfold Tf. apply rn_le, Rplus_le_compat_l, rn_le, Rmult_le_compat_l; [lra|]. apply rn_le. nra.
Qed.
Lemma Mf_mono g S T : 1 < g -> S <= T -> Mf g S <= Mf g T.
Proof.
  intros G H. unfold Mf. apply rn_le, sqrt_le_1_alt, rn_le. unfold Rdiv.
  apply Rmult_le_compat_r; [apply Rlt_le, Rinv_0_lt_compat; lra|]. apply Rmult_le_compat_r; [lra|]. apply rn_le. lra.
Qed.
(*@P C82_defined: In binary64 arithmetic, for every double 1 < gamma <= 2 and every double Mach number up to 2^400, TtTs_Mach returns a finite number T >= 1 and Mach_TtTs of it returns a finite number >= 0, never nan; both are non-decreasing functions, so that M <= N gives T(M) <= T(N) and M' <= N'. *)
Lemma float_TtTs_defined : forall gamma M N, b64 gamma -> b64 M -> b64 N -> 1 < gamma <= 2 -> 0 <= M <= N -> N <= bpow radix2 400 ->
  exists T T' M' N', float_TtTs_Mach (Some M) (Some gamma) = Some T /\ float_TtTs_Mach (Some N) (Some gamma) = Some T' /\
    float_Mach_TtTs (Some T) (Some gamma) = Some M' /\ float_Mach_TtTs (Some T') (Some gamma) = Some N' /\
    1 <= T <= T' /\ 0 <= M' <= N'.
Proof.
  intros g M N [Fg _] _ _ G H L. exists (Tf g M), (Tf g N), (Mf g (Tf g M)), (Mf g (Tf g N)).
  assert (A := Tf_bp g M G ltac:(lra)). assert (B := Tf_bp g N G ltac:(lra)).
  repeat split; try (apply TtTs_float; easy || lra); try (apply Mach_float; try easy; apply F_rn).
  - apply A.
  - apply Tf_mono; lra.
  - apply rn_ge; [apply generic_format_0|apply sqrt_pos].
  - apply Mf_mono; [lra|]. apply Tf_mono; lra.
Qed.

Lemma sq_ge M : bpow radix2 (-400) <= M -> bpow radix2 (-800) <= M * M.
Proof.
  intro H. change (-800)%Z with (-400 + -400)%Z. rewrite bpow_plus. assert (P := bpow_gt_0 radix2 (-400)).
  apply Rmult_le_compat; lra.
Qed.
Lemma abs_split a b c : Rabs (a - b) <= c -> b - c <= a <= b + c.
Proof. intro H. apply Rabs_le_inv in H. lra. Qed.
Lemma sqrt_err q m d : 0 < m -> 0 <= q -> Rabs (q - m * m) <= d * m -> Rabs (sqrt q - m) <= d.
Proof.
  intros M Q H. assert (S := sqrt_pos q). assert (E : sqrt q * sqrt q = q) by now apply sqrt_sqrt.
  assert (D : Rabs (sqrt q - m) * (sqrt q + m) = Rabs (q - m * m)).
  { rewrite <- (Rabs_pos_eq (sqrt q + m)) by lra. rewrite <- Rabs_mult. f_equal. rewrite <- E at 3. ring. }
  assert (A := Rabs_pos (sqrt q - m)). nra.
Qed.
Lemma normal_le e x : (-1022 <= e)%Z -> bpow radix2 e <= x -> bpow radix2 (-1022) <= x.
Proof. intros E H. apply Rle_trans with (2 := H). now apply bpow_le. Qed.
Lemma gm1_ge g : F g -> 1 < g -> bpow radix2 (-52) <= g - 1.
Proof. intros A B. assert (G := gamma_gap g A B). lra. Qed.
Lemma mul_ge a b e f : bpow radix2 e <= a -> bpow radix2 f <= b -> bpow radix2 (e + f) <= a * b.
Proof.
  intros A B. rewrite bpow_plus. assert (P := bpow_gt_0 radix2 e). assert (Q := bpow_gt_0 radix2 f).
  apply Rmult_le_compat; lra.
Qed.
Lemma gap_above_1 T : F T -> 1 <= T -> T = 1 \/ bpow radix2 (-52) <= T - 1.
Proof. intros A B. destruct (Req_dec T 1) as [->|N]; [now left|right]. apply gm1_ge; [easy|lra]. Qed.

(** error on k M^2, with k = (gamma - 1) / 2, after going to T and back *)
Lemma Tf_err g M : F g -> 1 < g <= 2 -> bpow radix2 (-400) <= M <= bpow radix2 400 ->
  let A := 1 / 2 * (g - 1) * (M * M) in
  Rabs (Tf g M - (1 + A)) <= (31 / 10 * A + 11 / 10) / 9007199254740992.
Proof.
  intros Fg G H A. assert (Gap := gm1_ge g Fg (proj1 G)).
  assert (P0 := bpow_gt_0 radix2 (-400)). assert (P1 := bpow_gt_0 radix2 (-52)).
  assert (S := rel_pos (M * M) (normal_le (-800) _ ltac:(lia) (sq_ge M (proj1 H)))). apply abs_split in S.
  set (s := rn (M * M)) in *. set (k := 1 / 2 * (g - 1)) in *.
  assert (K0 : bpow radix2 (-53) <= k).
  { change (-53)%Z with (-1 + -52)%Z. rewrite bpow_plus. change (bpow radix2 (-1)) with (/ 2). unfold k. lra. }
  assert (P2 := bpow_gt_0 radix2 (-53)).
  assert (S0 : bpow radix2 (-801) <= s).
  { apply rn_ge; [apply F_bpow; lia|]. apply Rle_trans with (bpow radix2 (-800)); [apply bpow_le; lia|]. now apply sq_ge. }
  assert (Q := rel_pos (k * s) (normal_le (-53 + -801) _ ltac:(lia) (mul_ge _ _ _ _ K0 S0))). apply abs_split in Q.
  set (p := rn (k * s)) in *.
  assert (Fp : F p) by apply F_rn.
  assert (KS : A - A / 9007199254740992 <= k * s <= A + A / 9007199254740992).
  { unfold A. replace (k * (M * M) - k * (M * M) / 9007199254740992) with (k * (M * M - M * M / 9007199254740992)) by (unfold Rdiv; ring).
    replace (k * (M * M) + k * (M * M) / 9007199254740992) with (k * (M * M + M * M / 9007199254740992)) by (unfold Rdiv; ring).
    split; apply Rmult_le_compat_l; lra. }
  assert (A0 : 0 < A) by (unfold A; apply Rmult_lt_0_compat; [lra|apply Rmult_lt_0_compat; lra]).
  assert (T := rel_plus 1 p F1 Fp).
  assert (Pp : 0 <= p) by (apply rn_ge; [apply generic_format_0|lra]).
  rewrite (Rabs_pos_eq (1 + p)) in T by lra. apply abs_split in T.
  apply Rabs_le. unfold Tf. fold s k p. clearbody s k p A. clear S0 K0 P2 P1 P0 Gap H. lra.
Qed.
Lemma Mf_err g T A : F g -> 1 < g <= 2 -> F T -> 1 <= T -> 0 < A ->
  Rabs (T - (1 + A)) <= (31 / 10 * A + 11 / 10) / 9007199254740992 ->
  let k := 1 / 2 * (g - 1) in
  Rabs (rn (rn (T - 1) * 2 / (g - 1)) * k - A) <= (52 / 10 * A + 12 / 10) / 9007199254740992.
Proof.
  intros Fg G FT T1 A0 H k. assert (Gap := gm1_ge g Fg (proj1 G)). assert (P1 := bpow_gt_0 radix2 (-52)).
  assert (D := rel_minus T 1 FT F1). rewrite (Rabs_pos_eq (T - 1)) in D by lra.
  assert (D0 : 0 <= rn (T - 1)) by (apply rn_ge; [apply generic_format_0|lra]).
  apply abs_split in D. apply abs_split in H.
  set (d := rn (T - 1)) in *.
  assert (Q : Rabs (rn (d * 2 / (g - 1)) * k - d) <= d / 9007199254740992).
  { destruct (gap_above_1 T FT T1) as [->|L].
    - assert (d = 0) as -> by (unfold d; replace (1 - 1) with 0 by ring; apply rn_F, generic_format_0).
      replace (0 * 2 / (g - 1)) with 0 by (field; lra). rewrite (rn_F 0 (generic_format_0 _ _)).
      rewrite Rmult_0_l, Rminus_0_r, Rabs_R0. lra.
    - assert (DD : bpow radix2 (-52) <= d) by (apply rn_ge; [apply F_bpow; lia|lra]).
      assert (N : bpow radix2 (-52) <= d * 2 / (g - 1)).
      { assert (I : 1 <= / (g - 1)) by (rewrite <- Rinv_1; apply Rinv_le_contravar; lra). unfold Rdiv. nra. }
      assert (R := rel_pos _ (normal_le (-52) _ ltac:(lia) N)).
      replace (rn (d * 2 / (g - 1)) * k - d) with ((rn (d * 2 / (g - 1)) - d * 2 / (g - 1)) * k) by (unfold k; field; lra).
      rewrite Rabs_mult, (Rabs_pos_eq k) by (unfold k; lra).
      replace (d / 9007199254740992) with (d * 2 / (g - 1) / 9007199254740992 * k) by (unfold k; field; lra).
      apply Rmult_le_compat_r; [unfold k; lra|exact R]. }
  apply abs_split in Q. apply Rabs_le.
  set (q := rn (d * 2 / (g - 1)) * k) in *. clearbody q d. clear Gap P1. lra.
Qed.
Lemma round_trip g M : F g -> 1 < g <= 2 -> bpow radix2 (-400) <= M <= bpow radix2 400 ->
  Rabs (Mf g (Tf g M) - M) <= (M + 1 / ((g - 1) * M)) / 1125899906842624.
Proof.
  intros Fg G H. assert (P0 := bpow_gt_0 radix2 (-400)). assert (Gap := gm1_ge g Fg (proj1 G)).
  assert (T := Tf_err g M Fg G H). cbv zeta in T.
  assert (B := Tf_bp g M G ltac:(lra)).
  set (k := 1 / 2 * (g - 1)) in *. assert (K : 0 < k) by (unfold k; lra).
  assert (MM : 0 < M * M) by (apply Rmult_lt_0_compat; lra).
  assert (A0 : 0 < k * (M * M)) by (apply Rmult_lt_0_compat; lra).
  assert (Q := Mf_err g (Tf g M) _ Fg G (F_rn _) (proj1 B) A0 T). cbv zeta in Q. fold k in Q.
  unfold Mf. set (q := rn (rn (Tf g M - 1) * 2 / (g - 1))) in *.
  assert (q0 : 0 <= q).
  { unfold q. apply rn_ge; [apply generic_format_0|]. apply Rmult_le_pos; [|apply Rlt_le, Rinv_0_lt_compat; lra].
    apply Rmult_le_pos; [|lra]. apply rn_ge; [apply generic_format_0|lra]. }
  set (d := (52 / 10 * M + 12 / 10 / (k * M)) / 9007199254740992).
  assert (KM : 0 < k * M) by (apply Rmult_lt_0_compat; lra).
  assert (D : Rabs (sqrt q - M) <= d).
  { apply sqrt_err; [lra|easy|]. apply Rmult_le_reg_r with k; [easy|].
    rewrite <- (Rabs_pos_eq k) at 1 by lra. rewrite <- Rabs_mult.
    replace ((q - M * M) * k) with (q * k - k * (M * M)) by ring. eapply Rle_trans; [exact Q|]. right. unfold d. field. lra. }
  assert (E : Rabs (rn (sqrt q) - sqrt q) <= sqrt q / 9007199254740992).
  { destruct (Req_dec q 0) as [->|N].
    - rewrite sqrt_0, (rn_F 0 (generic_format_0 _ _)), Rminus_0_r, Rabs_R0. lra.
    - apply rel_pos. assert (QQ : 0 < q) by lra.
      assert (q1 : bpow radix2 (-1074) <= q).
      { assert (U := ulp_le_abs radix2 fmt q N (F_rn _)). rewrite Rabs_pos_eq in U by lra.
        assert (U0 : ulp radix2 fmt 0 <= ulp radix2 fmt q) by (apply ulp_ge_ulp_0; typeclasses eauto).
        unfold fmt in U0, U. rewrite ulp_FLT_0 in U0 by easy. lra. }
      apply Rle_trans with (bpow radix2 (-537)); [apply bpow_le; lia|].
      rewrite <- (sqrt_Rsqr (bpow radix2 (-537))) by apply bpow_ge_0. apply sqrt_le_1_alt.
      unfold Rsqr. rewrite <- bpow_plus. exact q1. }
  apply abs_split in D. apply abs_split in E.
  assert (I : 1 / (k * M) = 2 * (1 / ((g - 1) * M))) by (unfold k; field; lra).
  assert (J : 12 / 10 / (k * M) = 24 / 10 * (1 / ((g - 1) * M))) by (unfold k; field; lra).
  unfold d in D. rewrite J in D. set (j := 1 / ((g - 1) * M)) in *.
  assert (j0 : 0 < j) by (unfold j; apply Rdiv_lt_0_compat; [lra|apply Rmult_lt_0_compat; lra]).
  apply Rabs_le. clear - D E j0 H P0. clearbody j. set (r := rn (sqrt q)) in *. set (t := sqrt q) in *. clearbody r t.
  destruct H as [H _]. assert (0 < M) by lra. clear H P0. lra.
Qed.
(*@P C82_accuracy: In binary64 arithmetic Mach_TtTs(TtTs_Mach(M)) differs from M by at most (M + 1/((gamma-1) M)) / 2^50, for every double 1 < gamma <= 2 and every double Mach number between 2^-400 and 2^400. *)
Lemma float_TtTs_accuracy : forall gamma M, b64 gamma -> b64 M -> 1 < gamma <= 2 -> bpow radix2 (-400) <= M <= bpow radix2 400 ->
  exists T M', float_TtTs_Mach (Some M) (Some gamma) = Some T /\ float_Mach_TtTs (Some T) (Some gamma) = Some M' /\
    Rabs (M' - M) <= (M + 1 / ((gamma - 1) * M)) / 2 ^ 50.
Proof.
  intros g M [Fg _] _ G H. assert (P0 := bpow_gt_0 radix2 (-400)). exists (Tf g M), (Mf g (Tf g M)).
  split; [apply TtTs_float; easy || lra|]. split.
  - apply Mach_float; try easy; [apply F_rn|]. apply Tf_bp; lra.
  - rewrite p50. now apply round_trip.
Qed.

(*@P C82_small_Mach: In binary64 arithmetic Mach numbers up to 2^-27 are lost: TtTs_Mach returns exactly 1 and Mach_TtTs of it exactly 0, for every double 1 < gamma <= 2. *)
Lemma float_TtTs_small : forall gamma M, b64 gamma -> b64 M -> 1 < gamma <= 2 -> 0 <= M <= bpow radix2 (-27) ->
  float_TtTs_Mach (Some M) (Some gamma) = Some 1 /\ float_Mach_TtTs (Some 1) (Some gamma) = Some 0.
Proof.
  intros g M [Fg _] _ G H.
  assert (H' : 0 <= M <= bpow radix2 400) by (split; [lra|]; apply Rle_trans with (bpow radix2 (-27)); [lra|apply bpow_le; lia]).
  split.
  - rewrite TtTs_float by easy. f_equal. unfold Tf.
    assert (A : 0 <= M * M <= bpow radix2 (-27 + -27)) by now apply mul_bp.
    assert (B := rn_pos _ _ A ltac:(lia)).
    assert (C : 0 <= 1 / 2 * (g - 1) * rn (M * M) <= bpow radix2 (0 + (-27 + -27))).
    { apply mul_bp; [|easy]. rewrite <- one_bp. lra. }
    assert (C' : 0 <= 1 / 2 * (g - 1) * rn (M * M) <= bpow radix2 (-55)).
    { split; [apply C|]. change (-55)%Z with (-1 + -54)%Z. rewrite bpow_plus. apply Rmult_le_compat; try easy; [lra|].
      change (bpow radix2 (-1)) with (/ 2). lra. }
    assert (D := rn_pos _ _ C' ltac:(lia)). set (p := rn (1 / 2 * (g - 1) * rn (M * M))) in *.
    apply Rle_antisym; [|apply rn_ge; [apply F1|lra]].
    apply round_N_le_midp; try typeclasses eauto; [apply F1|]. rewrite succ_eq_pos by lra.
    rewrite one_bp at 4. rewrite ulp_bpow. change (bpow radix2 (fmt (0 + 1))) with (/ 4503599627370496).
    change (bpow radix2 (-55)) with (/ 36028797018963968) in D. lra.
  - rewrite Mach_float; [|easy|easy|apply F1|]. 
    + f_equal. unfold Mf. replace (1 - 1) with 0 by ring. rewrite (rn_F 0 (generic_format_0 _ _)).
      replace (0 * 2 / (g - 1)) with 0 by (field; lra). rewrite (rn_F 0 (generic_format_0 _ _)), sqrt_0.
      apply rn_F, generic_format_0.
    + split; [lra|]. rewrite one_bp. apply bpow_le; lia.
Qed.
(*@E C82_example: the hypotheses hold for gamma = 1.5 and the Mach number 2 *)
Lemma float_TtTs_example : b64 (3 / 2) /\ b64 2 /\ 1 < 3 / 2 <= 2 /\ bpow radix2 (-400) <= 2 <= bpow radix2 400.
Proof.
  split; [replace (3 / 2) with (IZR 3 * bpow radix2 (-1)) by (cbn; lra); apply b64_mant; cbn; lia|].
  split; [apply (b64_IZR 2); cbn; lia|]. split; [lra|]. rewrite two_bp. split; apply bpow_le; lia.
Qed.

(** ** normal shock: pressure ratio and back *)
Definition a1f (g : R) : R := rn (g + 1).
Definition cf (g : R) : R := rn (2 * g / a1f g).
Definition Pf (g M : R) : R := rn (1 + rn (cf g * rn (rn (M * M) - 1))).
Definition Zf (g P : R) : R := rn (1 + rn (rn (rn (P - 1) * a1f g) / (2 * g))).
Lemma dbl_F g : F g -> F (2 * g).
Proof. intro A. rewrite Rmult_comm. now apply twice_F. Qed.
Lemma a1_bp g : F g -> 1 < g <= 2 -> 2 <= a1f g <= 2 * g.
Proof.
  intros A G. split; [apply rn_ge; [apply F2|lra]|apply rn_le_F; [now apply dbl_F|lra]].
Qed.
Lemma cf_bp g : F g -> 1 < g <= 2 -> 1 <= cf g <= 2.
Proof.
  intros A G. assert (B := a1_bp g A G).
  assert (Q : 1 <= 2 * g / a1f g <= 2).
  { split.
    - apply Rmult_le_reg_r with (a1f g); [lra|]. unfold Rdiv. rewrite Rmult_assoc, Rinv_l by lra. lra.
    - apply Rmult_le_reg_r with (a1f g); [lra|]. unfold Rdiv. rewrite Rmult_assoc, Rinv_l by lra. lra. }
  split; [apply rn_ge; [apply F1|lra]|apply rn_le_F; [apply F2|lra]].
Qed.
Lemma cf_err g : F g -> 1 < g <= 2 -> Rabs (cf g * (a1f g / (2 * g)) - 1) <= 1 / 9007199254740992.
Proof.
  intros A G. assert (B := a1_bp g A G).
  assert (Q : 1 <= 2 * g / a1f g).
  { apply Rmult_le_reg_r with (a1f g); [lra|]. unfold Rdiv. rewrite Rmult_assoc, Rinv_l by lra. lra. }
  assert (R : Rabs (cf g - 2 * g / a1f g) <= 2 * g / a1f g / 9007199254740992).
  { apply rel_pos. apply Rle_trans with 1; [|easy]. rewrite one_bp. apply bpow_le; lia. }
  replace (cf g * (a1f g / (2 * g)) - 1) with ((cf g - 2 * g / a1f g) * (a1f g / (2 * g))) by (field; lra).
  assert (P : 0 < a1f g / (2 * g)) by (apply Rdiv_lt_0_compat; lra).
  rewrite Rabs_mult, (Rabs_pos_eq (a1f g / (2 * g))) by lra.
  replace (1 / 9007199254740992) with (2 * g / a1f g / 9007199254740992 * (a1f g / (2 * g))) by (field; lra).
  apply Rmult_le_compat_r; lra.
Qed.
Lemma small_gap x : F x -> 1 <= x -> x - 1 = 0 \/ bpow radix2 (-52) <= x - 1.
Proof. intros A B. destruct (gap_above_1 x A B) as [->|L]; [left; ring|now right]. Qed.
Lemma rn0 : rn 0 = 0. Proof. apply rn_F, generic_format_0. Qed.
(** relative error when the operand is zero or not tiny *)
Lemma rel0 z : z = 0 \/ bpow radix2 (-60) <= z -> Rabs (rn z - z) <= z / 9007199254740992.
Proof.
  intros [->|H]; [rewrite rn0, Rminus_0_r, Rabs_R0; lra|]. apply rel_pos. apply (normal_le (-60)); [lia|easy].
Qed.
Lemma zmul a z e : 1 <= a -> z = 0 \/ bpow radix2 e <= z -> a * z = 0 \/ bpow radix2 e <= a * z.
Proof. intros A [->|H]; [left; ring|right]. assert (P := bpow_gt_0 radix2 e). nra. Qed.
Lemma zrn z e : (-1074 <= e)%Z -> z = 0 \/ bpow radix2 e <= z -> rn z = 0 \/ bpow radix2 e <= rn z.
Proof. intros E [->|H]; [left; apply rn0|right]. apply rn_ge; [now apply F_bpow|easy]. Qed.
Lemma zweak z e f : (f <= e)%Z -> z = 0 \/ bpow radix2 e <= z -> z = 0 \/ bpow radix2 f <= z.
Proof. intros E [->|H]; [now left|right]. apply Rle_trans with (2 := H). now apply bpow_le. Qed.

Lemma shock_round_trip g M : F g -> 1 < g <= 2 -> F M -> 1 <= M <= bpow radix2 400 ->
  Rabs (Zf g (Pf g M) - M * M) <= 11 * (M * M) / 9007199254740992.
Proof.
  intros Fg G FM H. assert (A1 := a1_bp g Fg G). assert (C1 := cf_bp g Fg G). assert (CE := cf_err g Fg G).
  assert (MM : 1 <= M * M) by nra.
  assert (S : Rabs (rn (M * M) - M * M) <= M * M / 9007199254740992).
  { apply rel_pos. apply Rle_trans with 1; [|easy]. rewrite one_bp. apply bpow_le; lia. }
  assert (S1 : 1 <= rn (M * M)) by (apply rn_ge; [apply F1|easy]).
  assert (Fs : F (rn (M * M))) by apply F_rn. unfold Zf, Pf.
  set (s := rn (M * M)) in *.
  assert (T := rel_minus s 1 Fs F1). rewrite (Rabs_pos_eq (s - 1)) in T by lra.
  assert (Tz := zrn _ (-52) ltac:(lia) (small_gap s Fs S1)).
  set (t := rn (s - 1)) in *.
  assert (t0 : 0 <= t) by (destruct Tz as [->|?]; [lra|assert (P := bpow_gt_0 radix2 (-52)); lra]).
  assert (R := rel0 (cf g * t) (zweak _ (-52) (-60) ltac:(lia) (zmul _ _ _ (proj1 C1) Tz))).
  set (r := rn (cf g * t)) in *. assert (Fr : F r) by apply F_rn.
  assert (ct0 : 0 <= cf g * t) by nra.
  assert (r0 : 0 <= r) by (apply rn_ge; [apply generic_format_0|easy]).
  assert (Pe := rel_plus 1 r F1 Fr). rewrite (Rabs_pos_eq (1 + r)) in Pe by lra.
  assert (P1 : 1 <= rn (1 + r)) by (apply rn_ge; [apply F1|lra]).
  assert (FP : F (rn (1 + r))) by apply F_rn.
  set (P := rn (1 + r)) in *.
  assert (De := rel_minus P 1 FP F1). rewrite (Rabs_pos_eq (P - 1)) in De by lra.
  assert (Dz := zrn _ (-52) ltac:(lia) (small_gap P FP P1)).
  set (d := rn (P - 1)) in *.
  assert (d0 : 0 <= d) by (destruct Dz as [->|?]; [lra|assert (Q := bpow_gt_0 radix2 (-52)); lra]).
  assert (Bz : d * a1f g = 0 \/ bpow radix2 (-52) <= d * a1f g) by (rewrite Rmult_comm; apply zmul; [lra|easy]).
  assert (B := rel0 _ (zweak _ (-52) (-60) ltac:(lia) Bz)).
  assert (Bz' := zrn _ (-52) ltac:(lia) Bz).
  set (b := rn (d * a1f g)) in *.
  assert (b0 : 0 <= b) by (destruct Bz' as [->|?]; [lra|assert (Q := bpow_gt_0 radix2 (-52)); lra]).
  assert (Ez : b / (2 * g) = 0 \/ bpow radix2 (-60) <= b / (2 * g)).
  { destruct Bz' as [->|L]; [left; field; lra|right].
    apply Rle_trans with (bpow radix2 (-52) * / 4).
    - change (/ 4) with (bpow radix2 (-2)). rewrite <- bpow_plus. apply bpow_le; lia.
    - apply Rmult_le_compat; [apply bpow_ge_0|lra|easy|]. apply Rinv_le_contravar; lra. }
  assert (E := rel0 _ Ez). set (e := rn (b / (2 * g))) in *. assert (Fe : F e) by apply F_rn.
  assert (be : 0 <= b / (2 * g)) by (apply Rmult_le_pos; [lra|apply Rlt_le, Rinv_0_lt_compat; lra]).
  assert (e0 : 0 <= e) by (apply rn_ge; [apply generic_format_0|easy]).
  assert (Ze := rel_plus 1 e F1 Fe). rewrite (Rabs_pos_eq (1 + e)) in Ze by lra.
  set (z := rn (1 + e)) in *.
  (* scaled quantities *)
  set (rho := a1f g / (2 * g)) in *.
  assert (rho0 : 0 < rho) by (apply Rdiv_lt_0_compat; lra).
  assert (rho1 : rho <= 1).
  { apply Rmult_le_reg_r with (2 * g); [lra|]. unfold rho, Rdiv. rewrite Rmult_assoc, Rinv_l by lra. lra. }
  apply abs_split in S. apply abs_split in T. apply abs_split in R. apply abs_split in Pe. apply abs_split in De.
  apply abs_split in B. apply abs_split in E. apply abs_split in Ze. apply abs_split in CE.
  assert (D1 : cf g * t - (31 / 10 * (cf g * t) + 11 / 10) / 9007199254740992 <= d <= cf g * t + (31 / 10 * (cf g * t) + 11 / 10) / 9007199254740992).
  { clear - R Pe De r0 d0 ct0. generalize dependent (cf g * t). intros. lra. }
  assert (X1 : t - t / 9007199254740992 <= cf g * t * rho <= t + t / 9007199254740992).
  { replace (cf g * t * rho) with (cf g * rho * t) by ring. split.
    - replace (t - t / 9007199254740992) with ((1 - 1 / 9007199254740992) * t) by (unfold Rdiv; ring). apply Rmult_le_compat_r; lra.
    - replace (t + t / 9007199254740992) with ((1 + 1 / 9007199254740992) * t) by (unfold Rdiv; ring). apply Rmult_le_compat_r; lra. }
  set (X := cf g * t) in *.
  assert (D2 : X * rho - (31 / 10 * (X * rho) + 11 / 10) / 9007199254740992 <= d * rho <= X * rho + (31 / 10 * (X * rho) + 11 / 10) / 9007199254740992).
  { destruct D1 as [Da Db]. apply (Rmult_le_compat_r rho) in Da; [|lra]. apply (Rmult_le_compat_r rho) in Db; [|lra].
    clear - Da Db rho1. generalize dependent (d * rho). intros dr. set (y := X * rho).
    replace ((X - (31 / 10 * X + 11 / 10) / 9007199254740992) * rho) with (y - (31 / 10 * y + 11 / 10 * rho) / 9007199254740992) by (unfold y, Rdiv; ring).
    replace ((X + (31 / 10 * X + 11 / 10) / 9007199254740992) * rho) with (y + (31 / 10 * y + 11 / 10 * rho) / 9007199254740992) by (unfold y, Rdiv; ring).
    clearbody y. intros. lra. }
  assert (B2 : d * rho - d * rho / 9007199254740992 <= b / (2 * g) <= d * rho + d * rho / 9007199254740992).
  { assert (I : 0 < / (2 * g)) by (apply Rinv_0_lt_compat; lra). destruct B as [Ba Bb].
    apply (Rmult_le_compat_r (/ (2 * g))) in Ba; [|lra]. apply (Rmult_le_compat_r (/ (2 * g))) in Bb; [|lra].
    split; [eapply Rle_trans; [|exact Ba]|eapply Rle_trans; [exact Bb|]]; right; unfold rho, Rdiv; ring. }
  apply Rabs_le. clear - S T D2 B2 E Ze X1 t0 MM S1 e0.
  set (X' := X * rho) in *. set (d' := d * rho) in *. set (b' := b / (2 * g)) in *. set (m := M * M) in *.
  clearbody X' d' b' m z e t s. lra.
Qed.

Lemma dif_bp x e : (0 <= e)%Z -> 1 <= x <= bpow radix2 e -> 0 <= x - 1 <= bpow radix2 e.
Proof. intros E H. lra. Qed.
Lemma four_bp : 4 = bpow radix2 2. Proof. reflexivity. Qed.
Lemma Ps_float g M : F g -> 1 < g <= 2 -> 1 <= M <= bpow radix2 400 ->
  float_Ps_ratio (Some M) (Some g) = Some (Pf g M) /\ 1 <= Pf g M <= bpow radix2 802.
Proof.
  intros Fg G H. assert (A1 := a1_bp g Fg G). assert (C1 := cf_bp g Fg G).
  assert (MM : 1 <= M * M) by nra.
  assert (M2 : 0 <= M * M <= bpow radix2 (400 + 400)) by (apply mul_bp; lra).
  assert (S := rn_pos _ _ M2 ltac:(lia)). assert (S1 : 1 <= rn (M * M)) by (apply rn_ge; [apply F1|easy]).
  assert (T : 0 <= rn (M * M) - 1 <= bpow radix2 (400 + 400)) by lra. assert (T' := rn_pos _ _ T ltac:(lia)).
  assert (C2 : 0 <= cf g <= bpow radix2 1) by (rewrite <- two_bp; lra).
  assert (R := mul_bp _ _ _ _ C2 T'). assert (R' := rn_pos _ _ R ltac:(lia)).
  assert (P := sum_bp _ (1 + (400 + 400)) ltac:(lia) R').
  split.
  - unfold float_Ps_ratio, fadd, fsub, fmul, fop2, fdiv.
    rewrite (fl_pos (2 * g) 2) by (lia || (rewrite <- four_bp; lra)). rewrite (rn_F (2 * g)) by now apply dbl_F.
    rewrite (fl_pos (g + 1) 2) by (lia || (rewrite <- four_bp; lra)). fold (a1f g).
    destruct Req_EM_T as [Z|_]; [lra|].
    rewrite (fl_pos (2 * g / a1f g) 1).
    2:{ rewrite <- two_bp. split.
        - apply Rlt_le, Rdiv_lt_0_compat; lra.
        - apply Rmult_le_reg_r with (a1f g); [lra|]. unfold Rdiv. rewrite Rmult_assoc, Rinv_l by lra. lra. }
    2:{ lia. }
    fold (cf g). rewrite (fl_pos (M * M) (400 + 400)) by (easy || lia).
    rewrite (fl_pos (rn (M * M) - 1) (400 + 400)) by (easy || lia).
    rewrite (fl_pos _ (1 + (400 + 400))) by (easy || lia).
    rewrite (fl_pos _ (1 + (400 + 400) + 1)) by (easy || lia). reflexivity.
  - unfold Pf. split; [apply rn_ge; [apply F1|lra]|]. apply rn_le_F; [apply F_bpow; lia|apply P].
Qed.
Lemma Mn_float g P : F g -> 1 < g <= 2 -> F P -> 1 <= P <= bpow radix2 802 ->
  float_Mn_Ps_ratio (Some P) (Some g) = Some (rn (sqrt (Zf g P))) /\ 1 <= Zf g P.
Proof.
  intros Fg G FP H. assert (A1 := a1_bp g Fg G).
  assert (T : 0 <= P - 1 <= bpow radix2 802) by lra. assert (T' := rn_pos _ _ T ltac:(lia)).
  assert (A2 : 0 <= a1f g <= bpow radix2 2) by (rewrite <- four_bp; lra).
  assert (B := mul_bp _ _ _ _ T' A2). assert (B' := rn_pos _ _ B ltac:(lia)).
  assert (I : 0 <= / (2 * g) <= bpow radix2 0).
  { split; [apply Rlt_le, Rinv_0_lt_compat; lra|]. rewrite <- one_bp, <- Rinv_1. apply Rinv_le_contravar; lra. }
  assert (Q := mul_bp _ _ _ _ B' I). assert (Q' := rn_pos _ _ Q ltac:(lia)).
  assert (Z := sum_bp _ (802 + 2 + 0) ltac:(lia) Q').
  assert (Z1 : 1 <= Zf g P) by (unfold Zf; apply rn_ge; [apply F1|unfold Rdiv; lra]).
  split; [|easy].
  unfold float_Mn_Ps_ratio, fadd, fsub, fmul, fop2, fdiv, fsqrt.
  rewrite (fl_pos (2 * g) 2) by (lia || (rewrite <- four_bp; lra)). rewrite (rn_F (2 * g)) by now apply dbl_F.
  rewrite (fl_pos (g + 1) 2) by (lia || (rewrite <- four_bp; lra)). fold (a1f g).
  rewrite (fl_pos (P - 1) 802) by (easy || lia).
  rewrite (fl_pos (rn (P - 1) * a1f g) (802 + 2)) by (easy || lia).
  destruct Req_EM_T as [ZZ|_]; [lra|].
  rewrite (fl_pos _ (802 + 2 + 0)) by (easy || lia).
  unfold Rdiv. rewrite (fl_pos _ (802 + 2 + 0 + 1)) by (easy || lia).
  change (rn (1 + rn (rn (rn (P - 1) * a1f g) * / (2 * g)))) with (Zf g P).
  destruct Rlt_dec as [L|_]; [lra|].
  rewrite (fl_pos _ 403); [reflexivity| |lia]. apply sqrt_bp. split; [lra|].
  unfold Zf. apply rn_le_F; [apply F_bpow; lia|]. apply Rle_trans with (1 := proj2 Z). apply bpow_le; lia.
Qed.
Lemma Pf_mono g M N : F g -> 1 < g <= 2 -> 0 <= M <= N -> Pf g M <= Pf g N.
Proof.
  intros Fg G H. assert (C := cf_bp g Fg G). unfold Pf. apply rn_le, Rplus_le_compat_l, rn_le, Rmult_le_compat_l; [lra|].
  apply rn_le, Rplus_le_compat_r, rn_le. nra.
Qed.
(*@P C83_defined: In binary64 arithmetic, for every double 1 < gamma <= 2 and all doubles 1 <= M <= N <= 2^400, the shock pressure ratio Ps_ratio is a finite number >= 1, non-decreasing in the Mach number, and Mn_Ps_ratio of it is a finite number >= 1. *)
Lemma float_Ps_defined : forall gamma M N, b64 gamma -> b64 M -> b64 N -> 1 < gamma <= 2 -> 1 <= M <= N -> N <= bpow radix2 400 ->
  exists P P' M', float_Ps_ratio (Some M) (Some gamma) = Some P /\ float_Ps_ratio (Some N) (Some gamma) = Some P' /\
    1 <= P <= P' /\ float_Mn_Ps_ratio (Some P) (Some gamma) = Some M' /\ 1 <= M'.
Proof.
  intros g M N [Fg _] _ _ G H L.
  destruct (Ps_float g M Fg G ltac:(lra)) as [E1 B1]. destruct (Ps_float g N Fg G ltac:(lra)) as [E2 B2].
  destruct (Mn_float g (Pf g M) Fg G (F_rn _) B1) as [E3 B3].
  exists (Pf g M), (Pf g N), (rn (sqrt (Zf g (Pf g M)))). split; [easy|]. split; [easy|].
  split; [split; [apply B1|apply Pf_mono; try easy; lra]|]. split; [easy|].
  apply rn_ge; [apply F1|]. rewrite <- sqrt_1. now apply sqrt_le_1_alt.
Qed.
(*@P C83_accuracy: In binary64 arithmetic Mn_Ps_ratio(Ps_ratio(M)) equals M with a relative error of at most 2^-49, for every double 1 < gamma <= 2 and every double 1 <= M <= 2^400. *)
Lemma float_Ps_accuracy : forall gamma M, b64 gamma -> b64 M -> 1 < gamma <= 2 -> 1 <= M <= bpow radix2 400 ->
  exists P M', float_Ps_ratio (Some M) (Some gamma) = Some P /\ float_Mn_Ps_ratio (Some P) (Some gamma) = Some M' /\
    Rabs (M' - M) <= M / 2 ^ 49.
Proof.
  intros g M [Fg _] [FM _] G H. destruct (Ps_float g M Fg G H) as [E1 B1].
  destruct (Mn_float g (Pf g M) Fg G (F_rn _) B1) as [E3 B3].
  exists (Pf g M), (rn (sqrt (Zf g (Pf g M)))). split; [easy|]. split; [easy|].
  assert (Q := shock_round_trip g M Fg G FM H). set (z := Zf g (Pf g M)) in *.
  assert (D : Rabs (sqrt z - M) <= 11 * M / 9007199254740992).
  { apply sqrt_err; [lra|lra|]. eapply Rle_trans; [exact Q|]. right. unfold Rdiv. ring. }
  assert (S1 : 1 <= sqrt z) by (rewrite <- sqrt_1; now apply sqrt_le_1_alt).
  assert (E : Rabs (rn (sqrt z) - sqrt z) <= sqrt z / 9007199254740992).
  { apply rel_pos. apply Rle_trans with 1; [|easy]. rewrite one_bp. apply bpow_le; lia. }
  apply abs_split in D. apply abs_split in E.
  replace (2 ^ 49) with 562949953421312 by (rewrite pw; reflexivity).
  apply Rabs_le. set (r := rn (sqrt z)) in *. set (t := sqrt z) in *. clearbody r t. lra.
Qed.
(*@E C83_example: the hypotheses hold for gamma = 1.5 and the Mach number 2 *)
Lemma float_Ps_example : b64 (3 / 2) /\ b64 2 /\ 1 < 3 / 2 <= 2 /\ 1 <= 2 <= bpow radix2 400.
Proof.
  destruct float_TtTs_example as (A & B & C & D). repeat split; try easy; try lra; apply A || apply B || apply D.
Qed.
