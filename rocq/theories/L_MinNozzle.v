(** * Minimum_length_nozzle.py: the Newton inversion of the Prandtl-Meyer function *)
From Coquelicot Require Import Coquelicot.
From Verif Require Import L_Num L_Supersonic MocSpec M_MinNozzle.
Open Scope R_scope.

Definition cn : R := sqrt (227 / 27).
Definition pn (M : R) : R := pmb cn (sqrt (M ^ 2 - 1)).
Definition dpn (M : R) : R := sqrt (M ^ 2 - 1) / (M * (1 + 27 / 200 * M ^ 2)).

Lemma cn_sq : cn ^ 2 = 227 / 27. Proof. unfold cn. rewrite <- Rsqr_pow2, Rsqr_sqrt; lra. Qed.
Lemma cn_gt : 2 < cn. Proof. unfold cn. apply Rsqr_incrst_0; [rewrite Rsqr_sqrt by lra; unfold Rsqr; lra|lra|apply sqrt_pos]. Qed.
Lemma cn_lt : cn < 3. Proof. apply Rsqr_incrst_0; unfold cn; [rewrite Rsqr_sqrt by lra; unfold Rsqr; lra|apply sqrt_pos|lra]. Qed.

Lemma pmeyer_eval M : 1 <= M -> pmeyer (Some M) = Some (pn M).
Proof.
  intros H. assert (C := cn_gt). assert (B : 0 <= M ^ 2 - 1) by nra. unfold pmeyer, mn_gamma. ncbn. rewrite ndiv_Some by lra. ncbn.
  replace ((127 / 100 - 1) / (127 / 100 + 1)) with (27 / 227) by lra.
  rewrite ndiv_Some by lra. rewrite nsqrt_Some by lra. ncbn. rewrite nsqrt_Some by nra. ncbn. rewrite nsqrt_Some by lra. ncbn.
  f_equal. unfold pn, pmb. replace (1 / (27 / 227)) with (227 / 27) by lra. fold cn. do 3 f_equal.
  rewrite Rmult_comm. unfold Rdiv at 1. rewrite sqrt_mult by lra. unfold Rdiv. f_equal.
  unfold cn. rewrite <- sqrt_inv. f_equal. lra.
Qed.
Lemma prime_eval M : 1 < M -> pmeyer_prime (Some M) = Some (dpn M).
Proof.
  intros H. assert (B : 0 < M ^ 2 - 1) by nra. assert (S := sqrt_lt_R0 _ B). assert (S2 := sq_sqrt (M ^ 2 - 1) ltac:(lra)).
  unfold pmeyer_prime, mn_gamma. destruct (Req_EM_T M 1); [lra|]. ncbn. rewrite ndiv_Some by lra. ncbn.
  replace ((127 / 100 - 1) / (127 / 100 + 1)) with (27 / 227) by lra.
  rewrite ndiv_Some by nra. ncbn. rewrite ndiv_Some by lra. ncbn. rewrite nsqrt_Some by lra. rewrite ndiv_Some by lra.
  f_equal. unfold dpn. set (s := sqrt (M ^ 2 - 1)) in *.
  assert (E : M / (1 + 27 / 227 * (M ^ 2 - 1)) - 1 / M = (s * s) / (M * (1 + 27 / 200 * M ^ 2))).
  { replace (s * s) with (M ^ 2 - 1) by (rewrite <- S2; ring). field. repeat split; nra. }
  rewrite E. field. repeat split; nra.
Qed.
Lemma pn_derive M : 1 < M -> is_derive pn M (dpn M).
Proof.
  intros H. assert (Hb : 0 < M ^ 2 - 1) by nra. assert (Hs := sqrt_lt_R0 _ Hb).
  assert (Hs2 := sq_sqrt (M ^ 2 - 1) ltac:(lra)). assert (C := cn_gt). assert (C2 := cn_sq).
  assert (D : is_derive (fun m => pmb cn (sqrt (m ^ 2 - 1))) M
      ((M / sqrt (M ^ 2 - 1)) * (sqrt (M ^ 2 - 1) ^ 2 * (cn ^ 2 - 1) / ((cn ^ 2 + sqrt (M ^ 2 - 1) ^ 2) * (1 + sqrt (M ^ 2 - 1) ^ 2))))).
  { apply (is_derive_comp (pmb cn) (fun m => sqrt (m ^ 2 - 1))).
    - apply pmb_derive; lra.
    - auto_derive; [lra|]. replace (M * (M * 1)) with (M ^ 2) by ring. unfold Rminus in *. field. lra. }
  unfold pn. evar_last; [exact D|]. unfold dpn. rewrite Hs2, C2. set (s := sqrt (M ^ 2 - 1)) in *.
  replace ((M ^ 2 - 1) * (227 / 27 - 1) / ((227 / 27 + (M ^ 2 - 1)) * (1 + (M ^ 2 - 1)))) with (s * s / (M ^ 2 * (1 + 27 / 200 * M ^ 2))).
  2:{ replace (s * s) with (M ^ 2 - 1) by (rewrite <- Hs2; ring). field. repeat split; nra. }
  field. repeat split; nra.
Qed.

(** ** the slope *)
Definition hh (t : R) : R := (t - 1) / (t * (1 + 27 / 200 * t) ^ 2).
Lemma dpn_sq M : 1 <= M -> dpn M ^ 2 = hh (M ^ 2).
Proof.
  intros H. assert (B : 0 <= M ^ 2 - 1) by nra. unfold dpn, hh. unfold Rdiv at 1. rewrite Rpow_mult_distr.
  rewrite <- (Rsqr_pow2 (sqrt _)), Rsqr_sqrt by lra. field. split; nra.
Qed.
Lemma dpn_pos M : 1 < M -> 0 < dpn M.
Proof. intros H. unfold dpn. assert (0 < M ^ 2 - 1) by nra. pos. Qed.
Lemma dpn_0 M : 1 <= M -> 0 <= dpn M.
Proof. intros H. unfold dpn. assert (0 <= M ^ 2 - 1) by nra. apply Rmult_le_pos; [apply sqrt_pos|]. apply Rlt_le, Rinv_0_lt_compat. nra. Qed.
Lemma sq_le_inv a b : 0 <= b -> a ^ 2 <= b ^ 2 -> a <= b.
Proof. intros. nra. Qed.
Lemma dpn_max M : 1 <= M -> dpn M <= 582 / 1000.
Proof.
  intros H. apply sq_le_inv; [lra|]. rewrite dpn_sq by assumption. unfold hh. set (t := M ^ 2). assert (1 <= t) by (unfold t; nra).
  assert (0 < t * (1 + 27 / 200 * t) ^ 2) by (apply Rmult_lt_0_compat; nra).
  apply Rle_div_l; [assumption|].
  assert (0 <= (t - 28156 / 10000) ^ 2 * t) by (apply Rmult_le_pos; [apply pow2_ge_0|lra]). assert (Q := pow2_ge_0 (t - 28134 / 10000)). nra.
Qed.
Lemma hh_diff x y : 1 <= x -> 1 <= y ->
  hh y - hh x = (y - x) * (1 + 2 * (27 / 200) * (x + y - x * y) + (27 / 200) ^ 2 * (x ^ 2 + x * y + y ^ 2 - x * y * (x + y)))
    / ((x * (1 + 27 / 200 * x) ^ 2) * (y * (1 + 27 / 200 * y) ^ 2)).
Proof. intros. unfold hh. field. repeat split; nra. Qed.
Lemma dpn_incr x y : 1 <= x <= y -> y <= 167 / 100 -> dpn x <= dpn y.
Proof.
  intros H L. apply sq_le_inv; [apply dpn_0; lra|]. rewrite !dpn_sq by lra.
  assert (D := hh_diff (x ^ 2) (y ^ 2) ltac:(nra) ltac:(nra)). set (a := x ^ 2) in *. set (b := y ^ 2) in *.
  assert (1 <= a <= b) by (unfold a, b; nra). assert (b <= 27889 / 10000) by (unfold b; nra).
  enough (0 <= hh b - hh a) by lra. rewrite D. apply Rmult_le_pos.
  - apply Rmult_le_pos; [lra|]. nra.
  - apply Rlt_le, Rinv_0_lt_compat. repeat apply Rmult_lt_0_compat; nra.
Qed.
Lemma dpn_decr x y : 168 / 100 <= x <= y -> dpn y <= dpn x.
Proof.
  intros H. apply sq_le_inv; [apply dpn_0; lra|]. rewrite !dpn_sq by lra.
  assert (D := hh_diff (x ^ 2) (y ^ 2) ltac:(nra) ltac:(nra)). set (a := x ^ 2) in *. set (b := y ^ 2) in *.
  assert (28224 / 10000 <= a <= b) by (unfold a, b; nra).
  enough (0 <= hh a - hh b) by lra. replace (hh a - hh b) with (- (hh b - hh a)) by ring. rewrite D, <- Ropp_div.
  apply Rmult_le_pos.
  - rewrite Ropp_mult_distr_r. apply Rmult_le_pos; [lra|]. nra.
  - apply Rlt_le, Rinv_0_lt_compat. repeat apply Rmult_lt_0_compat; nra.
Qed.

Lemma dpn_mid M : 15 / 10 <= M <= 21 / 10 -> 55 / 100 <= dpn M.
Proof.
  intros H. apply sq_le_inv; [apply dpn_0; lra|]. rewrite dpn_sq by lra. unfold hh. set (t := M ^ 2).
  assert (225 / 100 <= t <= 441 / 100) by (unfold t; nra).
  assert (0 < t * (1 + 27 / 200 * t) ^ 2) by (apply Rmult_lt_0_compat; nra).
  apply (Rle_div_r _ (t - 1)); [assumption|].
  assert (0 <= (t - 225 / 100) * (441 / 100 - t)) by (apply Rmult_le_pos; lra).
  assert (0 <= t * ((t - 225 / 100) * (441 / 100 - t))) by (apply Rmult_le_pos; lra). nra.
Qed.
Lemma dpn_2 : 5623 / 10000 <= dpn 2.
Proof. apply sq_le_inv; [apply dpn_0; lra|]. rewrite dpn_sq by lra. unfold hh. lra. Qed.
Lemma dpn_at x q : 1 <= x -> 0 <= q -> hh (x ^ 2) <= q ^ 2 -> dpn x <= q.
Proof. intros. apply sq_le_inv; [assumption|]. rewrite dpn_sq by assumption. assumption. Qed.
Lemma dpn_ge x q : 1 <= x -> q ^ 2 <= hh (x ^ 2) -> q <= dpn x.
Proof. intros. apply sq_le_inv; [now apply dpn_0|]. rewrite dpn_sq by assumption. assumption. Qed.

Lemma pn_mvt x y : 1 < x < y -> exists z, x < z < y /\ pn y - pn x = dpn z * (y - x).
Proof.
  intros H. destruct (MVT_cor2 pn dpn x y) as (z & E & Hz); [lra| |now exists z].
  intros c Hc. apply is_derive_Reals, pn_derive. lra.
Qed.
Lemma pn_lt x y : 1 <= x -> x < y -> pn x < pn y.
Proof. intros A B. unfold pn. apply pmb_incr; [assert (C := cn_gt); lra|apply sqrt_pos|]. now apply beta_lt. Qed.
Lemma pn_inj x y : 1 <= x -> 1 <= y -> pn x <= pn y -> x <= y.
Proof. intros A B C. destruct (Rle_lt_dec x y) as [|D]; [assumption|]. assert (E := pn_lt y x B D). lra. Qed.
Lemma pn_step x y q : 1 < x < y -> y <= 167 / 100 -> dpn y <= q -> pn y - pn x <= q * (y - x).
Proof.
  intros H L Q. destruct (pn_mvt x y H) as (z & Hz & ->). apply Rmult_le_compat_r; [lra|].
  apply Rle_trans with (dpn y); [apply dpn_incr; lra|assumption].
Qed.
Lemma pmb_cube c b : 1 < c -> 0 <= b -> pmb c b <= b ^ 3 / 3.
Proof.
  intros Hc [Hb|<-]; [|rewrite pmb_0 by assumption; lra].
  destruct (MVT_cor2 (fun b => b ^ 3 / 3 - pmb c b) (fun b => b ^ 2 - b ^ 2 * (c ^ 2 - 1) / ((c ^ 2 + b ^ 2) * (1 + b ^ 2))) 0 b Hb) as (z & E & Hz).
  - intros x Hx. apply is_derive_Reals. apply (is_derive_minus (fun b : R => b ^ 3 / 3) (pmb c) x).
    + auto_derive; [exact I|]. field.
    + now apply pmb_derive.
  - rewrite pmb_0 in E by assumption.
    assert (D : (c ^ 2 - 1) / ((c ^ 2 + z ^ 2) * (1 + z ^ 2)) <= 1).
    { apply Rle_div_l; nra. }
    assert (0 <= z ^ 2 - z ^ 2 * (c ^ 2 - 1) / ((c ^ 2 + z ^ 2) * (1 + z ^ 2))) by (unfold Rdiv in *; rewrite Rmult_assoc; nra).
    assert (0 <= (b ^ 3 / 3 - pmb c b) - (0 ^ 3 / 3 - 0)) by (rewrite E; apply Rmult_le_pos; lra). lra.
Qed.
Lemma pn_2 : pn 2 <= 534 / 1000.
Proof.
  assert (A : pn (11 / 10) <= 321 / 10000).
  { unfold pn. eapply Rle_trans; [apply pmb_cube; [assert (C := cn_gt); lra|apply sqrt_pos]|].
    set (b := sqrt ((11 / 10) ^ 2 - 1)). assert (B2 : b * b = 21 / 100) by (unfold b; rewrite sqrt_sqrt; lra).
    assert (0 <= b) by apply sqrt_pos. assert (b <= 45827 / 100000) by nra. replace (b ^ 3) with (b * b * b) by ring. rewrite B2. lra. }
  assert (B : pn (115 / 100) - pn (11 / 10) <= 4192 / 10000 * (115 / 100 - 11 / 10)) by (apply pn_step; [lra|lra|apply dpn_at; [lra|lra|unfold hh; lra]]).
  assert (C : pn (12 / 10) - pn (115 / 100) <= 4630 / 10000 * (12 / 10 - 115 / 100)) by (apply pn_step; [lra|lra|apply dpn_at; [lra|lra|unfold hh; lra]]).
  assert (D : pn (13 / 10) - pn (12 / 10) <= 5205 / 10000 * (13 / 10 - 12 / 10)) by (apply pn_step; [lra|lra|apply dpn_at; [lra|lra|unfold hh; lra]]).
  assert (E : pn (14 / 10) - pn (13 / 10) <= 5536 / 10000 * (14 / 10 - 13 / 10)) by (apply pn_step; [lra|lra|apply dpn_at; [lra|lra|unfold hh; lra]]).
  assert (F : pn (15 / 10) - pn (14 / 10) <= 5720 / 10000 * (15 / 10 - 14 / 10)) by (apply pn_step; [lra|lra|apply dpn_at; [lra|lra|unfold hh; lra]]).
  destruct (pn_mvt (15 / 10) 2) as (z & Hz & G); [lra|]. assert (K := dpn_max z ltac:(lra)). nra.
Qed.

(** ** Newton's iteration *)
Definition ends (v M : R) (P : R -> Prop) : Prop :=
  exists fuel M', mvp_loop fuel (Some v) (Some M) = Some M' /\ Rabs (v - pn M') <= 1 / 100000 /\ P M'.
Lemma loop_stop v M fuel : 1 <= M -> Rabs (v - pn M) <= 1 / 100000 -> mvp_loop fuel (Some v) (Some M) = Some M.
Proof.
  intros H E. destruct fuel; cbn [mvp_loop]; rewrite (pmeyer_eval M H); ncbn; unfold ngt, nlt; cbn [nabs];
    (destruct (Rlt_dec (1 / 100000) (Rabs (v - pn M))); [lra|reflexivity]).
Qed.
Lemma loop_go v M fuel : 1 < M -> 1 / 100000 < Rabs (v - pn M) ->
  mvp_loop (S fuel) (Some v) (Some M) = mvp_loop fuel (Some v) (Some (M + (v - pn M) / dpn M)).
Proof.
  intros H E. cbn [mvp_loop]. rewrite (pmeyer_eval M) by lra. rewrite (prime_eval M H). assert (P := dpn_pos M H).
  ncbn. unfold ngt, nlt; cbn [nabs]. destruct (Rlt_dec (1 / 100000) (Rabs (v - pn M))); [|lra]. cbn [nif].
  rewrite ndiv_Some by lra. ncbn. do 2 f_equal. field. lra.
Qed.
Lemma ends_stop v M (P : R -> Prop) : 1 <= M -> Rabs (v - pn M) <= 1 / 100000 -> P M -> ends v M P.
Proof. intros A B C. exists O, M. split; [now apply loop_stop|easy]. Qed.
Lemma ends_go v M P : 1 < M -> 1 / 100000 < Rabs (v - pn M) -> ends v (M + (v - pn M) / dpn M) P -> ends v M P.
Proof. intros A B (f & M' & E & C & D). exists (S f), M'. split; [now rewrite loop_go|easy]. Qed.
Lemma ends_weak v M (P Q : R -> Prop) : (forall x, P x -> Q x) -> ends v M P -> ends v M Q.
Proof. intros A (f & M' & E & C & D). exists f, M'. auto. Qed.

Lemma from_right r M : 1 < r -> r <= M -> M <= 167 / 100 -> ends (pn r) M (fun M' => r <= M' <= M).
Proof.
  intros Hr. destruct (archimed ((M - r) * 100000)) as [A _].
  assert (exists k, (M - r) * 100000 <= INR k) as [k Hk].
  { destruct (Rle_lt_dec 0 ((M - r) * 100000)); [|exists O; cbn; lra].
    exists (Z.to_nat (up ((M - r) * 100000))). rewrite INR_IZR_INZ, Z2Nat.id; [lra|]. apply le_IZR. lra. }
  clear A. revert M Hk. induction k as [|k IH]; intros M Hk L U.
  - cbn in Hk. apply ends_stop; [lra| |lra]. replace M with r by lra. rewrite Rminus_eq_0, Rabs_R0. lra.
  - destruct (Rle_lt_dec (Rabs (pn r - pn M)) (1 / 100000)) as [S|S]; [apply ends_stop; lra|].
    destruct L as [L|L]. 2:{ rewrite L, Rminus_eq_0, Rabs_R0 in S. lra. }
    destruct (pn_mvt r M ltac:(lra)) as (z & Hz & E).
    assert (D := dpn_incr z M ltac:(lra) U). assert (D0 := dpn_pos M ltac:(lra)). assert (D1 := dpn_max M ltac:(lra)).
    assert (Z0 := dpn_pos z ltac:(lra)).
    rewrite Rabs_left in S by nra.
    assert (B1 : r <= M + (pn r - pn M) / dpn M).
    { enough ((pn M - pn r) / dpn M <= M - r) by (replace ((pn r - pn M) / dpn M) with (- ((pn M - pn r) / dpn M)) by (field; lra); lra).
      apply Rle_div_l; [lra|]. rewrite E. nra. }
    assert (B2 : 1 / 100000 <= (pn M - pn r) / dpn M) by (apply (Rle_div_r _ _ (dpn M)); nra).
    replace ((pn r - pn M) / dpn M) with (- ((pn M - pn r) / dpn M)) in B1 by (field; lra).
    apply ends_go; [lra|rewrite Rabs_left; nra|].
    replace ((pn r - pn M) / dpn M) with (- ((pn M - pn r) / dpn M)) by (field; lra).
    eapply ends_weak; [|apply IH]; [cbv beta; intros; lra| |lra|lra]. rewrite S_INR in Hk. lra.
Qed.
Lemma from_left r M : 168 / 100 <= M <= r -> ends (pn r) M (fun M' => M <= M' <= r).
Proof.
  assert (exists k, (r - M) * 100000 <= INR k) as [k Hk].
  { destruct (archimed ((r - M) * 100000)) as [A _]. destruct (Rle_lt_dec 0 ((r - M) * 100000)); [|exists O; cbn; lra].
    exists (Z.to_nat (up ((r - M) * 100000))). rewrite INR_IZR_INZ, Z2Nat.id; [lra|]. apply le_IZR. lra. }
  revert M Hk. induction k as [|k IH]; intros M Hk [L U].
  - cbn in Hk. apply ends_stop; [lra| |lra]. replace M with r by lra. rewrite Rminus_eq_0, Rabs_R0. lra.
  - destruct (Rle_lt_dec (Rabs (pn r - pn M)) (1 / 100000)) as [S|S]; [apply ends_stop; lra|].
    destruct U as [U|U]. 2:{ rewrite U, Rminus_eq_0, Rabs_R0 in S. lra. }
    destruct (pn_mvt M r ltac:(lra)) as (z & Hz & E).
    assert (D := dpn_decr M z ltac:(lra)). assert (D0 := dpn_pos M ltac:(lra)). assert (D1 := dpn_max M ltac:(lra)).
    assert (Z0 := dpn_pos z ltac:(lra)).
    rewrite Rabs_right in S by nra.
    assert (B1 : (pn r - pn M) / dpn M <= r - M) by (apply Rle_div_l; [lra|rewrite E; nra]).
    assert (B2 : 1 / 100000 <= (pn r - pn M) / dpn M) by (apply (Rle_div_r _ _ (dpn M)); nra).
    apply ends_go; [lra|rewrite Rabs_right; nra|].
    eapply ends_weak; [|apply IH]; [cbv beta; intros; lra| |lra]. rewrite S_INR in Hk. lra.
Qed.
Lemma near r M k : 158 / 100 <= r <= 2 -> Rabs (M - r) <= 5 / 100 -> Rabs (M - r) * 58200 <= 2 ^ k -> ends (pn r) M (fun M' => Rabs (M' - r) <= 5 / 100).
Proof.
  intros Hr. revert M. induction k as [|k IH]; intros M B K; apply Rabs_le_between in B;
    (destruct (Rtotal_order M r) as [H|[->|H]]; [|apply ends_stop; [lra| |]; rewrite Rminus_eq_0, Rabs_R0; lra|]).
  - destruct (pn_mvt M r ltac:(lra)) as (z & Hz & E). assert (D := dpn_max z ltac:(lra)). assert (D0 := dpn_pos z ltac:(lra)).
    rewrite Rabs_left in K by lra. cbn in K. apply ends_stop; [lra| |]; [rewrite Rabs_right|rewrite Rabs_left]; nra.
  - destruct (pn_mvt r M ltac:(lra)) as (z & Hz & E). assert (D := dpn_max z ltac:(lra)). assert (D0 := dpn_pos z ltac:(lra)).
    rewrite Rabs_right in K by lra. cbn in K. apply ends_stop; [lra| |]; [rewrite Rabs_left|rewrite Rabs_right]; nra.
  - destruct (Rle_lt_dec (Rabs (pn r - pn M)) (1 / 100000)) as [S|S]; [apply ends_stop; [lra|lra|apply Rabs_le; lra]|].
    destruct (pn_mvt M r ltac:(lra)) as (z & Hz & E). assert (D := dpn_max M ltac:(lra)). assert (D0 := dpn_max z ltac:(lra)).
    assert (D1 := dpn_mid M ltac:(lra)). assert (D2 := dpn_mid z ltac:(lra)).
    assert (Q : Rabs (M + (pn r - pn M) / dpn M - r) <= Rabs (M - r) / 2).
    { replace (M + (pn r - pn M) / dpn M - r) with ((r - M) * (dpn z / dpn M - 1)) by (rewrite E; field; lra).
      rewrite Rabs_mult, (Rabs_minus_sym M r). assert (0 <= Rabs (r - M)) by apply Rabs_pos.
      assert (Rabs (dpn z / dpn M - 1) <= 1 / 2); [|nra]. apply Rabs_le. split.
      - enough (1 / 2 <= dpn z / dpn M) by lra. apply (Rle_div_r _ _ (dpn M)); lra.
      - enough (dpn z / dpn M <= 3 / 2) by lra. apply Rle_div_l; lra. }
    apply ends_go; [lra|assumption|]. assert (Rabs (M - r) <= 5 / 100) by (apply Rabs_le; lra).
    apply IH; [lra|]. cbn in K. lra.
  - destruct (Rle_lt_dec (Rabs (pn r - pn M)) (1 / 100000)) as [S|S]; [apply ends_stop; [lra|lra|apply Rabs_le; lra]|].
    destruct (pn_mvt r M ltac:(lra)) as (z & Hz & E). assert (D := dpn_max M ltac:(lra)). assert (D0 := dpn_max z ltac:(lra)).
    assert (D1 := dpn_mid M ltac:(lra)). assert (D2 := dpn_mid z ltac:(lra)).
    assert (Q : Rabs (M + (pn r - pn M) / dpn M - r) <= Rabs (M - r) / 2).
    { replace (M + (pn r - pn M) / dpn M - r) with ((M - r) * (1 - dpn z / dpn M)).
      2:{ replace (pn r - pn M) with (- (pn M - pn r)) by ring. rewrite E. field. lra. }
      rewrite Rabs_mult. assert (0 <= Rabs (M - r)) by apply Rabs_pos.
      assert (Rabs (1 - dpn z / dpn M) <= 1 / 2); [|nra]. apply Rabs_le. split.
      - enough (dpn z / dpn M <= 3 / 2) by lra. apply Rle_div_l; lra.
      - enough (1 / 2 <= dpn z / dpn M) by lra. apply (Rle_div_r _ _ (dpn M)); lra. }
    apply ends_go; [lra|assumption|]. assert (Rabs (M - r) <= 5 / 100) by (apply Rabs_le; lra).
    apply IH; [lra|]. cbn in K. lra.
Qed.

(** every value below the limit angle is inverted *)
Lemma newton_ends r : 1 < r -> ends (pn r) 2 (fun M' => 1 < M' /\ (r <= M' \/ 105 / 100 <= M')).
Proof.
  intros Hr. destruct (Rle_lt_dec 2 r) as [A|A].
  { eapply ends_weak; [|apply from_left; lra]. cbv beta; intros; lra. }
  destruct (Rle_lt_dec (Rabs (pn r - pn 2)) (1 / 100000)) as [S|S]; [apply ends_stop; lra|].
  assert (D2 := dpn_2). assert (D2' := dpn_max 2 ltac:(lra)).
  destruct (pn_mvt r 2 ltac:(lra)) as (z & Hz & E).
  set (M1 := 2 + (pn r - pn 2) / dpn 2).
  destruct (Rle_lt_dec (158 / 100) r) as [B|B].
  - (* contraction *)
    apply ends_go; [lra|assumption|]. fold M1.
    assert (Z1 := dpn_mid z ltac:(lra)). assert (Z2 := dpn_max z ltac:(lra)).
    assert (Q : Rabs (M1 - r) <= 5 / 100).
    { replace (M1 - r) with ((2 - r) * (1 - dpn z / dpn 2)).
      2:{ unfold M1. replace (pn r - pn 2) with (- (pn 2 - pn r)) by ring. rewrite E. field. lra. }
      apply Rabs_le.
      assert (dpn z / dpn 2 <= 104 / 100) by (apply Rle_div_l; lra).
      assert (94 / 100 <= dpn z / dpn 2) by (apply (Rle_div_r _ _ (dpn 2)); lra). nra. }
    eapply ends_weak; [|apply (near r M1 12); [lra|assumption|]].
    + cbv beta. intros x Hx. apply Rabs_le_between in Hx. lra.
    + apply Rle_trans with (5 / 100 * 58200); [apply Rmult_le_compat_r; lra|lra].
  - apply ends_go; [lra|assumption|]. fold M1.
    assert (P2 := pn_2). assert (V : 0 < pn r). { replace 0 with (pn 1); [apply pn_lt; lra|]. unfold pn. rewrite <- (pmb_0 cn ltac:(assert (C := cn_gt); lra)). f_equal. rewrite <- sqrt_0. f_equal. ring. }
    assert (Lo : 105 / 100 <= M1).
    { unfold M1. enough ((pn 2 - pn r) / dpn 2 <= 95 / 100) by (replace ((pn r - pn 2) / dpn 2) with (- ((pn 2 - pn r) / dpn 2)) by (field; lra); lra).
      apply Rle_div_l; lra. }
    assert (Hi : M1 <= 158 / 100).
    { unfold M1. enough (42 / 100 <= (pn 2 - pn r) / dpn 2) by (replace ((pn r - pn 2) / dpn 2) with (- ((pn 2 - pn r) / dpn 2)) by (field; lra); lra).
      apply (Rle_div_r _ _ (dpn 2)); [lra|]. assert (R1 := pn_lt r (158 / 100) ltac:(lra) B).
      destruct (pn_mvt (158 / 100) 2) as (w & Hw & F); [lra|].
      assert (dpn 2 <= dpn w).
      { destruct (Rle_lt_dec (168 / 100) w) as [G|G]; [apply dpn_decr; lra|]. 
        apply sq_le_inv; [apply dpn_0; lra|]. rewrite !dpn_sq by lra. unfold hh. set (t := w ^ 2).
        assert (249 / 100 <= t <= 283 / 100) by (unfold t; nra).
        apply (Rle_div_r _ (t - 1)); [apply Rmult_lt_0_compat; nra|].
        assert (0 <= (t - 249 / 100) * (283 / 100 - t)) by (apply Rmult_le_pos; lra).
        assert (0 <= t * ((t - 249 / 100) * (283 / 100 - t))) by (apply Rmult_le_pos; lra).
        replace ((2 ^ 2 - 1) / (2 ^ 2 * (1 + 27 / 200 * 2 ^ 2) ^ 2)) with (3 / (4 * (154 / 100) ^ 2)) by (field_simplify; lra). nra. }
      nra. }
    destruct (Rle_lt_dec r M1) as [G|G].
    + eapply ends_weak; [|apply from_right; lra]. cbv beta; intros; lra.
    + destruct (Rle_lt_dec (Rabs (pn r - pn M1)) (1 / 100000)) as [S1|S1]; [apply ends_stop; lra|].
      assert (D1 : 265 / 1000 <= dpn M1).
      { apply Rle_trans with (dpn (105 / 100)); [apply dpn_ge; [lra|unfold hh; lra]|apply dpn_incr; lra]. }
      assert (Up : (pn r - pn M1) / dpn M1 <= 8 / 100).
      { apply Rle_div_l; [lra|]. destruct (pn_mvt M1 2) as (w & Hw & F); [lra|]. assert (W := dpn_max w ltac:(lra)).
        assert (X : pn r - pn 2 = dpn 2 * (M1 - 2)) by (unfold M1; field; lra).
        assert (pn r - pn M1 = (dpn w - dpn 2) * (2 - M1)) by (replace (pn r - pn M1) with ((pn r - pn 2) + (pn 2 - pn M1)) by ring; rewrite X, F; ring).
        nra. }
      assert (R2 : r <= M1 + (pn r - pn M1) / dpn M1).
      { enough (r - M1 <= (pn r - pn M1) / dpn M1) by lra. apply (Rle_div_r _ _ (dpn M1)); [lra|].
        destruct (pn_mvt M1 r) as (w & Hw & ->); [lra|]. assert (W := dpn_incr M1 w ltac:(lra) ltac:(lra)). nra. }
      apply ends_go; [lra|assumption|].
      eapply ends_weak; [|apply from_right; lra]. cbv beta; intros; lra.
Qed.

Lemma loop_more k f v M M' : mvp_loop f v M = Some M' -> mvp_loop (f + k) v M = Some M'.
Proof.
  revert M. induction f as [|f IH]; intros M H.
  - destruct k; [exact H|]. cbn [Nat.add]. cbn [mvp_loop] in *. destruct (nabs (v - pmeyer M) >? _)%num as [[]|]; [discriminate H|exact H|exact H].
  - cbn [Nat.add]. cbn [mvp_loop] in *. destruct (nabs (v - pmeyer M) >? _)%num as [[]|]; [now apply IH|exact H|exact H].
Qed.
Lemma mvp_more k f v M' : mach_via_pmeyer f v = Some M' -> mach_via_pmeyer (f + k) v = Some M'.
Proof. unfold mach_via_pmeyer. destruct v as [v|]; [|easy]. destruct (Req_EM_T v 0); [easy|]. apply loop_more. Qed.
Definition vmax : R := (cn - 1) * (PI / 2).
Lemma pn_1 : pn 1 = 0.
Proof. unfold pn. rewrite <- (pmb_0 cn ltac:(assert (C := cn_gt); lra)). f_equal. rewrite <- sqrt_0. f_equal. ring. Qed.
Lemma pn_lt_max M : 1 <= M -> pn M < vmax.
Proof. intros H. unfold pn, vmax. apply pmb_bound; [assert (C := cn_gt); lra|apply sqrt_pos]. Qed.
Lemma pn_cont M : 1 <= M -> continuity_pt pn M.
Proof.
  intros H. unfold pn. apply continuity_pt_filterlim. apply (continuous_comp (fun m => sqrt (m ^ 2 - 1)) (pmb cn)).
  - apply (continuous_comp (fun m => m ^ 2 - 1) sqrt); [|apply continuous_sqrt].
    apply (ex_derive_continuous (fun m : R => m ^ 2 - 1)). auto_derive. exact I.
  - apply (ex_derive_continuous (pmb cn)). eexists. apply pmb_derive. assert (C := cn_gt). lra.
Qed.
Lemma pn_onto v : 0 < v < vmax -> exists r, 1 < r /\ pn r = v.
Proof.
  intros [V0 V1]. assert (C := cn_gt). destruct (pmb_limit cn v ltac:(lra) V1) as (b & Hb & L).
  set (m := sqrt (1 + b ^ 2)). assert (M2 : m * m = 1 + b ^ 2) by (unfold m; apply sqrt_sqrt; nra). assert (M0 : 0 <= m) by apply sqrt_pos. assert (M1 : 1 < m) by nra.
  assert (E : pn m = pmb cn b). { unfold pn, m. f_equal. rewrite <- Rsqr_pow2, Rsqr_sqrt by nra. replace (1 + b ^ 2 - 1) with (b ^ 2) by ring. apply sqrt_pow2. lra. }
  destruct (IVT_value pn 1 m v) as (r & Hr & Er); [lra| |rewrite pn_1; lra|].
  { intros x Hx. apply continuity_pt_filterlim, pn_cont. lra. }
  exists r. split; [|exact Er]. destruct (Req_dec r 1) as [->|]; [rewrite pn_1 in Er; lra|lra].
Qed.
Lemma pn_spec M : 1 <= M -> pn M = prandtl_meyer (127 / 100) M.
Proof.
  intros H. assert (E := pmeyer_eval M H). revert E. unfold pmeyer, mn_gamma. ncbn. assert (0 <= M ^ 2 - 1) by nra.
  rewrite ndiv_Some by lra. ncbn. replace ((127 / 100 - 1) / (127 / 100 + 1)) with (27 / 227) by lra.
  rewrite ndiv_Some by lra. rewrite nsqrt_Some by lra. ncbn. rewrite nsqrt_Some by nra. ncbn. rewrite nsqrt_Some by lra. ncbn.
  intros E. injection E as E. rewrite <- E. unfold prandtl_meyer.
  replace ((127 / 100 - 1) / (127 / 100 + 1)) with (27 / 227) by lra.
  replace ((127 / 100 + 1) / (127 / 100 - 1)) with (1 / (27 / 227)) by lra. reflexivity.
Qed.

Lemma mvp_total v : 0 <= v < vmax -> exists fuel M, (forall more, mach_via_pmeyer (fuel + more) (Some v) = Some M) /\
  1 <= M /\ Rabs (v - pn M) <= 1 / 100000 /\ (0 < v -> 1 < M /\ (v <= pn M \/ 105 / 100 <= M)).
Proof.
  intros [[V0|<-] V1].
  - destruct (pn_onto v (conj V0 V1)) as (r & Hr & <-). destruct (newton_ends r Hr) as (f & M & E & B & C & D).
    exists f, M. split; [|split; [lra|split; [exact B|intros _; split; [exact C|]]]].
    + intros more. apply mvp_more. unfold mach_via_pmeyer. destruct (Req_EM_T (pn r) 0); [lra|exact E].
    + destruct D as [[D|D]|D]; [left; apply Rlt_le, pn_lt; lra|left; rewrite D; lra|right; exact D].
  - exists O, 1. split; [|rewrite pn_1, Rminus_0_r, Rabs_R0; lra].
    intros more. unfold mach_via_pmeyer. destruct (Req_EM_T 0 0); [reflexivity|lra].
Qed.
Lemma mvp_sound f v M : mach_via_pmeyer f (Some v) = Some M -> 0 <= v < vmax -> 1 <= M /\ Rabs (v - pn M) <= 1 / 100000 /\ (0 < v -> 1 < M /\ (v <= pn M \/ 105 / 100 <= M)).
Proof.
  intros E V. destruct (mvp_total v V) as (g & M' & A & B & C & D). assert (E1 := A f). apply (mvp_more g) in E.
  rewrite Nat.add_comm in E1. rewrite E in E1. injection E1 as ->. easy.
Qed.

(*@P C84_inverse: The Newton iteration of mach_via_pmeyer, started at Mach 2, ends for every Prandtl-Meyer angle from 0 up to the limit angle (sqrt((g+1)/(g-1)) - 1) pi/2 (g = 1.27, the value fixed in the script), and returns a Mach number M >= 1 whose Prandtl-Meyer angle is the requested one within 1e-5 radian. *)
Lemma newton_inverse : forall v, 0 <= v < (sqrt ((127/100 + 1) / (127/100 - 1)) - 1) * (PI / 2) ->
  exists passes M, (forall more, mach_via_pmeyer (passes + more) (Some v) = Some M) /\ 1 <= M /\
    Rabs (prandtl_meyer (127/100) M - v) <= 1 / 100000.
Proof.
  intros v H. destruct (mvp_total v) as (f & M & A & B & C & _).
  { unfold vmax, cn. replace (227 / 27) with ((127/100 + 1) / (127/100 - 1)) by lra. exact H. }
  exists f, M. split; [exact A|]. split; [exact B|]. rewrite <- pn_spec by exact B. now rewrite Rabs_minus_sym.
Qed.

(*@P C84_no_inverse: For an angle beyond the limit angle by more than the tolerance the loop of mach_via_pmeyer never ends. *)
Lemma newton_never : forall v, (sqrt ((127/100 + 1) / (127/100 - 1)) - 1) * (PI / 2) + 1 / 100000 <= v ->
  forall passes, mach_via_pmeyer passes (Some v) = None.
Proof.
  intros v H. assert (V : vmax + 1 / 100000 <= v).
  { unfold vmax, cn. replace (227 / 27) with ((127/100 + 1) / (127/100 - 1)) by lra. exact H. }
  assert (P0 := pn_lt_max 1 ltac:(lra)). rewrite pn_1 in P0.
  intros f. unfold mach_via_pmeyer. destruct (Req_EM_T v 0); [lra|].
  assert (Q : 1 < 2) by lra. revert Q. generalize 2. induction f as [|f IH]; intros M HM.
  - cbn [mvp_loop]. rewrite (pmeyer_eval M) by lra. ncbn. unfold ngt, nlt; cbn [nabs]. assert (P := pn_lt_max M ltac:(lra)).
    rewrite Rabs_right by lra. destruct (Rlt_dec (1 / 100000) (v - pn M)); [reflexivity|lra].
  - assert (P := pn_lt_max M ltac:(lra)). rewrite loop_go by (try rewrite Rabs_right; lra). apply IH.
    assert (D := dpn_pos M HM). assert (0 < (v - pn M) / dpn M) by (apply Rdiv_lt_0_compat; lra). lra.
Qed.
