(** * C87: Rayleigh flow in binary64 arithmetic *)
From Coq Require Import Reals List ZArith Lra Lia Psatz.
From Flocq Require Import Core Sterbenz Mult_error Relative Plus_error.
From Verif Require Import M_Float L_Float L_Float2.
Open Scope R_scope.

(** rounding of a number close to a double, or halfway from an even one *)
Lemma nearestE y m : Rabs (y - IZR m) < / 2 \/ (Z.even m = true /\ Rabs (y - IZR m) = / 2) -> ZnearestE y = m.
Proof.
  intros [H|[E H]]; [now apply Znearest_imp|]. unfold Znearest.
  destruct (Rle_lt_dec 0 (y - IZR m)) as [L|L].
  - rewrite Rabs_pos_eq in H by lra. rewrite (Zfloor_imp m y) by (rewrite plus_IZR; lra). rewrite H, Rcompare_Eq by reflexivity. now rewrite E.
  - rewrite Rabs_left in H by lra. rewrite (Zfloor_imp (m - 1) y) by (rewrite plus_IZR, minus_IZR; lra). rewrite minus_IZR.
    replace (y - (IZR m - 1)) with (/ 2) by lra. rewrite Rcompare_Eq by reflexivity.
    replace (Z.even (m - 1)) with false by (rewrite Z.even_sub, E; reflexivity). cbn [negb].
    apply Zceil_imp. rewrite minus_IZR. lra.
Qed.
Lemma rn_near x m e : (-1074 <= e)%Z -> bpow radix2 (e + 52) <= x < bpow radix2 (e + 53) ->
  Rabs (x - IZR m * bpow radix2 e) < / 2 * bpow radix2 e \/ (Z.even m = true /\ Rabs (x - IZR m * bpow radix2 e) = / 2 * bpow radix2 e) -> rn x = IZR m * bpow radix2 e.
Proof.
  intros He Hx Hd. assert (P := bpow_gt_0 radix2 e). assert (P52 := bpow_gt_0 radix2 (e + 52)).
  assert (MG : mag radix2 x = (e + 53)%Z :> Z).
  { apply mag_unique. rewrite Rabs_pos_eq by lra. replace (e + 53 - 1)%Z with (e + 52)%Z by lia. exact Hx. }
  assert (CE : cexp radix2 fmt x = e) by (unfold cexp, fmt, FLT_exp; rewrite MG; lia).
  unfold rn, round, scaled_mantissa. rewrite CE. unfold F2R. cbn [Fnum Fexp]. f_equal. f_equal.
  assert (K : Rabs (x * bpow radix2 (- e) - IZR m) * bpow radix2 e = Rabs (x - IZR m * bpow radix2 e)).
  { rewrite <- (Rabs_pos_eq (bpow radix2 e)) at 1 by lra. rewrite <- Rabs_mult. f_equal. rewrite bpow_opp. field. lra. }
  apply nearestE. destruct Hd as [Hd|[E Hd]]; [left; apply Rmult_lt_reg_r with (bpow radix2 e); lra|right; split; [exact E|]].
  apply Rmult_eq_reg_r with (bpow radix2 e); lra.
Qed.
Lemma fl_q x m (d : Z) k : (d = 2 ^ k)%Z -> (0 <= k <= 1000)%Z -> 4503599627370496 / IZR d <= x < 9007199254740992 / IZR d ->
  Rabs (x - IZR m / IZR d) < / 2 / IZR d \/ (Z.even m = true /\ Rabs (x - IZR m / IZR d) = / 2 / IZR d) -> fl x = Some (IZR m / IZR d).
Proof.
  intros -> Hk Hx Hd. assert (B : bpow radix2 (- k) = / IZR (2 ^ k)) by (rewrite bpow_opp; f_equal; now rewrite <- IZR_Zpower by lia).
  assert (P := bpow_gt_0 radix2 (- k)). unfold Rdiv in *. rewrite <- !B in *.
  assert (E52 : bpow radix2 (- k + 52) = 4503599627370496 * bpow radix2 (- k)) by (rewrite bpow_plus, Rmult_comm; reflexivity).
  assert (E53 : bpow radix2 (- k + 53) = 9007199254740992 * bpow radix2 (- k)) by (rewrite bpow_plus, Rmult_comm; reflexivity).
  assert (RN : rn x = IZR m * bpow radix2 (- k)) by (apply rn_near; [lia|rewrite E52, E53; exact Hx|exact Hd]).
  rewrite <- RN. apply fl_bound with (bpow radix2 (- k + 53)); [apply F_bpow; lia|rewrite Rabs_pos_eq by lra; rewrite E53; lra|apply bpow_lt; lia].
Qed.
(** [near m k]: the value in the goal's next rounding is m / 2^k *)
Ltac near x m k := let d := eval cbv in (2 ^ k)%Z in
  rewrite (fl_q x m d k); [|reflexivity|lia|split; lra|first [left; apply Rabs_def1; lra|right; split; [reflexivity|first [rewrite Rabs_pos_eq by lra; lra|rewrite Rabs_left by lra; lra]]]].
Ltac fnear m k := match goal with |- context [fl ?x] => near x m k end.
Lemma Ti_ex14 : float_Ti_Ticri (Some (9007199254740991 / 9007199254740992)) (Some (6305039478318694 / 4503599627370496)) = Some (4503599627370497 / 4503599627370496).
Proof.
  unfold float_Ti_Ticri, fmul, fadd, fsub, fdiv, fop2. cbv zeta.
  near ((9007199254740991 / 9007199254740992) * (9007199254740991 / 9007199254740992)) 9007199254740990%Z 53%Z.
  near ((6305039478318694 / 4503599627370496) * (9007199254740990 / 9007199254740992)) 6305039478318693%Z 52%Z.
  near (1 + 6305039478318693 / 4503599627370496) 5404319552844594%Z 51%Z.
  near ((6305039478318694 / 4503599627370496) + 1) 5404319552844595%Z 51%Z.
  near (2 * (5404319552844595 / 2251799813685248)) 5404319552844595%Z 50%Z.
  near (5404319552844595 / 1125899906842624 * (9007199254740990 / 9007199254740992)) 5404319552844594%Z 50%Z.
  near (5404319552844594 / 2251799813685248 * (5404319552844594 / 2251799813685248)) 6485183463413511%Z 50%Z.
  destruct (Req_EM_T (6485183463413511 / 1125899906842624) 0) as [Z|_]; [exfalso; lra|].
  near (5404319552844594 / 1125899906842624 / (6485183463413511 / 1125899906842624)) 7505999378950829%Z 53%Z.
  near ((6305039478318694 / 4503599627370496) - 1) 7205759403792792%Z 54%Z.
  destruct (Req_EM_T 2 0) as [Z|_]; [exfalso; lra|].
  near (7205759403792792 / 18014398509481984 / 2) 7205759403792792%Z 55%Z.
  near (7205759403792792 / 36028797018963968 * (9007199254740990 / 9007199254740992)) 7205759403792790%Z 55%Z.
  near (1 + 7205759403792790 / 36028797018963968) 5404319552844595%Z 52%Z.
  near (7505999378950829 / 9007199254740992 * (5404319552844595 / 4503599627370496)) 4503599627370497%Z 52%Z.
  reflexivity.
Qed.
Lemma Ti_ex1298 : float_Ti_Ticri (Some 1) (Some (5845672316326904 / 4503599627370496)) = Some (4503599627370497 / 4503599627370496).
Proof.
  unfold float_Ti_Ticri, fmul, fadd, fsub, fdiv, fop2. cbv zeta.
  near (1 * 1) 4503599627370496%Z 52%Z.
  near ((5845672316326904 / 4503599627370496) * (4503599627370496 / 4503599627370496)) 5845672316326904%Z 52%Z.
  near (1 + 5845672316326904 / 4503599627370496) 5174635971848700%Z 51%Z.
  near ((5845672316326904 / 4503599627370496) + 1) 5174635971848700%Z 51%Z.
  near (2 * (5174635971848700 / 2251799813685248)) 5174635971848700%Z 50%Z.
  near (5174635971848700 / 1125899906842624 * (4503599627370496 / 4503599627370496)) 5174635971848700%Z 50%Z.
  near (5174635971848700 / 2251799813685248 * (5174635971848700 / 2251799813685248)) 5945656731654156%Z 50%Z.
  destruct (Req_EM_T (5945656731654156 / 1125899906842624) 0) as [Z|_]; [exfalso; lra|].
  near (5174635971848700 / 1125899906842624 / (5945656731654156 / 1125899906842624)) 7839163842246295%Z 53%Z.
  near ((5845672316326904 / 4503599627370496) - 1) 5368290755825632%Z 54%Z.
  destruct (Req_EM_T 2 0) as [Z|_]; [exfalso; lra|].
  near (5368290755825632 / 18014398509481984 / 2) 5368290755825632%Z 55%Z.
  near (5368290755825632 / 36028797018963968 * (4503599627370496 / 4503599627370496)) 5368290755825632%Z 55%Z.
  near (1 + 5368290755825632 / 36028797018963968) 5174635971848700%Z 52%Z.
  near (7839163842246295 / 9007199254740992 * (5174635971848700 / 4503599627370496)) 4503599627370497%Z 52%Z.
  reflexivity.
Qed.
Lemma T_above_nan T g : F T -> 1 < T <= bpow radix2 1000 -> float_SubMach_TiTicri (Some T) g = None /\ float_SupMach_TiTicri (Some T) g = None.
Proof.
  intros FT H. assert (N : fsqrt (fsub (Some 1) (Some T)) = None).
  { unfold fsub, fop2, fsqrt. assert (G := gap_above_1 T FT ltac:(lra)). destruct G as [->|G]; [lra|].
    assert (B : rn (1 - T) <= - bpow radix2 (-52)).
    { apply rn_le_F; [apply generic_format_opp, F_bpow; lia|]. lra. }
    assert (P := bpow_gt_0 radix2 (-52)).
    rewrite (fl_bound (1 - T) (bpow radix2 1000)); [|apply F_bpow; lia|rewrite Rabs_left by lra; lra|apply bpow_lt; lia].
    destruct (Rlt_dec (rn (1 - T)) 0); [reflexivity|lra]. }
  unfold float_SubMach_TiTicri, float_SupMach_TiTicri. cbv zeta. rewrite N. split; reflexivity.
Qed.
(*@P C87_nan_refuted: In binary64 arithmetic the round trip can fail close to the sonic state: with the default gamma = 1.4 there is a double M < 1 with Ti_Ticri(M) > 1, for which SubMach_TiTicri and SupMach_TiTicri return nan; with gamma = 1.298 this happens for the Mach number 1 itself. *)
Lemma rayleigh_nan :
  (exists g M T, fl (7 / 5) = Some g /\ b64 M /\ 1 - / 2 ^ 53 <= M < 1 /\ float_Ti_Ticri (Some M) (Some g) = Some T /\ 1 < T /\
     float_SubMach_TiTicri (Some T) (Some g) = None /\ float_SupMach_TiTicri (Some T) (Some g) = None) /\
  (exists g T, fl (1298 / 1000) = Some g /\ float_Ti_Ticri (Some 1) (Some g) = Some T /\ 1 < T /\
     float_SubMach_TiTicri (Some T) (Some g) = None /\ float_SupMach_TiTicri (Some T) (Some g) = None).
Proof.
  assert (N : forall g, float_SubMach_TiTicri (Some (4503599627370497 / 4503599627370496)) g = None /\ float_SupMach_TiTicri (Some (4503599627370497 / 4503599627370496)) g = None).
  { intros g. apply T_above_nan.
    - replace (4503599627370497 / 4503599627370496) with (IZR 4503599627370497 * bpow radix2 (-52)) by (rewrite bp52; reflexivity). apply F_mant; cbn; lia.
    - split; [lra|]. apply Rle_trans with (bpow radix2 1); [change (bpow radix2 1) with 2; lra|apply bpow_le; lia]. }
  split.
  - exists (6305039478318694 / 4503599627370496), (9007199254740991 / 9007199254740992), (4503599627370497 / 4503599627370496).
    split; [fnear 6305039478318694%Z 52%Z; reflexivity|].
    split; [replace (9007199254740991 / 9007199254740992) with (IZR 9007199254740991 * bpow radix2 (-53)) by (rewrite bp53; reflexivity); apply b64_mant; cbn; lia|].
    split; [rewrite p53; lra|]. split; [exact Ti_ex14|]. split; [lra|apply N].
  - exists (5845672316326904 / 4503599627370496), (4503599627370497 / 4503599627370496).
    split; [fnear 5845672316326904%Z 52%Z; reflexivity|]. split; [exact Ti_ex1298|]. split; [lra|apply N].
Qed.

(** relative errors: x is X (1 + e) with |e| <= k 2^-53 *)
Notation u53 := (/ 9007199254740992).
Definition rr (k x X : R) : Prop := X * (1 - k * u53) <= x <= X * (1 + k * u53).
Lemma rr_mul k l x X y Y : 0 <= k <= 30 -> 0 <= l <= 30 -> 0 <= X -> 0 <= Y -> rr k x X -> rr l y Y -> rr (k + l + 1/100) (x * y) (X * Y).
Proof.
  unfold rr. intros Hk Hl HX HY [A B] [C D]. assert (0 <= X * (1 - k * u53)) by (apply Rmult_le_pos; lra). assert (0 <= Y * (1 - l * u53)) by (apply Rmult_le_pos; lra).
  assert (KL : 0 <= k * l <= 900) by nra. assert (XY : 0 <= X * Y) by nra. split.
  - apply Rle_trans with (X * (1 - k * u53) * (Y * (1 - l * u53))); [|apply Rmult_le_compat; lra].
    replace (X * (1 - k * u53) * (Y * (1 - l * u53))) with (X * Y * ((1 - k * u53) * (1 - l * u53))) by ring. apply Rmult_le_compat_l; [exact XY|]. nra.
  - apply Rle_trans with (X * (1 + k * u53) * (Y * (1 + l * u53))); [apply Rmult_le_compat; lra|].
    replace (X * (1 + k * u53) * (Y * (1 + l * u53))) with (X * Y * ((1 + k * u53) * (1 + l * u53))) by ring. apply Rmult_le_compat_l; [exact XY|]. nra.
Qed.
Lemma rr_div k l x X y Y : 0 <= k <= 30 -> 0 <= l <= 30 -> 0 <= X -> 0 < Y -> rr k x X -> rr l y Y -> rr (k + l + 1/100) (x / y) (X / Y).
Proof.
  unfold rr. intros Hk Hl HX HY [A B] [C D]. assert (0 <= X * (1 - k * u53)) by (apply Rmult_le_pos; lra). assert (Yp : 0 < Y * (1 - l * u53)) by (apply Rmult_lt_0_compat; lra).
  assert (y0 : 0 < y) by lra. assert (Q : 0 <= X / Y) by (apply Rmult_le_pos; [lra|left; now apply Rinv_0_lt_compat]). set (q := X / Y) in *. assert (EX : X = q * Y) by (unfold q; field; lra).
  assert (KL : 0 <= k * l <= 900) by nra. assert (LL : 0 <= l * l <= 900) by nra. split.
  - apply Rmult_le_reg_r with y; [lra|]. replace (x / y * y) with x by (field; lra). apply Rle_trans with (2 := A). rewrite EX.
    apply Rle_trans with (q * (1 - (k + l + 1/100) * u53) * (Y * (1 + l * u53))); [apply Rmult_le_compat_l; [apply Rmult_le_pos; lra|lra]|].
    replace (q * (1 - (k + l + 1 / 100) * u53) * (Y * (1 + l * u53))) with (q * Y * ((1 - (k + l + 1 / 100) * u53) * (1 + l * u53))) by ring. apply Rmult_le_compat_l; [nra|]. nra.
  - apply Rmult_le_reg_r with y; [lra|]. replace (x / y * y) with x by (field; lra). apply Rle_trans with (1 := B). rewrite EX.
    apply Rle_trans with (q * (1 + (k + l + 1/100) * u53) * (Y * (1 - l * u53))); [|apply Rmult_le_compat_l; [apply Rmult_le_pos; lra|lra]].
    replace (q * (1 + (k + l + 1 / 100) * u53) * (Y * (1 - l * u53))) with (q * Y * ((1 + (k + l + 1 / 100) * u53) * (1 - l * u53))) by ring. apply Rmult_le_compat_l; [nra|]. nra.
Qed.
Lemma rr_one k x X : 0 <= k -> 0 <= X -> rr k x X -> rr k (1 + x) (1 + X).
Proof. unfold rr. intros. split; nra. Qed.
Lemma rr_rn k x X : 0 <= k <= 30 -> 0 <= X -> rr k x X -> bpow radix2 (-1022) <= x -> rr (k + 1 + 1/100) (rn x) X.
Proof.
  intros Hk HX H N. pose proof (rel_pos x N) as E. apply abs_split in E. assert (rr 1 (rn x) x) by (unfold rr; lra).
  unfold rr in *. assert (x0 : 0 <= x) by (pose proof (bpow_gt_0 radix2 (-1022)); lra).
  split.
  - apply Rle_trans with (x * (1 - 1 * u53)); [|lra]. apply Rle_trans with (X * (1 - k * u53) * (1 - 1 * u53)); [|apply Rmult_le_compat_r; lra].
    rewrite Rmult_assoc. apply Rmult_le_compat_l; [exact HX|]. nra.
  - apply Rle_trans with (x * (1 + 1 * u53)); [lra|]. apply Rle_trans with (X * (1 + k * u53) * (1 + 1 * u53)); [apply Rmult_le_compat_r; lra|].
    rewrite Rmult_assoc. apply Rmult_le_compat_l; [exact HX|]. nra.
Qed.
Lemma rr_weak k l x X : 0 <= X -> k <= l -> rr k x X -> rr l x X.
Proof. unfold rr. intros. split; nra. Qed.
Lemma rr_refl X : rr 0 X X.
Proof. unfold rr. split; right; ring. Qed.
Lemma fl_rr k x X : 0 <= k <= 30 -> bpow radix2 (-1000) <= X <= bpow radix2 1000 -> rr k x X -> fl x = Some (rn x) /\ rr (k + 1 + 1/100) (rn x) X.
Proof.
  intros Hk HX H. assert (P := bpow_gt_0 radix2 (-1000)).
  assert (B : bpow radix2 (-1022) <= x /\ 0 <= x <= bpow radix2 1001).
  { unfold rr in H. assert (X / 2 <= x <= 2 * X) by (split; nra). change (-1022)%Z with (-22 + -1000)%Z. change 1001%Z with (1 + 1000)%Z. rewrite !bpow_plus. change (bpow radix2 1) with 2. change (bpow radix2 (-22)) with (/ 4194304). lra. }
  split; [apply (fl_pos x 1001); [lra|lia]|]. apply rr_rn; lra || assumption.
Qed.
Definition tau (g M : R) : R := 2 * (g + 1) * M ^ 2 / (1 + g * M ^ 2) ^ 2 * (1 + (g - 1) / 2 * M ^ 2).
Lemma bp_bounds a b x y e f : bpow radix2 e <= a -> 0 <= a <= x -> bpow radix2 f <= b -> 0 <= b <= y -> bpow radix2 (e + f) <= a * b <= x * y.
Proof. intros. rewrite bpow_plus. assert (P := bpow_gt_0 radix2 e). assert (Q := bpow_gt_0 radix2 f). split; apply Rmult_le_compat; lra. Qed.
Lemma fl_rr' k k' x X : 0 <= k <= 30 -> k + 1 + 1/100 <= k' -> bpow radix2 (-1000) <= X <= bpow radix2 1000 -> rr k x X -> fl x = Some (rn x) /\ rr k' (rn x) X.
Proof. intros Hk Hk' HX H. destruct (fl_rr k x X Hk HX H) as [A B]. split; [exact A|]. assert (P := bpow_gt_0 radix2 (-1000)). apply rr_weak with (3 := B); lra. Qed.
Lemma Ti_float g M : F g -> 1 < g <= 2 -> bpow radix2 (-100) <= M <= bpow radix2 100 ->
  exists T, float_Ti_Ticri (Some M) (Some g) = Some T /\ F T /\ rr 17 T (tau g M).
Proof.
  intros Fg G H. assert (P0 := bpow_gt_0 radix2 (-100)). assert (Gap := gm1_ge g Fg (proj1 G)). assert (Fm := gm1 g Fg G). assert (P1 := bpow_gt_0 radix2 (-52)).
  assert (m0 : bpow radix2 (-200) <= M * M <= bpow radix2 200).
  { change (-200)%Z with (-100 + -100)%Z. change 200%Z with (100 + 100)%Z. rewrite !bpow_plus. split; apply Rmult_le_compat; lra. }
  assert (P2 := bpow_gt_0 radix2 (-200)). set (m := M * M) in *.
  assert (L : forall e f, (e <= f)%Z -> bpow radix2 e <= bpow radix2 f) by (intros; now apply bpow_le).
  assert (one_le : 1 <= bpow radix2 200) by (rewrite one_bp; apply L; lia).
  assert (B3 : bpow radix2 203 = 8 * bpow radix2 200) by (change 203%Z with (3 + 200)%Z; rewrite bpow_plus; reflexivity).
  assert (l1 := L (-1000)%Z (-200)%Z ltac:(lia)). assert (l2 := L 203%Z 1000%Z ltac:(lia)). assert (l3 : bpow radix2 (-1000) <= 1) by (rewrite one_bp; apply L; lia).
  (* m2 *)
  destruct (fl_rr' 0 (11/10) m m) as [E1 R1]; [lra|lra|lra|apply rr_refl|]. set (m2 := rn m) in *.
  (* gamma m2 *)
  assert (gm : m <= g * m <= 2 * m) by (split; nra).
  destruct (fl_rr' (0 + 11/10 + 1/100) (22/10) (g * m2) (g * m)) as [E2 R2]; [lra|lra|lra|apply rr_mul; lra || apply rr_refl || exact R1|]. set (gm2 := rn (g * m2)) in *.
  (* u = 1 + gamma m2 *)
  destruct (fl_rr' (22/10) (33/10) (1 + gm2) (1 + g * m)) as [E3 R3]; [lra|lra|lra|apply rr_one; lra || exact R2|]. set (u := rn (1 + gm2)) in *.
  (* gamma + 1 *)
  destruct (fl_rr' 0 (11/10) (g + 1) (g + 1)) as [E4 R4]; [lra|lra|lra|apply rr_refl|]. set (gp := rn (g + 1)) in *.
  assert (R5 : rr (0 + 11/10 + 1/100) (2 * gp) (2 * (g + 1))) by (apply rr_mul; lra || apply rr_refl || exact R4).
  destruct (fl_rr' (0 + 11/10 + 1/100) 3 (2 * gp) (2 * (g + 1))) as [E5 _]; [lra|lra|lra|exact R5|].
  assert (X5 : rn (2 * gp) = 2 * gp) by (rewrite Rmult_comm; apply rn_F, twice_F, F_rn). rewrite X5 in E5.
  (* numerator *)
  assert (nm : 4 * m <= 2 * (g + 1) * m <= 6 * m) by (split; nra).
  destruct (fl_rr' (0 + 11/10 + 1/100 + 11/10 + 1/100) (33/10) (2 * gp * m2) (2 * (g + 1) * m)) as [E6 R6]; [lra|lra|lra|apply rr_mul; lra || exact R5 || exact R1|]. set (nu := rn (2 * gp * m2)) in *.
  (* square *)
  assert (X3 : 1 <= 1 + g * m <= 3 * bpow radix2 200) by lra.
  assert (sq1 : 1 <= (1 + g * m) * (1 + g * m) <= bpow radix2 404).
  { split; [nra|]. change 404%Z with (4 + (200 + 200))%Z. rewrite !bpow_plus. change (bpow radix2 4) with 16.
    apply Rle_trans with ((3 * bpow radix2 200) * (3 * bpow radix2 200)); [apply Rmult_le_compat; lra|]. assert (0 < bpow radix2 200 * bpow radix2 200) by nra. nra. }
  assert (l4 := L 404%Z 1000%Z ltac:(lia)).
  destruct (fl_rr' (33/10 + 33/10 + 1/100) (77/10) (u * u) ((1 + g * m) * (1 + g * m))) as [E7 R7]; [lra|lra|lra|apply rr_mul; lra || exact R3|]. set (uu := rn (u * u)) in *.
  assert (uu0 : uu <> 0). { unfold rr in R7. assert (0 < (1 + g * m) * (1 + g * m) * (1 - 77/10 * u53)) by (apply Rmult_lt_0_compat; lra). lra. }
  (* quotient *)
  set (XQ := 2 * (g + 1) * m / ((1 + g * m) * (1 + g * m))).
  assert (Q0 : bpow radix2 (-604) <= XQ <= bpow radix2 203).
  { unfold XQ. change (-604)%Z with (-200 + -404)%Z. rewrite bpow_plus. replace (bpow radix2 (-404)) with (/ bpow radix2 404) by (now rewrite <- bpow_opp). unfold Rdiv.
    assert (I1 : / bpow radix2 404 <= / ((1 + g * m) * (1 + g * m))) by (apply Rinv_le_contravar; lra).
    assert (I2 : / ((1 + g * m) * (1 + g * m)) <= 1) by (rewrite <- Rinv_1; apply Rinv_le_contravar; lra).
    assert (I0 : 0 < / bpow radix2 404) by (apply Rinv_0_lt_compat, bpow_gt_0). split.
    - apply Rmult_le_compat; lra.
    - rewrite <- (Rmult_1_r (bpow radix2 203)). apply Rmult_le_compat; lra. }
  assert (l5 := L (-1000)%Z (-604)%Z ltac:(lia)). assert (P6 := bpow_gt_0 radix2 (-604)).
  destruct (fl_rr' (33/10 + 77/10 + 1/100) (121/10) (nu / uu) XQ) as [E8 R8]; [lra|lra|lra|apply rr_div; lra || exact R6 || exact R7|]. set (q := rn (nu / uu)) in *.
  (* the stagnation to static ratio *)
  assert (Fh : F ((g - 1) / 2)).
  { replace ((g - 1) / 2) with (1 / 2 * (g - 1)) by field. apply half_F; [easy|]. rewrite Rabs_pos_eq by lra. apply Rle_trans with (bpow radix2 (-52)); [apply L; lia|lra]. }
  assert (E9 : fl (g - 1) = Some (g - 1)) by (rewrite (fl_pos (g - 1) 0) by (try lia; rewrite <- one_bp; lra); now rewrite (rn_F _ Fm)).
  assert (E10 : fl ((g - 1) / 2) = Some ((g - 1) / 2)) by (rewrite (fl_pos ((g - 1) / 2) 0) by (try lia; rewrite <- one_bp; lra); now rewrite (rn_F _ Fh)).
  assert (hm : bpow radix2 (-53 + -200) <= (g - 1) / 2 * m <= 1 * bpow radix2 200).
  { apply bp_bounds; try lra. change (-53)%Z with (-1 + -52)%Z. rewrite bpow_plus. change (bpow radix2 (-1)) with (/ 2). lra. }
  assert (l6 := L (-1000)%Z (-53 + -200)%Z ltac:(lia)). assert (P7 := bpow_gt_0 radix2 (-53 + -200)).
  destruct (fl_rr' (0 + 11/10 + 1/100) (22/10) ((g - 1) / 2 * m2) ((g - 1) / 2 * m)) as [E11 R11]; [lra|lra|lra|apply rr_mul; lra || apply rr_refl || exact R1|]. set (h2 := rn ((g - 1) / 2 * m2)) in *.
  destruct (fl_rr' (22/10) (33/10) (1 + h2) (1 + (g - 1) / 2 * m)) as [E12 R12]; [lra|lra|lra|apply rr_one; lra || exact R11|]. set (v := rn (1 + h2)) in *.
  (* product *)
  assert (tt : bpow radix2 (-604 + 0) <= XQ * (1 + (g - 1) / 2 * m) <= bpow radix2 203 * bpow radix2 203).
  { apply bp_bounds; try lra. change (bpow radix2 0) with 1. lra. }
  change (-604 + 0)%Z with (-604)%Z in tt. rewrite <- bpow_plus in tt. assert (l7 := L (203 + 203)%Z 1000%Z ltac:(lia)).
  destruct (fl_rr' (121/10 + 33/10 + 1/100) 17 (q * v) (XQ * (1 + (g - 1) / 2 * m))) as [E13 R13]; [lra|lra|lra|apply rr_mul; lra || exact R8 || exact R12|].
  exists (rn (q * v)). split; [|split; [apply F_rn|]].
  - unfold float_Ti_Ticri, fmul, fadd, fsub, fdiv, fop2. cbv zeta. fold m. rewrite E1, E2, E3, E4, E5, E6, E7. destruct (Req_EM_T uu 0) as [Z|_]; [contradiction|].
    rewrite E8, E9. destruct (Req_EM_T 2 0) as [Z|_]; [lra|]. rewrite E10, E11, E12. exact E13.
  - replace (tau g M) with (XQ * (1 + (g - 1) / 2 * m)); [exact R13|]. unfold tau, XQ, m. field. apply Rgt_not_eq. unfold m in *. nra.
Qed.
(** the square root of the distance to the sonic state *)
Definition al (g M : R) : R := Rabs (1 - M ^ 2) / (1 + g * M ^ 2).
Lemma tau_al g M : 1 < g -> tau g M = 1 - al g M ^ 2.
Proof.
  intros G. assert (0 <= M ^ 2) by (apply pow2_ge_0). unfold tau, al. replace ((Rabs (1 - M ^ 2) / (1 + g * M ^ 2)) ^ 2) with (Rabs (1 - M ^ 2) ^ 2 / (1 + g * M ^ 2) ^ 2) by (field; nra).
  rewrite pow2_abs. field. nra.
Qed.
Lemma tiny : bpow radix2 (-1075) <= / 100 * u53.
Proof. apply Rle_trans with (bpow radix2 (-60)); [apply bpow_le; lia|]. change (bpow radix2 (-60)) with (/ 1152921504606846976). lra. Qed.
Lemma err_le z B : Rabs z <= B -> Rabs (rn z - z) <= B * u53 + / 100 * u53.
Proof. intros H. pose proof (err z) as E. pose proof tiny as Y. rewrite p53 in E. unfold Rdiv in E. assert (Rabs z * u53 <= B * u53) by (apply Rmult_le_compat_r; lra). lra. Qed.
Lemma inv_ge a : 0 < a <= 1 -> 1 <= / a.
Proof. intros H. rewrite <- Rinv_1. apply Rinv_le_contravar; lra. Qed.
Lemma alpha_float T a0 : F T -> / 4194304 <= a0 <= 1 -> rr 17 T (1 - a0 ^ 2) ->
  exists a, fsqrt (fsub (Some 1) (Some T)) = Some a /\ F a /\ 0 <= a <= 1 /\ Rabs (a - a0) <= 20 * u53 * / a0 /\ 0 <= T < 1.
Proof.
  intros FT Ha RT. assert (I := inv_ge a0 ltac:(lra)). assert (A2 : / 17592186044416 <= a0 ^ 2 <= 1) by (split; nra).
  assert (TB : 0 <= T /\ 1 - a0 ^ 2 - 17 * u53 <= T <= 1 - a0 ^ 2 + 17 * u53).
  { unfold rr in RT. assert (0 <= (1 - a0 ^ 2) * (1 - 17 * u53)) by (apply Rmult_le_pos; lra). split; [lra|]. split; nra. }
  assert (E := rel_minus 1 T F1 FT). rewrite (Rabs_pos_eq (1 - T)) in E by lra. unfold Rdiv in E.
  assert (S0 : 0 <= rn (1 - T) <= 1) by (split; [apply rn_ge; [apply generic_format_0|lra]|apply rn_le_F; [apply F1|lra]]).
  assert (ES : fl (1 - T) = Some (rn (1 - T))) by (apply (fl_pos _ 0); [rewrite <- one_bp; lra|lia]). set (s := rn (1 - T)) in *.
  assert (D1 : Rabs (s - a0 ^ 2) <= 18 * u53).
  { apply Rabs_le. apply abs_split in E. assert ((1 - T) * u53 <= (a0 ^ 2 + 17 * u53) * u53) by (apply Rmult_le_compat_r; lra).
    unfold rr in RT. assert (a0 ^ 2 * (17 * u53) + (1 - a0 ^ 2) * (17 * u53) = 17 * u53) by ring. nra. }
  assert (D2 : Rabs (sqrt s - a0) <= 18 * u53 * / a0).
  { apply sqrt_err; [lra|lra|]. rewrite Rmult_assoc, Rinv_l by lra. replace (a0 * a0) with (a0 ^ 2) by ring. lra. }
  assert (Q1 : 0 <= sqrt s <= 1) by (split; [apply sqrt_pos|rewrite <- sqrt_1; apply sqrt_le_1_alt; lra]).
  assert (D3 := err_le (sqrt s) 1 ltac:(rewrite Rabs_pos_eq; lra)).
  exists (rn (sqrt s)). split; [|split; [apply F_rn|split; [split; [apply rn_ge; [apply generic_format_0|lra]|apply rn_le_F; [apply F1|lra]]|split; [|lra]]]].
  - unfold fsub, fop2, fsqrt. rewrite ES. destruct (Rlt_dec s 0); [lra|]. apply (fl_pos _ 0); [rewrite <- one_bp; lra|lia].
  - apply abs_split in D2. apply abs_split in D3. apply Rabs_le. assert (18 * u53 * / a0 = 18 * (u53 * / a0)) by ring. assert (20 * u53 * / a0 = 20 * (u53 * / a0)) by ring. assert (u53 <= u53 * / a0) by nra. lra.
Qed.
Lemma quot_err n d N D X : 0 < d -> 0 < D -> N = X * D -> 0 <= X -> Rabs (n / d - X) * d <= Rabs (n - N) + X * Rabs (d - D).
Proof.
  intros Hd HD EN HX. rewrite <- (Rabs_pos_eq d) at 2 by lra. rewrite <- Rabs_mult. replace ((n / d - X) * d) with ((n - N) - X * (d - D)) by (rewrite EN; field; lra).
  eapply Rle_trans; [apply Rabs_triang|]. rewrite Rabs_Ropp, Rabs_mult, (Rabs_pos_eq X) by lra. lra.
Qed.
Lemma Sub_float g M a0 T : F g -> 1 < g <= 2 -> F T -> 0 < M < 1 -> a0 = (1 - M ^ 2) / (1 + g * M ^ 2) -> / 4194304 <= a0 <= 1 -> rr 17 T (1 - a0 ^ 2) ->
  exists M', float_SubMach_TiTicri (Some T) (Some g) = Some M' /\ 0 <= M' <= 1 /\ Rabs (M' - M) <= 72 * u53 * / (a0 * M).
Proof.
  intros Fg G FT HM Ea Ha RT. destruct (alpha_float T a0 FT Ha RT) as (a & E1 & Fa & Ba & Da & _). assert (I := inv_ge a0 ltac:(lra)).
  assert (i0 : u53 <= u53 * / a0) by nra. set (i := u53 * / a0) in *. replace (20 * u53 * / a0) with (20 * i) in Da by (unfold i; ring).
  assert (M2 : 0 < M ^ 2 < 1) by (split; nra).
  (* 1 - alpha *)
  assert (En := rel_minus 1 a F1 Fa). rewrite (Rabs_pos_eq (1 - a)) in En by lra. unfold Rdiv in En.
  assert (Bn : 0 <= rn (1 - a) <= 1) by (split; [apply rn_ge; [apply generic_format_0|lra]|apply rn_le_F; [apply F1|lra]]).
  assert (Fn : fl (1 - a) = Some (rn (1 - a))) by (apply (fl_pos _ 0); [rewrite <- one_bp; lra|lia]). set (n := rn (1 - a)) in *.
  assert (Dn : Rabs (n - (1 - a0)) <= 21 * i).
  { apply abs_split in En. apply abs_split in Da. apply Rabs_le. assert ((1 - a) * u53 <= 1 * u53) by (apply Rmult_le_compat_r; lra). lra. }
  (* alpha gamma + 1 *)
  assert (ag : 0 <= a * g <= 2) by (split; nra).
  assert (Ep := err_le (a * g) 2 ltac:(rewrite Rabs_pos_eq; lra)).
  assert (Bp : 0 <= rn (a * g) <= 2) by (split; [apply rn_ge; [apply generic_format_0|lra]|apply rn_le_F; [apply F2|lra]]).
  assert (Fp : fl (a * g) = Some (rn (a * g))) by (apply (fl_pos _ 1); [rewrite <- two_bp; lra|lia]). assert (FFp : F (rn (a * g))) by apply F_rn. set (p := rn (a * g)) in *.
  assert (Ed := rel_plus p 1 FFp F1). rewrite (Rabs_pos_eq (p + 1)) in Ed by lra. unfold Rdiv in Ed.
  assert (Bd : 1 <= rn (p + 1)) by (apply rn_ge; [apply F1|lra]).
  assert (Fd : fl (p + 1) = Some (rn (p + 1))) by (apply (fl_pos _ 2); [change (bpow radix2 2) with 4; lra|lia]). set (d := rn (p + 1)) in *.
  assert (Dd : Rabs (d - (1 + g * a0)) <= 46 * i).
  { apply abs_split in Ed. apply abs_split in Ep. apply abs_split in Da. apply Rabs_le. assert ((p + 1) * u53 <= 3 * u53) by (apply Rmult_le_compat_r; lra).
    assert (g * a0 - 40 * i <= a * g <= g * a0 + 40 * i) by (split; nra). lra. }
  (* quotient *)
  assert (D0 : 0 < 1 + g * a0) by nra.
  assert (EX : 1 - a0 = M ^ 2 * (1 + g * a0)) by (rewrite Ea; field; nra).
  assert (K := quot_err n d (1 - a0) (1 + g * a0) (M ^ 2) ltac:(lra) D0 EX ltac:(lra)).
  assert (DQ : Rabs (n / d - M ^ 2) <= 67 * i).
  { assert (A := Rabs_pos (n / d - M ^ 2)). assert (A2 := Rabs_pos (d - (1 + g * a0))). nra. }
  assert (Q01 : 0 <= n / d <= 1).
  { assert (P : 0 < / d <= 1) by (split; [apply Rinv_0_lt_compat; lra|rewrite <- Rinv_1; apply Rinv_le_contravar; lra]). unfold Rdiv. split; nra. }
  assert (Eq := err_le (n / d) 1 ltac:(rewrite Rabs_pos_eq; lra)).
  assert (Bq : 0 <= rn (n / d) <= 1) by (split; [apply rn_ge; [apply generic_format_0|lra]|apply rn_le_F; [apply F1|lra]]).
  assert (Fq : fl (n / d) = Some (rn (n / d))) by (apply (fl_pos _ 0); [rewrite <- one_bp; lra|lia]). set (q := rn (n / d)) in *.
  assert (IM := inv_ge M ltac:(lra)). set (j := i * / M). assert (ij : i <= j) by (unfold j; nra).
  assert (DS : Rabs (sqrt q - M) <= 69 * j).
  { apply sqrt_err; [lra|lra|]. unfold j. replace (69 * (i * / M) * M) with (69 * i) by (field; lra). replace (M * M) with (M ^ 2) by ring.
    apply abs_split in DQ. apply abs_split in Eq. apply Rabs_le. lra. }
  assert (S01 : 0 <= sqrt q <= 1) by (split; [apply sqrt_pos|rewrite <- sqrt_1; apply sqrt_le_1_alt; lra]).
  assert (Es := err_le (sqrt q) 1 ltac:(rewrite Rabs_pos_eq; lra)).
  exists (rn (sqrt q)). split; [|split; [split; [apply rn_ge; [apply generic_format_0|lra]|apply rn_le_F; [apply F1|lra]]|]].
  - unfold float_SubMach_TiTicri. cbv zeta. rewrite E1. unfold fsub, fadd, fmul, fop2, fdiv, fsqrt. rewrite Fn, Fp, Fd. destruct (Req_EM_T d 0); [lra|]. rewrite Fq. destruct (Rlt_dec q 0); [lra|].
    apply (fl_pos _ 0); [rewrite <- one_bp; lra|lia].
  - replace (72 * u53 * / (a0 * M)) with (72 * j) by (unfold j, i; field; lra). apply abs_split in DS. apply abs_split in Es. apply Rabs_le. lra.
Qed.
Lemma Sup_float g M a0 T : F g -> 1 < g <= 2 -> F T -> 1 < M <= 1024 -> a0 = (M ^ 2 - 1) / (1 + g * M ^ 2) -> / 4194304 <= a0 <= 1 -> rr 17 T (1 - a0 ^ 2) ->
  exists M', float_SupMach_TiTicri (Some T) (Some g) = Some M' /\ 0 <= M' /\ Rabs (M' - M) <= 150 * u53 * / a0 * M ^ 3.
Proof.
  intros Fg G FT HM Ea Ha RT. destruct (alpha_float T a0 FT Ha RT) as (a & E1 & Fa & Ba & Da & _). assert (I := inv_ge a0 ltac:(lra)).
  assert (i0 : u53 <= u53 * / a0) by nra. assert (i1 : u53 * / a0 <= / 2147483648).
  { apply Rle_trans with (u53 * 4194304); [|lra]. apply Rmult_le_compat_l; [lra|]. rewrite <- (Rinv_inv 4194304). apply Rinv_le_contravar; lra. }
  set (i := u53 * / a0) in *. replace (20 * u53 * / a0) with (20 * i) in Da by (unfold i; ring).
  assert (M2 : 1 < M ^ 2 <= 1048576) by (split; nra).
  (* 1 + alpha *)
  assert (En := rel_plus 1 a F1 Fa). rewrite (Rabs_pos_eq (1 + a)) in En by lra. unfold Rdiv in En.
  assert (Bn : 0 <= rn (1 + a) <= 2) by (split; [apply rn_ge; [apply generic_format_0|lra]|apply rn_le_F; [apply F2|lra]]).
  assert (Fn : fl (1 + a) = Some (rn (1 + a))) by (apply (fl_pos _ 1); [rewrite <- two_bp; lra|lia]). set (n := rn (1 + a)) in *.
  assert (Dn : Rabs (n - (1 + a0)) <= 22 * i).
  { apply abs_split in En. apply abs_split in Da. apply Rabs_le. assert ((1 + a) * u53 <= 2 * u53) by (apply Rmult_le_compat_r; lra). lra. }
  (* 1 - alpha gamma *)
  assert (ag : 0 <= a * g <= 2) by (split; nra).
  assert (Ep := err_le (a * g) 2 ltac:(rewrite Rabs_pos_eq; lra)).
  assert (Bp : 0 <= rn (a * g) <= 2) by (split; [apply rn_ge; [apply generic_format_0|lra]|apply rn_le_F; [apply F2|lra]]).
  assert (Fp : fl (a * g) = Some (rn (a * g))) by (apply (fl_pos _ 1); [rewrite <- two_bp; lra|lia]). assert (FFp : F (rn (a * g))) by apply F_rn. set (p := rn (a * g)) in *.
  assert (Ed := rel_minus 1 p F1 FFp). assert (Ab : Rabs (1 - p) <= 1) by (apply Rabs_le; lra). unfold Rdiv in Ed.
  assert (Fd : fl (1 - p) = Some (rn (1 - p))) by (apply (fl_bound _ 1); [apply F1|exact Ab|rewrite one_bp; apply bpow_lt; lia]). set (d := rn (1 - p)) in *.
  set (D := 1 - g * a0).
  assert (Dd : Rabs (d - D) <= 45 * i).
  { apply abs_split in Ed. apply abs_split in Ep. apply abs_split in Da. apply Rabs_le. assert (Rabs (1 - p) * u53 <= 1 * u53) by (apply Rmult_le_compat_r; lra).
    assert (g * a0 - 40 * i <= a * g <= g * a0 + 40 * i) by (split; nra). unfold D. lra. }
  assert (ED : D = (1 + g) / (1 + g * M ^ 2)) by (unfold D; rewrite Ea; field; nra).
  assert (ID : 1 <= D * M ^ 2). { rewrite ED. apply Rmult_le_reg_r with (1 + g * M ^ 2); [nra|]. replace ((1 + g) / (1 + g * M ^ 2) * M ^ 2 * (1 + g * M ^ 2)) with ((1 + g) * M ^ 2) by (field; nra). nra. }
  assert (D0 : / 1048576 <= D). { apply Rmult_le_reg_r with (M ^ 2); [lra|]. apply Rle_trans with (2 := ID). nra. }
  assert (d0 : D / 2 <= d) by (apply abs_split in Dd; lra).
  (* quotient *)
  assert (EX : 1 + a0 = M ^ 2 * D) by (unfold D; rewrite Ea; field; nra).
  assert (K := quot_err n d (1 + a0) D (M ^ 2) ltac:(lra) ltac:(lra) EX ltac:(lra)).
  assert (M4 : 0 < M ^ 4) by (apply pow_lt; lra).
  assert (DQ : Rabs (n / d - M ^ 2) <= 134 * i * M ^ 4).
  { assert (A := Rabs_pos (n / d - M ^ 2)). assert (A2 : M ^ 2 * Rabs (d - D) <= M ^ 2 * (45 * i)) by (apply Rmult_le_compat_l; lra).
    assert (A3 : Rabs (n / d - M ^ 2) * D <= 134 * i * M ^ 2) by nra.
    apply Rle_trans with (Rabs (n / d - M ^ 2) * (D * M ^ 2)); [nra|]. rewrite <- Rmult_assoc. replace (134 * i * M ^ 4) with (134 * i * M ^ 2 * M ^ 2) by ring. apply Rmult_le_compat_r; lra. }
  assert (M3 : 1 <= M ^ 3) by (replace (M ^ 3) with (M * M ^ 2) by ring; nra).
  assert (iM2 : 0 < i * M ^ 2 <= / 2048) by (split; nra).
  assert (Q01 : 0 <= n / d <= 11/10 * M ^ 2).
  { split; [apply Rmult_le_pos; [lra|left; apply Rinv_0_lt_compat; lra]|]. apply abs_split in DQ. replace (134 * i * M ^ 4) with (134 * (i * M ^ 2) * M ^ 2) in DQ by ring. nra. }
  assert (Eq := err_le (n / d) (11/10 * M ^ 2) ltac:(rewrite Rabs_pos_eq; lra)).
  assert (Bq : 0 <= rn (n / d)) by (apply rn_ge; [apply generic_format_0|lra]).
  assert (B21 : bpow radix2 21 = 2097152) by reflexivity.
  assert (Fq : fl (n / d) = Some (rn (n / d))) by (apply (fl_pos _ 21); [rewrite B21; lra|lia]). set (q := rn (n / d)) in *.
  assert (DS : Rabs (sqrt q - M) <= 140 * i * M ^ 3).
  { apply sqrt_err; [lra|lra|]. replace (140 * i * M ^ 3 * M) with (140 * i * M ^ 4) by ring. replace (M * M) with (M ^ 2) by ring.
    assert (M ^ 2 <= M ^ 4) by (replace (M ^ 4) with (M ^ 2 * M ^ 2) by ring; nra). assert (u53 * M ^ 2 <= i * M ^ 4) by (apply Rmult_le_compat; lra). assert (u53 <= i * M ^ 4) by nra.
    apply abs_split in DQ. apply abs_split in Eq. apply Rabs_le. lra. }
  assert (S01 : 0 <= sqrt q <= 11/10 * M).
  { split; [apply sqrt_pos|]. apply abs_split in DS. replace (140 * i * M ^ 3) with (140 * (i * M ^ 2) * M) in DS by ring. nra. }
  assert (Es := err_le (sqrt q) (11/10 * M) ltac:(rewrite Rabs_pos_eq; lra)).
  exists (rn (sqrt q)). split; [|split; [apply rn_ge; [apply generic_format_0|lra]|]].
  - unfold float_SupMach_TiTicri. cbv zeta. rewrite E1. unfold fsub, fadd, fmul, fop2, fdiv, fsqrt. rewrite Fn, Fp, Fd. destruct (Req_EM_T d 0); [lra|]. rewrite Fq. destruct (Rlt_dec q 0); [lra|].
    apply (fl_pos _ 21); [rewrite B21; lra|lia].
  - replace (150 * u53 * / a0 * M ^ 3) with (150 * i * M ^ 3) by (unfold i; ring).
    assert (M <= M ^ 3) by (replace (M ^ 3) with (M * M ^ 2) by ring; nra). assert (u53 * M <= i * M ^ 3) by (apply Rmult_le_compat; lra). assert (u53 <= i * M ^ 3) by nra.
    apply abs_split in DS. apply abs_split in Es. apply Rabs_le. lra.
Qed.

Lemma p20 : 2 ^ 20 = 1048576. Proof. rewrite pw; reflexivity. Qed.
Lemma p10 : 2 ^ 10 = 1024. Proof. rewrite pw; reflexivity. Qed.
Lemma p45 : 2 ^ 45 = 35184372088832. Proof. rewrite pw; reflexivity. Qed.
Lemma p46 : 2 ^ 46 = 70368744177664. Proof. rewrite pw; reflexivity. Qed.
Lemma p48 : 2 ^ 48 = 281474976710656. Proof. rewrite pw; reflexivity. Qed.
(*@P C87_subsonic_partial: In binary64 arithmetic, for every double 1 < gamma <= 2 and every double Mach number from 2^-100 to 1 - 2^-20: Ti_Ticri(M) is a number T in [0, 1) with a relative error of at most 2^-48, and SubMach_TiTicri(T) is a number of [0, 1], never nan, that differs from M by at most 2^-46 (1 + gamma M^2) / (M (1 - M^2)). *)
Lemma rayleigh_sub : forall gamma M, b64 gamma -> b64 M -> 1 < gamma <= 2 -> bpow radix2 (-100) <= M <= 1 - / 2 ^ 20 ->
  exists T M', float_Ti_Ticri (Some M) (Some gamma) = Some T /\ 0 <= T < 1 /\
    (let exact := 2 * (gamma + 1) * M ^ 2 / (1 + gamma * M ^ 2) ^ 2 * (1 + (gamma - 1) / 2 * M ^ 2) in Rabs (T - exact) <= exact / 2 ^ 48) /\
    float_SubMach_TiTicri (Some T) (Some gamma) = Some M' /\ 0 <= M' <= 1 /\ Rabs (M' - M) <= / 2 ^ 46 * ((1 + gamma * M ^ 2) / (M * (1 - M ^ 2))).
Proof.
  intros g M [Fg _] _ G H. assert (P0 := bpow_gt_0 radix2 (-100)). rewrite p20 in H.
  destruct (Ti_float g M Fg G) as (T & ET & FT & RT). { split; [lra|]. apply Rle_trans with (bpow radix2 0); [rewrite <- one_bp; lra|apply bpow_le; lia]. }
  assert (M2 : 0 < M ^ 2 < 1) by (split; nra). assert (D0 : 0 < 1 + g * M ^ 2 <= 3) by (split; nra).
  assert (Ea : al g M = (1 - M ^ 2) / (1 + g * M ^ 2)) by (unfold al; rewrite Rabs_pos_eq by lra; reflexivity).
  assert (Ba : / 4194304 <= al g M <= 1).
  { rewrite Ea. split; apply Rmult_le_reg_r with (1 + g * M ^ 2); try lra; replace ((1 - M ^ 2) / (1 + g * M ^ 2) * (1 + g * M ^ 2)) with (1 - M ^ 2) by (field; lra); nra. }
  assert (RT' := RT). rewrite tau_al in RT' by lra.
  destruct (alpha_float T (al g M) FT Ba RT') as (_ & _ & _ & _ & _ & BT).
  destruct (Sub_float g M (al g M) T Fg G FT ltac:(lra) Ea Ba RT') as (M' & E' & B' & D').
  exists T, M'. split; [exact ET|]. split; [exact BT|]. split.
  { fold (tau g M). cbv zeta. rewrite p48. unfold rr in RT. assert (0 <= tau g M) by (rewrite tau_al by lra; nra). apply Rabs_le. lra. }
  split; [exact E'|]. split; [exact B'|]. apply Rle_trans with (1 := D'). rewrite Ea, p46.
  replace (/ ((1 - M ^ 2) / (1 + g * M ^ 2) * M)) with ((1 + g * M ^ 2) / (M * (1 - M ^ 2))) by (field; repeat split; lra).
  apply Rmult_le_compat_r; [|lra]. apply Rmult_le_pos; [lra|left; apply Rinv_0_lt_compat; apply Rmult_lt_0_compat; lra].
Qed.
(*@P C87_supersonic_partial: Likewise for every double Mach number from 1 + 2^-20 to 2^10: Ti_Ticri(M) is in [0, 1) with a relative error of at most 2^-48 and SupMach_TiTicri of it is a number, never nan, that differs from M by at most 2^-45 M^3 (1 + gamma M^2) / (M^2 - 1). *)
Lemma rayleigh_sup : forall gamma M, b64 gamma -> b64 M -> 1 < gamma <= 2 -> 1 + / 2 ^ 20 <= M <= 2 ^ 10 ->
  exists T M', float_Ti_Ticri (Some M) (Some gamma) = Some T /\ 0 <= T < 1 /\
    (let exact := 2 * (gamma + 1) * M ^ 2 / (1 + gamma * M ^ 2) ^ 2 * (1 + (gamma - 1) / 2 * M ^ 2) in Rabs (T - exact) <= exact / 2 ^ 48) /\
    float_SupMach_TiTicri (Some T) (Some gamma) = Some M' /\ 0 <= M' /\ Rabs (M' - M) <= / 2 ^ 45 * (M ^ 3 * (1 + gamma * M ^ 2) / (M ^ 2 - 1)).
Proof.
  intros g M [Fg _] _ G H. rewrite p20, p10 in H.
  destruct (Ti_float g M Fg G) as (T & ET & FT & RT).
  { split; [apply Rle_trans with (bpow radix2 0); [apply bpow_le; lia|rewrite <- one_bp; lra]|]. apply Rle_trans with (bpow radix2 10); [change (bpow radix2 10) with 1024; lra|apply bpow_le; lia]. }
  assert (M2 : 1 + / 524288 <= M ^ 2) by nra. assert (D0 : 0 < 1 + g * M ^ 2) by nra.
  assert (Ea : al g M = (M ^ 2 - 1) / (1 + g * M ^ 2)) by (unfold al; rewrite Rabs_left by lra; f_equal; ring).
  assert (Ba : / 4194304 <= al g M <= 1).
  { rewrite Ea. split; apply Rmult_le_reg_r with (1 + g * M ^ 2); try lra; replace ((M ^ 2 - 1) / (1 + g * M ^ 2) * (1 + g * M ^ 2)) with (M ^ 2 - 1) by (field; lra); nra. }
  assert (RT' := RT). rewrite tau_al in RT' by lra.
  destruct (alpha_float T (al g M) FT Ba RT') as (_ & _ & _ & _ & _ & BT).
  destruct (Sup_float g M (al g M) T Fg G FT ltac:(lra) Ea Ba RT') as (M' & E' & B' & D').
  exists T, M'. split; [exact ET|]. split; [exact BT|]. split.
  { fold (tau g M). cbv zeta. rewrite p48. unfold rr in RT. assert (0 <= tau g M) by (rewrite tau_al by lra; nra). apply Rabs_le. lra. }
  split; [exact E'|]. split; [exact B'|]. apply Rle_trans with (1 := D'). rewrite Ea, p45.
  assert (M3 : 0 < M ^ 3) by (apply pow_lt; lra).
  replace (150 * u53 * / ((M ^ 2 - 1) / (1 + g * M ^ 2)) * M ^ 3) with (150 * u53 * (M ^ 3 * (1 + g * M ^ 2) / (M ^ 2 - 1))) by (field; repeat split; lra).
  apply Rmult_le_compat_r; [|lra]. apply Rmult_le_pos; [apply Rmult_le_pos; lra|left; apply Rinv_0_lt_compat; lra].
Qed.
(*@E C87_example: the hypotheses hold for gamma = 1.5, M = 1/2 and M = 2 *)
Lemma rayleigh_float_ex : b64 (3 / 2) /\ b64 (1 / 2) /\ b64 2 /\ 1 < 3 / 2 <= 2 /\ bpow radix2 (-100) <= 1 / 2 <= 1 - / 2 ^ 20 /\ 1 + / 2 ^ 20 <= 2 <= 2 ^ 10.
Proof.
  split; [replace (3 / 2) with (IZR 3 * bpow radix2 (-1)) by (cbn; lra); apply b64_mant; cbn; lia|].
  split; [replace (1 / 2) with (IZR 1 * bpow radix2 (-1)) by (cbn; lra); apply b64_mant; cbn; lia|].
  split; [apply (b64_IZR 2); cbn; lia|]. split; [lra|]. split; [|lra]. split; [|lra].
  replace (1 / 2) with (bpow radix2 (-1)) by (cbn; lra). apply bpow_le; lia.
Qed.
