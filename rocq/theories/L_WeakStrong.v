From Verif Require Import L_Num Spec NumSpec M_Isentropic M_Degree M_ShockWave L_Isentropic L_Degree L_Shock L_Oblique L_Oblique2.
Open Scope R_scope.

Definition ka (g M T : R) := (1 + 1 / 2 * (g + 1) * M ^ 2) * T.
Definition kb (M : R) := 1 - M ^ 2.
Definition kc (g M T : R) := (1 + 1 / 2 * (g - 1) * M ^ 2) * T.
Definition kd (a b : R) := (a ^ 2 / 3 - b) / 3.
Definition ke (a b c : R) := 2 * a ^ 3 / 27 - a * b / 3 + c.
Definition cub (a b c X : R) := X ^ 3 + a * X ^ 2 + b * X + c.

(** cot(sigma) is a root of the cubic exactly when the deflection has tangent T *)
Lemma cubic_deflection g M T s : 1 < g -> 0 < M -> 0 < s < PI / 2 ->
  (tan (dfl g M s) = T <-> cub (ka g M T) (kb M) (kc g M T) (cos s / sin s) = 0).
Proof.
  intros Hg HM Hs. destruct (quad_trig _ Hs) as [H1 [H2 H3]].
  pose proof (den_tbm_pos g M s Hg) as Hd. rewrite tan_dfl by assumption.
  assert (Hd2 : den_tbm g M s = M ^ 2 * (g + cos s ^ 2 - sin s ^ 2) + 2) by (unfold den_tbm; rewrite cos_2a; ring).
  assert (Hc2 : cos s ^ 2 = 1 - sin s ^ 2) by (pose proof (sc2 s); lra).
  assert (E : cub (ka g M T) (kb M) (kc g M T) (cos s / sin s)
    = (T - 2 * (cos s / sin s) * ((M * sin s) ^ 2 - 1) / den_tbm g M s) * (den_tbm g M s / (2 * sin s ^ 2))).
  { replace ((T - 2 * (cos s / sin s) * ((M * sin s) ^ 2 - 1) / den_tbm g M s) * (den_tbm g M s / (2 * sin s ^ 2)))
      with ((T * den_tbm g M s - 2 * (cos s / sin s) * ((M * sin s) ^ 2 - 1)) / (2 * sin s ^ 2)) by (field; lra).
    rewrite Hd2. unfold cub, ka, kb, kc.
    replace ((cos s / sin s) ^ 3) with (cos s / sin s * (cos s ^ 2 / sin s ^ 2)) by (field; lra).
    replace ((cos s / sin s) ^ 2) with (cos s ^ 2 / sin s ^ 2) by (field; lra).
    rewrite Hc2. field; lra. }
  rewrite E. assert (Hk : 0 < den_tbm g M s / (2 * sin s ^ 2)) by pos.
  split; intros H.
  - rewrite <- H. ring.
  - apply Rmult_integral in H. destruct H; lra.
Qed.
(** trigonometric solution *)
Lemma cos_triple x : cos (3 * x) = 4 * cos x ^ 3 - 3 * cos x.
Proof.
  replace (3 * x) with (2 * x + x) by ring. rewrite cos_plus, cos_2a, sin_2a.
  pose proof (sc2 x). replace (cos x * cos x) with (cos x ^ 2) by ring. replace (sin x * sin x) with (sin x ^ 2) by ring.
  assert (E : sin x ^ 2 = 1 - cos x ^ 2) by lra.
  replace (2 * sin x * cos x * sin x) with (2 * cos x * sin x ^ 2) by ring. rewrite E. ring.
Qed.
Lemma sqrt_cube d : 0 < d -> sqrt (d ^ 3) = sqrt d * d.
Proof. intros; replace (d ^ 3) with (d * d ^ 2) by ring. rewrite sqrt_mult by (try lra; nra). now rewrite sqrt_sq by lra. Qed.
Lemma viete a b c psi : 0 < kd a b -> 2 * (sqrt (kd a b) * kd a b) * cos (3 * psi) = - ke a b c ->
  cub a b c (2 * sqrt (kd a b) * cos psi - a / 3) = 0.
Proof.
  intros Hd H. rewrite cos_triple in H. set (r := sqrt (kd a b)) in *.
  assert (Hr : r ^ 2 = kd a b) by (unfold r; apply sq_sqrt; lra).
  unfold cub. set (u := cos psi) in *.
  assert (E : (2 * r * u - a / 3) ^ 3 + a * (2 * r * u - a / 3) ^ 2 + b * (2 * r * u - a / 3) + c
    = 8 * (r * r ^ 2) * u ^ 3 - 6 * r * kd a b * u + ke a b c) by (unfold kd, ke; field).
  rewrite E, Hr. nra.
Qed.
(** arguments used by the two functions *)
Definition dsc (a b c : R) := ke a b c ^ 2 - 4 * kd a b ^ 3.
Definition phi (a b c : R) := acos (-1 / 2 * ke a b c / sqrt (kd a b ^ 3)).
Definition Xw (a b c : R) := 2 * sqrt (kd a b) * cos (phi a b c / 3) - a / 3.
Definition Xs (a b c : R) := 2 * sqrt (kd a b) * cos ((phi a b c + 4 * PI) / 3) - a / 3.
Definition Xn (a b c : R) := 2 * sqrt (kd a b) * cos ((phi a b c + 2 * PI) / 3) - a / 3.

Lemma phi_arg a b c : 0 < kd a b -> dsc a b c <= 0 -> -1 <= -1 / 2 * ke a b c / sqrt (kd a b ^ 3) <= 1.
Proof.
  intros Hd H. assert (H3 : 0 < kd a b ^ 3) by pos. set (r := sqrt (kd a b ^ 3)).
  assert (Hr : 0 < r) by (unfold r; pos). assert (Hr2 : r ^ 2 = kd a b ^ 3) by (unfold r; apply sq_sqrt; lra).
  unfold dsc in H. rewrite <- Hr2 in H.
  assert (-r <= -1 / 2 * ke a b c <= r) by (split; nra).
  split; [apply Rle_div_r|apply Rle_div_l]; lra.
Qed.
Lemma phi_cos a b c k : 0 < kd a b -> dsc a b c <= 0 ->
  cos (3 * ((phi a b c + 2 * INR k * PI) / 3)) = -1 / 2 * ke a b c / sqrt (kd a b ^ 3).
Proof.
  intros Hd H. replace (3 * ((phi a b c + 2 * INR k * PI) / 3)) with (phi a b c + 2 * INR k * PI) by field.
  rewrite cos_period. unfold phi. apply cos_acos. now apply phi_arg.
Qed.
Lemma root_k a b c k : 0 < kd a b -> dsc a b c <= 0 ->
  cub a b c (2 * sqrt (kd a b) * cos ((phi a b c + 2 * INR k * PI) / 3) - a / 3) = 0.
Proof.
  intros Hd H. apply viete; [assumption|]. rewrite phi_cos by assumption. rewrite sqrt_cube by assumption.
  assert (0 < sqrt (kd a b)) by pos. field. split; lra.
Qed.
Lemma Xw_root a b c : 0 < kd a b -> dsc a b c <= 0 -> cub a b c (Xw a b c) = 0.
Proof.
  intros Hd H. pose proof (root_k a b c 0 Hd H) as E. unfold Xw.
  replace (phi a b c / 3) with ((phi a b c + 2 * INR 0 * PI) / 3) by (simpl; field). exact E.
Qed.
Lemma Xs_root a b c : 0 < kd a b -> dsc a b c <= 0 -> cub a b c (Xs a b c) = 0.
Proof.
  intros Hd H. pose proof (root_k a b c 2 Hd H) as E. unfold Xs.
  replace (phi a b c + 4 * PI) with (phi a b c + 2 * INR 2 * PI) by (simpl; ring). exact E.
Qed.
(** ordering of the roots, factorisation *)
Lemma sum3 p : cos (p / 3) + cos ((p + 2 * PI) / 3) + cos ((p + 4 * PI) / 3) = 0.
Proof.
  replace ((p + 2 * PI) / 3) with (p / 3 + 2 * (PI / 3)) by field.
  replace ((p + 4 * PI) / 3) with (p / 3 - 2 * (PI / 3) + 2 * INR 1 * PI) by (simpl; field).
  rewrite cos_period, cos_plus, cos_minus.
  replace (cos (2 * (PI / 3))) with (- (1 / 2)); [field|].
  rewrite cos_2PI3; lra.
Qed.
Lemma roots_order a b c : 0 < kd a b -> dsc a b c <= 0 ->
  Xn a b c <= Xs a b c <= Xw a b c /\ Xw a b c + Xs a b c + Xn a b c = - a.
Proof.
  intros Hd H. assert (Hr : 0 < sqrt (kd a b)) by pos.
  assert (Hp : 0 <= phi a b c <= PI) by apply acos_bound. pose proof PI_RGT_0 as HP.
  set (p := phi a b c) in *.
  assert (Cw : 1 / 2 <= cos (p / 3)).
  { rewrite <- cos_PI3. apply cos_decr_1; lra. }
  assert (Es : cos ((p + 4 * PI) / 3) = cos ((2 * PI - p) / 3)).
  { replace ((p + 4 * PI) / 3) with (- ((2 * PI - p) / 3) + 2 * INR 1 * PI) by (simpl; field).
    rewrite cos_period, cos_neg. reflexivity. }
  assert (Cs : -1 / 2 <= cos ((2 * PI - p) / 3) <= 1 / 2).
  { split.
    - replace (-1 / 2) with (cos (2 * (PI / 3))) by (rewrite cos_2PI3; lra). apply cos_decr_1; lra.
    - rewrite <- cos_PI3. apply cos_decr_1; lra. }
  assert (Cn : cos ((p + 2 * PI) / 3) <= -1 / 2).
  { replace (-1 / 2) with (cos (2 * (PI / 3))) by (rewrite cos_2PI3; lra). apply cos_decr_1; lra. }
  pose proof (sum3 p) as S. unfold Xn, Xs, Xw. fold p. rewrite Es in *.
  repeat split; nra.
Qed.
Lemma ident_quadratic a b c x1 x2 : cub a b c x1 = 0 -> cub a b c x2 = 0 -> x1 <> x2 ->
  b = x1 * x2 + (x1 + x2) * (- a - x1 - x2) /\ c = - (x1 * x2 * (- a - x1 - x2)).
Proof.
  unfold cub; intros H1 H2 Hn.
  assert (E : (x1 - x2) * (x1 ^ 2 + x1 * x2 + x2 ^ 2 + a * (x1 + x2) + b) = 0) by nra.
  apply Rmult_integral in E; destruct E as [E|E]; [lra|].
  assert (b = x1 * x2 + (x1 + x2) * (- a - x1 - x2)) by nra. split; [assumption|]. subst b. nra.
Qed.
Lemma Xs_pos a b c : b < 0 -> 0 < c -> 0 < kd a b -> dsc a b c <= 0 -> 0 < Xs a b c.
Proof.
  intros Hb Hc Hd H. destruct (roots_order a b c Hd H) as [[O1 O2] S].
  pose proof (Xw_root a b c Hd H) as Rw. pose proof (Xs_root a b c Hd H) as Rs.
  assert (Rn : cub a b c (Xn a b c) = 0).
  { pose proof (root_k a b c 1 Hd H) as E. unfold Xn.
    replace (phi a b c + 2 * PI) with (phi a b c + 2 * INR 1 * PI) by (simpl; ring). exact E. }
  (* Xw and Xn are distinct: otherwise all equal, sum of pairs would be nonnegative *)
  assert (Hwn : Xw a b c <> Xn a b c).
  { intros Heq. assert (Hr : 0 < sqrt (kd a b)) by pos.
    assert (Cw : 1 / 2 <= cos (phi a b c / 3)).
    { pose proof (acos_bound (-1 / 2 * ke a b c / sqrt (kd a b ^ 3))). rewrite <- cos_PI3. pose proof PI_RGT_0. fold (phi a b c) in *. apply cos_decr_1; lra. }
    assert (Cn : cos ((phi a b c + 2 * PI) / 3) <= -1 / 2).
    { pose proof (acos_bound (-1 / 2 * ke a b c / sqrt (kd a b ^ 3))). pose proof PI_RGT_0. fold (phi a b c) in *.
      replace (-1 / 2) with (cos (2 * (PI / 3))) by (rewrite cos_2PI3; lra). apply cos_decr_1; lra. }
    unfold Xw, Xn in Heq. nra. }
  destruct (ident_quadratic a b c _ _ Rw Rn Hwn) as [Eb Ec].
  set (xw := Xw a b c) in *. set (xn := Xn a b c) in *. set (xs := Xs a b c) in *.
  replace (- a - xw - xn) with xs in Eb, Ec by lra.
  destruct (Rlt_le_dec 0 xs) as [|L]; [assumption|exfalso].
  assert (xn <= 0) by lra.
  assert (xw * xn * xs < 0) by lra.
  assert (0 <= xn * xs) by nra.
  assert (Hw : xw < 0).
  { destruct (Rlt_le_dec xw 0); [assumption|]. assert (0 <= xw * (xn * xs)) by (now apply Rmult_le_pos). nra. }
  nra.
Qed.
(** converse: a positive root forces the test to pass *)
Lemma pos_root_dsc a b c X : 0 < c -> 0 < X -> cub a b c X = 0 -> dsc a b c <= 0.
Proof.
  intros Hc HX H. unfold cub in H. set (p := a + X). set (q := b + X * p).
  assert (Eq : c = - (X * q)) by (unfold q, p; nra).
  assert (Ea : a = p - X) by (unfold p; ring). assert (Eb : b = q - X * p) by (unfold q; ring).
  assert (Hq : q < 0) by nra.
  assert (E : dsc a b c = - ((p ^ 2 - 4 * q) * (X ^ 2 + p * X + q) ^ 2) / 27).
  { unfold dsc, ke, kd. rewrite Eq, Ea, Eb. field. }
  rewrite E. assert (0 <= (p ^ 2 - 4 * q) * (X ^ 2 + p * X + q) ^ 2).
  { apply Rmult_le_pos; [nra|apply sq_nonneg]. } lra.
Qed.

(** ** evaluation of the code *)
Section Eval.
Variables (g M th : R).
Hypotheses (Hg : 1 < g) (HM : 1 < M) (Hth : 0 < th < 90).
Let T := tan (rad th).
Lemma T_pos : 0 < T.
Proof. apply quad_trig. now apply rad_quadrant. Qed.
Lemma kb_neg : kb M < 0. Proof. unfold kb; nra. Qed.
Lemma kc_pos : 0 < kc g M T. Proof. pose proof T_pos. unfold kc. pos. Qed.
Lemma kd_pos : 0 < kd (ka g M T) (kb M).
Proof. pose proof kb_neg. unfold kd. pose proof (sq_nonneg (ka g M T)). lra. Qed.
Lemma ka_eval : sig_ka (Some M) (Some th) (Some g) = Some (ka g M T).
Proof.
  unfold sig_ka. rewrite dtan_eval; [reflexivity|].
  pose proof (quad_trig _ (rad_quadrant th Hth)); lra.
Qed.
Lemma kc_eval : sig_kc (Some M) (Some th) (Some g) = Some (kc g M T).
Proof.
  unfold sig_kc. rewrite dtan_eval; [reflexivity|].
  pose proof (quad_trig _ (rad_quadrant th Hth)); lra.
Qed.
Lemma kd_eval a b : sig_kd (Some a) (Some b) = Some (kd a b).
Proof. unfold sig_kd; ncbn; rewrite ndiv_Some by lra; ncbn; now rewrite ndiv_Some by lra. Qed.
Lemma ke_eval a b c : sig_ke (Some a) (Some b) (Some c) = Some (ke a b c).
Proof. unfold sig_ke; ncbn; rewrite !ndiv_Some by lra; reflexivity. Qed.
Let A := ka g M T. Let B := kb M. Let C := kc g M T.
Lemma weak_eval_ok : dsc A B C <= 0 ->
  weaksigma_Mach_deflection (Some M) (Some th) (Some g) = Some (deg (atan (1 / Xw A B C))).
Proof.
  intros H. unfold weaksigma_Mach_deflection. rewrite ka_eval, kc_eval.
  change (sig_kb (Some M)) with (Some B). fold A; fold C. rewrite kd_eval, ke_eval. ncbn.
  rewrite ngt_false by exact H. cbn [nif].
  pose proof kd_pos as Hd. fold A in Hd; fold B in Hd.
  assert (H3 : 0 < kd A B ^ 3) by pos.
  rewrite (nsqrt_Some (kd A B ^ 3)), (nsqrt_Some (kd A B)) by lra. rewrite (ndiv_Some _ (sqrt (kd A B ^ 3))) by (apply Rgt_not_eq; pos).
  rewrite narccos_Some by (now apply phi_arg). rewrite !ndiv_Some by lra. ncbn.
  assert (0 < Xw A B C).
  { pose proof (Xs_pos A B C kb_neg kc_pos Hd H). destruct (roots_order A B C Hd H). lra. }
  rewrite ndiv_Some; [reflexivity|]. unfold Xw, phi in *. lra.
Qed.
Lemma strong_eval_ok : dsc A B C <= 0 ->
  strongsigma_Mach_deflection (Some M) (Some th) (Some g) = Some (deg (atan (1 / Xs A B C))).
Proof.
  intros H. unfold strongsigma_Mach_deflection. rewrite ka_eval, kc_eval.
  change (sig_kb (Some M)) with (Some B). fold A; fold C. rewrite kd_eval, ke_eval. ncbn.
  rewrite ngt_false by exact H. cbn [nif].
  pose proof kd_pos as Hd. fold A in Hd; fold B in Hd.
  assert (H3 : 0 < kd A B ^ 3) by pos.
  rewrite (nsqrt_Some (kd A B ^ 3)), (nsqrt_Some (kd A B)) by lra. rewrite (ndiv_Some _ (sqrt (kd A B ^ 3))) by (apply Rgt_not_eq; pos).
  rewrite narccos_Some by (now apply phi_arg). ncbn. rewrite !ndiv_Some by lra. ncbn.
  pose proof (Xs_pos A B C kb_neg kc_pos Hd H).
  rewrite ndiv_Some; [reflexivity|]. unfold Xs, phi in *. lra.
Qed.
Lemma weak_eval_no : 0 < dsc A B C ->
  weaksigma_Mach_deflection (Some M) (Some th) (Some g) = dasin (ndiv (Some 1) (Some M)).
Proof.
  intros H. unfold weaksigma_Mach_deflection. rewrite ka_eval, kc_eval.
  change (sig_kb (Some M)) with (Some B). fold A; fold C. rewrite kd_eval, ke_eval. ncbn.
  rewrite ngt_true by exact H. reflexivity.
Qed.
Lemma strong_eval_no : 0 < dsc A B C ->
  strongsigma_Mach_deflection (Some M) (Some th) (Some g) = Some 90.
Proof.
  intros H. unfold strongsigma_Mach_deflection. rewrite ka_eval, kc_eval.
  change (sig_kb (Some M)) with (Some B). fold A; fold C. rewrite kd_eval, ke_eval. ncbn.
  rewrite ngt_true by exact H. reflexivity.
Qed.
Lemma root_angle X : 0 < X -> cub A B C X = 0 ->
  0 < deg (atan (1 / X)) < 90 /\
  deflection_Mach_sigma (Some M) (Some (deg (atan (1 / X)))) (Some g) = Some th.
Proof.
  intros HX HR. assert (Hs : 0 < atan (1 / X) < PI / 2).
  { split; [rewrite <- atan_0; apply atan_increasing; pos|apply atan_bound]. }
  split; [now apply deg_quadrant|].
  rewrite defl_eval; [|lra|lra|now apply deg_quadrant]. rewrite rad_deg. f_equal.
  rewrite <- (deg_rad th). f_equal.
  assert (Ht : tan (dfl g M (atan (1 / X))) = T).
  { apply cubic_deflection; [assumption|lra|assumption|]. destruct (quad_trig _ Hs) as [H1 [H2 H3]].
    replace (cos (atan (1 / X)) / sin (atan (1 / X))) with X; [exact HR|].
    assert (E : tan (atan (1 / X)) = 1 / X) by apply tan_atan. unfold tan in E.
    set (sa := sin (atan (1 / X))) in *. set (ca := cos (atan (1 / X))) in *.
    assert (Ec : ca = X * sa).
    { replace sa with (sa / ca * ca) by (field; lra). rewrite E. field; lra. }
    rewrite Ec. field; lra. }
  rewrite (atan_dfl g M (atan (1 / X))) by (lra || assumption). rewrite Ht. apply atan_tan.
  pose proof (rad_quadrant th Hth). lra.
Qed.
Lemma exists_dsc sigma : 0 < sigma < 90 ->
  deflection_Mach_sigma (Some M) (Some sigma) (Some g) = Some th -> dsc A B C <= 0.
Proof.
  intros Hs H. rewrite defl_eval in H by lra. injection H as H.
  pose proof (rad_quadrant sigma Hs) as Hr. destruct (quad_trig _ Hr) as [H1 [H2 H3]].
  apply pos_root_dsc with (cos (rad sigma) / sin (rad sigma)); [apply kc_pos|pos|].
  apply cubic_deflection; [assumption|lra|assumption|]. unfold T. now rewrite <- H, rad_deg.
Qed.
End Eval.

(*@P C17_weak_strong: For every M > 1 and deflection in (0,90): if some shock angle in (0,90) has that deflection, then weaksigma and strongsigma return shock angles in (0,90) with exactly that deflection, weak <= strong; otherwise they return the documented fallback (Mach angle, 90 degrees). *)
Lemma weak_strong : forall g M th, 1 < g -> 1 < M -> 0 < th < 90 ->
  ((exists sigma, 0 < sigma < 90 /\ deflection_Mach_sigma (Some M) (Some sigma) (Some g) = Some th) ->
   exists w s, weaksigma_Mach_deflection (Some M) (Some th) (Some g) = Some w /\
     strongsigma_Mach_deflection (Some M) (Some th) (Some g) = Some s /\ 0 < w /\ w <= s /\ s < 90 /\
     deflection_Mach_sigma (Some M) (Some w) (Some g) = Some th /\
     deflection_Mach_sigma (Some M) (Some s) (Some g) = Some th) /\
  (~ (exists sigma, 0 < sigma < 90 /\ deflection_Mach_sigma (Some M) (Some sigma) (Some g) = Some th) ->
   weaksigma_Mach_deflection (Some M) (Some th) (Some g) = dasin (ndiv (Some 1) (Some M)) /\
   strongsigma_Mach_deflection (Some M) (Some th) (Some g) = Some 90).
Proof.
  intros g M th Hg HM Hth.
  set (T := tan (rad th)). set (A := ka g M T). set (B := kb M). set (C := kc g M T).
  assert (OK : dsc A B C <= 0 -> exists w s, weaksigma_Mach_deflection (Some M) (Some th) (Some g) = Some w /\
     strongsigma_Mach_deflection (Some M) (Some th) (Some g) = Some s /\ 0 < w /\ w <= s /\ s < 90 /\
     deflection_Mach_sigma (Some M) (Some w) (Some g) = Some th /\
     deflection_Mach_sigma (Some M) (Some s) (Some g) = Some th).
  { intros H. exists (deg (atan (1 / Xw A B C))), (deg (atan (1 / Xs A B C))).
    split; [now apply weak_eval_ok|]. split; [now apply strong_eval_ok|].
    assert (Hd : 0 < kd A B) by (now apply (kd_pos g M th)).
    assert (Hs : 0 < Xs A B C) by (apply Xs_pos; try assumption; [now apply (kb_neg M th)|now apply (kc_pos g M th)]).
    destruct (roots_order A B C Hd H) as [[_ O] _].
    destruct (root_angle g M th Hg HM Hth (Xw A B C) ltac:(lra) (Xw_root A B C Hd H)) as [W1 W2].
    destruct (root_angle g M th Hg HM Hth (Xs A B C) ltac:(lra) (Xs_root A B C Hd H)) as [S1 S2].
    repeat (split; [lra|]). split; [|split; [lra|now split]].
    apply deg_le. assert (Hinv : 1 / Xw A B C <= 1 / Xs A B C).
    { unfold Rdiv; rewrite !Rmult_1_l. apply Rinv_le_contravar; lra. }
    destruct Hinv as [Hinv|Hinv]; [left; now apply atan_increasing|right; now rewrite Hinv]. }
  split.
  - intros [sigma [Hs H]]. apply OK. now apply (exists_dsc g M th Hg HM Hth sigma).
  - intros N. destruct (Rle_lt_dec (dsc A B C) 0) as [L|L].
    + exfalso; apply N. destruct (OK L) as (w & s & _ & _ & H1 & H2 & H3 & H4 & _).
      exists w; split; [lra|assumption].
    + split; [now apply weak_eval_no|now apply strong_eval_no].
Qed.
(*@P C17_discriminant: The test made by the code (no "no shock wave solution" message) passes exactly when an attached shock of that deflection exists; then every shock angle with that deflection is the weak or the strong one. *)
Lemma weak_strong_only : forall g M th sigma w s, 1 < g -> 1 < M -> 0 < th < 90 -> 0 < sigma < 90 ->
  deflection_Mach_sigma (Some M) (Some sigma) (Some g) = Some th ->
  weaksigma_Mach_deflection (Some M) (Some th) (Some g) = Some w ->
  strongsigma_Mach_deflection (Some M) (Some th) (Some g) = Some s ->
  sigma = w \/ sigma = s.
Proof.
  intros g M th sigma w s Hg HM Hth Hs H Hw Hst.
  set (T := tan (rad th)). set (A := ka g M T). set (B := kb M). set (C := kc g M T).
  assert (Hdsc : dsc A B C <= 0) by (now apply (exists_dsc g M th Hg HM Hth sigma)).
  rewrite (weak_eval_ok g M th Hg HM Hth Hdsc) in Hw. rewrite (strong_eval_ok g M th Hg HM Hth Hdsc) in Hst.
  fold T A B C in Hw, Hst. injection Hw as <-. injection Hst as <-.
  assert (Hd : 0 < kd A B) by (now apply (kd_pos g M th)).
  assert (Hxs : 0 < Xs A B C) by (apply Xs_pos; try assumption; [now apply (kb_neg M th)|now apply (kc_pos g M th)]).
  destruct (roots_order A B C Hd Hdsc) as [[O1 O] S].
  rewrite defl_eval in H by lra. injection H as H.
  pose proof (rad_quadrant sigma Hs) as Hr. destruct (quad_trig _ Hr) as [H1 [H2 H3]].
  set (X := cos (rad sigma) / sin (rad sigma)). assert (HX : 0 < X) by (unfold X; pos).
  assert (RX : cub A B C X = 0).
  { apply cubic_deflection; [assumption|lra|assumption|]. unfold T. now rewrite <- H, rad_deg. }
  assert (Back : sigma = deg (atan (1 / X))).
  { rewrite <- (deg_rad sigma) at 1. f_equal. unfold X.
    replace (1 / (cos (rad sigma) / sin (rad sigma))) with (tan (rad sigma)) by (unfold tan; field; lra).
    symmetry; apply atan_tan; lra. }
  assert (Hcub : cub A B C X = (X - Xw A B C) * (X - Xs A B C) * (X - Xn A B C)).
  { pose proof (Xw_root A B C Hd Hdsc) as Rw.
    assert (Rn : cub A B C (Xn A B C) = 0).
    { pose proof (root_k A B C 1 Hd Hdsc) as E. unfold Xn.
      replace (phi A B C + 2 * PI) with (phi A B C + 2 * INR 1 * PI) by (simpl; ring). exact E. }
    destruct (Req_dec (Xw A B C) (Xn A B C)) as [E|N].
    - exfalso. assert (Hb : B < 0) by (now apply (kb_neg M th)).
      assert (Xs A B C = Xw A B C) by lra. assert (Ea : A = - 3 * Xw A B C) by lra.
      assert (0 < A). { unfold A, ka. pose proof (T_pos th Hth). fold T in H4. pos. } lra.
    - destruct (ident_quadratic A B C _ _ Rw Rn N) as [Eb Ec]. unfold cub.
      set (xw := Xw A B C) in *. set (xn := Xn A B C) in *. set (xs := Xs A B C) in *.
      replace (- A - xw - xn) with xs in Eb, Ec by lra.
      assert (Ea : A = - (xw + xs + xn)) by lra.
      clearbody xw xn xs. clearbody A B C. rewrite Ea, Eb, Ec. ring. }
  assert (Hn : Xn A B C < 0).
  { assert (0 < A). { unfold A, ka. pose proof (T_pos th Hth). fold T in H0. pos. } lra. }
  rewrite RX in Hcub. symmetry in Hcub.
  apply Rmult_integral in Hcub. destruct Hcub as [Hcub|Hcub]; [|lra].
  apply Rmult_integral in Hcub. rewrite Back. destruct Hcub as [Hcub|Hcub]; [left|right]; do 3 f_equal; lra.
Qed.
(*@E C17_example: At Mach 2 and gamma = 1.4 the shock at 60 degrees has a deflection in (0,90), so the hypotheses are met. *)
Lemma weak_strong_ex : exists th, 0 < th < 90 /\
  deflection_Mach_sigma (Some 2) (Some 60) (Some (7/5)) = Some th.
Proof.
  rewrite defl_eval by lra. eexists; split; [|reflexivity].
  assert (Hr : 0 < rad 60 < PI / 2) by (apply rad_quadrant; lra).
  apply deg_quadrant. split; [|apply dfl_bound; lra || assumption].
  apply (dfl_sign (7/5) 2 (rad 60)); [lra|lra|assumption|].
  replace (rad 60) with (PI / 3) by (unfold rad; field). rewrite sin_PI3.
  assert (1 < sqrt 3); [|lra]. rewrite <- sqrt_1 at 1. apply sqrt_lt_1; lra.
Qed.
