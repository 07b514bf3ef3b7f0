(** * C36: the star pressure of the Riemann problem *)
From Verif Require Import L_Num Spec NumSpec M_Isentropic M_MassFlow M_ShockWave M_Model1D M_Unsteady1D M_Riemann L_Isentropic L_Shock L_Model1D L_Unsteady.
Open Scope R_scope.

(** velocity change on one side *)
Definition fK (g : R) (q : flow) (p : R) : R :=
  if Rlt_dec (f_p q) p then shdu g q p else exdu g q p.
Lemma delta_uK_eval g q p : 1 < g -> positive_state q -> 0 < p ->
  delta_uK (obj g q) (Some p) = Some (fK g q p).
Proof.
  intros Hg Hq H. unfold delta_uK, fK. cbn [obj st_p].
  change (mk_state (Some g) (Some (f_rho q)) (Some (f_u q)) (Some (f_p q))) with (obj g q).
  destruct (Rlt_dec (f_p q) p) as [h|h].
  - rewrite ngt_true by assumption. cbn [nif]. now apply delta_u_shock_eval.
  - rewrite ngt_false by lra. cbn [nif]. now apply delta_u_expansion_eval.
Qed.
Definition duR (gL gR : R) (qL qR : flow) (p : R) : R :=
  fK gL qL p + fK gR qR p + f_u qR - f_u qL.
Lemma riemann_du_eval gL gR qL qR p : 1 < gL -> 1 < gR -> positive_state qL -> positive_state qR -> 0 < p ->
  riemann_du (obj gL qL) (obj gR qR) (Some p) = Some (duR gL gR qL qR p).
Proof.
  intros. unfold riemann_du. rewrite !delta_uK_eval by assumption. reflexivity.
Qed.

(** ** derivatives *)
Lemma shdu_derive g q p : 1 < g -> positive_state q -> 0 < p ->
  is_derive (shdu g q) p (sqrt (2 / f_rho q / shD g q p) * (((g + 1) * p + (3 * g - 1) * f_p q) / (2 * shD g q p))).
Proof.
  intros Hg Hq H. pose proof (shD_pos g q p Hg Hq H) as HD. pose proof Hq as [Hr Hp].
  assert (HE : 0 < 2 / f_rho q / shD g q p) by pos.
  assert (HS : 0 < sqrt (2 / f_rho q / shD g q p)) by pos.
  unfold shdu, shD in *. auto_derive; [repeat split; try lra; exact HE|].
  pose proof (sq_sqrt (2 / f_rho q / ((g + 1) * p + (g - 1) * f_p q)) ltac:(lra)) as HQ.
  set (D := (g + 1) * p + (g - 1) * f_p q) in *.
  change (2 / f_rho q * / D) with (2 / f_rho q / D).
  set (S := sqrt (2 / f_rho q / D)) in *.
  assert (Hrr : 2 / f_rho q = S ^ 2 * D) by (rewrite HQ; field; lra).
  rewrite Hrr. clearbody S.
  apply (Rmult_eq_reg_r (2 * D * S)); [|apply pos_nz; pos].
  replace ((S * (((g + 1) * p + (3 * g - 1) * f_p q) / (2 * D))) * (2 * D * S))
    with (S ^ 2 * (2 * D - (g + 1) * (p - f_p q))) by (unfold D; field; fold D; lra).
  clearbody D. field. lra.
Qed.
Lemma exdu_derive g q p : 1 < g -> positive_state q -> 0 < p ->
  is_derive (exdu g q) p (flow_sound g q / (g * p) * Rpower (p / f_p q) (1/2 * (g - 1) / g)).
Proof.
  intros Hg Hq H. pose proof Hq as [Hr Hp]. assert (Hx : 0 < p / f_p q) by pos.
  unfold exdu, Rpower. auto_derive; [exact Hx|].
  change (p * / f_p q) with (p / f_p q). field. lra.
Qed.
Lemma shdu_incr g q x y : 1 < g -> positive_state q -> 0 < x -> x < y -> shdu g q x < shdu g q y.
Proof.
  intros Hg Hq Hx Hxy. eapply strict_incr; [exact Hxy| |].
  - intros z Hz. apply shdu_derive; [assumption..|lra].
  - intros z Hz. cbv beta. pose proof (shD_pos g q z Hg Hq ltac:(lra)). destruct Hq as [Hr Hp].
    assert (0 < z) by lra. pos.
Qed.
Lemma exdu_incr g q x y : 1 < g -> positive_state q -> 0 < x -> x < y -> exdu g q x < exdu g q y.
Proof.
  intros Hg Hq Hx Hxy. eapply strict_incr; [exact Hxy| |].
  - intros z Hz. apply exdu_derive; [assumption..|lra].
  - intros z Hz. cbv beta. pose proof (sound_pos g q ltac:(lra) Hq). assert (0 < z) by lra. pos.
Qed.
Lemma shdu_0 g q : shdu g q (f_p q) = 0.
Proof. unfold shdu; rewrite Rminus_diag_eq by reflexivity; ring. Qed.
Lemma exdu_0 g q : positive_state q -> exdu g q (f_p q) = 0.
Proof. intros [Hr Hp]; unfold exdu. replace (f_p q / f_p q) with 1 by (field; lra). rewrite Rpower_one; ring. Qed.
Lemma fK_minmax g q p : positive_state q -> fK g q p = shdu g q (Rmax p (f_p q)) + exdu g q (Rmin p (f_p q)).
Proof.
  intros Hq. unfold fK. destruct (Rlt_dec (f_p q) p).
  - rewrite Rmax_left, Rmin_right by lra. rewrite exdu_0 by assumption; ring.
  - rewrite Rmax_right, Rmin_left by lra. rewrite shdu_0; ring.
Qed.
Lemma fK_incr g q x y : 1 < g -> positive_state q -> 0 < x -> x < y -> fK g q x < fK g q y.
Proof.
  intros Hg Hq Hx Hxy. pose proof Hq as [Hr Hp]. unfold fK.
  destruct (Rlt_dec (f_p q) x), (Rlt_dec (f_p q) y); try lra.
  - now apply shdu_incr.
  - pose proof (shdu_incr g q (f_p q) y Hg Hq Hp ltac:(lra)). rewrite shdu_0 in *.
    destruct (Rle_lt_or_eq_dec x (f_p q) ltac:(lra)) as [h|h].
    + pose proof (exdu_incr g q x (f_p q) Hg Hq Hx h). rewrite exdu_0 in * by assumption. lra.
    + subst x. rewrite exdu_0 by assumption. lra.
  - now apply exdu_incr.
Qed.
Lemma continuous_Rmax_const c x : continuous (fun p => Rmax p c) x.
Proof.
  apply (continuous_ext (fun p => (p + c + Rabs (p - c)) / 2)).
  - intros p; unfold Rmax, Rabs; destruct (Rle_dec p c), (Rcase_abs (p - c)); lra.
  - unfold Rdiv. apply (continuous_mult (K := R_AbsRing)); [|apply continuous_const].
    apply (continuous_plus (V := R_NormedModule)).
    + apply (continuous_plus (V := R_NormedModule)); [apply continuous_id|apply continuous_const].
    + apply (continuous_comp (fun p => p - c) Rabs); [|apply continuous_Rabs].
      apply (continuous_minus (V := R_NormedModule)); [apply continuous_id|apply continuous_const].
Qed.
Lemma continuous_Rmin_const c x : continuous (fun p => Rmin p c) x.
Proof.
  apply (continuous_ext (fun p => p + c - Rmax p c)).
  - intros p; unfold Rmax, Rmin; destruct (Rle_dec p c); lra.
  - apply (continuous_minus (V := R_NormedModule)); [|apply continuous_Rmax_const].
    apply (continuous_plus (V := R_NormedModule)); [apply continuous_id|apply continuous_const].
Qed.
Lemma fK_continuous g q p : 1 < g -> positive_state q -> 0 < p -> continuous (fK g q) p.
Proof.
  intros Hg Hq H. pose proof Hq as [Hr Hp].
  apply (continuous_ext (fun p => shdu g q (Rmax p (f_p q)) + exdu g q (Rmin p (f_p q)))).
  - intros x; symmetry; now apply fK_minmax.
  - apply (continuous_plus (V := R_NormedModule)).
    + apply (continuous_comp (fun p => Rmax p (f_p q)) (shdu g q)); [apply continuous_Rmax_const|].
      eapply derive_continuous, shdu_derive; try assumption. apply Rlt_le_trans with p; [lra|apply Rmax_l].
    + apply (continuous_comp (fun p => Rmin p (f_p q)) (exdu g q)); [apply continuous_Rmin_const|].
      eapply derive_continuous, exdu_derive; try assumption. apply Rmin_glb_lt; lra.
Qed.
(** ** range *)
Lemma exdu_low g q p : 1 < g -> positive_state q -> 0 < p -> - (2 * flow_sound g q / (g - 1)) < exdu g q p.
Proof.
  intros Hg Hq H. unfold exdu. pose proof (sound_pos g q ltac:(lra) Hq).
  pose proof (Rpower_pos (p / f_p q) (1/2 * (g - 1) / g)) as HP. set (P := Rpower _ _) in *. clearbody P.
  assert (0 < flow_sound g q / (1/2 * (g - 1)) * P) by pos.
  replace (flow_sound g q / (1/2 * (g - 1)) * (P - 1)) with
    (flow_sound g q / (1/2 * (g - 1)) * P - 2 * flow_sound g q / (g - 1)) by (field; lra). lra.
Qed.
Lemma fK_low g q p : 1 < g -> positive_state q -> 0 < p -> - (2 * flow_sound g q / (g - 1)) < fK g q p.
Proof.
  intros Hg Hq H. unfold fK; destruct (Rlt_dec (f_p q) p); [|now apply exdu_low].
  pose proof (exdu_low g q (f_p q) Hg Hq (proj2 Hq)). rewrite exdu_0 in * by assumption.
  pose proof (shdu_incr g q (f_p q) p Hg Hq (proj2 Hq) r). rewrite shdu_0 in *. lra.
Qed.
Lemma fK_small g q eps : 1 < g -> positive_state q -> 0 < eps ->
  exists p0, 0 < p0 /\ forall p, 0 < p <= p0 -> fK g q p < - (2 * flow_sound g q / (g - 1)) + eps.
Proof.
  intros Hg Hq He. pose proof (sound_pos g q ltac:(lra) Hq) as Ha. pose proof Hq as [Hr Hp].
  set (z := 1/2 * (g - 1) / g). assert (Hz : 0 < z) by (unfold z; pos).
  set (k := flow_sound g q / (1/2 * (g - 1))). assert (Hk : 0 < k) by (unfold k; pos).
  set (b := Rmin (1/2) (eps / (2 * k))).
  assert (Hb : 0 < b <= 1/2) by (unfold b; split; [apply Rmin_glb_lt; [lra|pos]|apply Rmin_l]).
  assert (Hb2 : k * b < eps).
  { assert (b <= eps / (2 * k)) by apply Rmin_r. apply (Rmult_le_compat_l k) in H; [|lra].
    replace (k * (eps / (2 * k))) with (eps / 2) in H by (field; lra). lra. }
  exists (f_p q * Rpower b (/ z)). split; [pos|]. intros p [H0 H1].
  assert (Hle : Rpower b (/ z) < 1) by (apply Rpower_lt_1; [lra|now apply Rinv_0_lt_compat]).
  assert (Hpp : p <= f_p q) by nra.
  unfold fK. destruct (Rlt_dec (f_p q) p); [lra|]. unfold exdu. fold z k.
  assert (Hx : p / f_p q <= Rpower b (/ z)) by (apply (Rle_div_l p (Rpower b (/ z)) (f_p q)); [exact Hp|lra]).
  assert (HP : Rpower (p / f_p q) z <= b).
  { apply Rle_trans with (Rpower (Rpower b (/ z)) z).
    - destruct Hx as [Hx|Hx]; [left; apply Rpower_lt_base; [pos|exact Hx|exact Hz]|rewrite Hx; right; reflexivity].
    - rewrite Rpower_inv_exp; [lra|lra|field; lra]. }
  replace (- (2 * flow_sound g q / (g - 1))) with (- k) by (unfold k; field; lra).
  assert (k * Rpower (p / f_p q) z <= k * b) by (apply Rmult_le_compat_l; lra). lra.
Qed.
Lemma fK_large g q K : 1 < g -> positive_state q ->
  exists p0, 0 < p0 /\ forall p, p0 <= p -> K < fK g q p.
Proof.
  intros Hg Hq. pose proof Hq as [Hr Hp].
  set (X := f_p q + (K ^ 2 + 1) * f_rho q * (3 * g + 1)).
  assert (HX : f_p q < X) by (unfold X; assert (0 < (K ^ 2 + 1) * f_rho q * (3 * g + 1)) by pos; lra).
  exists (f_p q + X). split; [lra|]. intros p Hpp.
  unfold fK. destruct (Rlt_dec (f_p q) p); [|lra].
  rewrite shdu_j by (assumption || lra).
  assert (H0 : 0 < p) by lra.
  pose proof (shj_pos g q p Hg Hq H0) as Hj. pose proof (shj_sq g q p Hg Hq H0) as Hj2.
  set (j := shj g q p) in *. clearbody j.
  apply Rle_lt_trans with (Rabs K); [apply Rle_abs|].
  apply (Rlt_div_r (Rabs K) (p - f_p q) j Hj).
  apply Rsqr_incrst_0; [|assert (0 <= Rabs K) by apply Rabs_pos; nra|lra].
  rewrite !Rsqr_pow2. replace ((Rabs K * j) ^ 2) with (Rabs K ^ 2 * j ^ 2) by ring.
  replace (Rabs K ^ 2) with (K ^ 2) by (symmetry; apply pow2_abs). rewrite Hj2. unfold shD.
  set (x := p - f_p q). replace p with (x + f_p q) by (unfold x; ring).
  assert (Hx : X <= x) by (unfold x; lra). clearbody x.
  assert (Hb : f_rho q * ((g + 1) * (x + f_p q) + (g - 1) * f_p q) / 2 <= f_rho q * (3 * g + 1) * x / 2).
  { assert (f_rho q * ((g + 1) * (x + f_p q) + (g - 1) * f_p q) <= f_rho q * (3 * g + 1) * x); [|lra].
    rewrite Rmult_assoc. apply Rmult_le_compat_l; [lra|]. nra. }
  assert (HK : 0 <= K ^ 2) by pos.
  apply Rle_lt_trans with (K ^ 2 * (f_rho q * (3 * g + 1) * x / 2)); [now apply Rmult_le_compat_l|].
  assert (H2 : K ^ 2 * (f_rho q * (3 * g + 1)) < x).
  { unfold X in Hx. assert (0 < f_rho q * (3 * g + 1)) by pos. nra. }
  assert (0 < x) by lra. nra.
Qed.

(*@P C36_mismatch_increasing: For every pair of states (each with its own gas), the velocity mismatch handed to the root finder is defined, continuous and strictly increasing in p > 0. *)
Lemma mismatch_increasing : forall gL gR qL qR, 1 < gL -> 1 < gR -> positive_state qL -> positive_state qR ->
  incr_on (fun p => 0 < p) (riemann_du (obj gL qL) (obj gR qR)) /\
  exists F, (forall p, 0 < p -> riemann_du (obj gL qL) (obj gR qR) (Some p) = Some (F p)) /\
    forall p, 0 < p -> continuous F p.
Proof.
  intros gL gR qL qR HgL HgR HL HR. split.
  - intros x y Hx Hy Hxy. rewrite !riemann_du_eval by assumption.
    do 2 eexists; split; [reflexivity|]; split; [reflexivity|]. unfold duR.
    pose proof (fK_incr gL qL x y HgL HL Hx Hxy). pose proof (fK_incr gR qR x y HgR HR Hx Hxy). lra.
  - exists (duR gL gR qL qR). split; [intros; now apply riemann_du_eval|].
    intros p Hp. unfold duR.
    apply (continuous_minus (V := R_NormedModule)); [|apply continuous_const].
    apply (continuous_plus (V := R_NormedModule)); [|apply continuous_const].
    apply (continuous_plus (V := R_NormedModule)); now apply fK_continuous.
Qed.

(** the condition excluding vacuum *)
Definition no_vacuum (gL gR : R) (qL qR : flow) : Prop :=
  f_u qR - f_u qL < 2 * flow_sound gL qL / (gL - 1) + 2 * flow_sound gR qR / (gR - 1).

Lemma duR_incr gL gR qL qR x y : 1 < gL -> 1 < gR -> positive_state qL -> positive_state qR ->
  0 < x -> x < y -> duR gL gR qL qR x < duR gL gR qL qR y.
Proof.
  intros HgL HgR HL HR Hx Hxy. unfold duR.
  pose proof (fK_incr gL qL x y HgL HL Hx Hxy). pose proof (fK_incr gR qR x y HgR HR Hx Hxy). lra.
Qed.
(*@P C36_star_pressure: A star pressure exists exactly when uR - uL < 2 aL/(gL-1) + 2 aR/(gR-1) (no vacuum), and it is unique. *)
Lemma star_pressure : forall gL gR qL qR, 1 < gL -> 1 < gR -> positive_state qL -> positive_state qR ->
  ((exists p, 0 < p /\ riemann_du (obj gL qL) (obj gR qR) (Some p) = Some 0) <->
   f_u qR - f_u qL < 2 * flow_sound gL qL / (gL - 1) + 2 * flow_sound gR qR / (gR - 1)) /\
  (forall p p', 0 < p -> 0 < p' -> riemann_du (obj gL qL) (obj gR qR) (Some p) = Some 0 ->
     riemann_du (obj gL qL) (obj gR qR) (Some p') = Some 0 -> p = p').
Proof.
  intros gL gR qL qR HgL HgR HL HR. split; [split|].
  - intros (p & Hp & E). rewrite riemann_du_eval in E by assumption. apply Some_inj in E.
    unfold duR in E. pose proof (fK_low gL qL p HgL HL Hp). pose proof (fK_low gR qR p HgR HR Hp). lra.
  - intros Hv. set (eps := (2 * flow_sound gL qL / (gL - 1) + 2 * flow_sound gR qR / (gR - 1) - (f_u qR - f_u qL)) / 2).
    assert (He : 0 < eps) by (unfold eps; lra).
    destruct (fK_small gL qL eps HgL HL He) as (a & Ha & HA). destruct (fK_small gR qR eps HgR HR He) as (b & Hb & HB).
    set (lo := Rmin a b). assert (Hlo : 0 < lo) by (now apply Rmin_glb_lt).
    assert (Dlo : duR gL gR qL qR lo < 0).
    { unfold duR. specialize (HA lo (conj Hlo (Rmin_l a b))). specialize (HB lo (conj Hlo (Rmin_r a b))).
      unfold eps in HA, HB. lra. }
    destruct (fK_large gL qL (f_u qL) HgL HL) as (c & Hc & HC). destruct (fK_large gR qR (- f_u qR) HgR HR) as (d & Hd & HD).
    set (hi := Rmax c d).
    assert (Dhi : 0 < duR gL gR qL qR hi).
    { unfold duR. specialize (HC hi (Rmax_l c d)). specialize (HD hi (Rmax_r c d)). lra. }
    assert (Hhi : 0 < hi) by (apply Rlt_le_trans with c; [exact Hc|apply Rmax_l]).
    assert (Hlh : lo < hi).
    { destruct (Rtotal_order lo hi) as [h|[h|h]]; [exact h|rewrite h in Dlo; lra|].
      pose proof (duR_incr gL gR qL qR hi lo HgL HgR HL HR Hhi h). lra. }
    destruct (IVT_value (duR gL gR qL qR) lo hi 0 Hlh) as (p & Hp & E).
    + intros x Hx. assert (Hx0 : 0 < x) by lra. unfold duR.
      apply (continuous_minus (V := R_NormedModule)); [|apply continuous_const].
      apply (continuous_plus (V := R_NormedModule)); [|apply continuous_const].
      apply (continuous_plus (V := R_NormedModule)); now apply fK_continuous.
    + lra.
    + exists p. split; [lra|]. rewrite riemann_du_eval by (assumption || lra). now rewrite E.
  - intros p p' Hp Hp' E E'. rewrite riemann_du_eval in * by assumption. apply Some_inj in E, E'.
    destruct (Rtotal_order p p') as [h|[h|h]]; [|exact h|].
    + pose proof (duR_incr gL gR qL qR p p' HgL HgR HL HR Hp h). lra.
    + pose proof (duR_incr gL gR qL qR p' p HgL HgR HL HR Hp' h). lra.
Qed.

(*@P C36_identical: For identical states the star pressure is their common pressure, and nothing else. *)
Lemma identical_states : forall g q, 1 < g -> positive_state q -> forall p, 0 < p ->
  (riemann_du (obj g q) (obj g q) (Some p) = Some 0 <-> p = f_p q).
Proof.
  intros g q Hg Hq p Hp.
  assert (E : riemann_du (obj g q) (obj g q) (Some (f_p q)) = Some 0).
  { rewrite riemann_du_eval by (assumption || apply Hq). f_equal. unfold duR, fK.
    destruct (Rlt_dec (f_p q) (f_p q)); [lra|]. rewrite exdu_0 by assumption. ring. }
  split; [intros H|intros ->; exact E].
  eapply (proj2 (star_pressure g g q q Hg Hg Hq Hq)); [exact Hp|apply Hq|exact H|exact E].
Qed.

(** ** the two-expansion estimate *)
Lemma estimate_eval g qL qR : 1 < g -> positive_state qL -> positive_state qR ->
  let z := 1/2 * (g - 1) / g in
  let N := flow_sound g qL + flow_sound g qR - 1/2 * (g - 1) * (f_u qR - f_u qL) in
  let Dn := flow_sound g qL / Rpower (f_p qL) z + flow_sound g qR / Rpower (f_p qR) z in
  0 < Dn /\ (0 < N -> pstar_estimate_expansion (obj g qL) (obj g qR) = Some (Rpower (N / Dn) (/ z))).
Proof.
  intros Hg HL HR z N Dn. pose proof (sound_pos g qL ltac:(lra) HL). pose proof (sound_pos g qR ltac:(lra) HR).
  pose proof HL as [HrL HpL]. pose proof HR as [HrR HpR].
  assert (HD : 0 < Dn) by (unfold Dn; pos). split; [exact HD|]. intros HN.
  unfold pstar_estimate_expansion. rewrite !asound_eval by (assumption || lra).
  cbn [obj st_g st_p st_u]. ncbn.
  replace (1/2 * (g + g)) with g by field.
  rewrite !(ndiv_Some (1/2 * (g - 1))) by lra. fold z. rewrite !npow_Some by assumption.
  rewrite !(ndiv_Some (flow_sound _ _)) by (apply pos_nz, Rpower_pos). ncbn. fold N Dn.
  rewrite (ndiv_Some N) by lra. rewrite (ndiv_Some g) by lra. rewrite npow_Some by pos.
  f_equal. f_equal. unfold z. field; lra.
Qed.
(*@P C36_two_expansions: With a single gas: if both waves of the exact solution are expansions, the initial estimate IS the exact star pressure; and conversely whenever the estimate does not exceed either pressure (and there is no vacuum) it solves the problem exactly. *)
Lemma two_expansions : forall g qL qR p, 1 < g -> positive_state qL -> positive_state qR ->
  f_u qR - f_u qL < 2 * flow_sound g qL / (g - 1) + 2 * flow_sound g qR / (g - 1) ->
  0 < p -> p <= f_p qL -> p <= f_p qR ->
  (riemann_du (obj g qL) (obj g qR) (Some p) = Some 0 <->
   pstar_estimate_expansion (obj g qL) (obj g qR) = Some p).
Proof.
  intros g qL qR p Hg HL HR Hv Hp HpL HpR.
  pose proof (sound_pos g qL ltac:(lra) HL) as HaL. pose proof (sound_pos g qR ltac:(lra) HR) as HaR.
  pose proof HL as [HrL HppL]. pose proof HR as [HrR HppR].
  destruct (estimate_eval g qL qR Hg HL HR) as [HD HE]. cbv zeta in HD, HE.
  set (z := 1/2 * (g - 1) / g) in *. assert (Hz : 0 < z) by (unfold z; pos).
  set (N := flow_sound g qL + flow_sound g qR - 1/2 * (g - 1) * (f_u qR - f_u qL)) in *.
  set (Dn := flow_sound g qL / Rpower (f_p qL) z + flow_sound g qR / Rpower (f_p qR) z) in *.
  assert (Ed : duR g g qL qR p = (Rpower p z * Dn - N) / (1/2 * (g - 1))).
  { unfold duR, fK. destruct (Rlt_dec (f_p qL) p); [lra|]. destruct (Rlt_dec (f_p qR) p); [lra|].
    unfold exdu. fold z. rewrite !Rpower_div_base by assumption.
    unfold Dn, N. pose proof (Rpower_pos (f_p qL) z). pose proof (Rpower_pos (f_p qR) z). field. lra. }
  rewrite riemann_du_eval, Ed by assumption.
  assert (HPz : 0 < Rpower p z) by apply Rpower_pos.
  split.
  - intros E. apply Some_inj in E.
    assert (EN : N = Rpower p z * Dn).
    { apply (f_equal (fun t => t * (1/2 * (g - 1)))) in E.
      replace ((Rpower p z * Dn - N) / (1/2 * (g - 1)) * (1/2 * (g - 1))) with (Rpower p z * Dn - N) in E by (field; lra).
      lra. }
    rewrite HE by (rewrite EN; pos). rewrite EN.
    replace (Rpower p z * Dn / Dn) with (Rpower p z) by (field; lra).
    rewrite Rpower_inv_exp; [reflexivity|exact Hp|field; lra].
  - intros E. destruct (Rlt_dec 0 N) as [HN|HN].
    + rewrite HE in E by exact HN. apply Some_inj in E.
      assert (EN : Rpower p z = N / Dn).
      { rewrite <- E. apply Rpower_inv_exp; [pos|field; lra]. }
      f_equal. rewrite EN. field. lra.
    + exfalso. apply HN. unfold N.
      apply (Rmult_lt_compat_l (1/2 * (g - 1))) in Hv; [|lra].
      replace (1/2 * (g - 1) * (2 * flow_sound g qL / (g - 1) + 2 * flow_sound g qR / (g - 1)))
        with (flow_sound g qL + flow_sound g qR) in Hv by (field; lra). lra.
Qed.
(*@E C36_example: two states of different gases, no vacuum; and the identical-states case *)
Lemma C36_example_lemma :
  let qL := mkflow (14/10) 0 1 in let qR := mkflow (5/3) 1 1 in
  positive_state qL /\ positive_state qR /\
  f_u qR - f_u qL < 2 * flow_sound (14/10) qL / (14/10 - 1) + 2 * flow_sound (5/3) qR / (5/3 - 1) /\
  riemann_du (obj (14/10) qL) (obj (14/10) qL) (Some 1) = Some 0.
Proof.
  cbv zeta. assert (HL : positive_state (mkflow (14/10) 0 1)) by (split; cbn; lra).
  assert (HR : positive_state (mkflow (5/3) 1 1)) by (split; cbn; lra).
  split; [exact HL|]. split; [exact HR|]. split.
  - assert (E1 : flow_sound (14/10) (mkflow (14/10) 0 1) = 1).
    { unfold flow_sound; cbn [f_p f_rho]. replace (14/10 * 1 / (14/10)) with 1 by lra. apply sqrt_1. }
    assert (E2 : flow_sound (5/3) (mkflow (5/3) 1 1) = 1).
    { unfold flow_sound; cbn [f_p f_rho]. replace (5/3 * 1 / (5/3)) with 1 by lra. apply sqrt_1. }
    rewrite E1, E2. cbn [f_u]. lra.
  - apply identical_states; cbn; try lra; exact HL.
Qed.
