(** * Evaluation lemmas for the numeric semantics, and analysis helpers *)
From Verif Require Export Num.
From Coquelicot Require Export Coquelicot.
From Coq Require Export Psatz Ranalysis5.
Open Scope R_scope.

Lemma ndiv_Some a b : b <> 0 -> ndiv (Some a) (Some b) = Some (a / b).
Proof. intros H; unfold ndiv; destruct (Req_EM_T b 0); congruence. Qed.
Lemma ndiv_zero a b : b = 0 -> ndiv (Some a) (Some b) = None.
Proof. intros H; unfold ndiv; destruct (Req_EM_T b 0); congruence. Qed.
Lemma nsqrt_Some a : 0 <= a -> nsqrt (Some a) = Some (sqrt a).
Proof. intros H; unfold nsqrt; destruct (Rle_dec 0 a); congruence. Qed.
Lemma nsqrt_neg a : a < 0 -> nsqrt (Some a) = None.
Proof. intros H; unfold nsqrt; destruct (Rle_dec 0 a); [lra|reflexivity]. Qed.
Lemma npow_Some a b : 0 < a -> npow (Some a) (Some b) = Some (Rpower a b).
Proof. intros H; unfold npow; destruct (Rlt_dec 0 a); [reflexivity|lra]. Qed.
Lemma nlog_Some a : 0 < a -> nlog (Some a) = Some (ln a).
Proof. intros H; unfold nlog; destruct (Rlt_dec 0 a); [reflexivity|lra]. Qed.
Lemma nlog_npos a : a <= 0 -> nlog (Some a) = None.
Proof. intros H; unfold nlog; destruct (Rlt_dec 0 a); [lra|reflexivity]. Qed.
Lemma ntan_Some a : cos a <> 0 -> ntan (Some a) = Some (tan a).
Proof. intros H; unfold ntan; destruct (Req_EM_T (cos a) 0); congruence. Qed.
Lemma narcsin_Some a : -1 <= a <= 1 -> narcsin (Some a) = Some (asin a).
Proof. intros H; unfold narcsin; destruct (Rle_dec (-1) a), (Rle_dec a 1); try lra; reflexivity. Qed.
Lemma narccos_Some a : -1 <= a <= 1 -> narccos (Some a) = Some (acos a).
Proof. intros H; unfold narccos; destruct (Rle_dec (-1) a), (Rle_dec a 1); try lra; reflexivity. Qed.
Lemma nlt_true a b : a < b -> nlt (Some a) (Some b) = Some true.
Proof. intros H; unfold nlt; destruct (Rlt_dec a b); [reflexivity|lra]. Qed.
Lemma nlt_false a b : b <= a -> nlt (Some a) (Some b) = Some false.
Proof. intros H; unfold nlt; destruct (Rlt_dec a b); [lra|reflexivity]. Qed.
Lemma ngt_true a b : b < a -> ngt (Some a) (Some b) = Some true.
Proof. apply nlt_true. Qed.
Lemma ngt_false a b : a <= b -> ngt (Some a) (Some b) = Some false.
Proof. apply nlt_false. Qed.
Lemma nle_true a b : a <= b -> nle (Some a) (Some b) = Some true.
Proof. intros H; unfold nle; destruct (Rle_dec a b); [reflexivity|lra]. Qed.
Lemma nle_false a b : b < a -> nle (Some a) (Some b) = Some false.
Proof. intros H; unfold nle; destruct (Rle_dec a b); [lra|reflexivity]. Qed.

(** one-step reductions that need no side condition *)
Ltac ncbn := cbn [nadd nsub nmul nopp npowi nsin ncos narctan narctan2 nabs nmax nmin nsign
                  nradians ndegrees npi nexp] in *.

Lemma sq_nonneg x : 0 <= x ^ 2.
Proof. apply pow2_ge_0. Qed.
Lemma sq_pos x : x <> 0 -> 0 < x ^ 2.
Proof. intros H; simpl; rewrite Rmult_1_r; now apply Rsqr_pos_lt in H. Qed.

Lemma sqrt_sq_abs x : sqrt (x ^ 2) = Rabs x.
Proof. rewrite <- sqrt_Rsqr_abs; unfold Rsqr; f_equal; ring. Qed.
Lemma sqrt_sq x : 0 <= x -> sqrt (x ^ 2) = x.
Proof. intros H; rewrite sqrt_sq_abs; now apply Rabs_pos_eq. Qed.
Lemma sq_sqrt x : 0 <= x -> sqrt x ^ 2 = x.
Proof. intros H; simpl; rewrite Rmult_1_r; now apply sqrt_sqrt. Qed.

(** ** Rpower *)
Lemma Rpower_pos x y : 0 < Rpower x y.
Proof. apply exp_pos. Qed.
Lemma Rpower_one y : Rpower 1 y = 1.
Proof. unfold Rpower; rewrite ln_1, Rmult_0_r; apply exp_0. Qed.
Lemma Rpower_inv_exp x a b : 0 < x -> a * b = 1 -> Rpower (Rpower x a) b = x.
Proof. intros Hx H; rewrite Rpower_mult, H; now apply Rpower_1. Qed.
Lemma Rpower_lt_base x y a : 0 < x -> x < y -> 0 < a -> Rpower x a < Rpower y a.
Proof.
  intros Hx Hxy Ha; unfold Rpower; apply exp_increasing.
  apply Rmult_lt_compat_l; [assumption|]; apply ln_increasing; assumption.
Qed.
Lemma Rpower_lt_base_neg x y a : 0 < x -> x < y -> a < 0 -> Rpower y a < Rpower x a.
Proof.
  intros Hx Hxy Ha; unfold Rpower; apply exp_increasing.
  assert (ln x < ln y) by (apply ln_increasing; assumption). nra.
Qed.
Lemma Rpower_gt_1 x a : 1 < x -> 0 < a -> 1 < Rpower x a.
Proof. intros Hx Ha; rewrite <- (Rpower_one a) at 1; apply Rpower_lt_base; lra. Qed.
Lemma Rpower_lt_1 x a : 0 < x < 1 -> 0 < a -> Rpower x a < 1.
Proof. intros Hx Ha; rewrite <- (Rpower_one a); apply Rpower_lt_base; lra. Qed.
Lemma Rpower_ge_1 x a : 1 <= x -> 0 < a -> 1 <= Rpower x a.
Proof.
  intros Hx Ha; destruct Hx as [Hx|Hx]; [left; now apply Rpower_gt_1|].
  rewrite <- Hx, Rpower_one; lra.
Qed.
Lemma Rpower_inj x y a : 0 < x -> 0 < y -> a <> 0 -> Rpower x a = Rpower y a -> x = y.
Proof.
  intros Hx Hy Ha H; unfold Rpower in H; apply exp_inv in H.
  apply ln_inv; try assumption. now apply Rmult_eq_reg_l in H.
Qed.
Lemma Rpower_div_base x y a : 0 < x -> 0 < y -> Rpower (x / y) a = Rpower x a / Rpower y a.
Proof.
  intros Hx Hy; unfold Rpower; rewrite ln_div by assumption.
  replace (a * (ln x - ln y)) with (a * ln x - a * ln y) by ring.
  unfold Rdiv, Rminus; rewrite exp_plus, exp_Ropp; reflexivity.
Qed.
Lemma Rpower_mult_base x y a : 0 < x -> 0 < y -> Rpower (x * y) a = Rpower x a * Rpower y a.
Proof. intros Hx Hy; unfold Rpower; rewrite ln_mult, <- exp_plus by assumption; f_equal; ring. Qed.
Lemma Rpower_pow2 x : 0 < x -> Rpower x 2 = x ^ 2.
Proof. intros H; rewrite <- (Rpower_pow 2) by assumption; f_equal; simpl; ring. Qed.
Lemma ln_Rpower x a : ln (Rpower x a) = a * ln x.
Proof. unfold Rpower; apply ln_exp. Qed.

(** ** Strict monotonicity from the derivative *)
Lemma strict_incr (f f' : R -> R) (a b : R) :
  a < b ->
  (forall x, a <= x <= b -> is_derive f x (f' x)) ->
  (forall x, a < x < b -> 0 < f' x) -> f a < f b.
Proof.
  intros Hab Hd Hp.
  destruct (MVT_cor2 f f' a b Hab) as [c [Hc1 Hc2]].
  - intros c Hc; apply is_derive_Reals; now apply Hd.
  - assert (0 < f' c * (b - a)) by (apply Rmult_lt_0_compat; [now apply Hp|lra]). lra.
Qed.
Lemma strict_decr (f f' : R -> R) (a b : R) :
  a < b ->
  (forall x, a <= x <= b -> is_derive f x (f' x)) ->
  (forall x, a < x < b -> f' x < 0) -> f b < f a.
Proof.
  intros Hab Hd Hp.
  destruct (MVT_cor2 f f' a b Hab) as [c [Hc1 Hc2]].
  - intros c Hc; apply is_derive_Reals; now apply Hd.
  - assert (0 < - f' c * (b - a)) by
      (apply Rmult_lt_0_compat; [specialize (Hp c Hc2); lra|lra]). lra.
Qed.

(** Intermediate value on a closed interval for continuous functions. *)
Lemma IVT_value (f : R -> R) (a b y : R) :
  a < b -> (forall x, a <= x <= b -> continuous f x) ->
  f a <= y <= f b -> exists c, a <= c <= b /\ f c = y.
Proof.
  intros Hab Hc Hy.
  destruct (Rle_lt_or_eq_dec (f a) y (proj1 Hy)) as [H1|H1];
    [|exists a; split; [lra|assumption]].
  destruct (Rle_lt_or_eq_dec y (f b) (proj2 Hy)) as [H2|H2];
    [|exists b; split; [lra|congruence]].
  assert (Hcont : forall x, a <= x <= b -> continuity_pt (fun z => f z - y) x).
  { intros x Hx. apply continuity_pt_minus;
      [apply continuity_pt_filterlim; now apply Hc | apply continuity_pt_const; intros u v; reflexivity]. }
  destruct (IVT_interv (fun z => f z - y) a b Hcont Hab) as [c [Hc1 Hc2]]; try lra.
  exists c; split; [assumption|lra].
Qed.

Lemma derive_continuous (f : R -> R) x l : is_derive f x l -> continuous f x.
Proof. intros H; apply (ex_derive_continuous f x). now exists l. Qed.

(** Positivity by structure. *)
Lemma pos_nz x : 0 < x -> x <> 0.
Proof. intros; lra. Qed.
Ltac pos :=
  match goal with
  | |- 0 < _ => first [assumption | lra |
      lazymatch goal with
      | |- 0 < _ * _ => apply Rmult_lt_0_compat; pos
      | |- 0 < _ / _ => apply Rdiv_lt_0_compat; pos
      | |- 0 < / _ => apply Rinv_0_lt_compat; pos
      | |- 0 < sqrt _ => apply sqrt_lt_R0; pos
      | |- 0 < exp _ => apply exp_pos
      | |- 0 < Rpower _ _ => apply Rpower_pos
      | |- 0 < _ ^ _ => first [apply pow_lt; pos | nra]
      | |- 0 < _ + _ => first [apply Rplus_lt_0_compat; pos | nra]
      end | nra]
  | |- 0 <= _ => first [assumption | lra |
      lazymatch goal with
      | |- 0 <= _ * _ => apply Rmult_le_pos; pos
      | |- 0 <= _ / _ => apply Rmult_le_pos; [pos|left; apply Rinv_0_lt_compat; pos]
      | |- 0 <= / _ => left; apply Rinv_0_lt_compat; pos
      | |- 0 <= sqrt _ => apply sqrt_pos
      | |- 0 <= _ ^ 2 => apply pow2_ge_0
      | |- 0 <= _ ^ _ => apply pow_le; pos
      | |- 0 <= _ + _ => apply Rplus_le_le_0_compat; pos
      | |- 0 <= exp _ => left; apply exp_pos
      | |- 0 <= Rpower _ _ => left; apply Rpower_pos
      end | nra]
  | |- ?x <> 0 => first [assumption | apply pos_nz; pos]
  | |- _ > 0 => apply Rlt_gt; pos
  | |- _ /\ _ => split; pos
  | |- _ => first [assumption|lra|nra]
  end.

Lemma mul_neg_l a b : a * b < 0 -> 0 < b -> a < 0.
Proof. intros; nra. Qed.
Lemma mul_pos_l a b : 0 < a * b -> 0 < b -> 0 < a.
Proof. intros; nra. Qed.
