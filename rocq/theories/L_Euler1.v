(** * The Euler1D operator is the linearisation of the discretised Euler equations *)
From Verif Require Import Num L_Num M_Spectral M_Euler EulerSpec L_Poly L_Spectral L_Spectral2 L_Spectral3.
Open Scope R_scope.

Lemma rsum_app n m a : rsum (n + m) a = rsum n a + rsum m (fun k => a (n + k)%nat).
Proof. induction m; [rewrite Nat.add_0_r; cbn; ring|]. rewrite Nat.add_succ_r; cbn. rewrite IHm; ring. Qed.
Lemma rsum3 n a : rsum (3 * n) a = rsum n a + rsum n (fun k => a (n + k)%nat) + rsum n (fun k => a (2 * n + k)%nat).
Proof. replace (3 * n)%nat with (n + n + n)%nat by lia. rewrite !rsum_app. replace (n + n)%nat with (2 * n)%nat by lia. reflexivity. Qed.

Ltac rng := repeat match goal with
  | |- context [Nat.leb ?a ?b] => destruct (Nat.leb_spec a b); try lia; cbn [andb]
  | |- context [Nat.ltb ?a ?b] => destruct (Nat.ltb_spec a b); try lia; cbn [andb]
  end.
Ltac offs := repeat match goal with
  | |- context [(?a - ?b)%nat] => progress (replace (a - b)%nat with a by lia)
  | |- context [(?a + ?k - ?b)%nat] => replace (a + k - b)%nat with k by lia
  end.
Lemma div0 n k : (k < n)%nat -> (k / n = 0)%nat. Proof. apply Nat.div_small. Qed.
Lemma div1 n k : (k < n)%nat -> ((n + k) / n = 1)%nat.
Proof. intros. replace (n + k)%nat with (1 * n + k)%nat by lia. rewrite Nat.div_add_l, Nat.div_small; lia. Qed.
Lemma div2' n k : (k < n)%nat -> ((2 * n + k) / n = 2)%nat.
Proof. intros. rewrite Nat.div_add_l, Nat.div_small; lia. Qed.
Lemma mod0 n k : (k < n)%nat -> (k mod n = k)%nat. Proof. apply Nat.mod_small. Qed.
Lemma mod1 n k : (k < n)%nat -> ((n + k) mod n = k)%nat.
Proof. intros. replace (n + k)%nat with (k + 1 * n)%nat by lia. rewrite Nat.mod_add, Nat.mod_small; lia. Qed.
Lemma mod2 n k : (k < n)%nat -> ((2 * n + k) mod n = k)%nat.
Proof. intros. replace (2 * n + k)%nat with (k + 2 * n)%nat by lia. rewrite Nat.mod_add, Nat.mod_small; lia. Qed.

Definition delta (i j : nat) : R := if Nat.eqb i j then 1 else 0.
Lemma rsum_delta n i (f : nat -> R) : (i < n)%nat -> rsum n (fun j => delta i j * f j) = f i.
Proof.
  intros H. rewrite (rsum_single n _ i H); unfold delta.
  - rewrite Nat.eqb_refl; ring.
  - intros k _ Hk. destruct (Nat.eqb_spec i k); [congruence|ring].
Qed.

Section LIN.
Context (n : nat) (D : mat) (d : nat -> nat -> R) (q : estate) (r u p : nat -> R) (g : R).
Hypothesis HD : forall i j, (i < n)%nat -> (j < n)%nat -> D i j = Some (d i j).
Hypothesis Hr : forall i, (i < n)%nat -> e_rho q i = Some (r i).
Hypothesis Hu : forall i, (i < n)%nat -> e_u q i = Some (u i).
Hypothesis Hp : forall i, (i < n)%nat -> e_p q i = Some (p i).
Hypothesis Hg : e_g q = Some g.
Hypothesis Hr0 : forall i, (i < n)%nat -> r i <> 0.

Lemma matvec_dx F f i : (forall j, (j < n)%nat -> F j = Some (f j)) -> (i < n)%nat ->
  matvec n D F i = Some (ddx n d f i).
Proof.
  intros HF Hi. unfold matvec, ddx. change Sum with rsum. apply nsum_Some. intros j Hj. rewrite HD, HF by assumption. reflexivity.
Qed.

Ltac ev := rewrite ?HD, ?Hr, ?Hu, ?Hp, ?Hg, ?(matvec_dx (e_rho q) r), ?(matvec_dx (e_u q) u), ?(matvec_dx (e_p q) p) by assumption.
Ltac blk := unfold euler_B, euler_Bx, euler_B0, set_block, in_range, zeros; rng;
  unfold diag_mul, kron_eye, tile, matdiag, d_rho, d_u, d_p, eye;
  rewrite ?div0, ?div1, ?div2', ?mod0, ?mod1, ?mod2 by assumption;
  offs; rewrite ?div0, ?div1, ?div2', ?mod0, ?mod1, ?mod2 by assumption;
  cbn [Nat.eqb]; ev.

Ltac fin := unfold delta; repeat match goal with |- context [Nat.eqb ?a ?b] => destruct (Nat.eqb_spec a b); try lia end;
  ev; ncbn; rewrite ?ndiv_Some by (try (apply pow_nonzero); apply Hr0; assumption); ncbn; f_equal; try (field; apply Hr0; assumption); try ring.
Lemma blk_00 k l : (k < n)%nat -> (l < n)%nat -> euler_B n D q k l = Some (- (u k * d k l) - delta k l * ddx n d u k).
Proof. intros Hk Hl. blk. fin. Qed.
Lemma blk_01 k l : (k < n)%nat -> (l < n)%nat -> euler_B n D q k (n + l)%nat = Some (- (r k * d k l) - delta k l * ddx n d r k).
Proof. intros Hk Hl. blk. fin. Qed.
Lemma blk_02 k l : (k < n)%nat -> (l < n)%nat -> euler_B n D q k (2 * n + l)%nat = Some 0.
Proof. intros Hk Hl. blk. fin. Qed.
Lemma blk_10 k l : (k < n)%nat -> (l < n)%nat -> euler_B n D q (n + k)%nat l = Some (delta k l * (ddx n d p k / r k ^ 2)).
Proof. intros Hk Hl. blk. fin. Qed.
Lemma blk_11 k l : (k < n)%nat -> (l < n)%nat -> euler_B n D q (n + k)%nat (n + l)%nat = Some (- (u k * d k l) - delta k l * ddx n d u k).
Proof. intros Hk Hl. blk. fin. Qed.
Lemma blk_12 k l : (k < n)%nat -> (l < n)%nat -> euler_B n D q (n + k)%nat (2 * n + l)%nat = Some (- (/ r k * d k l)).
Proof. intros Hk Hl. blk. fin. Qed.
Lemma blk_20 k l : (k < n)%nat -> (l < n)%nat -> euler_B n D q (2 * n + k)%nat l = Some 0.
Proof. intros Hk Hl. blk. fin. Qed.
Lemma blk_21 k l : (k < n)%nat -> (l < n)%nat -> euler_B n D q (2 * n + k)%nat (n + l)%nat = Some (- (g * p k * d k l) - delta k l * ddx n d p k).
Proof. intros Hk Hl. blk. fin. Qed.
Lemma blk_22 k l : (k < n)%nat -> (l < n)%nat -> euler_B n D q (2 * n + k)%nat (2 * n + l)%nat = Some (- (u k * d k l) - delta k l * (g * ddx n d u k)).
Proof. intros Hk Hl. blk. fin. Qed.
Lemma matvec3 A w i f0 f1 f2 :
  (forall l, (l < n)%nat -> A i l = Some (f0 l)) -> (forall l, (l < n)%nat -> A i (n + l)%nat = Some (f1 l)) ->
  (forall l, (l < n)%nat -> A i (2 * n + l)%nat = Some (f2 l)) ->
  matvec (3 * n) A (fun j => Some (w j)) i =
  Some (rsum n (fun l => f0 l * w l) + rsum n (fun l => f1 l * w (n + l)%nat) + rsum n (fun l => f2 l * w (2 * n + l)%nat)).
Proof.
  intros H0 H1 H2. unfold matvec.
  rewrite (nsum_Some (3 * n) _ (fun j => (if Nat.ltb j n then f0 j else if Nat.ltb j (2 * n) then f1 (j - n)%nat else f2 (j - 2 * n)%nat) * w j)).
  - f_equal. rewrite rsum3. f_equal; [f_equal|]; apply rsum_ext; intros l Hl; rng; f_equal; f_equal; lia.
  - intros j Hj. destruct (Nat.ltb_spec j n); [rewrite H0 by lia; reflexivity|].
    destruct (Nat.ltb_spec j (2 * n)).
    + replace j with (n + (j - n))%nat at 1 by lia. rewrite H1 by lia. reflexivity.
    + replace j with (2 * n + (j - 2 * n))%nat at 1 by lia. rewrite H2 by lia. reflexivity.
Qed.
Lemma rsum_dl k c m (w : nat -> R) : (k < n)%nat ->
  rsum n (fun l => (- (c * d k l) - delta k l * m) * w l) = - (c * ddx n d w k) - m * w k.
Proof.
  intros Hk. rewrite (rsum_ext n _ (fun l => (- c) * (d k l * w l) + (- m) * (delta k l * w l))) by (intros; ring).
  rewrite rsum_plus, !rsum_scal, rsum_delta by assumption. unfold ddx; change Sum with rsum. ring.
Qed.
Lemma rsum_d k c (w : nat -> R) : rsum n (fun l => (- (c * d k l)) * w l) = - (c * ddx n d w k).
Proof.
  rewrite (rsum_ext n _ (fun l => (- c) * (d k l * w l))) by (intros; ring).
  rewrite !rsum_scal. unfold ddx; change Sum with rsum. ring.
Qed.
Lemma ddx_pert f eps w off k : ddx n d (pert f eps w off) k = ddx n d f k + eps * ddx n d (fun l => w (off + l)%nat) k.
Proof.
  unfold ddx, pert; change Sum with rsum.
  rewrite (rsum_ext n _ (fun l => d k l * f l + eps * (d k l * w (off + l)%nat))) by (intros; ring).
  now rewrite rsum_plus, rsum_scal.
Qed.
Lemma ddx_ext f h k : (forall l, (l < n)%nat -> f l = h l) -> ddx n d f k = ddx n d h k.
Proof. intros H; unfold ddx; change Sum with rsum; apply rsum_ext; intros; now rewrite H. Qed.

Lemma row_rho w k : (k < n)%nat -> exists b, matvec (3 * n) (euler_B n D q) (fun j => Some (w j)) k = Some b /\
  is_derive (fun eps => rho_t n d (pert r eps w 0) (pert u eps w n) k) 0 b.
Proof.
  intros Hk. eexists; split.
  - apply matvec3; intros l Hl; [apply blk_00|apply blk_01|apply blk_02]; assumption.
  - cbv beta. rewrite (rsum_dl k (u k) (ddx n d u k) w), (rsum_dl k (r k) _ (fun l => w (n + l)%nat)), (rsum_zero n (fun l => 0 * w (2 * n + l)%nat)) by (assumption || (intros; ring)).
    apply (is_derive_ext (fun eps => - ((u k + eps * w (n + k)%nat) * (ddx n d r k + eps * ddx n d w k)
       + (r k + eps * w k) * (ddx n d u k + eps * ddx n d (fun l => w (n + l)%nat) k)))).
    { intros eps. unfold rho_t. rewrite !ddx_pert. reflexivity. }
    auto_derive; [trivial|ring].
Qed.
Lemma row_u w k : (k < n)%nat -> exists b, matvec (3 * n) (euler_B n D q) (fun j => Some (w j)) (n + k)%nat = Some b /\
  is_derive (fun eps => u_t n d (pert r eps w 0) (pert u eps w n) (pert p eps w (2 * n)) k) 0 b.
Proof.
  intros Hk. eexists; split.
  - apply matvec3; intros l Hl; [apply blk_10|apply blk_11|apply blk_12]; assumption.
  - cbv beta. rewrite (rsum_dl k (u k) _ (fun l => w (n + l)%nat)), (rsum_d k (/ r k) (fun l => w (2 * n + l)%nat)) by assumption.
    rewrite (rsum_ext n _ (fun l => ddx n d p k / r k ^ 2 * (delta k l * w l))) by (intros; ring). rewrite rsum_scal, rsum_delta by assumption.
    apply (is_derive_ext (fun eps => - ((u k + eps * w (n + k)%nat) * (ddx n d u k + eps * ddx n d (fun l => w (n + l)%nat) k)
       + (ddx n d p k + eps * ddx n d (fun l => w (2 * n + l)%nat) k) / (r k + eps * w k)))).
    { intros eps. unfold u_t. rewrite !ddx_pert. reflexivity. }
    pose proof (Hr0 k Hk). generalize (ddx n d (fun l => w (2 * n + l)%nat) k); intros dw. auto_derive; [lra|field; lra].
Qed.
Lemma row_p w k : (k < n)%nat -> exists b, matvec (3 * n) (euler_B n D q) (fun j => Some (w j)) (2 * n + k)%nat = Some b /\
  is_derive (fun eps => p_t n d g (pert u eps w n) (pert p eps w (2 * n)) k) 0 b.
Proof.
  intros Hk. eexists; split.
  - apply matvec3; intros l Hl; [apply blk_20|apply blk_21|apply blk_22]; assumption.
  - cbv beta. rewrite (rsum_dl k (g * p k) _ (fun l => w (n + l)%nat)), (rsum_dl k (u k) _ (fun l => w (2 * n + l)%nat)), (rsum_zero n (fun l => 0 * w l)) by (assumption || (intros; ring)).
    apply (is_derive_ext (fun eps => - ((u k + eps * w (n + k)%nat) * (ddx n d p k + eps * ddx n d (fun l => w (2 * n + l)%nat) k)
       + g * (p k + eps * w (2 * n + k)%nat) * (ddx n d u k + eps * ddx n d (fun l => w (n + l)%nat) k)))).
    { intros eps. unfold p_t. rewrite !ddx_pert. reflexivity. }
    generalize (ddx n d (fun l => w (2 * n + l)%nat) k) (w (2 * n + k)%nat); intros dw wk.
    auto_derive; [trivial|ring].
Qed.
End LIN.

(*@P C49_linearisation: For every size, differentiation matrix, base state with non-zero density and finite values, and every perturbation w of (rho, u, p): the rows of the operator assembled before boundary conditions, applied to w, are the derivatives at eps = 0 of the discretised density, velocity and pressure equations along base + eps w. *)
Lemma linearisation : forall n D d q r u p g w k,
  (forall i j, (i < n)%nat -> (j < n)%nat -> D i j = Some (d i j)) ->
  (forall i, (i < n)%nat -> e_rho q i = Some (r i) /\ e_u q i = Some (u i) /\ e_p q i = Some (p i) /\ r i <> 0) ->
  e_g q = Some g -> (k < n)%nat ->
  let Bw := matvec (3 * n) (euler_B n D q) (fun j => Some (w j)) in
  exists b0 b1 b2, Bw k = Some b0 /\ Bw (n + k)%nat = Some b1 /\ Bw (2 * n + k)%nat = Some b2 /\
  is_derive (fun eps => rho_t n d (pert r eps w 0) (pert u eps w n) k) 0 b0 /\
  is_derive (fun eps => u_t n d (pert r eps w 0) (pert u eps w n) (pert p eps w (2 * n)) k) 0 b1 /\
  is_derive (fun eps => p_t n d g (pert u eps w n) (pert p eps w (2 * n)) k) 0 b2.
Proof.
  intros n D d q r u p g w k HD Hq Hg Hk Bw.
  assert (Hr : forall i, (i < n)%nat -> e_rho q i = Some (r i)) by (intros; apply Hq; assumption).
  assert (Hu : forall i, (i < n)%nat -> e_u q i = Some (u i)) by (intros; apply Hq; assumption).
  assert (Hp : forall i, (i < n)%nat -> e_p q i = Some (p i)) by (intros; apply Hq; assumption).
  assert (H0 : forall i, (i < n)%nat -> r i <> 0) by (intros; apply Hq; assumption).
  destruct (row_rho n D d q r u HD Hr Hu w k Hk) as (b0 & E0 & F0).
  destruct (row_u n D d q r u p HD Hr Hu Hp H0 w k Hk) as (b1 & E1 & F1).
  destruct (row_p n D d q u p g HD Hu Hp Hg w k Hk) as (b2 & E2 & F2).
  exists b0, b1, b2. exact (conj E0 (conj E1 (conj E2 (conj F0 (conj F1 F2))))).
Qed.
