(** * Polynomials as coefficient lists, and jets (families of successive derivatives) *)
From Verif Require Export PolySpec L_Num.
Open Scope R_scope.

(** finite sums *)
Fixpoint rsum (n : nat) (a : nat -> R) : R :=
  match n with O => 0 | S k => rsum k a + a k end.
Lemma rsum_ext n a b : (forall k, (k < n)%nat -> a k = b k) -> rsum n a = rsum n b.
Proof. induction n; intros H; cbn; [reflexivity|]. rewrite IHn, (H n); auto with arith. Qed.
Lemma rsum_zero n a : (forall k, (k < n)%nat -> a k = 0) -> rsum n a = 0.
Proof. induction n; intros H; cbn; [reflexivity|]. rewrite IHn, (H n); auto with arith; ring. Qed.
Lemma rsum_scal n c a : rsum n (fun k => c * a k) = c * rsum n a.
Proof. induction n; cbn; [ring|]. rewrite IHn; ring. Qed.
Lemma rsum_plus n a b : rsum n (fun k => a k + b k) = rsum n a + rsum n b.
Proof. induction n; cbn; [ring|]. rewrite IHn; ring. Qed.
Lemma rsum_opp n a : rsum n (fun k => - a k) = - rsum n a.
Proof. induction n; cbn; [ring|]. rewrite IHn; ring. Qed.
(** isolating one term *)
Lemma rsum_split n a j : (j < n)%nat ->
  rsum n a = a j + rsum n (fun k => if Nat.eqb k j then 0 else a k).
Proof.
  induction n; intros H; [lia|]. cbn. destruct (Nat.eqb_spec n j) as [->|E].
  - rewrite (rsum_ext j (fun k => if Nat.eqb k j then 0 else a k) a); [ring|].
    intros k Hk; destruct (Nat.eqb_spec k j); [lia|reflexivity].
  - rewrite IHn by lia. ring.
Qed.
Lemma rsum_single n a j : (j < n)%nat -> (forall k, (k < n)%nat -> k <> j -> a k = 0) ->
  rsum n a = a j.
Proof.
  intros Hj H. rewrite (rsum_split n a j Hj), rsum_zero; [ring|].
  intros k Hk; destruct (Nat.eqb_spec k j); auto.
Qed.

(** ** algebra *)
Fixpoint padd (c d : list R) : list R :=
  match c, d with nil, d => d | c, nil => c | a :: c, b :: d => (a + b) :: padd c d end.
Definition pscal (k : R) (c : list R) : list R := map (Rmult k) c.
Lemma padd_eval c d x : peval (padd c d) x = peval c x + peval d x.
Proof. revert d; induction c as [|a c IH]; intros [|b d]; cbn; try ring. rewrite IH; ring. Qed.
Lemma pscal_eval k c x : peval (pscal k c) x = k * peval c x.
Proof. induction c; cbn; [ring|]. unfold pscal in IHc; rewrite IHc; ring. Qed.
Lemma padd_length c d : length (padd c d) = Nat.max (length c) (length d).
Proof. revert d; induction c as [|a c IH]; intros [|b d]; cbn; auto. Qed.
Lemma pscal_length k c : length (pscal k c) = length c.
Proof. apply map_length. Qed.

(** product by [a + b X] *)
Definition plin (a b : R) (c : list R) : list R := padd (pscal a c) (0 :: pscal b c).
Lemma plin_eval a b c x : peval (plin a b c) x = (a + b * x) * peval c x.
Proof. unfold plin; rewrite padd_eval; cbn; rewrite !pscal_eval; ring. Qed.
Lemma plin_length a b c : length (plin a b c) = S (length c).
Proof. unfold plin; rewrite padd_length; cbn; rewrite !pscal_length; lia. Qed.
(** composition with [a + b X] *)
Fixpoint pcomp (a b : R) (c : list R) : list R :=
  match c with nil => nil | k :: c => padd (k :: nil) (plin a b (pcomp a b c)) end.
Lemma pcomp_eval a b c x : peval (pcomp a b c) x = peval c (a + b * x).
Proof. induction c; cbn -[padd]; [reflexivity|]. rewrite padd_eval, plin_eval, IHc; cbn; ring. Qed.
Lemma pcomp_length a b c : length (pcomp a b c) = length c.
Proof. induction c; cbn -[padd]; [reflexivity|]. rewrite padd_length, plin_length, IHc; cbn; lia. Qed.

(** synthetic division by [X - a] *)
Fixpoint pdiv (a : R) (c : list R) : list R :=
  match c with
  | nil => nil
  | _ :: c' => match c' with nil => nil | _ => peval c' a :: pdiv a c' end
  end.
Lemma pdiv_eval a c x : peval c x = (x - a) * peval (pdiv a c) x + peval c a.
Proof.
  induction c as [|k c IH]; [cbn; ring|].
  destruct c as [|k' c]; [cbn; ring|].
  change (peval (k :: k' :: c) x) with (k + x * peval (k' :: c) x).
  change (peval (k :: k' :: c) a) with (k + a * peval (k' :: c) a).
  change (peval (pdiv a (k :: k' :: c)) x)
    with (peval (k' :: c) a + x * peval (pdiv a (k' :: c)) x).
  rewrite IH at 1. ring.
Qed.
Lemma pdiv_length a c : length (pdiv a c) = (length c - 1)%nat.
Proof.
  induction c as [|k c IH]; [reflexivity|]. destruct c as [|k' c]; [reflexivity|].
  change (S (length (pdiv a (k' :: c))) = (length (k :: k' :: c) - 1)%nat). rewrite IH; cbn; lia.
Qed.
(** a polynomial with at least as many distinct roots as coefficients vanishes *)
Lemma peval_roots l : NoDup l -> forall c, (length c <= length l)%nat ->
  (forall r, In r l -> peval c r = 0) -> forall x, peval c x = 0.
Proof.
  induction l as [|r l IH]; intros ND c Hl Hr x.
  - destruct c; [reflexivity|cbn in Hl; lia].
  - inversion ND as [|? ? Hni ND']; subst.
    rewrite (pdiv_eval r), (Hr r) by (left; reflexivity).
    rewrite (IH ND' (pdiv r c)); [ring| |].
    + rewrite pdiv_length; cbn in Hl; lia.
    + intros s Hs. assert (E : peval c s = 0) by (apply Hr; right; exact Hs).
      rewrite (pdiv_eval r), (Hr r) in E by (left; reflexivity).
      assert (s <> r) by (intros ->; contradiction).
      apply (Rmult_eq_reg_l (s - r)); [lra|lra].
Qed.
Lemma peval_unique l c d : NoDup l -> (length c <= length l)%nat -> (length d <= length l)%nat ->
  (forall r, In r l -> peval c r = peval d r) -> forall x, peval c x = peval d x.
Proof.
  intros ND Hc Hd H x.
  assert (E : peval (padd c (pscal (-1) d)) x = 0).
  { apply (peval_roots l ND). - rewrite padd_length, pscal_length; lia.
    - intros r Hr; rewrite padd_eval, pscal_eval, (H r Hr); ring. }
  rewrite padd_eval, pscal_eval in E; lra.
Qed.

(** ** derivatives *)
Fixpoint pder (c : list R) : list R :=
  match c with nil => nil | _ :: c => padd c (0 :: pder c) end.
Lemma is_derive_peval c x : is_derive (peval c) x (peval (pder c) x).
Proof.
  revert x; induction c as [|a c IH]; intros x; cbn [peval pder].
  - apply (is_derive_const 0 x).
  - rewrite padd_eval; cbn [peval].
    evar_last.
    + apply (is_derive_plus (fun _ : R => a) (fun x => x * peval c x)); [apply is_derive_const|].
      apply (is_derive_mult (fun x : R => x) (peval c)); [apply is_derive_id|apply IH|].
      intros; apply Rmult_comm.
    + unfold plus, mult, zero, one; cbn. ring.
Qed.

Definition jet (f : nat -> R -> R) : Prop := forall m x, is_derive (f m) x (f (S m) x).
Lemma jet_ext f g : jet f -> jet g -> (forall x, f O x = g O x) -> forall m x, f m x = g m x.
Proof.
  intros Hf Hg E m; induction m as [|m IH]; intros x; [apply E|].
  transitivity (Derive (f m) x); [symmetry; apply is_derive_unique, Hf|].
  rewrite (Derive_ext _ (g m) x) by (intros; apply IH). apply is_derive_unique, Hg.
Qed.
Lemma jet_Derive_n f m x : jet f -> Derive_n (f O) m x = f m x.
Proof.
  intros H; revert x; induction m as [|m IH]; intros x; [reflexivity|].
  cbn [Derive_n]. rewrite (Derive_ext _ (f m) x) by (intros; apply IH). apply is_derive_unique, H.
Qed.
Definition pjet (c : list R) : nat -> R -> R := fun m => peval (Nat.iter m pder c).
Lemma pjet_jet c : jet (pjet c).
Proof. intros m x; unfold pjet; apply is_derive_peval. Qed.
Lemma jet_scal k f : jet f -> jet (fun m x => k * f m x).
Proof. intros H m x. apply (is_derive_scal (f m) x k), H. Qed.
Lemma jet_plus f g : jet f -> jet g -> jet (fun m x => f m x + g m x).
Proof. intros H G m x. apply (is_derive_plus (f m) (g m)); auto. Qed.
Lemma jet_zero : jet (fun _ _ => 0).
Proof. intros m x. apply (is_derive_const 0 x). Qed.
Lemma jet_rsum n (f : nat -> nat -> R -> R) : (forall j, (j < n)%nat -> jet (f j)) ->
  jet (fun m x => rsum n (fun j => f j m x)).
Proof.
  induction n; intros H; cbn; [apply jet_zero|].
  apply (jet_plus (fun m x => rsum n (fun j => f j m x)) (f n)); auto.
Qed.
(** Leibniz rule for a linear factor *)
Lemma jet_lin a f : jet f -> jet (fun m x => (x - a) * f m x + INR m * f (pred m) x).
Proof.
  intros H m x. evar_last.
  - apply (is_derive_plus (fun x => (x - a) * f m x) (fun x => INR m * f (pred m) x)).
    + apply (is_derive_mult (fun x : R => x - a) (f m)); [|apply H|intros; apply Rmult_comm].
      auto_derive; [trivial|reflexivity].
    + apply is_derive_scal, H.
  - rewrite S_INR; unfold plus, mult; cbn. destruct m; cbn [pred]; [rewrite ?INR_0; cbn; ring|ring].
Qed.
Lemma jet_affine a b f : jet f -> jet (fun m x => b ^ m * f m (a + b * x)).
Proof.
  intros H m x. evar_last.
  - apply is_derive_scal. apply (is_derive_comp (f m) (fun x => a + b * x)); [apply H|].
    auto_derive; [trivial|reflexivity].
  - unfold scal; cbn; unfold mult; cbn. ring.
Qed.
Lemma peval_one x : peval (1 :: nil) x = 1. Proof. cbn; ring. Qed.
Lemma pjet_one m x : pjet (1 :: nil) (S m) x = 0.
Proof.
  rewrite (jet_ext (pjet (1 :: nil)) (fun m _ => match m with O => 1 | _ => 0 end));
  [reflexivity|apply pjet_jet| |].
  - intros [|k] y; [apply (is_derive_const 1 y)|apply (is_derive_const 0 y)].
  - intros y; unfold pjet; cbn; ring.
Qed.
Lemma Derive_n_peval c m x : Derive_n (peval c) m x = pjet c m x.
Proof. exact (jet_Derive_n (pjet c) m x (pjet_jet c)). Qed.
