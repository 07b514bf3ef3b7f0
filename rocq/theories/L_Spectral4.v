(** * Interpolation and fitting on Chebyshev nodes *)
From Verif Require Import Num L_Num PolySpec LinalgSpec L_Poly M_Spectral L_Spectral L_Spectral2 L_Spectral3.
Open Scope R_scope.

Lemma Some_inj {A} (x y : A) : Some x = Some y -> x = y.
Proof. congruence. Qed.
Lemma numsum_nsum n a : numsum n a = nsum n a.
Proof. induction n; cbn; [reflexivity|]. now rewrite IHn. Qed.
Lemma Rsum_rsum n a : Rsum n a = rsum n a.
Proof. induction n; cbn; [reflexivity|]. now rewrite IHn. Qed.

(** real Chebyshev polynomials *)
Fixpoint Tr2 (k : nat) (x : R) : R * R :=
  match k with O => (1, x) | S k => let '(a, b) := Tr2 k x in (b, 2 * x * b - a) end.
Definition Tr k x := fst (Tr2 k x).
Lemma chebT_pair_eval k x : chebT_pair k (Some x) = (Some (fst (Tr2 k x)), Some (snd (Tr2 k x))).
Proof. induction k; [reflexivity|]. cbn [chebT_pair Tr2]. rewrite IHk. destruct (Tr2 k x); reflexivity. Qed.
Lemma chebT_eval k x : chebT k (Some x) = Some (Tr k x).
Proof. unfold chebT; now rewrite chebT_pair_eval. Qed.
Lemma Tr_SS k x : Tr (S (S k)) x = 2 * x * Tr (S k) x - Tr k x.
Proof. unfold Tr; cbn [Tr2]. destruct (Tr2 k x); reflexivity. Qed.
Fixpoint Tp2 (k : nat) : list R * list R :=
  match k with
  | O => (1 :: nil, 0 :: 1 :: nil)
  | S k => let '(a, b) := Tp2 k in (b, padd (plin 0 2 b) (pscal (-1) a))
  end.
Definition Tp k := fst (Tp2 k).
Lemma Tp_SS k : Tp (S (S k)) = padd (plin 0 2 (Tp (S k))) (pscal (-1) (Tp k)).
Proof. unfold Tp; cbn [Tp2]. destruct (Tp2 k); reflexivity. Qed.
Lemma Tp_length k : length (Tp k) = S k.
Proof.
  induction k using nat_ind2; [reflexivity..|].
  rewrite Tp_SS, padd_length, plin_length, pscal_length, IHk, IHk0; lia.
Qed.
Lemma Tp_eval k x : peval (Tp k) x = Tr k x.
Proof.
  induction k using nat_ind2; [cbn; ring..|].
  rewrite Tp_SS, Tr_SS, padd_eval, plin_eval, pscal_eval, IHk, IHk0. ring.
Qed.

(** Chebyshev series and coefficient lists describe the same functions *)
Definition inT (n : nat) (f : R -> R) := exists t, forall x, f x = rsum n (fun k => t k * Tr k x).
Lemma inT_plus n f g : inT n f -> inT n g -> inT n (fun x => f x + g x).
Proof.
  intros [t Ht] [u Hu]. exists (fun k => t k + u k). intros x. rewrite Ht, Hu, <- rsum_plus.
  apply rsum_ext; intros; ring.
Qed.
Lemma inT_scal n a f : inT n f -> inT n (fun x => a * f x).
Proof.
  intros [t Ht]. exists (fun k => a * t k). intros x. rewrite Ht, <- rsum_scal.
  apply rsum_ext; intros; ring.
Qed.
Lemma inT_ext n f g : (forall x, f x = g x) -> inT n f -> inT n g.
Proof. intros E [t Ht]. exists t. intros; now rewrite <- E. Qed.
Lemma inT_T n k : (k < n)%nat -> inT n (Tr k).
Proof.
  intros H. exists (fun i => if Nat.eqb i k then 1 else 0). intros x.
  rewrite (rsum_single n _ k H); [rewrite Nat.eqb_refl; ring|].
  intros i _ Hi. destruct (Nat.eqb_spec i k); [contradiction|ring].
Qed.
Lemma inT_rsum n m (f : nat -> R -> R) : (forall k, (k < m)%nat -> inT n (f k)) -> inT n (fun x => rsum m (fun k => f k x)).
Proof.
  induction m; intros H; cbn.
  - exists (fun _ => 0). intros x. symmetry. apply rsum_zero. intros; ring.
  - apply (inT_plus n (fun x => rsum m (fun k => f k x)) (f m)); auto.
Qed.
Lemma inT_X n f : inT n f -> inT (S n) (fun x => x * f x).
Proof.
  intros [t Ht]. apply (inT_ext _ (fun x => rsum n (fun k => t k * (x * Tr k x)))).
  { intros x. rewrite Ht, <- rsum_scal. apply rsum_ext; intros; ring. }
  apply (inT_rsum (S n) n (fun k x => t k * (x * Tr k x))). intros k Hk. apply inT_scal.
  destruct k as [|k].
  - apply (inT_ext _ (Tr 1)); [intros; unfold Tr; cbn; ring|apply inT_T; lia].
  - apply (inT_ext _ (fun x => 1 / 2 * (Tr (S (S k)) x + Tr k x))); [intros; rewrite Tr_SS; field|].
    apply inT_scal, inT_plus; apply inT_T; lia.
Qed.
Lemma inT_peval n c : (length c <= n)%nat -> inT n (peval c).
Proof.
  revert n; induction c as [|a c IH]; intros n H; cbn in H.
  - exists (fun _ => 0). intros x. cbn. symmetry. apply rsum_zero. intros; ring.
  - destruct n as [|n]; [lia|]. cbn [peval]. apply (inT_plus _ (fun _ => a) (fun x => x * peval c x)).
    + apply (inT_ext _ (fun x => a * Tr 0 x)); [intros; unfold Tr; cbn; ring|]. apply inT_scal, inT_T; lia.
    + apply inT_X, IH; lia.
Qed.
Definition Tcomb (n : nat) (t : nat -> R) : list R :=
  fold_right (fun k acc => padd (pscal (t k) (Tp k)) acc) nil (rev (seq 0%nat n)).
Lemma Tcomb_spec n t : (forall x, peval (Tcomb n t) x = rsum n (fun k => t k * Tr k x)) /\ (length (Tcomb n t) <= n)%nat.
Proof.
  induction n; [split; [reflexivity|cbn; lia]|]. unfold Tcomb in *.
  rewrite seq_S, rev_app_distr; cbn [rev app fold_right plus]. destruct IHn as [IH1 IH2]. split.
  - intros x. rewrite padd_eval, pscal_eval, IH1, Tp_eval. cbn; ring.
  - rewrite padd_length, pscal_length, Tp_length. lia.
Qed.
Lemma chebval_eval n c t x : (forall k, (k <= n)%nat -> c k = Some (t k)) ->
  chebval n c (Some x) = Some (peval (Tcomb (S n) t) x).
Proof.
  intros H. unfold chebval. rewrite (proj1 (Tcomb_spec (S n) t)).
  apply nsum_Some. intros k Hk. rewrite H, chebT_eval by lia. reflexivity.
Qed.
Lemma nsum_finite n a s : nsum n a = Some s -> forall k, (k < n)%nat -> exists v, a k = Some v.
Proof.
  revert s; induction n; intros s E k Hk; [lia|]. cbn in E.
  destruct (nsum n a) as [s'|] eqn:E'; [|discriminate]. destruct (a n) as [v|] eqn:Ea; [|discriminate].
  destruct (Nat.eq_dec k n) as [->|]; [eauto|]. apply (IHn s'); [reflexivity|lia].
Qed.
Lemma finite_fun n (c : nat -> num) : (forall k, (k < n)%nat -> exists v, c k = Some v) ->
  exists t, forall k, (k < n)%nat -> c k = Some (t k).
Proof.
  intros H. exists (fun k => match c k with Some v => v | None => 0 end).
  intros k Hk. destruct (H k Hk) as [v ->]; reflexivity.
Qed.

Lemma solve_coefs n c f : (1 <= n)%nat ->
  (forall i, (i < S n)%nat -> numsum (S n) (fun k => nmul (chebvander (cheb_xi (S n)) i k) (c k)) = Some (f i)) ->
  exists t, (forall k, (k <= n)%nat -> c k = Some (t k)) /\
  forall i, (i <= n)%nat -> peval (Tcomb (S n) t) (node n i) = f i.
Proof.
  intros H E.
  destruct (finite_fun (S n) c) as [t Ht].
  { intros k Hk. specialize (E 0%nat ltac:(lia)). rewrite numsum_nsum in E.
    destruct (nsum_finite _ _ _ E k Hk) as [v Hv]. unfold nmul in Hv.
    destruct (chebvander _ _ _); [|discriminate]. destruct (c k); [eauto|discriminate]. }
  exists t. split; [intros; apply Ht; lia|]. intros i Hi. specialize (E i ltac:(lia)).
  rewrite numsum_nsum in E. rewrite (nsum_Some (S n) _ (fun k => t k * Tr k (node n i))) in E.
  2: { intros k Hk. unfold chebvander. rewrite xi_eval, chebT_eval, Ht by assumption. cbn; f_equal; ring. }
  apply Some_inj in E. rewrite (proj1 (Tcomb_spec (S n) t)). exact E.
Qed.

(*@P C71_extrapol_interpolates: For every npts >= 2, interval, finite data fk and linear solver whose answers solve the system: when extrapol returns at all, it returns the value of one fixed polynomial with at most npts coefficients, and that polynomial takes the values fk at the nodes. *)
Lemma extrapol_interpolates : forall solve npts xmin xmax fk,
  solves_linear solve -> (2 <= npts)%nat -> xmin < xmax ->
  let c := cheb_init npts (Some (Some xmin)) (Some (Some xmax)) in
  (forall x, extrapol solve c (fun i => Some (fk i)) x = None) \/
  exists p, (length p <= npts)%nat /\
    (forall x, extrapol solve c (fun i => Some (fk i)) (Some x) = Some (peval p x)) /\
    forall i, (i < npts)%nat -> option_map (peval p) (cheb_x npts (cb_xmin c) (cb_xmax c) i) = Some (fk i).
Proof.
  intros solve [|n] a b fk HS H Hab c; [lia|]. assert (H1 : (1 <= n)%nat) by lia.
  unfold extrapol, c. cbn [cheb_init cb_npts cb_xmin cb_xmax].
  destruct (solve (S n) (chebvander (cheb_xi (S n))) (fun i => Some (fk i))) as [cf|] eqn:E; [right|left; reflexivity].
  destruct (solve_coefs n cf fk H1) as (t & Ht & Hn).
  { intros i Hi. exact (HS _ _ _ _ E i Hi). }
  set (s := -2 / (b - a)). set (o := 1 - s * a).
  exists (pcomp o s (Tcomb (S n) t)). split; [|split].
  - rewrite pcomp_length. apply Tcomb_spec.
  - intros x. rewrite x_to_xi_eval by exact Hab. replace (S n - 1)%nat with n by lia.
    rewrite (chebval_eval n cf t) by exact Ht. rewrite pcomp_eval. f_equal. f_equal. unfold o, s; field; lra.
  - intros i Hi. unfold cheb_x. rewrite xi_eval, xi_to_x_eval by exact H1. cbn [option_map]. f_equal.
    rewrite pcomp_eval, <- Hn by lia. f_equal. unfold o, s; field; lra.
Qed.

(*@P C71_extrapol_exact: On the nodal values of a polynomial p with at most npts coefficients, every value extrapol returns is p(x), also outside [xmin, xmax]. *)
Lemma extrapol_exact : forall solve npts xmin xmax p x y,
  solves_linear solve -> (2 <= npts)%nat -> xmin < xmax -> (length p <= npts)%nat ->
  let c := cheb_init npts (Some (Some xmin)) (Some (Some xmax)) in
  extrapol solve c (fun i => option_map (peval p) (cheb_x npts (cb_xmin c) (cb_xmax c) i)) (Some x) = Some y ->
  y = peval p x.
Proof.
  intros solve [|n] a b p x y HS H Hab Hp c E; [lia|]. assert (H1 : (1 <= n)%nat) by lia.
  set (g i := a + (node n i - 1) / (-2) * (b - a)).
  replace (fun i => option_map (peval p) (cheb_x (S n) (cb_xmin c) (cb_xmax c) i))
    with (fun i => Some (peval p (g i))) in E.
  2: { apply FunctionalExtensionality.functional_extensionality; intros i. unfold cheb_x, c; cbn [cheb_init cb_xmin cb_xmax].
       rewrite xi_eval, xi_to_x_eval by exact H1. reflexivity. }
  destruct (extrapol_interpolates solve (S n) a b (fun i => peval p (g i)) HS H Hab) as [N|(q & Hq & Ev & Nd)].
  { fold c in N. rewrite N in E; discriminate. }
  fold c in Ev, Nd. rewrite Ev in E. apply Some_inj in E. rewrite <- E.
  assert (HG : forall i, (i <= n)%nat -> peval q (g i) = peval p (g i)).
  { intros i Hi. specialize (Nd i ltac:(lia)). unfold cheb_x, c in Nd; cbn [cheb_init cb_xmin cb_xmax] in Nd.
    rewrite xi_eval, xi_to_x_eval in Nd by exact H1. apply Some_inj in Nd. exact Nd. }
  set (s := (b - a) / (-2)). set (o := a - s).
  assert (G : forall z, peval (pcomp o s q) z = peval (pcomp o s p) z).
  { apply (peval_unique (map (node n) (seq 0%nat (S n)))); [now apply nodes_NoDup|rewrite map_length, seq_length, pcomp_length; assumption..|].
    intros r Hr. apply in_map_iff in Hr. destruct Hr as (k & <- & Hk). apply in_seq in Hk.
    rewrite !pcomp_eval. replace (o + s * node n k) with (g k) by (unfold g, o, s; field). apply HG; lia. }
  specialize (G ((x - o) / s)). rewrite !pcomp_eval in G.
  replace (o + s * ((x - o) / s)) with x in G by (unfold s; field; lra). exact G.
Qed.

(** the coefficients of a vanishing polynomial, and of a vanishing Chebyshev series *)
Lemma peval_zero_coef c : (forall x, peval c x = 0) -> forall i, nth i c 0 = 0.
Proof.
  induction c as [|a c IH]; intros H i; [destruct i; reflexivity|].
  assert (Ha : a = 0). { specialize (H 0); cbn in H; lra. }
  destruct i as [|i]; cbn [nth]; [exact Ha|]. apply IH.
  assert (ND : forall k m, NoDup (map INR (seq k m))).
  { intros k m. revert k; induction m as [|m IHm]; intros k; cbn; constructor; [|apply IHm].
    intros Hin. apply in_map_iff in Hin. destruct Hin as (j & E & Hj). apply INR_eq in E. apply in_seq in Hj; lia. }
  apply (peval_roots (map INR (seq 1%nat (length c)))); [apply ND|now rewrite map_length, seq_length|].
  intros r Hr. apply in_map_iff in Hr. destruct Hr as (j & <- & Hj). apply in_seq in Hj.
  specialize (H (INR j)). cbn in H. rewrite Ha in H.
  assert (0 < INR j) by (apply lt_0_INR; lia). apply (Rmult_eq_reg_l (INR j)); lra.
Qed.
Lemma nth_padd c d i : nth i (padd c d) 0 = nth i c 0 + nth i d 0.
Proof. revert d i; induction c as [|a c IH]; intros [|b d] [|i]; cbn; try ring. apply IH. Qed.
Lemma nth_pscal k c i : nth i (pscal k c) 0 = k * nth i c 0.
Proof. revert i; induction c; intros [|i]; cbn; try ring. apply IHc. Qed.
Lemma Tp_lead k : 0 < nth k (Tp k) 0.
Proof.
  induction k as [| |k IH0 IH1] using nat_ind2; [cbn; lra..|].
  rewrite Tp_SS. unfold plin. rewrite !nth_padd, !nth_pscal.
  rewrite (nth_overflow (Tp (S k)) 0 (n := S (S k))) by (rewrite Tp_length; lia).
  rewrite (nth_overflow (Tp k) 0 (n := S (S k))) by (rewrite Tp_length; lia).
  cbn [nth]. rewrite nth_pscal. lra.
Qed.
Lemma Tcomb_S n t : Tcomb (S n) t = padd (pscal (t n) (Tp n)) (Tcomb n t).
Proof. unfold Tcomb. rewrite seq_S, rev_app_distr. reflexivity. Qed.
Lemma T_independent n t : (forall x, rsum n (fun k => t k * Tr k x) = 0) -> forall k, (k < n)%nat -> t k = 0.
Proof.
  induction n as [|n IH]; intros H k Hk; [lia|].
  assert (Hn : t n = 0).
  { assert (Z : nth n (Tcomb (S n) t) 0 = 0).
    { apply peval_zero_coef. intros x. rewrite (proj1 (Tcomb_spec _ _)). apply H. }
    rewrite Tcomb_S, nth_padd, nth_pscal in Z.
    rewrite (nth_overflow (Tcomb n t)) in Z by apply Tcomb_spec.
    pose proof (Tp_lead n). apply (Rmult_eq_reg_r (nth n (Tp n) 0)); lra. }
  destruct (Nat.eq_dec k n) as [->|]; [exact Hn|]. apply IH; [|lia].
  intros x. specialize (H x). cbn in H. rewrite Hn in H. lra.
Qed.
Definition interp (n : nat) (fk : nat -> R) : list R :=
  fold_right (fun j acc => padd (pscal (fk j) (Lp n j)) acc) nil (rev (seq 0%nat (S n))).
Lemma interp_spec n fk : (1 <= n)%nat -> (length (interp n fk) <= S n)%nat /\
  forall i, (i <= n)%nat -> peval (interp n fk) (node n i) = fk i.
Proof.
  intros H.
  assert (S0 : forall k, (length (fold_right (fun j acc => padd (pscal (fk j) (Lp n j)) acc) nil (rev (seq 0%nat k))) <= S n)%nat /\
    forall y, peval (fold_right (fun j acc => padd (pscal (fk j) (Lp n j)) acc) nil (rev (seq 0%nat k))) y
     = rsum k (fun j => fk j * Lj n j 0%nat y)).
  { induction k; [cbn; split; [lia|reflexivity]|].
    rewrite seq_S, rev_app_distr; cbn [rev app fold_right plus]. destruct IHk as [IL IE]. split.
    - rewrite padd_length, pscal_length, Lp_length by exact H. lia.
    - intros y. rewrite padd_eval, pscal_eval, IE. cbn; unfold Lj, pjet; cbn; ring. }
  destruct (S0 (S n)) as [L E]. split; [exact L|]. intros i Hi. unfold interp. rewrite E.
  rewrite (rsum_single (S n) _ i); [|lia|]. { rewrite Lj_diag by lia; ring. }
  intros j Hj Hji. rewrite Lj_off by lia. ring.
Qed.

(*@P C71_system_is_regular: The interpolation system always has exactly one solution, so a linear solver that fails only on systems without a unique solution never fails here. *)
Lemma system_is_regular : forall npts (fk : nat -> R), (2 <= npts)%nat ->
  let row (t : nat -> R) i := numsum npts (fun k => nmul (chebvander (cheb_xi npts) i k) (Some (t k))) in
  exists t, (forall i, (i < npts)%nat -> row t i = Some (fk i)) /\
  forall u, (forall i, (i < npts)%nat -> row u i = Some (fk i)) -> forall k, (k < npts)%nat -> u k = t k.
Proof.
  intros [|n] fk H row; [lia|]. assert (H1 : (1 <= n)%nat) by lia.
  assert (Row : forall t i, row t i = Some (rsum (S n) (fun k => t k * Tr k (node n i)))).
  { intros t i. unfold row. rewrite numsum_nsum. apply nsum_Some. intros k Hk. unfold chebvander.
    rewrite xi_eval, chebT_eval by exact H1. cbn; f_equal; ring. }
  destruct (interp_spec n fk H1) as [L I]. destruct (inT_peval (S n) _ L) as [t Ht].
  assert (Et : forall i, (i < S n)%nat -> row t i = Some (fk i)).
  { intros i Hi. rewrite Row, <- Ht, I by lia. reflexivity. }
  exists t. split; [exact Et|]. intros u Hu k Hk.
  enough (u k - t k = 0) by lra. revert k Hk. apply (T_independent (S n) (fun k => u k - t k)).
  intros x. rewrite <- (proj1 (Tcomb_spec (S n) (fun k => u k - t k))).
  apply (peval_roots (map (node n) (seq 0%nat (S n)))); [now apply nodes_NoDup| |].
  - rewrite map_length, seq_length. apply Tcomb_spec.
  - intros r Hr. apply in_map_iff in Hr. destruct Hr as (i & <- & Hi). apply in_seq in Hi.
    rewrite (proj1 (Tcomb_spec _ _)).
    rewrite (rsum_ext _ _ (fun k => u k * Tr k (node n i) + - (t k * Tr k (node n i)))) by (intros; ring).
    rewrite rsum_plus, rsum_opp.
    assert (A : row u i = row t i) by (rewrite Hu, Et by lia; reflexivity).
    rewrite !Row in A. apply Some_inj in A. lra.
Qed.

Lemma rsum_nonneg n a : (forall k, (k < n)%nat -> 0 <= a k) -> 0 <= rsum n a.
Proof. induction n; intros H; cbn; [lra|]. pose proof (H n ltac:(lia)). pose proof (IHn ltac:(auto)). lra. Qed.
Lemma rsum_nonneg_zero n a : (forall k, (k < n)%nat -> 0 <= a k) -> rsum n a <= 0 -> forall k, (k < n)%nat -> a k = 0.
Proof.
  induction n; intros H S0 k Hk; [lia|]. cbn in S0. pose proof (H n ltac:(lia)).
  pose proof (rsum_nonneg n a ltac:(auto)). destruct (Nat.eq_dec k n) as [->|]; [lra|]. apply IHn; auto; [lra|lia].
Qed.

(*@P C72_fit_exact: fit_to_gauss applied to samples of a polynomial p with at most npts coefficients, taken at points containing at least npts distinct ones, returns the values of p at the collocation points, for every least-squares solver. *)
Lemma fit_exact : forall lstsq npts xmin xmax p m (x : nat -> R) out,
  least_squares lstsq -> (2 <= npts)%nat -> xmin < xmax -> (length p <= npts)%nat ->
  (exists idx, length idx = npts /\ NoDup (map x idx) /\ forall i, In i idx -> (i < m)%nat) ->
  let c := cheb_init npts (Some (Some xmin)) (Some (Some xmax)) in
  fit_to_gauss lstsq c m (fun i => Some (x i)) (fun i => Some (peval p (x i))) = Some out ->
  forall i, (i < npts)%nat -> out i = option_map (peval p) (cheb_x npts (cb_xmin c) (cb_xmax c) i).
Proof.
  intros lstsq [|n] a b p m x out HS H Hab Hp (idx & Hidx & ND & Hm) c E i Hi; [lia|]. assert (H1 : (1 <= n)%nat) by lia.
  unfold fit_to_gauss, c in E. cbn [cheb_init cb_npts cb_xmin cb_xmax] in E.
  set (z := fun i => 1 - 2 * (x i - a) / (b - a)).
  match type of E with match lstsq m ?n' ?A ?F with _ => _ end = _ => destruct (lstsq m n' A F) as [cf|] eqn:EL; [|discriminate] end.
  apply Some_inj in E. subst out.
  edestruct (HS m (S n)) with (a := fun i k => Tr k (z i)) (f := fun i => peval p (x i)) (3 := EL) as (t & Ht & Hmin).
  { intros j k _ _. unfold chebvander. rewrite x_to_xi_eval by exact Hab. apply chebT_eval. }
  { reflexivity. }
  set (s := (b - a) / (-2)). set (o := a - s). set (q := pcomp o s p).
  assert (Hq : (length q <= S n)%nat) by (unfold q; now rewrite pcomp_length).
  destruct (inT_peval (S n) q Hq) as [d Hd]. specialize (Hmin d). unfold residual2 in Hmin.
  change Rsum with rsum in Hmin.
  assert (Zx : forall j, o + s * z j = x j) by (intros; unfold o, s, z; field; lra).
  rewrite (rsum_zero m (fun i => (rsum (S n) (fun k => Tr k (z i) * d k) - peval p (x i)) ^ 2)) in Hmin.
  2: { intros j _. rewrite (rsum_ext _ _ (fun k => d k * Tr k (z j))) by (intros; ring).
       rewrite <- Hd. unfold q. rewrite pcomp_eval, Zx. ring. }
  assert (R0 : forall j, (j < m)%nat -> peval (Tcomb (S n) t) (z j) = peval q (z j)).
  { intros j Hj. pose proof (rsum_nonneg_zero _ _ (fun k _ => pow2_ge_0 _) Hmin j Hj) as Z. cbv beta in Z.
    rewrite (rsum_ext _ _ (fun k => t k * Tr k (z j))) in Z by (intros; ring).
    rewrite <- (proj1 (Tcomb_spec _ _)) in Z. unfold q. rewrite pcomp_eval, Zx.
    apply Rminus_diag_uniq, Rsqr_0_uniq. unfold Rsqr. rewrite <- Z. ring. }
  assert (G : forall y, peval (Tcomb (S n) t) y = peval q y).
  { apply (peval_unique (map z idx)).
    - assert (Inj : forall i j, z i = z j -> x i = x j). { intros i' j' Q. rewrite <- !Zx, Q. reflexivity. }
      clear - ND Inj. induction idx as [|k l IH]; cbn in *; [constructor|]. inversion ND as [|? ? Hni ND']; subst. constructor; [|auto].
      intros Hin. apply Hni. apply in_map_iff in Hin. destruct Hin as (j & E & Hj). apply in_map_iff. exists j; auto.
    - rewrite map_length, Hidx. apply Tcomb_spec.
    - rewrite map_length, Hidx. exact Hq.
    - intros r Hr. apply in_map_iff in Hr. destruct Hr as (k & <- & Hk). apply R0.
      apply Hm, Hk. }
  unfold cheb_x, c; cbn [cheb_init cb_xmin cb_xmax]. rewrite xi_eval, xi_to_x_eval by exact H1.
  replace (S n - 1)%nat with n by lia. rewrite (chebval_eval n cf t) by (intros; apply Ht; lia).
  cbn [option_map]. f_equal. rewrite G. unfold q. rewrite pcomp_eval. f_equal. unfold o, s; field.
Qed.

(** a concrete exact solver, for two unknowns (Cramer's rule) *)
Definition cramer2 (n : nat) (A : mat) (f : vec) : option vec :=
  if Nat.eqb n 2 then
    match A 0%nat 0%nat, A 0%nat 1%nat, A 1%nat 0%nat, A 1%nat 1%nat, f 0%nat, f 1%nat with
    | Some a, Some b, Some c, Some d, Some u, Some v =>
        if Req_EM_T (a * d - b * c) 0 then None
        else Some (fun k => if Nat.eqb k 0 then Some ((u * d - b * v) / (a * d - b * c))
                            else Some ((a * v - u * c) / (a * d - b * c)))
    | _, _, _, _, _, _ => None
    end
  else None.
Lemma cramer2_solves : solves_linear cramer2.
Proof.
  intros n A f c. unfold cramer2. destruct (Nat.eqb_spec n 2) as [->|]; [|discriminate].
  destruct (A 0 0)%nat as [a|] eqn:Ea; [|discriminate]. destruct (A 0 1)%nat as [b|] eqn:Eb; [|discriminate].
  destruct (A 1 0)%nat as [e|] eqn:Ee; [|discriminate]. destruct (A 1 1)%nat as [d|] eqn:Ed; [|discriminate].
  destruct (f 0)%nat as [u|] eqn:Eu; [|discriminate]. destruct (f 1)%nat as [v|] eqn:Ev; [|discriminate].
  destruct (Req_EM_T (a * d - b * e) 0) as [|Hd]; [discriminate|]. intros E; apply Some_inj in E; subst c.
  intros i Hi. destruct i as [|[|i]]; [| |lia]; cbn [numsum Nat.eqb]; rewrite ?Ea, ?Eb, ?Ee, ?Ed, ?Eu, ?Ev; ncbn; f_equal; field; exact Hd.
Qed.
(*@E C71_example: With two points on [0, 4], the values 1 and 3 and an exact solver, extrapol is defined and gives the straight line, also outside the interval: 5 at x = 8. *)
Lemma extrapol_ex : solves_linear cramer2 /\
  extrapol cramer2 (cheb_init 2%nat (Some (Some 0)) (Some (Some 4))) (fun i => Some (1 + 2 * INR i)) (Some 8) = Some 5.
Proof.
  split; [exact cramer2_solves|]. unfold extrapol; cbn [cheb_init cb_npts cb_xmin cb_xmax].
  rewrite x_to_xi_eval by lra.
  assert (E0 : cheb_xi 2%nat 0%nat = Some 1) by (rewrite xi_eval, node_0 by lia; reflexivity).
  assert (E1 : cheb_xi 2%nat 1%nat = Some (-1)) by (rewrite xi_eval, node_n by lia; reflexivity).
  unfold cramer2, chebvander. rewrite E0, E1, !chebT_eval. unfold Tr; cbn [Nat.eqb Tr2 fst INR].
  destruct (Req_EM_T _ 0) as [F|_]; [exfalso; lra|].
  unfold chebval. cbn [Nat.sub nsum Nat.eqb]. rewrite !chebT_eval. unfold Tr; cbn [Tr2 fst]. ncbn. f_equal. field.
Qed.
(*@E C72_example: The hypotheses of the fitting theorem are met by two samples of a line. *)
Lemma fit_ex : exists lstsq out, least_squares lstsq /\
  fit_to_gauss lstsq (cheb_init 2%nat (Some (Some 0)) (Some (Some 4))) 2%nat (fun i => Some (INR i)) (fun i => Some (peval (1 :: 2 :: nil) (INR i))) = Some out /\
  NoDup (map INR (0 :: 1 :: nil)%nat).
Proof.
  exists (fun m n A f => if Nat.eqb m 2 then cramer2 n A f else None). eexists. split; [|split].
  - intros m n A a F f c HA HF. destruct (Nat.eqb_spec m 2) as [->|]; [|discriminate]. intros E.
    assert (N : n = 2%nat) by (unfold cramer2 in E; destruct (Nat.eqb_spec n 2); [assumption|discriminate]). subst n.
    pose proof (cramer2_solves _ _ _ _ E) as Hs.
    destruct (finite_fun 2%nat c) as [t Ht].
    { intros k Hk. specialize (Hs 0%nat ltac:(lia)). rewrite numsum_nsum, HF in Hs by lia.
      destruct (nsum_finite _ _ _ Hs k Hk) as [v Hv]. unfold nmul in Hv. destruct (A 0%nat k); [|discriminate].
      destruct (c k); [eauto|discriminate]. }
    exists t. split; [exact Ht|]. intros d. unfold residual2. change Rsum with rsum.
    rewrite rsum_zero.
    + apply rsum_nonneg. intros; apply pow2_ge_0.
    + intros i Hi. specialize (Hs i Hi). rewrite HF in Hs by exact Hi. cbn [numsum] in Hs.
      rewrite !HA, !Ht in Hs by lia. ncbn. apply Some_inj in Hs. cbn [rsum]. rewrite Hs. ring.
  - unfold fit_to_gauss; cbn [cheb_init cb_npts cb_xmin cb_xmax Nat.eqb]. unfold cramer2, chebvander.
    rewrite !x_to_xi_eval, !chebT_eval by lra. unfold Tr; cbn [Nat.eqb Tr2 fst INR].
    destruct (Req_EM_T _ 0) as [F|_]; [exfalso; lra|]. reflexivity.
  - cbn. constructor; [intros [F|[]]; lra|constructor; [intros []|constructor]].
Qed.
