(** * The matrices built by compute_matder are the exact differentiation matrices *)
From Verif Require Import Num L_Num PolySpec L_Poly M_Spectral L_Spectral L_Spectral2.
Open Scope R_scope.

Lemma nsum_Some n a f : (forall j, (j < n)%nat -> a j = Some (f j)) -> nsum n a = Some (rsum n f).
Proof.
  induction n; intros H; [reflexivity|]. cbn [nsum rsum]. rewrite IHn, (H n) by auto. reflexivity.
Qed.
Lemma Th_eval n i j : (1 <= n)%nat -> Th (S n) i j = Some (INR j * PI / INR n / 2).
Proof.
  intros H; pose proof (INRp n H). unfold Th, nofnat, npi; cbn [nmul nsub].
  rewrite INR_pred by exact H. rewrite ndiv_Some, ndiv_Some by lra. reflexivity.
Qed.
Lemma DX0_eval n i j : (1 <= n)%nat -> DX0 (S n) i j = Some (node n i - node n j).
Proof.
  intros H; pose proof (INRp n H). unfold DX0. rewrite !Th_eval by exact H. ncbn. f_equal.
  unfold node. set (a := INR i * PI / INR n). set (b := INR j * PI / INR n).
  replace (cos a) with (cos ((b / 2 + a / 2) - (b / 2 - a / 2))) by (f_equal; field).
  replace (cos b) with (cos ((b / 2 + a / 2) + (b / 2 - a / 2))) by (f_equal; field).
  rewrite cos_plus, cos_minus. ring.
Qed.
Lemma node_sym n i : (1 <= n)%nat -> (i <= n)%nat -> node n (n - i) = - node n i.
Proof.
  intros H Hi; pose proof (INRp n H). unfold node. rewrite minus_INR by exact Hi.
  replace ((INR n - INR i) * PI / INR n) with (- (INR i * PI / INR n) + PI) by (field; lra).
  rewrite neg_cos, cos_neg. reflexivity.
Qed.
Lemma div2_le n : (Nat.div2 n <= n)%nat.
Proof. rewrite Nat.div2_div. apply Nat.div_le_upper_bound; lia. Qed.
Lemma DX1_eval n i j : (1 <= n)%nat -> (i <= n)%nat -> (j <= n)%nat ->
  DX1 (S n) i j = Some (node n i - node n j).
Proof.
  intros H Hi Hj. unfold DX1. destruct (Nat.ltb_spec i (Nat.div2 (S n))) as [L|L]; [now apply DX0_eval|].
  rewrite DX0_eval by exact H. pose proof (div2_le (S n)) as D.
  replace (S n - Nat.div2 (S n) - 1 - (i - Nat.div2 (S n)))%nat with (n - i)%nat by lia.
  replace (S n - 1 - j)%nat with (n - j)%nat by lia.
  rewrite !node_sym by assumption. cbn [nopp]. f_equal; ring.
Qed.
Lemma Zmat_off n i j : (1 <= n)%nat -> (i <= n)%nat -> (j <= n)%nat -> i <> j ->
  Zmat (S n) i j = Some (1 / (node n i - node n j)).
Proof.
  intros H Hi Hj Hij. unfold Zmat, DX, fill_diagonal. destruct (Nat.eqb_spec i j); [contradiction|].
  rewrite DX1_eval by assumption. apply ndiv_Some. intros Z. apply Hij, (node_inj n); auto; lra.
Qed.
Lemma Zmat_diag N i : Zmat N i i = Some 0.
Proof. unfold Zmat, fill_diagonal. now rewrite Nat.eqb_refl. Qed.

Lemma scale_row_eval r f g A i j a : A i j = Some a -> f (Some a) = Some (g a) ->
  scale_row r f A i j = Some (if Nat.eqb i r then g a else a).
Proof. intros E F; unfold scale_row; rewrite E; destruct (Nat.eqb i r); auto. Qed.
Lemma scale_col_eval r f g A i j a : A i j = Some a -> f (Some a) = Some (g a) ->
  scale_col r f A i j = Some (if Nat.eqb j r then g a else a).
Proof. intros E F; unfold scale_col; rewrite E; destruct (Nat.eqb j r); auto. Qed.
Lemma altern_quot i j : (if Nat.leb j i then (-1) ^ (i - j) else (-1) ^ (j - i)) = (-1) ^ i * (-1) ^ j.
Proof.
  assert (Sq : forall k, (-1) ^ k * (-1) ^ k = 1).
  { intros k. rewrite <- Rpow_mult_distr. replace (-1 * -1) with 1 by ring. apply pow1. }
  destruct (Nat.leb_spec j i) as [L|L].
  - replace i with ((i - j) + j)%nat at 2 by lia. rewrite pow_add, Rmult_assoc, Sq; ring.
  - replace j with ((j - i) + i)%nat at 2 by lia. rewrite pow_add.
    rewrite (Rmult_comm ((-1) ^ (j - i))), <- Rmult_assoc, Sq; ring.
Qed.
Lemma pow_m1_inv j : / (-1) ^ j = (-1) ^ j.
Proof.
  apply (Rmult_eq_reg_l ((-1) ^ j)); [|apply pow_nonzero; lra].
  rewrite Rinv_r by (apply pow_nonzero; lra). rewrite <- Rpow_mult_distr. replace (-1 * -1) with 1 by ring. now rewrite pow1.
Qed.
Lemma Cmat_eval n i j : (1 <= n)%nat -> (i <= n)%nat -> (j <= n)%nat -> Cmat (S n) i j = Some (sw n i / sw n j).
Proof.
  intros H Hi Hj. pose proof (INRp n H) as Pn. unfold Cmat. replace (S n - 1)%nat with n by lia.
  assert (E0 : toeplitz altern altern i j = Some ((-1) ^ i * (-1) ^ j)).
  { rewrite <- altern_quot. unfold toeplitz, altern; cbn [npowi]. destruct (Nat.leb j i); reflexivity. }
  assert (M : forall a, nmul (Some a) (Some 2) = Some ((fun a => a * 2) a)) by reflexivity.
  assert (Dv : forall a, ndiv (Some a) (Some 2) = Some ((fun a => a / 2) a)) by (intros; apply ndiv_Some; lra).
  erewrite (scale_col_eval n _ (fun a => a / 2)); [| |apply Dv].
  2: { erewrite (scale_col_eval 0%nat _ (fun a => a / 2)); [reflexivity| |apply Dv].
       erewrite (scale_row_eval n _ (fun a => a * 2)); [reflexivity| |apply M].
       erewrite (scale_row_eval 0%nat _ (fun a => a * 2)); [reflexivity|exact E0|apply M]. }
  f_equal. cbv beta. unfold sw, cw. pose proof (pow_m1_inv j) as Ej.
  assert (Hp : (-1) ^ j <> 0) by (apply pow_nonzero; lra).
  assert (G : forall a b, b <> 0 -> INR n * a * (-1) ^ i / (INR n * b * (-1) ^ j) = a / b * ((-1) ^ i * (-1) ^ j)).
  { intros a b Hb. rewrite <- Ej at 2. field. repeat split; lra || assumption. }
  rewrite G by (destruct (orb _ _); lra).
  destruct (Nat.eqb_spec i 0), (Nat.eqb_spec i n), (Nat.eqb_spec j 0), (Nat.eqb_spec j n); cbn [orb]; try (exfalso; lia); field.
Qed.

(** the recursion of compute_matder computes the derivatives of the Lagrange basis *)
Definition is_diff (n m : nat) (D : mat) : Prop :=
  forall i j, (i <= n)%nat -> (j <= n)%nat -> D i j = Some (Lj n j m (node n i)).
Lemma eye_diff n : (1 <= n)%nat -> is_diff n 0%nat eye.
Proof.
  intros H i j Hi Hj. unfold eye. destruct (Nat.eqb_spec i j) as [->|E]; f_equal.
  - now rewrite Lj_diag. - rewrite Lj_off; auto.
Qed.
Lemma Lj_rec n m i j : (1 <= n)%nat -> (i <= n)%nat -> (j <= n)%nat -> i <> j ->
  Lj n j (S m) (node n i) =
  INR (S m) * (1 / (node n i - node n j)) * (sw n i / sw n j * Lj n i m (node n i) - Lj n j m (node n i)).
Proof.
  intros H Hi Hj Hij. pose proof (Lj_Q n j (S m) (node n i) H) as E. rewrite (Lj_Q n i (S m) (node n i) H) in E.
  cbn [pred] in E. pose proof (sw_neq n j H).
  assert (node n i - node n j <> 0). { intros Z. apply Hij, (node_inj n); auto; lra. }
  assert (E' : (node n i - node n j) * Lj n j (S m) (node n i) =
     INR (S m) * (sw n i / sw n j * Lj n i m (node n i) - Lj n j m (node n i))).
  { apply (Rmult_eq_reg_l (sw n j)); [|assumption].
    replace (sw n j * (INR (S m) * (sw n i / sw n j * Lj n i m (node n i) - Lj n j m (node n i))))
      with (INR (S m) * (sw n i * Lj n i m (node n i) - sw n j * Lj n j m (node n i))) by (field; assumption).
    lra. }
  apply (Rmult_eq_reg_l (node n i - node n j)); [|assumption]. rewrite E'. field. split; assumption.
Qed.
Lemma Lj_rowsum n m x : (1 <= n)%nat -> rsum (S n) (fun j => Lj n j (S m) x) = 0.
Proof.
  intros H. pose proof (lagrange n (1 :: nil) (S m) x H ltac:(cbn; lia)) as E. rewrite pjet_one in E.
  rewrite E. apply rsum_ext. intros; rewrite peval_one; ring.
Qed.
Lemma D_step_diff n m D : (1 <= n)%nat -> is_diff n m D -> is_diff n (S m) (D_step (S n) m D).
Proof.
  intros H HD i j Hi Hj. unfold D_step, fill_diagonal.
  set (E := fun i j => nmul (nmul (Some (INR (S m))) (Zmat (S n) i j)) (nsub (nmul (Cmat (S n) i j) (D i i)) (D i j))).
  assert (Off : forall j, (j <= n)%nat -> E i j = Some (if Nat.eqb j i then 0 else Lj n j (S m) (node n i))).
  { clear j Hj. intros j Hj. unfold E. rewrite Cmat_eval, !HD by assumption. destruct (Nat.eqb_spec j i) as [->|Hij].
    - rewrite Zmat_diag. ncbn. f_equal; ring.
    - rewrite Zmat_off by auto. ncbn. f_equal. symmetry. apply Lj_rec; auto. }
  destruct (Nat.eqb_spec i j) as [<-|Hij].
  - match goal with |- context [nsum (S n) ?v] => rewrite (nsum_Some (S n) v (fun j => if Nat.eqb j i then 0 else Lj n j (S m) (node n i))) by (intros; apply Off; lia) end.
    cbn [nopp]. f_equal. pose proof (Lj_rowsum n m (node n i) H) as R0.
    rewrite (rsum_split (S n) _ i) in R0 by lia. lra.
  - fold (E i j). rewrite Off by exact Hj. destruct (Nat.eqb_spec j i); [congruence|reflexivity].
Qed.
Lemma D_loop_nth_diff n a b todo ell D k : (1 <= n)%nat -> is_diff n ell D -> (k < todo)%nat ->
  exists D', is_diff n (S (ell + k)) D' /\
  nth_error (D_loop (S n) a b todo ell D) k = Some (D_scaled a b (ell + k) D').
Proof.
  intros H. revert k ell D; induction todo as [|t IH]; intros k ell D HD Hk; [lia|].
  cbn [D_loop]. destruct k as [|k]; cbn [nth_error].
  - rewrite Nat.add_0_r. exists (D_step (S n) ell D). split; [now apply D_step_diff|reflexivity].
  - destruct (IH k (S ell) (D_step (S n) ell D)) as (D' & HD' & E); [now apply D_step_diff|lia|].
    exists D'. rewrite Nat.add_succ_r. split; assumption.
Qed.
Lemma matder_diff n xmin xmax h k : (1 <= n)%nat -> xmin < xmax -> (1 <= k)%nat ->
  exists A, fst (matder k (matder_run h (cheb_init (S n) (Some (Some xmin)) (Some (Some xmax))))) = Matrix A /\
  forall i j, (i <= n)%nat -> (j <= n)%nat -> A i j = Some ((-2 / (xmax - xmin)) ^ k * Lj n j k (node n i)).
Proof.
  intros H Hx Hk. rewrite (proj1 (history_independent (S n) (Some (Some xmin)) (Some (Some xmax)) h k)).
  destruct (matder_ok _ _ _ _ k (init_ok (S n) (Some (Some xmin)) (Some (Some xmax))) Hk) as [_ E].
  rewrite E. cbn [cheb_init cb_xmin cb_xmax].
  destruct (D_loop_nth_diff n (Some xmin) (Some xmax) k 0%nat eye (k - 1)%nat H (eye_diff n H) ltac:(lia)) as (D' & HD' & ->).
  replace (S (0 + (k - 1)))%nat with k in HD' by lia.
  eexists; split; [reflexivity|]. intros i j Hi Hj. unfold D_scaled.
  replace (S (0 + (k - 1)))%nat with k by lia. rewrite HD' by assumption.
  ncbn. rewrite ndiv_Some by lra. ncbn. f_equal; ring.
Qed.

(*@P C47_exact_on_polynomials: For every npts >= 2, interval xmin < xmax, call history and order k >= 1, matder(k) is a matrix which maps the nodal values of any polynomial with at most npts coefficients to the nodal values of its k-th derivative, exactly. *)
Lemma exact_on_polynomials : forall npts xmin xmax history k p,
  (2 <= npts)%nat -> xmin < xmax -> (1 <= k)%nat -> (length p <= npts)%nat ->
  let c := matder_run history (cheb_init npts (Some (Some xmin)) (Some (Some xmax))) in
  let x := cheb_x npts (cb_xmin c) (cb_xmax c) in
  exists A, fst (matder k c) = Matrix A /\
  forall i, (i < npts)%nat -> exists xi, x i = Some xi /\
    matvec npts A (fun j => option_map (peval p) (x j)) i = Some (Derive_n (peval p) k xi).
Proof.
  intros [|n] a b h k p H Hab Hk Hp c x; [lia|]. assert (H1 : (1 <= n)%nat) by lia.
  destruct (matder_diff n a b h k H1 Hab Hk) as (A & E & HA). fold c in E.
  exists A; split; [exact E|]. intros i Hi.
  assert (Hx : forall j, x j = Some (a + (node n j - 1) / (-2) * (b - a))).
  { intros j. unfold x, c. destruct (matder_run_ok _ _ _ h _ (init_ok (S n) (Some (Some a)) (Some (Some b)))) as (_ & -> & -> & _).
    unfold cheb_x. rewrite xi_eval by exact H1. apply xi_to_x_eval. }
  exists (a + (node n i - 1) / (-2) * (b - a)). split; [apply Hx|].
  unfold matvec.
  rewrite (nsum_Some (S n) _ (fun j => (-2 / (b - a)) ^ k * (peval p (a + (node n j - 1) / (-2) * (b - a)) * Lj n j k (node n i)))).
  2: { intros j Hj. rewrite Hx, HA by lia. cbn [option_map nmul]. f_equal; ring. }
  f_equal. rewrite rsum_scal.
  set (s := (b - a) / (-2)). set (o := a - s).
  set (q := pcomp o s p).
  rewrite (rsum_ext (S n) _ (fun j => peval q (node n j) * Lj n j k (node n i))).
  2: { intros j _. unfold q. rewrite pcomp_eval. f_equal. f_equal. unfold o, s; field. }
  rewrite <- (lagrange n q k) by (unfold q; rewrite ?pcomp_length; auto).
  rewrite (jet_Derive_n (pjet p) k _ (pjet_jet p)).
  rewrite (jet_ext (pjet q) (fun m x => s ^ m * pjet p m (o + s * x))).
  - rewrite <- Rmult_assoc, <- Rpow_mult_distr. replace (-2 / (b - a) * s) with 1 by (unfold s; field; lra).
    rewrite pow1, Rmult_1_l. f_equal. unfold o, s; field.
  - apply pjet_jet. - apply jet_affine, pjet_jet.
  - intros y. unfold q. change (pjet (pcomp o s p) 0%nat y) with (peval (pcomp o s p) y). rewrite pcomp_eval.
    unfold pjet; cbn. ring.
Qed.

(*@P C47_constants: Constants are mapped to zero by every differentiation matrix. *)
Lemma constants_to_zero : forall npts xmin xmax history k v,
  (2 <= npts)%nat -> xmin < xmax -> (1 <= k)%nat ->
  let c := matder_run history (cheb_init npts (Some (Some xmin)) (Some (Some xmax))) in
  exists A, fst (matder k c) = Matrix A /\
  forall i, (i < npts)%nat -> matvec npts A (fun _ => Some v) i = Some 0.
Proof.
  intros npts a b h k v H Hab Hk c.
  destruct (exact_on_polynomials npts a b h k (v :: nil) H Hab Hk ltac:(cbn; lia)) as (A & E & HA).
  exists A; split; [exact E|]. intros i Hi. destruct (HA i Hi) as (xi & _ & Eq).
  replace 0 with (Derive_n (peval (v :: nil)) k xi).
  - rewrite <- Eq. unfold matvec. apply f_equal2; [reflexivity|]. reflexivity || idtac.
    apply FunctionalExtensionality.functional_extensionality; intros j.
    fold c. unfold c. destruct (matder_run_ok _ _ _ h _ (init_ok npts (Some (Some a)) (Some (Some b)))) as (_ & -> & -> & _).
    destruct npts as [|n]; [lia|]. unfold cheb_x. rewrite xi_eval by lia. cbn [cheb_init cb_xmin cb_xmax].
    rewrite xi_to_x_eval. cbn [option_map peval]. f_equal. f_equal. ring.
  - rewrite (Derive_n_ext _ (fun _ => v)) by (intros; cbn; ring).
    destruct k; [lia|]. apply Derive_n_const.
Qed.

(*@P C47_too_few_points: The bound on the degree is sharp: with npts = 2 the first differentiation matrix is not exact on the polynomial x^2. *)
Lemma too_few_points : exists A, fst (matder 1%nat (cheb_init 2%nat None None)) = Matrix A /\
  exists d, matvec 2%nat A (fun j => option_map (peval (0 :: 0 :: 1 :: nil)) (cheb_x 2%nat (Some (-1)) (Some 1) j)) 1%nat = Some d /\
  cheb_x 2%nat (Some (-1)) (Some 1) 1%nat = Some 1 /\ d <> Derive_n (peval (0 :: 0 :: 1 :: nil)) 1%nat 1.
Proof.
  destruct (matder_diff 1%nat (-1) 1 nil 1%nat ltac:(lia) ltac:(lra) ltac:(lia)) as (A & E & HA).
  change (cheb_init 2%nat (Some (Some (-1))) (Some (Some 1))) with (cheb_init 2%nat None None) in E. cbn [matder_run] in E.
  destruct (x_nodes 2%nat (-1) 1 ltac:(lia) ltac:(lra)) as (X0 & X1 & _).
  cbn [cheb_init cb_xmin cb_xmax] in X0, X1. change (2 - 1)%nat with 1%nat in X1.
  exists A; split; [exact E|]. exists 0. split; [|split; [exact X1|]].
  - unfold matvec. cbn [nsum]. rewrite X0, X1, !HA by lia. cbn [option_map nmul nadd peval].
    f_equal. pose proof (Lj_rowsum 1%nat 0%nat (node 1 1) ltac:(lia)) as R0. cbn [rsum] in R0.
    replace (0 + (-2 / (1 - -1)) ^ 1 * Lj 1 0 1 (node 1 1) * (0 + -1 * (0 + -1 * (1 + -1 * 0))) + (-2 / (1 - -1)) ^ 1 * Lj 1 1 1 (node 1 1) * (0 + 1 * (0 + 1 * (1 + 1 * 0))))
      with (- (0 + Lj 1 0 1 (node 1 1) + Lj 1 1 1 (node 1 1))) by field.
    rewrite R0; ring.
  - rewrite Derive_n_peval. unfold pjet; cbn. lra.
Qed.

(*@E C47_example: hypotheses are met by a cubic on 5 points of [0, 3], second derivative, after other requests. *)
Lemma exact_ex : exists A, fst (matder 2%nat (matder_run (1 :: 4 :: nil)%nat (cheb_init 5%nat (Some (Some 0)) (Some (Some 3))))) = Matrix A /\
  matvec 5%nat A (fun j => option_map (fun x => 1 + x ^ 3) (cheb_x 5%nat (Some 0) (Some 3) j)) 4%nat = Some 18.
Proof.
  destruct (exact_on_polynomials 5%nat 0 3 (1 :: 4 :: nil)%nat 2%nat (1 :: 0 :: 0 :: 1 :: nil) ltac:(lia) ltac:(lra) ltac:(lia) ltac:(cbn; lia)) as (A & E & HA).
  destruct (x_nodes 5%nat 0 3 ltac:(lia) ltac:(lra)) as (_ & X1 & _).
  exists A; split; [exact E|]. destruct (HA 4%nat ltac:(lia)) as (xi & X & Eq).
  destruct (matder_run_ok _ _ _ (1 :: 4 :: nil)%nat _ (init_ok 5%nat (Some (Some 0)) (Some (Some 3)))) as (_ & E1 & E2 & _).
  rewrite E1, E2 in X, Eq. cbn [cheb_init cb_xmin cb_xmax] in *. change (5 - 1)%nat with 4%nat in X1. rewrite X1 in X.
  injection X as <-. 
  replace (fun j => option_map (fun x => 1 + x ^ 3) (cheb_x 5%nat (Some 0) (Some 3) j))
    with (fun j => option_map (peval (1 :: 0 :: 0 :: 1 :: nil)) (cheb_x 5%nat (Some 0) (Some 3) j)).
  - rewrite Eq. f_equal. rewrite Derive_n_peval. unfold pjet; cbn. ring.
  - apply FunctionalExtensionality.functional_extensionality; intros j. destruct (cheb_x _ _ _ j); cbn; [f_equal; ring|reflexivity].
Qed.
