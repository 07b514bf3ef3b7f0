(** * Chebyshev differentiation matrices are exact on polynomials *)
From Verif Require Import Num L_Num PolySpec L_Poly M_Spectral L_Spectral.
Open Scope R_scope.

(** Chebyshev polynomials of the second kind *)
Fixpoint Up2 (k : nat) : list R * list R :=
  match k with
  | O => (1 :: nil, 0 :: 2 :: nil)
  | S k => let '(a, b) := Up2 k in (b, padd (plin 0 2 b) (pscal (-1) a))
  end.
Definition Up k := fst (Up2 k).
Lemma Up2_snd k : snd (Up2 k) = Up (S k).
Proof. unfold Up; cbn. now destruct (Up2 k). Qed.
Lemma Up_SS k : Up (S (S k)) = padd (plin 0 2 (Up (S k))) (pscal (-1) (Up k)).
Proof.
  unfold Up; cbn [Up2]. destruct (Up2 k) as [a b]; reflexivity.
Qed.
Lemma nat_ind2 (P : nat -> Prop) : P 0%nat -> P 1%nat -> (forall k, P k -> P (S k) -> P (S (S k))) -> forall k, P k.
Proof. intros H0 H1 H k. assert (P k /\ P (S k)) as [? ?]; [|assumption]. induction k; [auto|]. destruct IHk; auto. Qed.
Lemma Up_length k : length (Up k) = S k.
Proof.
  induction k using nat_ind2; [reflexivity..|].
  rewrite Up_SS, padd_length, plin_length, pscal_length, IHk, IHk0; lia.
Qed.
Lemma Up_eval_SS k x : peval (Up (S (S k))) x = 2 * x * peval (Up (S k)) x - peval (Up k) x.
Proof. rewrite Up_SS, padd_eval, plin_eval, pscal_eval; ring. Qed.
Lemma Up_sin k t : sin t * peval (Up k) (cos t) = sin (INR (S k) * t).
Proof.
  induction k as [| |k IH0 IH1] using nat_ind2.
  - cbn. rewrite Rmult_1_l; ring.
  - replace (INR 2 * t) with (2 * t) by (cbn; ring). rewrite sin_2a. cbn; ring.
  - rewrite Up_eval_SS.
    replace (sin t * (2 * cos t * peval (Up (S k)) (cos t) - peval (Up k) (cos t)))
      with (2 * cos t * (sin t * peval (Up (S k)) (cos t)) - sin t * peval (Up k) (cos t)) by ring.
    rewrite IH0, IH1. rewrite (S_INR (S (S k))), (S_INR (S k)).
    set (a := INR (S k)).
    replace ((a + 1 + 1) * t) with ((a + 1) * t + t) by ring.
    replace (a * t) with ((a + 1) * t - t) by ring.
    rewrite sin_plus, sin_minus. ring.
Qed.
Lemma Up_1 k : peval (Up k) 1 = INR (S k).
Proof. induction k using nat_ind2; [cbn; ring..|]. rewrite Up_eval_SS, IHk, IHk0, !S_INR; ring. Qed.
Lemma Up_m1 k : peval (Up k) (-1) = (-1) ^ k * INR (S k).
Proof. induction k using nat_ind2; [cbn; ring..|]. rewrite Up_eval_SS, IHk, IHk0, !S_INR; cbn [pow]; ring. Qed.

(** the node polynomial (x^2-1) U_{n-1}(x) *)
Definition Qp (n : nat) : list R := plin (-1) 1 (plin 1 1 (Up (n - 1)%nat)).
Lemma Qp_length n : (1 <= n)%nat -> length (Qp n) = S (S n).
Proof. intros; unfold Qp; rewrite !plin_length, Up_length; lia. Qed.
Lemma Qp_eval n x : peval (Qp n) x = (x ^ 2 - 1) * peval (Up (n - 1)%nat) x.
Proof. unfold Qp; rewrite !plin_eval; ring. Qed.
Lemma Qp_cos n t : (1 <= n)%nat -> peval (Qp n) (cos t) = - (sin t * sin (INR n * t)).
Proof.
  intros H. rewrite Qp_eval. replace (INR n) with (INR (S (n - 1))) by (f_equal; lia).
  rewrite <- Up_sin. pose proof (sin2_cos2 t) as E; unfold Rsqr in E.
  replace (cos t ^ 2 - 1) with (- (sin t * sin t)) by (cbn; lra). ring.
Qed.
Lemma sin_npi k : sin (INR k * PI) = 0.
Proof. apply sin_eq_0_1. exists (Z.of_nat k). now rewrite <- INR_IZR_INZ. Qed.
Lemma cos_npi k : cos (INR k * PI) = (-1) ^ k.
Proof.
  induction k. - cbn. rewrite Rmult_0_l; apply cos_0.
  - rewrite S_INR, Rmult_plus_distr_r, Rmult_1_l, neg_cos, IHk; cbn; ring.
Qed.
Lemma ang_scaled n i : (1 <= n)%nat -> INR n * (INR i * PI / INR n) = INR i * PI.
Proof. intros H; pose proof (INRp n H); field; lra. Qed.
Lemma Qp_root n i : (1 <= n)%nat -> peval (Qp n) (node n i) = 0.
Proof. intros H; unfold node. rewrite Qp_cos, ang_scaled, sin_npi by exact H; ring. Qed.

(** derivative of the node polynomial at the nodes: n c_k (-1)^k *)
Definition cw (n k : nat) : R := if orb (Nat.eqb k 0) (Nat.eqb k n) then 2 else 1.
Definition sw (n k : nat) : R := INR n * cw n k * (-1) ^ k.
Lemma Qp_der n k : (1 <= n)%nat -> (k <= n)%nat -> pjet (Qp n) 1%nat (node n k) = sw n k.
Proof.
  intros H Hk. pose proof (INRp n H) as Pn.
  pose proof (pjet_jet (Qp n) 0%nat) as J.
  assert (Ends : forall x, pjet (Qp n) 1%nat x = 2 * x * peval (Up (n - 1)%nat) x + (x ^ 2 - 1) * pjet (Up (n - 1)%nat) 1%nat x).
  { intros x. rewrite <- (is_derive_unique _ _ _ (J x)).
    rewrite (Derive_ext _ (fun x => (x ^ 2 - 1) * peval (Up (n - 1)%nat) x)) by (intros; apply Qp_eval).
    apply is_derive_unique. evar_last.
    - apply (is_derive_mult (fun x : R => x ^ 2 - 1) (peval (Up (n - 1)%nat))).
      + auto_derive; [trivial|reflexivity]. + apply (pjet_jet (Up (n - 1)%nat) 0%nat). + intros; apply Rmult_comm.
    - unfold plus, mult; cbn; ring. }
  unfold sw, cw.
  destruct (Nat.eqb_spec k 0) as [->|K0]; cbn [orb].
  - rewrite node_0, Ends, Up_1 by exact H. replace (S (n - 1)) with n by lia. cbn; ring.
  - destruct (Nat.eqb_spec k n) as [->|Kn].
    + rewrite node_n, Ends, Up_m1 by exact H. replace (S (n - 1)) with n by lia.
      replace ((-1) ^ n) with (-1 * (-1) ^ (n - 1)) by (rewrite tech_pow_Rmult; f_equal; lia). ring.
    + set (t := INR k * PI / INR n). assert (St : sin t <> 0).
      { apply Rgt_not_eq, sin_gt_0.
        - pose proof (ang_lt n 0%nat k H ltac:(lia)) as L. cbn [INR] in L. unfold t. unfold Rdiv in L at 1. lra.
        - pose proof (ang_lt n k n H ltac:(lia)) as L. unfold t.
          replace (INR n * PI / INR n) with PI in L by (field; lra). exact L. }
      assert (E : is_derive (fun s => - (sin s * sin (INR n * s))) t (- sin t * pjet (Qp n) 1%nat (cos t))).
      { apply (is_derive_ext (fun s => peval (Qp n) (cos s))). { intros s; apply Qp_cos, H. }
        evar_last. - apply (is_derive_comp (peval (Qp n)) cos); [apply (J (cos t))|apply is_derive_cos].
        - unfold scal; cbn; unfold mult; cbn. ring. }
      assert (E' : is_derive (fun s => - (sin s * sin (INR n * s))) t (- (cos t * sin (INR n * t) + sin t * (INR n * cos (INR n * t))))).
      { auto_derive; [trivial|ring]. }
      apply is_derive_unique in E. apply is_derive_unique in E'. rewrite E in E'.
      unfold t in E' at 4 6. rewrite ang_scaled, sin_npi, cos_npi in E' by exact H.
      unfold node; fold t. apply (Rmult_eq_reg_l (- sin t)); [|lra]. rewrite E'. ring.
Qed.
Lemma sw_neq n k : (1 <= n)%nat -> sw n k <> 0.
Proof.
  intros H. pose proof (INRp n H). unfold sw, cw. apply Rmult_integral_contrapositive_currified; [|apply pow_nonzero; lra].
  destruct (orb _ _); lra.
Qed.

(** Lagrange basis: jets of Q/((x-x_j) Q'(x_j)) *)
Definition Lp (n j : nat) : list R := pscal (/ sw n j) (pdiv (node n j) (Qp n)).
Definition Lj (n j : nat) : nat -> R -> R := pjet (Lp n j).
Lemma Lp_length n j : (1 <= n)%nat -> length (Lp n j) = S n.
Proof. intros H; unfold Lp; rewrite pscal_length, pdiv_length, Qp_length by exact H; lia. Qed.
Lemma Lj_Q n j m x : (1 <= n)%nat ->
  pjet (Qp n) m x = sw n j * ((x - node n j) * Lj n j m x + INR m * Lj n j (pred m) x).
Proof.
  intros H. pose proof (sw_neq n j H).
  rewrite (jet_ext (pjet (Qp n)) (fun m x => sw n j * ((x - node n j) * Lj n j m x + INR m * Lj n j (pred m) x))).
  - reflexivity. - apply pjet_jet. - apply jet_scal, jet_lin, pjet_jet.
  - intros y. unfold Lj, pjet; cbn [Nat.iter nat_rect pred INR]. unfold Nat.iter; cbn [nat_rect].
    rewrite (pdiv_eval (node n j) (Qp n) y), Qp_root by exact H. unfold Lp; rewrite pscal_eval. field; assumption.
Qed.
Lemma Lj_diag n j : (1 <= n)%nat -> (j <= n)%nat -> Lj n j 0%nat (node n j) = 1.
Proof.
  intros H Hj. pose proof (Lj_Q n j 1%nat (node n j) H) as E. rewrite Qp_der in E by assumption.
  cbn [pred INR] in E. pose proof (sw_neq n j H). apply (Rmult_eq_reg_l (sw n j)); [|assumption]. lra.
Qed.
Lemma Lj_off n j k : (1 <= n)%nat -> (j <= n)%nat -> (k <= n)%nat -> j <> k -> Lj n j 0%nat (node n k) = 0.
Proof.
  intros H Hj Hk Hjk. pose proof (Lj_Q n j 0%nat (node n k) H) as E.
  change (pjet (Qp n) 0%nat (node n k)) with (peval (Qp n) (node n k)) in E.
  rewrite Qp_root in E by exact H. cbn [INR] in E. pose proof (sw_neq n j H).
  assert (node n k - node n j <> 0). { intros Z. apply Hjk. apply (node_inj n); auto; lra. }
  symmetry in E. apply Rmult_integral in E. destruct E as [E|E]; [contradiction|].
  apply (Rmult_eq_reg_l (node n k - node n j)); [lra|assumption].
Qed.
Lemma nodes_NoDup n : (1 <= n)%nat -> NoDup (map (node n) (seq 0%nat (S n))).
Proof.
  intros H.
  assert (G : forall l, NoDup l -> (forall i, In i l -> (i <= n)%nat) -> NoDup (map (node n) l)).
  { induction l as [|i l IH]; intros ND Hl; cbn; [constructor|]. inversion ND; subst. constructor.
    - intros Hin. apply in_map_iff in Hin. destruct Hin as (i' & E & Hi'). apply node_inj in E; auto.
      + subst; contradiction. + apply Hl; right; assumption. + apply Hl; left; reflexivity.
    - apply IH; [assumption|]. intros; apply Hl; right; assumption. }
  apply G; [apply seq_NoDup|]. intros i Hi; apply in_seq in Hi; lia.
Qed.
(** Lagrange interpolation, with all derivatives *)
Lemma lagrange n c m x : (1 <= n)%nat -> (length c <= S n)%nat ->
  pjet c m x = rsum (S n) (fun j => peval c (node n j) * Lj n j m x).
Proof.
  intros H Hc.
  assert (S0 : forall k y, peval (fold_right (fun j acc => padd (pscal (peval c (node n j)) (Lp n j)) acc) nil (rev (seq 0%nat k))) y
     = rsum k (fun j => peval c (node n j) * Lj n j 0%nat y)
     /\ (length (fold_right (fun j acc => padd (pscal (peval c (node n j)) (Lp n j)) acc) nil (rev (seq 0%nat k))) <= S n)%nat).
  { induction k; intros y; [cbn; split; [reflexivity|lia]|].
    rewrite seq_S, rev_app_distr; cbn [rev app fold_right plus]. rewrite padd_eval, pscal_eval, padd_length, pscal_length, Lp_length by exact H.
    destruct (IHk y) as [-> IL]. split; [cbn; unfold Lj, pjet; cbn; ring|lia]. }
  apply (jet_ext (pjet c) (fun m x => rsum (S n) (fun j => peval c (node n j) * Lj n j m x))).
  - apply pjet_jet.
  - apply (jet_rsum (S n) (fun j m x => peval c (node n j) * Lj n j m x)). intros j _. apply jet_scal, pjet_jet.
  - intros y. destruct (S0 (S n) y) as [E L]. rewrite <- E.
    change (pjet c 0%nat y) with (peval c y).
    apply (peval_unique (map (node n) (seq 0%nat (S n)))); [now apply nodes_NoDup| | |].
    + now rewrite map_length, seq_length. + now rewrite map_length, seq_length.
    + intros r Hr. apply in_map_iff in Hr. destruct Hr as (k & <- & Hk). apply in_seq in Hk.
      rewrite (proj1 (S0 (S n) (node n k))).
      rewrite (rsum_single (S n) _ k); [|lia|]. { rewrite Lj_diag by lia; ring. }
      intros j Hj Hjk. rewrite Lj_off by lia. ring.
Qed.
