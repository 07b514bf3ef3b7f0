(** * C70: refinement of an eigenpair *)
From Coq Require Import String.
From Verif Require Import Num L_Num M_Spectral M_Euler M_OrrSommerfeld M_Eigen EigenSpec L_Poly L_Spectral3 L_Spectral4 L_OrrSommerfeld L_Model1D.
From Coquelicot Require Import Complex.
Open Scope R_scope.

Lemma Ccase (z : C) : {z = RtoC 0} + {z <> RtoC 0}.
Proof.
  destruct z as [x y]. destruct (Req_EM_T x 0) as [->|H]; [|right; intros E; injection E; auto].
  destruct (Req_EM_T y 0) as [->|H]; [left; reflexivity|right; intros E; injection E; auto].
Qed.
Lemma cdiv_Some a b : b <> RtoC 0 -> cdiv (Some a) (Some b) = Some (Cdiv a b).
Proof.
  intros H. unfold cdiv. destruct (Req_EM_T (fst b) 0) as [E1|]; [|reflexivity].
  destruct (Req_EM_T (snd b) 0) as [E2|]; [|reflexivity]. exfalso. apply H. destruct b. cbn in E1, E2. now subst.
Qed.
Lemma cdiv_0 a : cdiv a (Some (RtoC 0)) = None.
Proof.
  unfold cdiv. destruct a as [x|]; [|reflexivity]. cbn [fst snd RtoC]. destruct (Req_EM_T 0 0); [|lra]. reflexivity.
Qed.
Lemma finite_Some n v : finite_vec n v -> exists v', forall i, (i < n)%nat -> v i = Some (v' i).
Proof. intros H. exists (fun i => match v i with Some z => z | None => RtoC 0 end). intros i Hi. specialize (H i Hi). destruct (v i); congruence. Qed.
Lemma norm2_nonneg n v : 0 <= norm2 n v.
Proof. unfold norm2. change Rsum_spec with rsum. apply rsum_nonneg. intros. nra. Qed.
Lemma norm2_ext n v w : (forall i, (i < n)%nat -> v i = w i) -> norm2 n v = norm2 n w.
Proof. intros H. unfold norm2. change Rsum_spec with rsum. apply rsum_ext. intros i Hi. now rewrite H. Qed.
Lemma cnorm_Some n v v' : (forall i, (i < n)%nat -> v i = Some (v' i)) -> cnorm n v = Some (sqrt (norm2 n v')).
Proof.
  intros H. unfold cnorm. rewrite (nsum_Some n _ (fun i => fst (v' i) * fst (v' i) + snd (v' i) * snd (v' i))).
  - apply nsqrt_Some. apply (norm2_nonneg n v').
  - intros i Hi. rewrite H by assumption. reflexivity.
Qed.
Lemma nsum_None n f i : (i < n)%nat -> f i = None -> nsum n f = None.
Proof.
  induction n; intros Hi Hf; [lia|]. cbn [nsum]. destruct (Nat.eq_dec i n) as [->|].
  - rewrite Hf. destruct (nsum n f); reflexivity.
  - rewrite IHn by (assumption || lia). reflexivity.
Qed.
Lemma csum_None n f i : (i < n)%nat -> f i = None -> csum n f = None.
Proof.
  induction n; intros Hi Hf; [lia|]. cbn [csum]. destruct (Nat.eq_dec i n) as [->|].
  - rewrite Hf. destruct (csum n f); reflexivity.
  - rewrite IHn by (assumption || lia). reflexivity.
Qed.
Lemma cnorm_None n v i : (i < n)%nat -> v i = None -> cnorm n v = None.
Proof. intros Hi H. unfold cnorm. rewrite (nsum_None n _ i Hi); [reflexivity|]. rewrite H. reflexivity. Qed.
Lemma vdot_Some n a b a' b' : (forall i, (i < n)%nat -> a i = Some (a' i)) -> (forall i, (i < n)%nat -> b i = Some (b' i)) ->
  vdot n a b = Some (inner n a' b').
Proof.
  intros H1 H2. unfold vdot, inner. change Csum_spec with Csum. apply csum_Some. intros i Hi. rewrite H1, H2 by assumption. reflexivity.
Qed.
Lemma cmatvec_Some n A A' v v' i : (i < n)%nat -> (forall i j, (i < n)%nat -> (j < n)%nat -> A i j = Some (A' i j)) ->
  (forall i, (i < n)%nat -> v i = Some (v' i)) -> cmatvec n A v i = Some (Capply n A' v' i).
Proof.
  intros Hi H1 H2. unfold cmatvec, Capply. change Csum_spec with Csum. apply csum_Some. intros j Hj. rewrite H1, H2 by assumption. reflexivity.
Qed.
Lemma Capply_ext n A A' v v' i : (i < n)%nat -> (forall j, (j < n)%nat -> A i j = A' i j) -> (forall j, (j < n)%nat -> v j = v' j) ->
  Capply n A v i = Capply n A' v' i.
Proof. intros Hi H1 H2. unfold Capply. change Csum_spec with Csum. apply Csum_ext. intros j Hj. now rewrite H1, H2. Qed.
Lemma Capply_scal n A c v i : Capply n A (fun j => (c * v j)%C) i = (c * Capply n A v i)%C.
Proof.
  unfold Capply. change Csum_spec with Csum. rewrite <- Csum_scal. apply Csum_ext. intros. ring.
Qed.
Lemma Capply_sub n A B c v i : Capply n (fun i j => (A i j - c * B i j)%C) v i = (Capply n A v i - c * Capply n B v i)%C.
Proof.
  unfold Capply. change Csum_spec with Csum. unfold Cminus. rewrite <- Copp_mult_distr_l || idtac.
  transitivity (Csum n (fun j => A i j * v j) + Csum n (fun j => (- c) * (B i j * v j)))%C.
  - rewrite <- Csum_plus. apply Csum_ext. intros. ring.
  - rewrite Csum_scal. ring.
Qed.
Lemma norm2_scal n (r : R) v : norm2 n (fun i => (v i * RtoC r)%C) = r * r * norm2 n v.
Proof.
  unfold norm2. change Rsum_spec with rsum. rewrite <- rsum_scal. apply rsum_ext. intros i Hi.
  unfold Cmult, RtoC; cbn [fst snd]. ring.
Qed.
Lemma norm2_zero n v : norm2 n v = 0 -> forall i, (i < n)%nat -> v i = RtoC 0.
Proof.
  intros H i Hi. unfold norm2 in H. change Rsum_spec with rsum in H.
  pose proof (rsum_nonneg_zero n (fun i => fst (v i) * fst (v i) + snd (v i) * snd (v i)) ltac:(intros; nra) ltac:(lra) i Hi) as E.
  cbv beta in E. destruct (v i) as [x y]. cbn [fst snd] in E. unfold RtoC. f_equal; nra.
Qed.
Lemma Capply_zero n A v i : (forall i, (i < n)%nat -> v i = RtoC 0) -> Capply n A v i = RtoC 0.
Proof.
  intros H. unfold Capply. change Csum_spec with Csum. transitivity (Csum n (fun j => RtoC 0 * RtoC 0)%C).
  - apply Csum_ext. intros. rewrite H by assumption. ring.
  - rewrite Csum_scal. ring.
Qed.
(** a vector divided by its norm *)
Definition unit_of n (v : nat -> C) i : C := (v i * RtoC (1 / sqrt (norm2 n v)))%C.
Lemma unit_norm n v : norm2 n v <> 0 -> norm2 n (unit_of n v) = 1.
Proof.
  intros H. unfold unit_of. rewrite norm2_scal. pose proof (norm2_nonneg n v).
  assert (Q : sqrt (norm2 n v) * sqrt (norm2 n v) = norm2 n v) by now apply sqrt_sqrt.
  assert (Z : sqrt (norm2 n v) <> 0) by (intros E; rewrite E in Q; lra). rewrite <- Q at 3. field. exact Z.
Qed.
Lemma vscale_Some n v v' i : (i < n)%nat -> norm2 n v' <> 0 -> (forall i, (i < n)%nat -> v i = Some (v' i)) ->
  vscale v (cnorm n v) i = Some (unit_of n v' i).
Proof.
  intros Hi Hn H. unfold vscale. rewrite (cnorm_Some n v v' H), (H i Hi). unfold cdivn. rewrite ndiv_Some; [reflexivity|].
  intros E. apply sqrt_eq_0 in E; [lra|apply norm2_nonneg].
Qed.

Lemma inr_inj {X Y} (a b : Y) : @inr X Y a = inr b -> a = b.
Proof. intros H. now injection H. Qed.

Section REFINE.
Context (n : nat) (B A : nat -> nat -> C) (solve : cmat -> cvec -> solve_result).
Let M i j : C := (- Ci * A i j)%C.
Let Bm : cmat := fun i j => Some (B i j).
Let Mm : cmat := fun i j => cmul (Some (Copp Ci)) (Some (A i j)).
Definition good (v0 : nat -> C) (w0 : C) (s : cnum * cvec) : Prop :=
  match fst s with
  | Some w => exists v', (forall i, (i < n)%nat -> snd s i = Some (v' i)) /\ norm2 n v' = 1 /\
      (rayleigh n B M v' w \/ w = w0 /\ forall i, (i < n)%nat -> v' i = v0 i)
  | None => True
  end.
Lemma MmE i j : Mm i j = Some (M i j).
Proof. reflexivity. Qed.
Lemma rq_good v0 w0 s s' : (0 < n)%nat -> solver n (fun K v w => solve K v = Solved w) ->
  good v0 w0 s -> rq_step n solve Bm Mm s = inr s' ->
  good v0 w0 s' /\ ((forall v, norm2 n v <> 0 -> inner n v (Capply n M v) <> RtoC 0) -> fst s <> None -> fst s' <> None).
Proof.
  intros Hn Hs G. destruct s as [om v]. unfold rq_step. set (K := fun i j => csub (Bm i j) (cmul om (Mm i j))).
  destruct (solve K v) as [w| |] eqn:E; [|intros H; apply inr_inj in H; subst s'; auto|discriminate].
  intros H. apply inr_inj in H. subst s'. cbn [fst snd].
  assert (D : finite_vec n w \/ exists i, (i < n)%nat /\ w i = None).
  { clear. induction n as [|m IH]; [left; intros i Hi; lia|]. destruct IH as [IH|(i & Hi & IH)].
    - destruct (w m) eqn:E; [left|right; exists m; auto]. intros i Hi. destruct (Nat.eq_dec i m) as [->|]; [congruence|]. apply IH. lia.
    - right. exists i. auto. }
  destruct D as [D|(i & Hi & D)].
  - destruct (Hs K v w E (or_intror D)) as (_ & FK & Fv & HS).
    destruct om as [om|]; [|exfalso; apply (FK 0%nat 0%nat Hn Hn); reflexivity].
    cbn [good fst snd] in G. destruct G as (v' & Hv & N1 & _).
    destruct (finite_Some n w D) as (w' & Hw).
    specialize (HS (fun i j => (B i j - om * M i j)%C) v' w' ltac:(reflexivity) Hv Hw).
    assert (Nw : norm2 n w' <> 0).
    { intros Z. pose proof (norm2_zero n w' Z) as Z'. assert (V0 : norm2 n v' = 0).
      { rewrite (norm2_ext n v' (fun _ => RtoC 0)).
        - unfold norm2. change Rsum_spec with rsum. apply rsum_zero. intros. cbn. ring.
        - intros j Hj. rewrite <- (HS j Hj). now apply Capply_zero. }
      lra. }
    assert (Hu : forall i, (i < n)%nat -> vscale w (cnorm n w) i = Some (unit_of n w' i)) by (intros; now apply vscale_Some).
    rewrite !(vdot_Some n _ _ (unit_of n w') (Capply n B (unit_of n w')) Hu) by (intros; now apply cmatvec_Some).
    rewrite !(vdot_Some n _ _ (unit_of n w') (Capply n M (unit_of n w')) Hu) by (intros; now apply cmatvec_Some).
    pose proof (unit_norm n w' Nw) as N1'.
    destruct (Ccase (inner n (unit_of n w') (Capply n M (unit_of n w')))) as [Z|Z].
    + rewrite Z, cdiv_0. split; [exact I|]. intros HM _. exfalso. apply (HM (unit_of n w')); [lra|exact Z].
    + rewrite cdiv_Some by exact Z. split; [|discriminate]. cbn [good fst snd]. exists (unit_of n w').
      split; [exact Hu|]. split; [exact N1'|]. left. split; [exact Z|reflexivity].
  - assert (U : vscale w (cnorm n w) i = None).
    { unfold vscale. rewrite D. reflexivity. }
    assert (V : vdot n (vscale w (cnorm n w)) (cmatvec n Bm (vscale w (cnorm n w))) = None).
    { unfold vdot. apply (csum_None n _ i Hi). rewrite U. reflexivity. }
    rewrite V. split; [exact I|]. intros _ Ho. exfalso. destruct om as [om|]; [|congruence].
    destruct G as (v' & Hv & _). cbn [fst snd] in Hv.
    assert (F1 : finite_mat n K) by (intros a b _ _; discriminate).
    assert (F2 : finite_vec n v) by (intros a Ha; rewrite Hv by assumption; discriminate).
    exact (proj1 (Hs K v w E (or_introl (conj F1 F2))) i Hi D).
Qed.
Lemma rq_loop_good v0 w0 k : forall s s', (0 < n)%nat -> solver n (fun K v w => solve K v = Solved w) ->
  good v0 w0 s -> rq_loop n solve Bm Mm k s = inr s' ->
  good v0 w0 s' /\ ((forall v, norm2 n v <> 0 -> inner n v (Capply n M v) <> RtoC 0) -> fst s <> None -> fst s' <> None).
Proof.
  induction k as [|k IH]; intros s s' Hn Hs G; cbn [rq_loop].
  - intros H. apply inr_inj in H. subst s'. auto.
  - destruct (rq_step n solve Bm Mm s) as [|t] eqn:E; [discriminate|]. intros H.
    destruct (rq_good v0 w0 s t Hn Hs G E) as [G1 G2]. destruct (IH t s' Hn Hs G1 H) as [G3 G4]. auto.
Qed.
Lemma rq_loop_total k : forall s, (forall K v, solve K v <> OtherError) -> exists s', rq_loop n solve Bm Mm k s = inr s'.
Proof.
  induction k as [|k IH]; intros s H; cbn [rq_loop]; [eauto|]. destruct s as [om v]. unfold rq_step.
  destruct (solve _ v) eqn:E; [apply IH; assumption|apply IH; assumption|elim (H _ _ E)].
Qed.
End REFINE.
Lemma start_good n B A (v0 : nat -> C) w : norm2 n v0 <> 0 ->
  good n B A (unit_of n v0) w (Some w, vscale (fun i => Some (v0 i)) (cnorm n (fun i => Some (v0 i)))).
Proof.
  intros H. cbn [good fst snd]. exists (unit_of n v0). split; [intros; now apply vscale_Some|].
  split; [now apply unit_norm|]. right. auto.
Qed.
Lemma norm2_pos_n n v : norm2 n v <> 0 -> (0 < n)%nat.
Proof. destruct n; [intros H; elim H; reflexivity|lia]. Qed.

(*@P C70_unit_rayleigh: For every pair of matrices B and At, start vector of non zero norm, start value and number of iterations, with a linear solver whose finite solutions are solutions: when converge_eigenpair returns a finite eigenvalue, the returned vector is finite and of unit norm, and the eigenvalue is its Rayleigh quotient for the problem B v = w (-i At) v - unless no system could be solved and the start value and normalised start vector are returned. *)
Lemma unit_rayleigh : forall n B A solve v0 w0 niter w v, norm2 n v0 <> 0 ->
  solver n (fun K v w => solve K v = Solved w) ->
  converge_eigenpair n solve (fun i j => Some (B i j)) (fun i j => Some (A i j)) (Some w0) (fun i => Some (v0 i)) niter = inr (Some w, v) ->
  exists v', (forall i, (i < n)%nat -> v i = Some (v' i)) /\ norm2 n v' = 1 /\
  (rayleigh n B (fun i j => (- Ci * A i j)%C) v' w \/
   w = w0 /\ forall i, (i < n)%nat -> v' i = (v0 i * RtoC (1 / sqrt (norm2 n v0)))%C).
Proof.
  intros n B A solve v0 w0 niter w v Hv Hs H. unfold converge_eigenpair in H.
  destruct (rq_loop_good n B A solve (unit_of n v0) w0 niter _ _ (norm2_pos_n n v0 Hv) Hs (start_good n B A v0 w0 Hv) H) as [G _].
  exact G.
Qed.
(*@P C70_finite: Moreover if the form v* At v vanishes for no non zero v (for example At the identity), and the solver raises nothing but 'Singular matrix', the call returns and the eigenvalue is finite. *)
Lemma always_finite : forall n B A solve v0 w0 niter, norm2 n v0 <> 0 ->
  solver n (fun K v w => solve K v = Solved w) -> (forall K v, solve K v <> OtherError) ->
  (forall v, norm2 n v <> 0 -> inner n v (Capply n A v) <> RtoC 0) ->
  exists w v, converge_eigenpair n solve (fun i j => Some (B i j)) (fun i j => Some (A i j)) (Some w0) (fun i => Some (v0 i)) niter = inr (Some w, v).
Proof.
  intros n B A solve v0 w0 niter Hv Hs Ho HA.
  destruct (rq_loop_total n B A solve niter (Some w0, vscale (fun i => Some (v0 i)) (cnorm n (fun i => Some (v0 i)))) Ho) as ([w v] & H).
  destruct (rq_loop_good n B A solve (unit_of n v0) w0 niter _ _ (norm2_pos_n n v0 Hv) Hs (start_good n B A v0 w0 Hv) H) as [_ G].
  destruct w as [w|]; [exists w, v; exact H|]. exfalso. apply G; [|discriminate|reflexivity].
  intros u Hu E. apply (HA u Hu). clear -E.
  assert (X : inner n u (Capply n (fun i j => (- Ci * A i j)%C) u) = (- Ci * inner n u (Capply n A u))%C).
  { unfold inner, Capply. change Csum_spec with Csum. rewrite <- Csum_scal. apply Csum_ext. intros i Hi.
    transitivity (Cconj (u i) * (- Ci * Csum n (fun j => A i j * u j)))%C; [|ring]. f_equal. rewrite <- Csum_scal. apply Csum_ext. intros. ring. }
  rewrite X in E. set (z := inner n u (Capply n A u)) in *. clearbody z. destruct z as [a b]. unfold Copp, Cmult, Ci, RtoC in *. cbn [fst snd] in E.
  injection E as E1 E2. f_equal; lra.
Qed.
(*@P C70_exact_pair: An exact eigenpair is returned unchanged, its vector normalised, for every number of iterations, when the solver reports a singular matrix for singular matrices. *)
Lemma exact_pair : forall n B A solve v0 w0 niter, norm2 n v0 <> 0 ->
  (forall K K' v, (forall i j, (i < n)%nat -> (j < n)%nat -> K i j = Some (K' i j)) -> singular n K' -> solve K v = Singular) ->
  eigenpair n B (fun i j => (- Ci * A i j)%C) w0 v0 ->
  exists v, converge_eigenpair n solve (fun i j => Some (B i j)) (fun i j => Some (A i j)) (Some w0) (fun i => Some (v0 i)) niter = inr (Some w0, v) /\
  forall i, (i < n)%nat -> v i = Some (v0 i * RtoC (1 / sqrt (norm2 n v0)))%C.
Proof.
  intros n B A solve v0 w0 niter Hv Hs He. unfold converge_eigenpair.
  exists (vscale (fun i => Some (v0 i)) (cnorm n (fun i => Some (v0 i)))). split; [|intros; now apply (vscale_Some n _ v0)].
  generalize (vscale (fun i => Some (v0 i)) (cnorm n (fun i => Some (v0 i)))). intros u.
  induction niter as [|k IH]; [reflexivity|]. cbn [rq_loop]. unfold rq_step at 1.
  rewrite (Hs _ (fun i j => (B i j - w0 * (- Ci * A i j))%C)); [exact IH|reflexivity|].
  exists v0. split; [exact Hv|]. intros i Hi. rewrite (Capply_sub n B (fun i j => (- Ci * A i j)%C) w0), (He i Hi). ring.
Qed.
(*@P C70_other_error: An error of the solver other than a singular matrix is propagated. *)
Lemma other_error : forall n B A solve v0 w0 niter, (forall K v, solve K v = OtherError) -> (0 < niter)%nat ->
  converge_eigenpair n solve B A w0 v0 niter = inl EigLinAlg.
Proof.
  intros n B A solve v0 w0 niter H Hk. destruct niter as [|k]; [lia|]. unfold converge_eigenpair. cbn [rq_loop]. unfold rq_step.
  now rewrite H.
Qed.
Lemma rq_stay n B A solve w0 (v1 : nat -> C) k : norm2 n v1 <> 0 ->
  (forall K K' v, (forall i j, (i < n)%nat -> (j < n)%nat -> K i j = Some (K' i j)) -> singular n K' -> solve K v = Singular) ->
  eigenpair n B (fun i j => (- Ci * A i j)%C) w0 v1 ->
  forall u, rq_loop n solve (fun i j => Some (B i j)) (fun i j => cmul (Some (Copp Ci)) (Some (A i j))) k (Some w0, u) = inr (Some w0, u).
Proof.
  intros Hv Hs He u. induction k as [|k IH]; [reflexivity|]. cbn [rq_loop]. unfold rq_step at 1.
  rewrite (Hs _ (fun i j => (B i j - w0 * (- Ci * A i j))%C)); [exact IH|reflexivity|].
  exists v1. split; [exact Hv|]. intros i Hi. rewrite (Capply_sub n B (fun i j => (- Ci * A i j)%C) w0), (He i Hi). ring.
Qed.
Lemma inner_self n v : inner n v v = RtoC (norm2 n v).
Proof.
  unfold inner, norm2. change Csum_spec with Csum. change Rsum_spec with rsum. induction n; [reflexivity|]. cbn [Csum rsum]. rewrite IHn.
  unfold Cplus, Cmult, Cconj, RtoC. cbn [fst snd]. f_equal; ring.
Qed.
Lemma inner_scal n v (c : C) f g : (forall i, (i < n)%nat -> f i = (c * g i)%C) -> inner n v f = (c * inner n v g)%C.
Proof.
  intros H. unfold inner. change Csum_spec with Csum. rewrite <- Csum_scal. apply Csum_ext. intros i Hi. rewrite H by assumption. ring.
Qed.
(*@P C70_exact_vector: From an exact eigenvector (also an eigenvector of At) and any other shift, a first iteration finds the exact eigenvalue and the following ones keep it: for every number of iterations from one on the call returns that eigenvalue and a unit eigenvector. The solver is assumed to solve every non singular system and to report the singular ones. *)
Lemma exact_vector : forall n B A solve v0 lam mu w0 niter, norm2 n v0 <> 0 ->
  solver n (fun K v w => solve K v = Solved w) ->
  (forall K K' v, (forall i j, (i < n)%nat -> (j < n)%nat -> K i j = Some (K' i j)) -> singular n K' -> solve K v = Singular) ->
  (forall K K' v, (forall i j, (i < n)%nat -> (j < n)%nat -> K i j = Some (K' i j)) -> ~ singular n K' -> exists w, solve K v = Solved w) ->
  eigenpair n B (fun i j => (- Ci * A i j)%C) lam v0 ->
  mu <> RtoC 0 -> (forall i, (i < n)%nat -> Capply n (fun i j => (- Ci * A i j)%C) v0 i = (mu * v0 i)%C) ->
  w0 <> lam -> ~ singular n (fun i j => (B i j - w0 * (- Ci * A i j))%C) -> (1 <= niter)%nat ->
  exists v v', converge_eigenpair n solve (fun i j => Some (B i j)) (fun i j => Some (A i j)) (Some w0) (fun i => Some (v0 i)) niter = inr (Some lam, v) /\
  (forall i, (i < n)%nat -> v i = Some (v' i)) /\ norm2 n v' = 1 /\ eigenpair n B (fun i j => (- Ci * A i j)%C) lam v'.
Proof.
  intros n B A solve v0 lam mu w0 niter Hv Hs Hsing Hreg He Hmu HM Hw HK Hk. destruct niter as [|k]; [lia|].
  set (M := fun i j => (- Ci * A i j)%C) in *. unfold converge_eigenpair. cbn [rq_loop]. unfold rq_step.
  set (u := vscale (fun i => Some (v0 i)) (cnorm n (fun i => Some (v0 i)))).
  assert (Hu : forall i, (i < n)%nat -> u i = Some (unit_of n v0 i)) by (intros; now apply vscale_Some).
  set (K := fun i j => csub (Some (B i j)) (cmul (Some w0) (cmul (Some (Copp Ci)) (Some (A i j))))).
  destruct (Hreg K (fun i j => (B i j - w0 * M i j)%C) u ltac:(reflexivity) HK) as (w & E). rewrite E.
  assert (F1 : finite_mat n K) by (intros a b _ _; discriminate).
  assert (F2 : finite_vec n u) by (intros a Ha; rewrite Hu by assumption; discriminate).
  destruct (Hs K u w E (or_introl (conj F1 F2))) as (Fw & _ & _ & HS).
  destruct (finite_Some n w Fw) as (w' & Hw'). specialize (HS (fun i j => (B i j - w0 * M i j)%C) _ w' ltac:(reflexivity) Hu Hw').
  assert (Hd : (lam - w0)%C <> RtoC 0) by (intros Z; apply Hw; replace w0 with (lam - (lam - w0))%C by ring; rewrite Z; ring).
  assert (Hz : ((lam - w0) * mu)%C <> RtoC 0) by now apply Cmult_neq_0.
  set (s := RtoC (1 / sqrt (norm2 n v0))) in *.
  set (c := (s / ((lam - w0) * mu))%C).
  assert (Ew : forall i, (i < n)%nat -> w' i = (c * v0 i)%C).
  { assert (Z : norm2 n (fun i => (w' i - c * v0 i)%C) = 0).
    { destruct (Req_dec (norm2 n (fun i => (w' i - c * v0 i)%C)) 0) as [Z|Z]; [exact Z|]. exfalso. apply HK.
      exists (fun i => (w' i - c * v0 i)%C). split; [exact Z|]. intros i Hi.
      assert (L : Capply n (fun i j => (B i j - w0 * M i j)%C) (fun i => (w' i - c * v0 i)%C) i =
        (Capply n (fun i j => (B i j - w0 * M i j)%C) w' i - c * Capply n (fun i j => (B i j - w0 * M i j)%C) v0 i)%C).
      { unfold Capply. change Csum_spec with Csum. transitivity (Csum n (fun j => (B i j - w0 * M i j) * w' j)%C + Csum n (fun j => - c * ((B i j - w0 * M i j) * v0 j))%C)%C.
        - rewrite <- Csum_plus. apply Csum_ext. intros. ring.
        - rewrite Csum_scal. ring. }
      change (Capply n (fun i j => (B i j - w0 * M i j)%C) (fun i => (w' i - c * v0 i)%C) i = RtoC 0). rewrite L, (HS i Hi), (Capply_sub n B M w0), (He i Hi), (HM i Hi). unfold unit_of. fold s. unfold c. field. split; assumption. }
    intros i Hi. pose proof (norm2_zero n _ Z i Hi) as Y. cbv beta in Y. replace (w' i) with ((w' i - c * v0 i) + c * v0 i)%C by ring. rewrite Y. ring. }
  assert (Nw : norm2 n w' <> 0).
  { intros Z. apply Hv. assert (Zs : forall i, (i < n)%nat -> v0 i = RtoC 0).
    { intros i Hi. pose proof (norm2_zero n w' Z i Hi) as Y. rewrite (Ew i Hi) in Y.
      assert (Hc : c <> RtoC 0).
      { unfold c. intros Q. assert (Hs0 : s <> RtoC 0).
        { unfold s. apply RtoC_inj_nz. pose proof (norm2_nonneg n v0). assert (0 < sqrt (norm2 n v0)) by (apply sqrt_lt_R0; lra).
          apply Rgt_not_eq. apply Rdiv_lt_0_compat; lra. }
        apply Hs0. replace s with (s / ((lam - w0) * mu) * ((lam - w0) * mu))%C by (field; split; assumption). rewrite Q. ring. }
      replace (v0 i) with (/ c * (c * v0 i))%C by (field; exact Hc). rewrite Y. ring. }
    rewrite (norm2_ext n v0 (fun _ => RtoC 0) Zs). unfold norm2. change Rsum_spec with rsum. apply rsum_zero. intros. cbn. ring. }
  set (v' := unit_of n w').
  assert (Hv' : forall i, (i < n)%nat -> vscale w (cnorm n w) i = Some (v' i)) by (intros; now apply vscale_Some).
  assert (N1 : norm2 n v' = 1) by now apply unit_norm.
  set (d := (c * RtoC (1 / sqrt (norm2 n w')))%C).
  assert (Ev : forall i, (i < n)%nat -> v' i = (d * v0 i)%C).
  { intros i Hi. unfold v', unit_of, d. rewrite (Ew i Hi). ring. }
  assert (EB : forall i, (i < n)%nat -> Capply n B v' i = (lam * Capply n M v' i)%C).
  { intros i Hi. rewrite (Capply_ext n B B v' (fun j => (d * v0 j)%C) i Hi (fun _ _ => eq_refl) Ev).
    rewrite (Capply_ext n M M v' (fun j => (d * v0 j)%C) i Hi (fun _ _ => eq_refl) Ev), !Capply_scal, (He i Hi). ring. }
  assert (EM : forall i, (i < n)%nat -> Capply n M v' i = (mu * v' i)%C).
  { intros i Hi. rewrite (Capply_ext n M M v' (fun j => (d * v0 j)%C) i Hi (fun _ _ => eq_refl) Ev), Capply_scal, (HM i Hi), (Ev i Hi). ring. }
  rewrite (vdot_Some n _ _ v' (Capply n B v') Hv') by (intros; now apply cmatvec_Some).
  rewrite (vdot_Some n _ _ v' (Capply n M v') Hv') by (intros; now apply cmatvec_Some).
  assert (I1 : inner n v' (Capply n M v') = mu) by (rewrite (inner_scal n v' mu _ v' EM), inner_self, N1; ring).
  rewrite (inner_scal n v' lam _ _ EB), I1. rewrite cdiv_Some by exact Hmu.
  replace (lam * mu / mu)%C with lam by (field; exact Hmu).
  exists (vscale w (cnorm n w)), v'. split; [|split; [exact Hv'|split; [exact N1|exact EB]]].
  apply (rq_stay n B A solve lam v'); [lra|exact Hsing|exact EB].
Qed.

(** a solver for systems of two equations (Cramer), to show the hypotheses can be met together *)
Definition cramer (K : cmat) (v : cvec) : solve_result :=
  match K 0%nat 0%nat, K 0%nat 1%nat, K 1%nat 0%nat, K 1%nat 1%nat, v 0%nat, v 1%nat with
  | Some a, Some b, Some c, Some d, Some x, Some y =>
    let det := (a * d - b * c)%C in
    if Ccase det then Singular
    else Solved (fun i => Some (match i with O => (d * x - b * y) / det | S _ => (a * y - c * x) / det end)%C)
  | Some a, Some b, Some c, Some d, _, _ => if Ccase (a * d - b * c)%C then Singular else Solved (fun _ => None)
  | _, _, _, _, _, _ => Solved (fun _ => None)
  end.
Lemma cramer_solver : solver 2 (fun K v w => cramer K v = Solved w).
Proof.
  intros K v w. unfold cramer.
  destruct (K 0%nat 0%nat) as [a|] eqn:E00; [|intros H; injection H as <-; intros [[H _]|H]; [elim (H 0%nat 0%nat ltac:(lia) ltac:(lia) E00)|elim (H 0%nat ltac:(lia) eq_refl)]].
  destruct (K 0%nat 1%nat) as [b|] eqn:E01; [|intros H; injection H as <-; intros [[H _]|H]; [elim (H 0%nat 1%nat ltac:(lia) ltac:(lia) E01)|elim (H 0%nat ltac:(lia) eq_refl)]].
  destruct (K 1%nat 0%nat) as [c|] eqn:E10; [|intros H; injection H as <-; intros [[H _]|H]; [elim (H 1%nat 0%nat ltac:(lia) ltac:(lia) E10)|elim (H 0%nat ltac:(lia) eq_refl)]].
  destruct (K 1%nat 1%nat) as [d|] eqn:E11; [|intros H; injection H as <-; intros [[H _]|H]; [elim (H 1%nat 1%nat ltac:(lia) ltac:(lia) E11)|elim (H 0%nat ltac:(lia) eq_refl)]].
  destruct (v 0%nat) as [x|] eqn:Ex; [destruct (v 1%nat) as [y|] eqn:Ey|].
  - cbv zeta. destruct (Ccase _) as [Z|Z]; [discriminate|]. intros H. injection H as <-. intros _. split; [intros i _; discriminate|].
    split; [intros [|[|i]] [|[|j]] Hi Hj; try lia; congruence|]. split; [intros [|[|i]] Hi; try lia; congruence|].
    intros K' v' w' HK Hv Hw i Hi. unfold Capply. cbn [Csum_spec].
    rewrite E00 || idtac. pose proof (HK 0%nat 0%nat ltac:(lia) ltac:(lia)) as A1. pose proof (HK 0%nat 1%nat ltac:(lia) ltac:(lia)) as A2.
    pose proof (HK 1%nat 0%nat ltac:(lia) ltac:(lia)) as A3. pose proof (HK 1%nat 1%nat ltac:(lia) ltac:(lia)) as A4.
    rewrite E00 in A1. rewrite E01 in A2. rewrite E10 in A3. rewrite E11 in A4.
    pose proof (Hv 0%nat ltac:(lia)) as B1. pose proof (Hv 1%nat ltac:(lia)) as B2. rewrite Ex in B1. rewrite Ey in B2.
    pose proof (Hw 0%nat ltac:(lia)) as C1. pose proof (Hw 1%nat ltac:(lia)) as C2. cbv beta iota in C1, C2.
    apply Some_inj in A1, A2, A3, A4, B1, B2, C1, C2.
    rewrite <- C1, <- C2. destruct i as [|[|i]]; [rewrite <- A1, <- A2, <- B1|rewrite <- A3, <- A4, <- B2|lia]; field; exact Z.
  - destruct (Ccase _); [discriminate|]. intros H; injection H as <-; intros [[_ H]|H]; [elim (H 1%nat ltac:(lia) Ey)|elim (H 0%nat ltac:(lia) eq_refl)].
  - destruct (Ccase _); [discriminate|]. intros H; injection H as <-; intros [[_ H]|H]; [elim (H 0%nat ltac:(lia) Ex)|elim (H 0%nat ltac:(lia) eq_refl)].
Qed.
Lemma cramer_cases K K' v : (forall i j, (i < 2)%nat -> (j < 2)%nat -> K i j = Some (K' i j)) ->
  (singular 2 K' -> cramer K v = Singular) /\ (~ singular 2 K' -> exists w, cramer K v = Solved w).
Proof.
  intros H. unfold cramer. rewrite !H by lia.
  set (a := K' 0%nat 0%nat) in *. set (b := K' 0%nat 1%nat) in *. set (c := K' 1%nat 0%nat) in *. set (d := K' 1%nat 1%nat) in *.
  assert (S1 : singular 2 K' -> (a * d - b * c)%C = RtoC 0).
  { intros (u & Hu & E). destruct (Ccase (a * d - b * c)%C) as [Z|Z]; [exact Z|]. exfalso. apply Hu.
    pose proof (E 0%nat ltac:(lia)) as E0. pose proof (E 1%nat ltac:(lia)) as E1. unfold Capply in E0, E1. cbn [Csum_spec] in E0, E1.
    fold a b in E0. fold c d in E1. set (x := u 0%nat) in *. set (y := u 1%nat) in *.
    assert (X : x = RtoC 0).
    { replace x with (((d * (0 + a * x + b * y) - b * (0 + c * x + d * y))) / (a * d - b * c))%C by (field; exact Z). rewrite E0, E1. field. exact Z. }
    assert (Y : y = RtoC 0).
    { replace y with (((a * (0 + c * x + d * y) - c * (0 + a * x + b * y))) / (a * d - b * c))%C by (field; exact Z). rewrite E0, E1. field. exact Z. }
    unfold norm2. cbn [Rsum_spec]. fold x y. rewrite X, Y. cbn. ring. }
  assert (S2 : (a * d - b * c)%C = RtoC 0 -> singular 2 K').
  { intros Z. assert (P : forall p q : C, (p <> RtoC 0 \/ q <> RtoC 0) -> (a * p + b * q)%C = RtoC 0 -> (c * p + d * q)%C = RtoC 0 -> singular 2 K').
    { intros p q Hpq H1 H2. exists (fun i => match i with O => p | _ => q end). split.
      - unfold norm2. cbn [Rsum_spec]. destruct p as [p1 p2], q as [q1 q2]. cbn [fst snd]. intros Q.
        assert (p1 = 0 /\ p2 = 0 /\ q1 = 0 /\ q2 = 0) as (-> & -> & -> & ->) by (repeat split; nra). destruct Hpq as [G|G]; apply G; reflexivity.
      - intros [|[|i]] Hi; [| |lia]; unfold Capply; cbn [Csum_spec]; [fold a b|fold c d]; [transitivity (a * p + b * q)%C; [ring|exact H1]|transitivity (c * p + d * q)%C; [ring|exact H2]]. }
    assert (Zo : forall z : C, z <> RtoC 0 -> (- z)%C <> RtoC 0) by (intros z Hz Q; apply Hz; replace z with (- - z)%C by ring; rewrite Q; ring).
    destruct (Ccase a) as [Ha|Ha].
    - destruct (Ccase b) as [Hb|Hb].
      + destruct (Ccase c) as [Hc|Hc].
        * apply (P (RtoC 1) (RtoC 0)); [left; apply RtoC_inj_nz; lra| |]; rewrite ?Ha, ?Hb, ?Hc; ring.
        * apply (P (- d)%C c); [right; exact Hc| |]; rewrite ?Ha, ?Hb; ring.
      + apply (P (- b)%C a); [left; apply Zo; exact Hb|ring|]. rewrite <- Z. ring.
    - apply (P (- b)%C a); [right; exact Ha|ring|]. rewrite <- Z. ring. }
  split; intros G.
  - specialize (S1 G). destruct (v 0%nat); [destruct (v 1%nat)|]; cbv zeta; destruct (Ccase _); congruence || contradiction.
  - assert (Z : (a * d - b * c)%C <> RtoC 0) by auto.
    destruct (v 0%nat); [destruct (v 1%nat)|]; cbv zeta; destruct (Ccase _); try contradiction; eauto.
Qed.
(*@E C70_example: Cramer's rule for two unknowns meets all the hypotheses on the solver at once; with B = diag(-i, -3i), At = identity, v = (1, 0) is an eigenvector of eigenvalue 1 and 2 is an admissible shift *)
Lemma C70_ex :
  (solver 2 (fun K v w => cramer K v = Solved w) /\ (forall K v, cramer K v <> OtherError) /\
   (forall K K' v, (forall i j, (i < 2)%nat -> (j < 2)%nat -> K i j = Some (K' i j)) -> singular 2 K' -> cramer K v = Singular) /\
   (forall K K' v, (forall i j, (i < 2)%nat -> (j < 2)%nat -> K i j = Some (K' i j)) -> ~ singular 2 K' -> exists w, cramer K v = Solved w)) /\
  let A := fun i j => if Nat.eqb i j then RtoC 1 else RtoC 0 in
  let B := fun i j => if Nat.eqb i j then (if Nat.eqb i 0 then - Ci else - RtoC 3 * Ci)%C else RtoC 0 in
  let v0 := fun i => if Nat.eqb i 0 then RtoC 1 else RtoC 0 in
  norm2 2 v0 <> 0 /\ eigenpair 2 B (fun i j => (- Ci * A i j)%C) (RtoC 1) v0 /\
  (forall i, (i < 2)%nat -> Capply 2 (fun i j => (- Ci * A i j)%C) v0 i = (- Ci * v0 i)%C) /\
  ~ singular 2 (fun i j => (B i j - RtoC 2 * (- Ci * A i j))%C).
Proof.
  split; [split; [exact cramer_solver|]; split; [|split; intros K K' v H; apply (cramer_cases K K' v H)]|].
  - intros K v. unfold cramer. destruct (K 0%nat 0%nat), (K 0%nat 1%nat), (K 1%nat 0%nat), (K 1%nat 1%nat); try discriminate.
    destruct (v 0%nat); [destruct (v 1%nat)|]; cbv zeta; destruct (Ccase _); discriminate.
  - cbv zeta. split; [unfold norm2; cbn; lra|]. split; [|split].
    + intros [|[|i]] Hi; [| |lia]; unfold Capply; cbn [Csum_spec Nat.eqb]; ring.
    + intros [|[|i]] Hi; [| |lia]; unfold Capply; cbn [Csum_spec Nat.eqb]; ring.
    + intros (u & Hu & E). apply Hu. pose proof (E 0%nat ltac:(lia)) as E0. pose proof (E 1%nat ltac:(lia)) as E1. unfold Capply in E0, E1. cbn [Csum_spec Nat.eqb] in E0, E1.
      unfold norm2. cbn [Rsum_spec]. destruct (u 0%nat) as [x1 x2], (u 1%nat) as [y1 y2]. unfold Cminus, Cplus, Cmult, Copp, Ci, RtoC in E0, E1. cbn [fst snd] in *.
      injection E0 as E01 E02. injection E1 as E11 E12. assert (x1 = 0) by lra. assert (x2 = 0) by lra. assert (y1 = 0) by lra. assert (y2 = 0) by lra. subst. ring.
Qed.
