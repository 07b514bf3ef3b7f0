(** * Chebyshev collocation: nodes, history independence, exactness *)
From Verif Require Import Num L_Num PolySpec L_Poly M_Spectral.
Open Scope R_scope.

(** ** nodes *)
Definition node (n i : nat) : R := cos (INR i * PI / INR n).
Lemma INR_pred n : (1 <= n)%nat -> INR (S n) - 1 = INR n.
Proof. intros _; rewrite S_INR; ring. Qed.
Lemma INRp n : (1 <= n)%nat -> 0 < INR n.
Proof. intros; apply lt_0_INR; lia. Qed.
Lemma xi_eval n i : (1 <= n)%nat -> cheb_xi (S n) i = Some (node n i).
Proof.
  intros H; unfold cheb_xi, nofnat, npi; cbn [nmul nsub]. rewrite INR_pred by exact H.
  rewrite ndiv_Some by (pose proof (INRp n H); lra). reflexivity.
Qed.
Lemma ang_range n i : (1 <= n)%nat -> (i <= n)%nat -> 0 <= INR i * PI / INR n <= PI.
Proof.
  intros H Hi. pose proof (INRp n H) as P. pose proof PI_RGT_0.
  apply le_INR in Hi. pose proof (pos_INR i). split.
  - apply Rdiv_le_0_compat; [nra|lra].
  - apply (Rle_div_l (INR i * PI) PI (INR n)); nra.
Qed.
Lemma ang_lt n i j : (1 <= n)%nat -> (i < j)%nat -> INR i * PI / INR n < INR j * PI / INR n.
Proof.
  intros H Hi. pose proof (INRp n H) as P. pose proof PI_RGT_0. apply lt_INR in Hi.
  apply Rmult_lt_compat_r; [now apply Rinv_0_lt_compat|nra].
Qed.
Lemma node_decr n i j : (1 <= n)%nat -> (i < j)%nat -> (j <= n)%nat -> node n j < node n i.
Proof.
  intros H Hi Hj. pose proof (ang_range n i H ltac:(lia)). pose proof (ang_range n j H Hj).
  apply cos_decreasing_1; try lra. now apply ang_lt.
Qed.
Lemma node_inj n i j : (1 <= n)%nat -> (i <= n)%nat -> (j <= n)%nat -> node n i = node n j -> i = j.
Proof.
  intros H Hi Hj E. destruct (lt_eq_lt_dec i j) as [[L|L]|L]; [exfalso| exact L |exfalso].
  - pose proof (node_decr n i j H L Hj); lra.
  - pose proof (node_decr n j i H L Hi); lra.
Qed.
Lemma node_0 n : (1 <= n)%nat -> node n 0%nat = 1.
Proof. intros H; unfold node. replace (INR 0%nat * PI / INR n) with 0 by (cbn; field; pose proof (INRp n H); lra). apply cos_0. Qed.
Lemma node_n n : (1 <= n)%nat -> node n n = -1.
Proof. intros H; unfold node. replace (INR n * PI / INR n) with PI by (field; pose proof (INRp n H); lra). apply cos_PI. Qed.

Lemma x_to_xi_eval a b x : a < b -> x_to_xi (Some a) (Some b) (Some x) = Some (1 - 2 * (x - a) / (b - a)).
Proof. intros H; unfold x_to_xi; ncbn. rewrite ndiv_Some by lra. reflexivity. Qed.
Lemma xi_to_x_eval a b x : xi_to_x (Some a) (Some b) (Some x) = Some (a + (x - 1) / (-2) * (b - a)).
Proof. unfold xi_to_x; ncbn. rewrite ndiv_Some by lra. reflexivity. Qed.

(*@P C45_xi_nodes: For every npts >= 2, xi has its first value 1, its last value -1, and decreases strictly. *)
Lemma xi_nodes : forall npts, (2 <= npts)%nat ->
  cheb_xi npts 0%nat = Some 1 /\ cheb_xi npts (npts - 1)%nat = Some (-1) /\
  forall i j, (i < j)%nat -> (j < npts)%nat ->
  exists a b, cheb_xi npts i = Some a /\ cheb_xi npts j = Some b /\ -1 <= b < a /\ a <= 1.
Proof.
  intros [|n] H; [lia|]. assert (H1 : (1 <= n)%nat) by lia.
  rewrite xi_eval, node_0 by exact H1. replace (S n - 1)%nat with n by lia.
  rewrite xi_eval, node_n by exact H1. split; [reflexivity|]. split; [reflexivity|].
  intros i j Hi Hj. exists (node n i), (node n j). rewrite !xi_eval by exact H1.
  pose proof (node_decr n i j H1 Hi ltac:(lia)). unfold node in *.
  pose proof (COS_bound (INR i * PI / INR n)). pose proof (COS_bound (INR j * PI / INR n)).
  repeat split; lra.
Qed.

(*@P C45_x_nodes: For every npts >= 2 and xmin < xmax, x starts exactly at xmin, ends exactly at xmax and increases strictly. *)
Lemma x_nodes : forall npts xmin xmax, (2 <= npts)%nat -> xmin < xmax ->
  let c := cheb_init npts (Some (Some xmin)) (Some (Some xmax)) in
  let x := cheb_x npts (cb_xmin c) (cb_xmax c) in
  x 0%nat = Some xmin /\ x (npts - 1)%nat = Some xmax /\
  forall i j, (i < j)%nat -> (j < npts)%nat ->
  exists a b, x i = Some a /\ x j = Some b /\ xmin <= a < b /\ b <= xmax.
Proof.
  intros npts a b H Hab c x. unfold x, c, cheb_init, cheb_x; cbn [cb_xmin cb_xmax].
  destruct (xi_nodes npts H) as (E0 & E1 & E). rewrite E0, E1, !xi_to_x_eval.
  split; [f_equal; field|]. split; [f_equal; field|].
  intros i j Hi Hj. destruct (E i j Hi Hj) as (p & q & -> & -> & Hq & Hp). rewrite !xi_to_x_eval.
  eexists; eexists; split; [reflexivity|]. split; [reflexivity|]. nra.
Qed.

(*@P C45_default_interval: Without xmin and xmax the interval is [-1, 1], and x is xi with the sign changed. *)
Lemma default_interval : forall npts, (2 <= npts)%nat ->
  let c := cheb_init npts None None in
  forall i, cheb_x npts (cb_xmin c) (cb_xmax c) i = nopp (cheb_xi npts i).
Proof.
  intros [|n] H c i; [lia|]. unfold c, cheb_init, cheb_x; cbn [cb_xmin cb_xmax].
  rewrite xi_eval, xi_to_x_eval by lia. cbn [nopp]. f_equal; field.
Qed.

(*@P C45_maps_inverse: _x_to_xi and _xi_to_x are inverse to each other everywhere, not only at the nodes. *)
Lemma maps_inverse : forall xmin xmax x, xmin < xmax ->
  x_to_xi (Some xmin) (Some xmax) (xi_to_x (Some xmin) (Some xmax) (Some x)) = Some x /\
  xi_to_x (Some xmin) (Some xmax) (x_to_xi (Some xmin) (Some xmax) (Some x)) = Some x.
Proof.
  intros a b x H. rewrite xi_to_x_eval, !x_to_xi_eval, xi_to_x_eval by exact H.
  split; f_equal; field; lra.
Qed.

(*@P C45_single_point: With a single point the node is not a number (division by npts-1 = 0). *)
Lemma single_point : forall xmin xmax, cheb_xi 1%nat 0%nat = None /\ cheb_x 1%nat xmin xmax 0%nat = None.
Proof.
  assert (E : cheb_xi 1%nat 0%nat = None).
  { unfold cheb_xi, nofnat, npi; cbn [nmul nsub]. rewrite ndiv_zero by (cbn; ring). reflexivity. }
  intros; split; [exact E|]. unfold cheb_x; rewrite E; unfold xi_to_x; cbn [nsub].
  destruct xmin; cbn [ndiv nmul nadd]; reflexivity.
Qed.

(** ** history independence *)
Definition fresh_matrix (npts : nat) (xmin xmax : option num) (k : nat) : matder_result :=
  fst (matder k (cheb_init npts xmin xmax)).

Lemma D_loop_length N a b todo ell D : length (D_loop N a b todo ell D) = todo.
Proof. revert ell D; induction todo; intros; cbn; auto. Qed.
Lemma D_loop_nth N a b todo todo' ell D k : (k < todo)%nat -> (k < todo')%nat ->
  nth_error (D_loop N a b todo ell D) k = nth_error (D_loop N a b todo' ell D) k.
Proof.
  revert todo todo' ell D; induction k; intros [|t] [|t'] ell D H H'; try lia; cbn; [reflexivity|].
  apply IHk; lia.
Qed.

Definition cheb_ok (npts : nat) (a b : num) (c : cheb) : Prop :=
  cb_npts c = npts /\ cb_xmin c = a /\ cb_xmax c = b /\
  (cb_max c = 0%nat \/ cb_matder c = Some (D_loop npts a b (cb_max c) 0%nat eye)).
Lemma matder_ok npts a b c k : cheb_ok npts a b c -> (1 <= k)%nat ->
  cheb_ok npts a b (snd (matder k c)) /\
  fst (matder k c) = match nth_error (D_loop npts a b k 0%nat eye) (k - 1) with
                     | Some A => Matrix A | None => IndexError end.
Proof.
  intros (E1 & E2 & E3 & E4) Hk. unfold matder. destruct (Nat.ltb_spec k 1); [lia|].
  destruct (Nat.ltb_spec (cb_max c) k) as [L|L].
  - unfold compute_matder; cbn [cb_matder fst snd]. rewrite E1, E2, E3. split; [|reflexivity].
    unfold cheb_ok; cbn. repeat split; auto.
  - destruct E4 as [E4|E4]; [lia|]. rewrite E4; cbn [fst snd]. split; [repeat split; auto|].
    rewrite (D_loop_nth npts a b (cb_max c) k 0%nat eye) by lia. reflexivity.
Qed.
Lemma matder_run_ok npts a b l c : cheb_ok npts a b c -> cheb_ok npts a b (matder_run l c).
Proof.
  revert c; induction l as [|k l IH]; intros c H; cbn; [exact H|]. apply IH.
  destruct k; [exact H|]. apply matder_ok; [exact H|lia].
Qed.
Lemma init_ok npts a b : cheb_ok npts (cb_xmin (cheb_init npts a b)) (cb_xmax (cheb_init npts a b)) (cheb_init npts a b).
Proof. unfold cheb_ok; cbn; repeat split; auto. Qed.

(*@P C46_history_independent: After any sequence of matder requests (valid or refused), matder(k) returns exactly what it returns on a fresh object, and a request with order 0 is refused without changing the object. *)
Lemma history_independent : forall npts xmin xmax history k,
  let c0 := cheb_init npts xmin xmax in
  let c := matder_run history c0 in
  fst (matder k c) = fst (matder k c0) /\
  ((1 <= k)%nat -> exists A, fst (matder k c) = Matrix A) /\
  (k = 0%nat -> matder k c = (AssertionError, c)).
Proof.
  intros npts xmin xmax h k c0 c. pose proof (init_ok npts xmin xmax) as I0.
  pose proof (matder_run_ok _ _ _ h _ I0) as I. fold c0 c in I, I0.
  destruct k as [|k]; [repeat split; intros; try lia; reflexivity|].
  destruct (matder_ok _ _ _ c (S k) I ltac:(lia)) as [_ E].
  destruct (matder_ok _ _ _ c0 (S k) I0 ltac:(lia)) as [_ E0].
  rewrite E, E0. repeat split; [|discriminate]. intros _.
  match goal with |- context [nth_error ?l ?i] => destruct (nth_error l i) as [A|] eqn:En end; [eauto|].
  apply nth_error_None in En. rewrite D_loop_length in En; lia.
Qed.

(*@P C46_computed_once: A request whose order does not exceed one already served leaves the object unchanged (the matrices are not recomputed), and a larger request enlarges the stored family, keeping the matrices already computed. *)
Lemma computed_once : forall npts xmin xmax history k,
  let c := matder_run history (cheb_init npts xmin xmax) in
  (Exists (fun j => (k <= j)%nat) history -> snd (matder k c) = c) /\
  forall j, (1 <= j <= cb_max c)%nat -> fst (matder j (snd (matder k c))) = fst (matder j c).
Proof.
  intros npts xmin xmax h k c. split.
  - assert (G : forall h c0, (forall j, In j h -> (j <= cb_max (matder_run h c0))%nat) /\ (cb_max c0 <= cb_max (matder_run h c0))%nat).
    { clear. induction h as [|k h IH]; intros c0; cbn; [split; [intros ? []|lia]|].
      destruct (IH (snd (matder k c0))) as [A B].
      assert (M : (k <= cb_max (snd (matder k c0)))%nat /\ (cb_max c0 <= cb_max (snd (matder k c0)))%nat).
      { unfold matder. destruct (Nat.ltb_spec k 1); cbn [fst snd cb_max compute_matder cb_matder]; [lia|].
        destruct (Nat.ltb_spec (cb_max c0) k); cbn [fst snd cb_max compute_matder cb_matder]; [lia|]. destruct (cb_matder c0); cbn [fst snd cb_max compute_matder cb_matder]; lia. }
      split; [|lia]. intros j [<-|Hj]; [lia|auto]. }
    intros H. apply Exists_exists in H. destruct H as (j & Hj & Hk).
    destruct (G h (cheb_init npts xmin xmax)) as [A _]. specialize (A j Hj). fold c in A.
    unfold matder. destruct (Nat.ltb_spec k 1); [reflexivity|].
    destruct (Nat.ltb_spec (cb_max c) k); [lia|]. destruct (cb_matder c); reflexivity.
  - intros j _. replace (snd (matder k c)) with (matder_run (h ++ k :: nil) (cheb_init npts xmin xmax)).
    + rewrite (proj1 (history_independent npts xmin xmax (h ++ k :: nil) j)).
      symmetry. apply (proj1 (history_independent npts xmin xmax h j)).
    + unfold c. generalize (cheb_init npts xmin xmax) as c0. clear. induction h; intros; cbn; auto.
Qed.

(*@E C46_example: a history mixing refused, small and large requests. *)
Lemma history_ex : fst (matder 2%nat (matder_run (3 :: 0 :: 1 :: 5 :: 2 :: nil)%nat (cheb_init 8%nat None None)))
  = fst (matder 2%nat (cheb_init 8%nat None None)).
Proof. apply (proj1 (history_independent 8 None None (3 :: 0 :: 1 :: 5 :: 2 :: nil)%nat 2%nat)). Qed.
(*@E C45_example: three nodes on [0,2] are 0, 1, 2, and the maps send 1 to 0. *)
Lemma C45_example_lemma : cheb_x 3%nat (Some 0) (Some 2) 0%nat = Some 0 /\ cheb_x 3%nat (Some 0) (Some 2) 1%nat = Some 1 /\
  cheb_x 3%nat (Some 0) (Some 2) 2%nat = Some 2 /\ x_to_xi (Some 0) (Some 2) (Some 1) = Some 0 /\ (2 <= 3)%nat /\ 0 < 2.
Proof.
  unfold cheb_x. rewrite !(xi_eval 2) by lia. rewrite !xi_to_x_eval, x_to_xi_eval by lra.
  rewrite node_0, node_n by lia. assert (E : node 2 1 = 0) by (unfold node; cbn [INR]; rewrite Rmult_1_l; apply cos_PI2). rewrite E.
  repeat split; try lia; try lra; f_equal; field.
Qed.
