(** * Euler1D through its interface: fresh objects, histories, dictionaries *)
From Coq Require Import String.
From Verif Require Import Num L_Num Spec M_Model1D M_Spectral M_Euler PolySpec EulerSpec L_Poly L_Spectral L_Spectral2 L_Spectral3 L_Euler1 L_Euler2 L_Euler3 L_Model1D.
Open Scope R_scope.

Lemma cheb_real n a b h k : (2 <= n)%nat -> a < b -> (1 <= k)%nat ->
  let c := matder_run h (cheb_init n (Some (Some a)) (Some (Some b))) in
  exists A d x c', matder k c = (Matrix A, c') /\ cheb_ok n (Some a) (Some b) c' /\
  (forall i j, (i < n)%nat -> (j < n)%nat -> A i j = Some (d i j)) /\
  (forall i, (i < n)%nat -> cheb_x n (Some a) (Some b) i = Some (x i)) /\ differentiates n x k d.
Proof.
  intros Hn Hab Hk c. destruct n as [|n]; [lia|].
  destruct (matder_diff n a b h k ltac:(lia) Hab Hk) as (A & E & HA). fold c in E.
  pose proof (matder_run_ok _ _ _ h _ (init_ok (S n) (Some (Some a)) (Some (Some b)))) as Hc. fold c in Hc. cbn [cheb_init cb_xmin cb_xmax] in Hc.
  destruct (matder_ok _ _ _ c k Hc Hk) as [Hc' _].
  set (d := fun i j => (-2 / (b - a)) ^ k * Lj n j k (node n i)).
  set (x := fun j => a + (node n j - 1) / (-2) * (b - a)).
  assert (Hd : forall i j, (i < S n)%nat -> (j < S n)%nat -> A i j = Some (d i j)) by (intros; apply HA; lia).
  assert (Hx : forall i, cheb_x (S n) (Some a) (Some b) i = Some (x i)).
  { intros j. unfold cheb_x. rewrite xi_eval by lia. apply xi_to_x_eval. }
  exists A, d, x, (snd (matder k c)). split; [rewrite <- E; now destruct (matder k c)|]. split; [exact Hc'|].
  split; [exact Hd|]. split; [intros; apply Hx|].
  intros p i Hp Hi.
  destruct (exact_on_polynomials (S n) a b h k p Hn Hab Hk Hp) as (A' & E' & HA'). fold c in E', HA'.
  rewrite E in E'. injection E' as <-.
  destruct (HA' i Hi) as (xi & Exi & Em). destruct Hc as (_ & C1 & C2 & _). rewrite C1, C2 in Exi, Em.
  rewrite Hx in Exi. injection Exi as <-.
  apply Some_inj. rewrite <- Em. unfold ddx; change Sum with rsum. symmetry. unfold matvec.
  apply nsum_Some. intros j Hj. rewrite Hd, Hx by assumption. reflexivity.
Qed.

(** the result of the first request *)
Lemma first_get h e q D c : eu_ops e = None -> eu_base e = Some q -> matder 1 (eu_cheb e) = (Matrix D, c) ->
  let n := cb_npts c in
  let '(x, h1, o1) := compute_BC n D (cheb_x n (cb_xmin c) (cb_xmax c)) q (eu_BC e) h (mk_ops (3 * n) euler_At (euler_B n D q)) in
  get_RHS_time_matrices h e =
  (match x with Some x => inl x | None => inr o1 end, h1, mk_euler c (eu_base e) (eu_BC e) (Some o1)).
Proof.
  intros E1 E2 E3 n. unfold get_RHS_time_matrices, compute_operators. rewrite E1, E3, E2. fold n.
  destruct (compute_BC _ _ _ _ _ _ _) as [[x h1] o1]. destruct x; reflexivity.
Qed.

Lemma hget_app1 h a b : hget ((h ++ a :: nil) ++ b :: nil) (List.length h) = a.
Proof. unfold hget. rewrite <- app_assoc, app_nth2, Nat.sub_diag by lia. reflexivity. Qed.
Lemma hget_app2 h a b : hget ((h ++ a :: nil) ++ b :: nil) (List.length (h ++ a :: nil)) = b.
Proof. unfold hget. rewrite app_nth2, Nat.sub_diag by lia. reflexivity. Qed.
Lemma hget_hset_same h r d : (r < List.length h)%nat -> hget (hset h r d) r = d.
Proof. revert r; induction h as [|a h IH]; intros r Hr; cbn in Hr; [lia|]. destruct r; [reflexivity|]. cbn. apply IH; lia. Qed.
Lemma hget_hset_other h r r' d : r <> r' -> hget (hset h r d) r' = hget h r'.
Proof.
  revert r r'; induction h as [|a h IH]; intros r r' Hr; [destruct r; reflexivity|].
  destruct r, r'; try reflexivity; try congruence. cbn. apply IH; congruence.
Qed.

Lemma row_change N A A' w i : (forall j, (j < N)%nat -> A i j = A' i j) -> matvec N A w i = matvec N A' w i.
Proof.
  intros H. unfold matvec. assert (G : forall m, (m <= N)%nat -> nsum m (fun j => nmul (A i j) (w j)) = nsum m (fun j => nmul (A' i j) (w j))).
  { induction m; intros Hm; cbn [nsum]; [reflexivity|]. rewrite IHm, H by lia. reflexivity. }
  apply G; lia.
Qed.
Lemma eye_row N w i : (i < N)%nat -> matvec N eye (fun j => Some (w j)) i = Some (w i).
Proof.
  intros H. rewrite (matvec1 N eye w i (fun j => delta i j)); [now rewrite rsum_delta|].
  intros j Hj. unfold eye, delta. destruct (Nat.eqb i j); reflexivity.
Qed.
Lemma zero_row_mv N A (w : nat -> R) i : (forall j, A i j = Some 0) -> matvec N A (fun j => Some (w j)) i = Some 0.
Proof. intros H. rewrite (matvec1 N A w i (fun _ => 0)); [now rewrite rsum_0w|]. intros; apply H. Qed.

Definition lit (s : string) : dict := ("type"%string, BStr s) :: nil.
Lemma known_sym : known_BC (BStr "sym") = true. Proof. reflexivity. Qed.
Lemma known_per : known_BC (BStr "per") = true. Proof. reflexivity. Qed.
Lemma dget_lit s : dget "type" (lit s) = Some (BStr s). Proof. reflexivity. Qed.
Lemma drm_lit s : dremove "type" (lit s) = nil. Proof. reflexivity. Qed.
Lemma set_strings s1 s2 h e : known_BC (BStr s1) = true -> known_BC (BStr s2) = true ->
  exists h2 l r, set_BC (ArgStr s1) (ArgStr s2) h e = (None, h2, mk_euler (eu_cheb e) (eu_base e) (Some (l, r)) (eu_ops e)) /\
  l <> r /\ hget h2 l = lit s1 /\ hget h2 r = lit s2.
Proof.
  intros K1 K2. exists ((h ++ lit s1 :: nil) ++ lit s2 :: nil), (List.length h), (List.length (h ++ lit s1 :: nil)).
  split; [|split; [rewrite app_length; cbn; lia|split; [apply hget_app1|apply hget_app2]]].
  unfold set_BC, check_BC. fold (lit s1) (lit s2). unfold hget at 1. rewrite app_nth2, Nat.sub_diag by lia. cbn [nth]. rewrite dget_lit, K1.
  unfold hget at 1. rewrite app_nth2, Nat.sub_diag by lia. cbn [nth]. rewrite dget_lit, K2. reflexivity.
Qed.
Lemma apply_sym n D x q s i0 r h o : hget h r = lit "sym" ->
  apply_BC n D x q s i0 r h o = (None, hset h r nil, setBC_sym n D s i0 o).
Proof. intros E. unfold apply_BC. rewrite E, dget_lit, drm_lit. reflexivity. Qed.
Lemma compute_sym_sym n D x q l r h o : l <> r -> hget h l = lit "sym" -> hget h r = lit "sym" ->
  compute_BC n D x q (Some (l, r)) h o =
  (None, hset (hset h l nil) r nil, setBC_sym n D (n - 1) (n - 1) (setBC_sym n D 0 0 o)).
Proof.
  intros Hlr El Er. unfold compute_BC. rewrite El, dget_lit. cbn [is_str String.eqb Ascii.eqb Bool.eqb].
  rewrite (apply_sym n D x q 0 0 l h o El). apply apply_sym. rewrite hget_hset_other; assumption.
Qed.
Lemma compute_per_per n D x q l r h o : hget h l = lit "per" -> hget h r = lit "per" ->
  compute_BC n D x q (Some (l, r)) h o = (None, h, setBC_per n D o).
Proof. intros El Er. unfold compute_BC. rewrite El, Er, !dget_lit. reflexivity. Qed.

(** the object after set_basestate and set_BC *)
Lemma fresh_get n a b h q s1 s2 (post : mat -> ops -> ops) : (2 <= n)%nat -> a < b ->
  known_BC (BStr s1) = true -> known_BC (BStr s2) = true ->
  (forall D x l r h o, l <> r -> hget h l = lit s1 -> hget h r = lit s2 ->
     exists h', compute_BC n D x q (Some (l, r)) h o = (None, h', post D o)) ->
  let s := erun (OpBase q :: OpBC (ArgStr s1) (ArgStr s2) :: nil) (h, euler_init n (Some (Some a)) (Some (Some b)) None) in
  exists D x d, (forall i j, (i < n)%nat -> (j < n)%nat -> D i j = Some (d i j)) /\
  (forall i, (i < n)%nat -> cheb_x n (Some a) (Some b) i = Some (x i)) /\ differentiates n x 1 d /\
  fst (fst (get_RHS_time_matrices (fst s) (snd s))) = inr (post D (mk_ops (3 * n) euler_At (euler_B n D q))).
Proof.
  intros Hn Hab K1 K2 HP s. destruct (cheb_real n a b nil 1 Hn Hab ltac:(lia)) as (D & d & x & c' & E & Hc & Hd & Hx & Df).
  exists D, x, d. split; [exact Hd|]. split; [exact Hx|]. split; [exact Df|].
  unfold s. cbn [erun estep]. destruct (set_strings s1 s2 h (set_basestate q (euler_init n (Some (Some a)) (Some (Some b)) None)) K1 K2)
    as (h2 & l & r & Es & Hlr & El & Er). rewrite Es; cbn [fst snd].
  pose proof (first_get h2 (mk_euler (cheb_init n (Some (Some a)) (Some (Some b))) (Some q) (Some (l, r)) None) q D c' eq_refl eq_refl E) as G.
  cbv zeta in G. destruct Hc as (C1 & C2 & C3 & _). rewrite C1, C2, C3 in G. cbn [eu_BC] in G.
  destruct (HP D (cheb_x n (Some a) (Some b)) l r h2 (mk_ops (3 * n) euler_At (euler_B n D q)) Hlr El Er) as (h' & EB).
  rewrite EB in G. cbn [set_basestate euler_init eu_cheb eu_base eu_ops]. rewrite G. reflexivity.
Qed.

Definition finite_base (n : nat) (q : estate) (r u p : nat -> R) (g : R) : Prop :=
  (forall i, (i < n)%nat -> e_rho q i = Some (r i) /\ e_u q i = Some (u i) /\ e_p q i = Some (p i) /\ r i <> 0) /\ e_g q = Some g.

Lemma interior n D d q r u p g w k : finite_base n q r u p g ->
  (forall i j, (i < n)%nat -> (j < n)%nat -> D i j = Some (d i j)) -> (k < n)%nat ->
  forall B A, (forall i j, (i = k \/ i = n + k \/ i = 2 * n + k)%nat -> B i j = euler_B n D q i j /\ A i j = eye i j) ->
  linearised_rows n d r u p g w (matvec (3 * n) B (fun j => Some (w j))) (matvec (3 * n) A (fun j => Some (w j))) k.
Proof.
  intros [Hq Hg] HD Hk B A Hrow.
  destruct (linearisation n D d q r u p g w k HD Hq Hg Hk) as (b0 & b1 & b2 & E0 & E1 & E2 & F0 & F1 & F2).
  exists b0, b1, b2.
  rewrite !(row_change (3 * n) B (euler_B n D q)), !(row_change (3 * n) A eye) by (intros; apply Hrow; auto).
  rewrite !eye_row by lia.
  exact (conj E0 (conj E1 (conj E2 (conj F0 (conj F1 (conj F2 (conj eq_refl (conj eq_refl eq_refl)))))))).
Qed.

(*@P C49_assembled_sym: On a new Euler1D object, after set_basestate and set_BC('sym', 'sym'), the first get_RHS_time_matrices returns, for every n >= 3, interval, base state and perturbation: at interior nodes the linearised Euler equations, with an exact differentiation matrix and the identity in time; at both end nodes rho_x, u, p_x without time derivative. *)
Lemma assembled_sym : forall n a b h q r u p g w, (2 <= n)%nat -> a < b -> finite_base n q r u p g ->
  let s := erun (OpBase q :: OpBC (ArgStr "sym") (ArgStr "sym") :: nil) (h, euler_init n (Some (Some a)) (Some (Some b)) None) in
  exists o x d, fst (fst (get_RHS_time_matrices (fst s) (snd s))) = inr o /\ o_size o = (3 * n)%nat /\
  (forall i, (i < n)%nat -> cheb_x n (Some a) (Some b) i = Some (x i)) /\ differentiates n x 1 d /\
  let Bw := matvec (3 * n) (o_B o) (fun j => Some (w j)) in let Aw := matvec (3 * n) (o_At o) (fun j => Some (w j)) in
  (forall k, (0 < k < n - 1)%nat -> linearised_rows n d r u p g w Bw Aw k) /\
  symmetry_rows n d w Bw Aw 0 /\ symmetry_rows n d w Bw Aw (n - 1).
Proof.
  intros n a b h q r u p g w Hn Hab Hq s.
  destruct (fresh_get n a b h q "sym" "sym" (fun D o => setBC_sym n D (n - 1) (n - 1) (setBC_sym n D 0 0 o)) Hn Hab known_sym known_sym)
    as (D & x & d & HD & Hx & Df & E).
  { intros. eexists. now apply compute_sym_sym. }
  cbv beta in E. set (o0 := mk_ops (3 * n) euler_At (euler_B n D q)) in *.
  destruct (sym_rows n D d o0 0 0 w ltac:(lia) ltac:(lia) ltac:(left; reflexivity) HD) as (N1 & R0 & R1 & R2 & Z & U).
  set (o1 := setBC_sym n D 0 0 o0) in *.
  destruct (sym_rows n D d o1 (n - 1) (n - 1) w ltac:(lia) ltac:(lia) ltac:(left; reflexivity) HD) as (N2 & T0 & T1 & T2 & Z' & U').
  set (o2 := setBC_sym n D (n - 1) (n - 1) o1) in *.
  exists o2, x, d. split; [exact E|]. split; [reflexivity|]. split; [exact Hx|]. split; [exact Df|].
  change (o_size o1) with (3 * n)%nat in *. change (o_size o2) with (3 * n)%nat in *.
  intros Bw Aw. split; [|split].
  - intros k Hk. apply (interior n D d q r u p g w k Hq HD ltac:(lia)). intros i j Hi.
    destruct (U' i j) as [-> ->]; [lia..|]. destruct (U i j) as [-> ->]; [lia..|]. split; reflexivity.
  - assert (V : forall i, (i = 0 \/ i = n + 0 \/ i = 2 * n + 0)%nat -> Bw i = matvec (3 * n) (o_B o1) (fun j => Some (w j)) i /\ Aw i = matvec (3 * n) (o_At o1) (fun j => Some (w j)) i).
    { intros i Hi. split; apply row_change; intros j Hj; destruct (U' i j) as [X Y]; try lia; assumption. }
    unfold symmetry_rows. destruct (V 0%nat) as [-> ->]; [lia|]. destruct (V (n + 0)%nat) as [-> ->]; [lia|]. destruct (V (2 * n + 0)%nat) as [-> ->]; [lia|].
    split; [exact R0|]. split; [exact R1|]. split; [exact R2|].
    split; [|split]; apply zero_row_mv; intros j; destruct (Z j) as (? & ? & ?); assumption.
  - assert (Z0 : forall i, (forall j, o_At o2 i j = Some 0) -> Aw i = Some 0) by (intros; now apply zero_row_mv).
    split; [exact T0|]. split; [exact T1|]. split; [exact T2|].
    split; [|split]; apply Z0; intros j; destruct (Z' j) as (? & ? & ?); assumption.
Qed.

(*@P C49_assembled_per: The same with periodic conditions at both ends. *)
Lemma assembled_per : forall n a b h q r u p g w, (2 <= n)%nat -> a < b -> finite_base n q r u p g ->
  let s := erun (OpBase q :: OpBC (ArgStr "per") (ArgStr "per") :: nil) (h, euler_init n (Some (Some a)) (Some (Some b)) None) in
  exists o x d, fst (fst (get_RHS_time_matrices (fst s) (snd s))) = inr o /\ o_size o = (3 * n)%nat /\
  (forall i, (i < n)%nat -> cheb_x n (Some a) (Some b) i = Some (x i)) /\ differentiates n x 1 d /\
  let Bw := matvec (3 * n) (o_B o) (fun j => Some (w j)) in let Aw := matvec (3 * n) (o_At o) (fun j => Some (w j)) in
  (forall k, (0 < k < n - 1)%nat -> linearised_rows n d r u p g w Bw Aw k) /\ periodic_rows n d w Bw Aw.
Proof.
  intros n a b h q r u p g w Hn Hab Hq s.
  destruct (fresh_get n a b h q "per" "per" (fun D o => setBC_per n D o) Hn Hab known_per known_per)
    as (D & x & d & HD & Hx & Df & E).
  { intros. eexists. now apply compute_per_per. }
  cbv beta in E. set (o0 := mk_ops (3 * n) euler_At (euler_B n D q)) in *.
  destruct (per_rows n D d o0 w Hn eq_refl HD) as (N1 & P & U).
  set (o1 := setBC_per n D o0) in *.
  exists o1, x, d. split; [exact E|]. split; [reflexivity|]. split; [exact Hx|]. split; [exact Df|].
  change (o_size o1) with (3 * n)%nat in *.
  intros Bw Aw. split.
  - intros k Hk. apply (interior n D d q r u p g w k Hq HD ltac:(lia)). intros i j Hi.
    destruct (U i j) as [-> ->]; [|split; reflexivity]. intros a' Ha. destruct a' as [|[|[|a']]]; lia.
  - intros a' Ha wa. destruct (P a' Ha) as (P0 & P1 & Z).
    split; [exact P0|]. split; [exact P1|]. split; apply zero_row_mv; intros j; destruct (Z j); assumption.
Qed.

(*@E C49_example: a non-uniform base state on five nodes *)
Lemma C49_ex : finite_base 5%nat (mk_estate (fun i => Some (1 + INR i)) (fun i => Some (2 - INR i)) (fun i => Some (INR i ^ 2)) (Some (5/3)))
  (fun i => 1 + INR i) (fun i => 2 - INR i) (fun i => INR i ^ 2) (5/3) /\ (2 <= 5)%nat /\ 0 < 1.
Proof.
  split; [|split; [lia|lra]]. split; [|reflexivity]. intros i _. repeat split; try reflexivity. pose proof (pos_INR i). lra.
Qed.
