(** * C110: accuracy of the spectral operators on smooth functions *)
From Verif Require Import Num L_Num PolySpec SmoothSpec LinalgSpec L_Poly M_Spectral M_SpectralNB L_Spectral L_Spectral2 L_Spectral3 L_Spectral4.
Open Scope R_scope.

(** ** zeros of the successive derivatives *)
Notation jet_on := derivatives_on.
Lemma jet_on_lin a b f g c : jet_on a b f -> jet g -> jet_on a b (fun m x => f m x - c * g m x).
Proof.
  intros F G m x Hx. apply (is_derive_minus (f m) (fun x => c * g m x)); [now apply F|]. apply (is_derive_scal (g m)). apply G.
Qed.
(** strictly increasing lists *)
Fixpoint chain (lo : R) (l : list R) : Prop := match l with nil => True | z :: r => lo < z /\ chain z r end.
Lemma chain_lt lo l : chain lo l -> forall z, In z l -> lo < z.
Proof. revert lo; induction l as [|y l IH]; intros lo H z Hz; [destruct Hz|]. destruct H as [H1 H2]. destruct Hz as [<-|Hz]; [assumption|]. specialize (IH y H2 z Hz). lra. Qed.
Lemma chain_lo lo lo' l : lo' <= lo -> chain lo l -> chain lo' l.
Proof. destruct l as [|z l]; [trivial|]. intros H [A B]. split; [lra|assumption]. Qed.
Lemma chain_insert x l lo : chain lo l -> lo < x -> ~ In x l -> exists l', chain lo l' /\ length l' = S (length l) /\ forall z, In z l' -> z = x \/ In z l.
Proof.
  revert lo; induction l as [|y l IH]; intros lo C L N.
  - exists (x :: nil). split; [split; [assumption|trivial]|]. split; [reflexivity|]. intros z [<-|[]]. now left.
  - destruct C as [C1 C2]. destruct (Rtotal_order x y) as [H|[H|H]].
    + exists (x :: y :: l). split; [split; [assumption|split; assumption]|]. split; [reflexivity|]. intros z [<-|Hz]; [now left|now right].
    + exfalso. apply N. left. now symmetry.
    + destruct (IH y C2 H) as (l' & A & B & D). { intros I. apply N. now right. }
      exists (y :: l'). split; [split; assumption|]. split; [cbn; now rewrite B|]. intros z [<-|Hz]; [right; now left|]. destruct (D z Hz) as [->|I]; [now left|right; now right].
Qed.
Lemma chain_of_nodup l : NoDup l -> forall lo, (forall z, In z l -> lo < z) -> exists l', chain lo l' /\ length l' = length l /\ forall z, In z l' -> In z l.
Proof.
  induction 1 as [|x l N ND IH]; intros lo H; [exists nil; split; [exact I|split; [reflexivity|trivial]]|].
  destruct (IH lo) as (l' & A & B & C). { intros z Hz. apply H. now right. }
  destruct (chain_insert x l' lo A) as (l2 & A2 & B2 & C2). { apply H. now left. } { intros Hx. apply N. now apply C. }
  exists l2. split; [exact A2|]. split; [cbn; now rewrite B2, B|]. intros z Hz. destruct (C2 z Hz) as [->|Hz']; [now left|right; now apply C].
Qed.
(** Rolle: between consecutive zeros, none of them, a zero of the derivative *)
Lemma rolle (f f' : R -> R) z r : z < r -> (forall x, z <= x <= r -> is_derive f x (f' x)) -> f z = 0 -> f r = 0 -> exists c, z < c < r /\ f' c = 0.
Proof.
  intros L D Z1 Z2. destruct (MVT_cor2 f f' z r L) as (c & Hc & I).
  - intros x Hx. apply is_derive_Reals. now apply D.
  - exists c. split; [assumption|]. rewrite Z1, Z2 in Hc. assert (E : f' c * (r - z) = 0) by lra. apply Rmult_integral in E. destruct E; [assumption|lra].
Qed.
Lemma rolle_chain a b (f f' : R -> R) : (forall x, a <= x <= b -> is_derive f x (f' x)) ->
  forall l z, chain z l -> (forall y, In y (z :: l) -> a <= y <= b /\ f y = 0) ->
  exists l', chain z l' /\ length l' = length l /\ forall y, In y l' -> a <= y <= b /\ f' y = 0 /\ ~ In y (z :: l).
Proof.
  intros D l. induction l as [|r l IH]; intros z C H.
  - exists nil. split; [exact I|]. split; [reflexivity|]. intros y [].
  - destruct C as [C1 C2]. destruct (IH r C2) as (l' & A & B & E). { intros y Hy. apply H. now right. }
    destruct (H z (or_introl eq_refl)) as [Z1 Z2]. destruct (H r (or_intror (or_introl eq_refl))) as [R1 R2].
    destruct (rolle f f' z r C1) as (c & Hc & Ec); try assumption. { intros x Hx. apply D. lra. }
    exists (c :: l'). split; [split; [lra|apply (chain_lo r); [lra|assumption]]|]. split; [cbn; now rewrite B|].
    intros y [<-|Hy].
    + split; [lra|]. split; [assumption|]. intros [I|[I|I]]; try lra. pose proof (chain_lt r l C2 c I). lra.
    + destruct (E y Hy) as (Y1 & Y2 & Y3). split; [assumption|]. split; [assumption|]. intros [I|I]; [|now apply Y3]. pose proof (chain_lt r l' A y Hy). lra.
Qed.
Definition zeros (a b : R) (f : R -> R) (l : list R) : Prop := chain (a - 1) l /\ forall y, In y l -> a <= y <= b /\ f y = 0.
Lemma zeros_step a b f f' l : (forall x, a <= x <= b -> is_derive f x (f' x)) -> zeros a b f l ->
  exists l', zeros a b f' l' /\ length l' = (length l - 1)%nat /\ forall y, In y l' -> ~ In y l.
Proof.
  intros D [C H]. destruct l as [|z l].
  - exists nil. split; [split; [exact I|intros y []]|]. split; [reflexivity|]. intros y [].
  - destruct C as [C1 C2]. destruct (rolle_chain a b f f' D l z C2 H) as (l' & A & B & E). exists l'. split; [split|].
    + apply (chain_lo z); [lra|assumption].
    + intros y Hy. destruct (E y Hy) as (Y1 & Y2 & _). split; assumption.
    + split; [cbn; lia|]. intros y Hy. apply (E y Hy).
Qed.
Lemma zeros_iter a b f m : jet_on a b f -> forall k l, zeros a b (f k) l -> exists l', zeros a b (f (k + m)%nat) l' /\ length l' = (length l - m)%nat.
Proof.
  intros J. induction m as [|m IH]; intros k l Z.
  - exists l. rewrite Nat.add_0_r, Nat.sub_0_r. split; [assumption|reflexivity].
  - destruct (IH k l Z) as (l1 & Z1 & L1). destruct (zeros_step a b (f (k + m)%nat) (f (S (k + m))) l1 (J (k + m)%nat) Z1) as (l2 & Z2 & L2 & _).
    exists l2. rewrite Nat.add_succ_r. split; [assumption|lia].
Qed.
Lemma zero_of_derivative a b f m l : jet_on a b f -> zeros a b (f 0%nat) l -> (m < length l)%nat -> exists y, a <= y <= b /\ f m y = 0.
Proof.
  intros J Z L. destruct (zeros_iter a b f m J 0%nat l Z) as (l' & [_ Z'] & L'). destruct l' as [|y l']; [cbn in L'; lia|].
  exists y. apply Z'. now left.
Qed.
Lemma zeros_insert a b f l x : zeros a b f l -> a <= x <= b -> f x = 0 -> ~ In x l -> exists l', zeros a b f l' /\ length l' = S (length l).
Proof.
  intros [C H] Hx E N. destruct (chain_insert x l (a - 1) C ltac:(lra) N) as (l' & A & B & D). exists l'. split; [|exact B]. split; [exact A|].
  intros y Hy. destruct (D y Hy) as [->|I]; [split; assumption|now apply H].
Qed.

(** ** the highest derivative of a polynomial *)
Lemma pder_nth c j : nth j (pder c) 0 = INR (S j) * nth (S j) c 0.
Proof.
  revert j; induction c as [|a c IH]; intros j; [cbn [pder]; destruct j; cbn [nth]; ring|].
  cbn [pder]. rewrite nth_padd. destruct j as [|j]; cbn [nth]; [cbn [INR]; destruct c; cbn; ring|]. rewrite IH. rewrite (S_INR (S j)). ring.
Qed.
Lemma iter_pder_nth m c : forall j, nth j (Nat.iter m pder c) 0 * INR (fact j) = INR (fact (j + m)) * nth (j + m) c 0.
Proof.
  induction m as [|m IH]; intros j.
  - change (Nat.iter 0 pder c) with c. rewrite Nat.add_0_r. ring.
  - change (Nat.iter (S m) pder c) with (pder (Nat.iter m pder c)). rewrite pder_nth. specialize (IH (S j)). replace (j + S m)%nat with (S j + m)%nat by lia. rewrite <- IH.
    rewrite (fact_simpl j), mult_INR. ring.
Qed.
Lemma peval_const c x : (forall j, nth (S j) c 0 = 0) -> peval c x = nth 0 c 0.
Proof.
  destruct c as [|a c]; [reflexivity|]. intros H. cbn [nth peval]. cbn [nth] in H.
  assert (E : peval c x = 0). { clear a. induction c as [|b c IH]; [reflexivity|]. cbn [peval]. rewrite IH by (intros j; apply (H (S j))). specialize (H 0%nat). cbn in H. rewrite H. ring. }
  rewrite E. ring.
Qed.
Lemma iter_pder_zero m c j : (length c <= j + m)%nat -> nth j (Nat.iter m pder c) 0 = 0.
Proof.
  intros L. pose proof (iter_pder_nth m c j) as E. rewrite (nth_overflow c) in E by lia. pose proof (INR_fact_lt_0 j).
  apply (Rmult_eq_reg_r (INR (fact j))); [|lra]. rewrite E. ring.
Qed.
Lemma pjet_top m c x : length c = S m -> pjet c m x = INR (fact m) * nth m c 0.
Proof.
  intros L. unfold pjet. rewrite peval_const by (intros j; apply iter_pder_zero; lia).
  pose proof (iter_pder_nth m c 0%nat) as E. cbn [Nat.add fact INR] in E. lra.
Qed.
Lemma pjet_beyond m c x : (length c <= m)%nat -> pjet c m x = 0.
Proof.
  intros L. unfold pjet. rewrite peval_const by (intros j; apply iter_pder_zero; lia). apply iter_pder_zero. lia.
Qed.

(** ** the error of a function with many zeros *)
Lemma err_poly a b (e : nat -> R -> R) (w : list R) l m x B : jet_on a b e -> zeros a b (e 0%nat) l -> length w = S m -> (m <= length l)%nat ->
  (forall z, In z l -> peval w z = 0) -> a <= x <= b -> ~ In x l -> peval w x <> 0 -> (forall y, a <= y <= b -> Rabs (e m y) <= B) ->
  Rabs (e 0%nat x) * Rabs (INR (fact m) * nth m w 0) <= B * Rabs (peval w x).
Proof.
  intros J Z Lw Ll Hw Hx Nx W HB. set (c := e 0%nat x / peval w x).
  set (h := fun k y => e k y - c * pjet w k y).
  assert (Jh : jet_on a b h) by (apply jet_on_lin; [assumption|apply pjet_jet]).
  assert (Z0 : zeros a b (h 0%nat) l). { destruct Z as [C H]. split; [exact C|]. intros y Hy. destruct (H y Hy) as [Y1 Y2]. split; [exact Y1|]. unfold h. change (pjet w 0%nat y) with (peval w y). rewrite Y2, (Hw y Hy). ring. }
  destruct (zeros_insert a b (h 0%nat) l x Z0 Hx) as (l' & Z' & L'); [unfold h, c; change (pjet w 0%nat x) with (peval w x); field; assumption|assumption|].
  destruct (zero_of_derivative a b h m l' Jh Z' ltac:(lia)) as (y & Hy & Ey). unfold h in Ey. rewrite pjet_top in Ey by assumption.
  specialize (HB y Hy). assert (E : e m y = c * (INR (fact m) * nth m w 0)) by lra. rewrite E in HB. unfold c in HB.
  replace (e 0%nat x) with (e 0%nat x / peval w x * peval w x) by (field; assumption). rewrite !Rabs_mult in *.
  replace (Rabs (e 0%nat x / peval w x) * Rabs (peval w x) * (Rabs (INR (fact m)) * Rabs (nth m w 0))) with (Rabs (e 0%nat x / peval w x) * (Rabs (INR (fact m)) * Rabs (nth m w 0)) * Rabs (peval w x)) by ring.
  apply Rmult_le_compat_r; [apply Rabs_pos|assumption].
Qed.
Fixpoint pprod (l : list R) : list R := match l with nil => 1 :: nil | z :: r => plin (- z) 1 (pprod r) end.
Lemma pprod_length l : length (pprod l) = S (length l).
Proof. induction l; [reflexivity|]. cbn [pprod]. rewrite plin_length, IHl. reflexivity. Qed.
Lemma plin_top a b c m : length c = S m -> nth (S m) (plin a b c) 0 = b * nth m c 0.
Proof.
  intros L. unfold plin. rewrite nth_padd. cbn [nth]. rewrite !nth_pscal. rewrite (nth_overflow c) by lia. ring.
Qed.
Lemma pprod_top l : nth (length l) (pprod l) 0 = 1.
Proof. induction l; [reflexivity|]. cbn [pprod length]. rewrite plin_top by apply pprod_length. rewrite IHl. ring. Qed.
Lemma pprod_zero l z : In z l -> peval (pprod l) z = 0.
Proof. induction l as [|y l IH]; intros H; [destruct H|]. cbn [pprod]. rewrite plin_eval. destruct H as [->|H]; [ring|]. rewrite (IH H). ring. Qed.
Lemma pprod_neq l x : ~ In x l -> peval (pprod l) x <> 0.
Proof. induction l as [|y l IH]; intros H; [cbn; lra|]. cbn [pprod]. rewrite plin_eval. apply Rmult_integral_contrapositive_currified; [|apply IH; intros I; apply H; now right]. intros E. apply H. left. lra. Qed.
Lemma pprod_bound a b l x : a <= x <= b -> (forall z, In z l -> a <= z <= b) -> Rabs (peval (pprod l) x) <= (b - a) ^ length l.
Proof.
  intros Hx. induction l as [|y l IH]; intros H; [cbn; rewrite Rabs_pos_eq; lra|]. cbn [pprod length pow]. rewrite plin_eval, Rabs_mult.
  apply Rmult_le_compat; try apply Rabs_pos; [|apply IH; intros z Hz; apply H; now right]. specialize (H y (or_introl eq_refl)). apply Rabs_le. lra.
Qed.
Lemma err_many a b e l x B : jet_on a b e -> zeros a b (e 0%nat) l -> a <= x <= b -> (forall y, a <= y <= b -> Rabs (e (length l) y) <= B) ->
  Rabs (e 0%nat x) <= B / INR (fact (length l)) * (b - a) ^ length l.
Proof.
  intros J Z Hx HB. assert (B0 : 0 <= B) by (eapply Rle_trans; [apply Rabs_pos|apply (HB x Hx)]).
  pose proof (INR_fact_lt_0 (length l)) as F. assert (P : 0 <= (b - a) ^ length l) by (apply pow_le; lra).
  destruct (in_dec Req_EM_T x l) as [I|N].
  - destruct Z as [_ Z]. destruct (Z x I) as [_ ->]. rewrite Rabs_R0. apply Rmult_le_pos; [|assumption]. apply Rdiv_le_0_compat; assumption.
  - pose proof (err_poly a b e (pprod l) l (length l) x B J Z (pprod_length l) (le_n _) (fun z => pprod_zero l z) Hx N (pprod_neq l x N) HB) as E.
    rewrite pprod_top, Rmult_1_r in E. rewrite (Rabs_pos_eq (INR _)) in E by lra.
    apply (Rmult_le_reg_r (INR (fact (length l)))); [assumption|]. eapply Rle_trans; [exact E|].
    replace (B / INR (fact (length l)) * (b - a) ^ length l * INR (fact (length l))) with (B * (b - a) ^ length l) by (field; lra).
    apply Rmult_le_compat_l; [assumption|]. apply pprod_bound; [assumption|]. intros z Hz. now apply Z.
Qed.
(** the same for the derivatives *)
Lemma jet_on_shift a b f k : jet_on a b f -> jet_on a b (fun m => f (k + m)%nat).
Proof. intros J m x Hx. replace (k + S m)%nat with (S (k + m)) by lia. now apply J. Qed.
Lemma err_derivative a b e l k x B : jet_on a b e -> zeros a b (e 0%nat) l -> (k <= length l)%nat -> a <= x <= b -> (forall y, a <= y <= b -> Rabs (e (length l) y) <= B) ->
  Rabs (e k x) <= B / INR (fact (length l - k)) * (b - a) ^ (length l - k).
Proof.
  intros J Z Hk Hx HB. destruct (zeros_iter a b e k J 0%nat l Z) as (l' & Z' & L'). cbn [Nat.add] in Z'.
  rewrite <- L'. replace (e k) with (e (k + 0)%nat) in * by (f_equal; lia).
  apply (err_many a b (fun m => e (k + m)%nat) l' x B (jet_on_shift a b e k J) Z' Hx).
  intros y Hy. replace (k + length l')%nat with (length l) by lia. now apply HB.
Qed.

(** ** Chebyshev nodes *)
Lemma Up_top k : nth k (Up k) 0 = 2 ^ k.
Proof.
  induction k as [| |k IH0 IH1] using nat_ind2; [cbn; ring..|].
  rewrite Up_SS, nth_padd, nth_pscal, plin_top by apply Up_length. rewrite IH1, (nth_overflow (Up k)) by (rewrite Up_length; lia). cbn [pow]. ring.
Qed.
Lemma Qp_top n : (1 <= n)%nat -> nth (S n) (Qp n) 0 = 2 ^ (n - 1).
Proof.
  intros H. destruct n as [|n]; [lia|]. unfold Qp. replace (S n - 1)%nat with n by lia. rewrite (plin_top (-1) 1 _ (S n)) by (rewrite plin_length, Up_length; reflexivity).
  rewrite (plin_top 1 1 _ n) by apply Up_length. rewrite Up_top. ring.
Qed.
Definition nodes (n : nat) : list R := map (node n) (seq 0%nat (S n)).
Lemma in_nodes n z : In z (nodes n) <-> exists i, (i <= n)%nat /\ z = node n i.
Proof.
  unfold nodes. rewrite in_map_iff. split.
  - intros (i & E & I). apply in_seq in I. exists i. split; [lia|now symmetry].
  - intros (i & Hi & ->). exists i. split; [reflexivity|]. apply in_seq. lia.
Qed.
Lemma node_in n i : -1 <= node n i <= 1. Proof. unfold node. apply COS_bound. Qed.
Lemma nodes_chain n : (1 <= n)%nat -> exists l, chain (-1 - 1) l /\ length l = S n /\ forall z, In z l <-> In z (nodes n).
Proof.
  intros H. destruct (chain_of_nodup (nodes n) (nodes_NoDup n H) (-1 - 1)) as (l & A & B & C).
  { intros z Hz. apply in_nodes in Hz. destruct Hz as (i & _ & ->). pose proof (node_in n i). lra. }
  exists l. split; [exact A|]. unfold nodes in B. rewrite map_length, seq_length in B. split; [exact B|]. intros z. split; [apply C|].
  assert (ND : NoDup l). { clear - A. revert A. generalize (-1 - 1). induction l as [|y l IH]; intros lo A; [constructor|]. destruct A as [A1 A2]. constructor; [|now apply (IH y)]. intros I. pose proof (chain_lt y l A2 y I). lra. }
  assert (INC : incl (nodes n) l). { apply NoDup_length_incl; [assumption| |exact C]. unfold nodes. rewrite map_length, seq_length, B. lia. }
  apply INC.
Qed.
Lemma Qp_bound n x : (1 <= n)%nat -> -1 <= x <= 1 -> Rabs (peval (Qp n) x) <= 1.
Proof.
  intros H Hx. rewrite <- (cos_acos x Hx). rewrite Qp_cos by assumption. set (t := acos x). rewrite Rabs_Ropp, Rabs_mult.
  pose proof (SIN_bound t). pose proof (SIN_bound (INR n * t)).
  assert (Rabs (sin t) <= 1) by (apply Rabs_le; lra). assert (Rabs (sin (INR n * t)) <= 1) by (apply Rabs_le; lra).
  replace 1 with (1 * 1) by ring. apply Rmult_le_compat; try apply Rabs_pos; assumption.
Qed.
Lemma Qp_neq n x : (1 <= n)%nat -> ~ In x (nodes n) -> peval (Qp n) x <> 0.
Proof.
  intros H N E. assert (Z : forall y, peval (Qp n) y = 0).
  { apply (peval_roots (x :: nodes n)).
    - constructor; [assumption|]. apply nodes_NoDup. assumption.
    - rewrite Qp_length by assumption. cbn [length]. unfold nodes. rewrite map_length, seq_length. lia.
    - intros r [<-|Hr]; [assumption|]. apply in_nodes in Hr. destruct Hr as (i & _ & ->). now apply Qp_root. }
  pose proof (jet_ext (pjet (Qp n)) (fun _ _ => 0) (pjet_jet _) jet_zero Z 1%nat (node n 0%nat)) as D. rewrite Qp_der in D by lia.
  now apply (sw_neq n 0%nat H).
Qed.
Lemma sw_abs n i : (1 <= n)%nat -> Rabs (sw n i) <= 2 * INR n.
Proof.
  intros H. pose proof (INRp n H). unfold sw. rewrite !Rabs_mult, <- RPow_abs. replace (Rabs (-1)) with 1 by (rewrite Rabs_left; lra). rewrite pow1, Rmult_1_r.
  rewrite (Rabs_pos_eq (INR n)) by lra. rewrite Rmult_comm. apply Rmult_le_compat_r; [lra|]. unfold cw. destruct (orb _ _); rewrite Rabs_pos_eq; lra.
Qed.

(** errors in the variable of [-1, 1] *)
Lemma std_zero n e x B : (1 <= n)%nat -> jet_on (-1) 1 e -> (forall i, (i <= n)%nat -> e 0%nat (node n i) = 0) -> -1 <= x <= 1 ->
  (forall y, -1 <= y <= 1 -> Rabs (e (S n) y) <= B) -> Rabs (e 0%nat x) * (INR (fact (S n)) * 2 ^ (n - 1)) <= B.
Proof.
  intros H J Z Hx HB. destruct (nodes_chain n H) as (l & C & L & I).
  assert (ZZ : zeros (-1) 1 (e 0%nat) l). { split; [exact C|]. intros y Hy. apply I, in_nodes in Hy. destruct Hy as (i & Hi & ->). split; [apply node_in|now apply Z]. }
  assert (B0 : 0 <= B) by (eapply Rle_trans; [apply Rabs_pos|apply (HB x Hx)]).
  destruct (in_dec Req_EM_T x l) as [Ix|N].
  - destruct ZZ as [_ ZZ]. destruct (ZZ x Ix) as [_ ->]. rewrite Rabs_R0, Rmult_0_l. assumption.
  - assert (N' : ~ In x (nodes n)) by (intros Q; apply N, I, Q).
    pose proof (err_poly (-1) 1 e (Qp n) l (S n) x B J ZZ (Qp_length n H) ltac:(lia)) as E.
    assert (E' := E ltac:(intros z Hz; apply I, in_nodes in Hz; destruct Hz as (i & _ & ->); now apply Qp_root) Hx N (Qp_neq n x H N') HB). clear E.
    rewrite Qp_top in E' by assumption. pose proof (INR_fact_lt_0 (S n)). assert (0 < 2 ^ (n - 1)) by (apply pow_lt; lra).
    rewrite (Rabs_pos_eq (INR _ * _)) in E' by (apply Rmult_le_pos; lra).
    pose proof (Qp_bound n x H Hx). eapply Rle_trans; [exact E'|]. rewrite <- (Rmult_1_r B) at 2. apply Rmult_le_compat_l; assumption.
Qed.
Lemma std_first n e i B : (1 <= n)%nat -> (i <= n)%nat -> jet_on (-1) 1 e -> (forall j, (j <= n)%nat -> e 0%nat (node n j) = 0) ->
  (forall y, -1 <= y <= 1 -> Rabs (e (S n) y) <= B) -> Rabs (e 1%nat (node n i)) * (INR (fact (S n)) * 2 ^ (n - 1)) <= B * (2 * INR n).
Proof.
  intros H Hi J Z HB. destruct (nodes_chain n H) as (l & C & L & I). set (x := node n i).
  assert (B0 : 0 <= B) by (eapply Rle_trans; [apply Rabs_pos|apply (HB x (node_in n i))]).
  set (c := e 1%nat x / sw n i). set (h := fun k y => e k y - c * pjet (Qp n) k y).
  assert (Jh : jet_on (-1) 1 h) by (apply jet_on_lin; [assumption|apply pjet_jet]).
  assert (ZZ : zeros (-1) 1 (h 0%nat) l).
  { split; [exact C|]. intros y Hy. apply I, in_nodes in Hy. destruct Hy as (j & Hj & ->). split; [apply node_in|]. unfold h. change (pjet (Qp n) 0%nat (node n j)) with (peval (Qp n) (node n j)).
    rewrite Qp_root, Z by assumption. ring. }
  destruct (zeros_step (-1) 1 (h 0%nat) (h 1%nat) l (Jh 0%nat) ZZ) as (l' & Z' & L' & N').
  pose proof (sw_neq n i H) as SW.
  assert (Hx : h 1%nat x = 0). { unfold h, x. rewrite Qp_der by assumption. unfold c, x. field. assumption. }
  destruct (zeros_insert (-1) 1 (h 1%nat) l' x Z' (node_in n i) Hx) as (l2 & Z2 & L2). { intros Q. apply (N' x Q). apply I, in_nodes. exists i. split; [assumption|reflexivity]. }
  destruct (zero_of_derivative (-1) 1 (fun m => h (1 + m)%nat) n l2 (jet_on_shift _ _ h 1%nat Jh) Z2 ltac:(lia)) as (y & Hy & Ey).
  unfold h in Ey. cbn [Nat.add] in Ey. rewrite pjet_top, Qp_top in Ey by (assumption || now apply Qp_length).
  specialize (HB y Hy). assert (E : e (S n) y = c * (INR (fact (S n)) * 2 ^ (n - 1))) by lra. rewrite E in HB.
  pose proof (INR_fact_lt_0 (S n)). assert (0 < 2 ^ (n - 1)) by (apply pow_lt; lra).
  rewrite Rabs_mult in HB. rewrite (Rabs_pos_eq (INR _ * _)) in HB by (apply Rmult_le_pos; lra).
  replace (e 1%nat x) with (c * sw n i) by (unfold c; field; assumption). rewrite Rabs_mult.
  replace (Rabs c * Rabs (sw n i) * (INR (fact (S n)) * 2 ^ (n - 1))) with (Rabs c * (INR (fact (S n)) * 2 ^ (n - 1)) * Rabs (sw n i)) by ring.
  apply Rmult_le_compat; [apply Rmult_le_pos; [apply Rabs_pos|apply Rmult_le_pos; lra]|apply Rabs_pos|assumption|now apply sw_abs].
Qed.
Lemma std_all n e k x B : (1 <= n)%nat -> (k <= S n)%nat -> jet_on (-1) 1 e -> (forall i, (i <= n)%nat -> e 0%nat (node n i) = 0) -> -1 <= x <= 1 ->
  (forall y, -1 <= y <= 1 -> Rabs (e (S n) y) <= B) -> Rabs (e k x) <= B / INR (fact (S n - k)) * 2 ^ (S n - k).
Proof.
  intros H Hk J Z Hx HB. destruct (nodes_chain n H) as (l & C & L & I).
  assert (ZZ : zeros (-1) 1 (e 0%nat) l). { split; [exact C|]. intros y Hy. apply I, in_nodes in Hy. destruct Hy as (i & Hi & ->). split; [apply node_in|now apply Z]. }
  rewrite <- L. replace 2 with (1 - -1) by ring. apply err_derivative; try assumption; try lia. rewrite L. exact HB.
Qed.

(** ** the operators of the class *)
Section Scaled.
Variables (a b : R) (n : nat) (F : nat -> R -> R).
Hypotheses (Hn : (1 <= n)%nat) (Hab : a < b) (HF : derivatives_on a b F).
Let s := (b - a) / (-2).
Let o := a - s.
Let G m y := s ^ m * F m (o + s * y).
Lemma in_interval y : -1 <= y <= 1 -> a <= o + s * y <= b.
Proof. intros Hy. unfold o, s. split; nra. Qed.
Lemma G_jet : jet_on (-1) 1 G.
Proof.
  intros m y Hy. unfold G. evar_last.
  - apply is_derive_scal. apply (is_derive_comp (F m) (fun y => o + s * y)); [apply HF, in_interval, Hy|]. auto_derive; [trivial|reflexivity].
  - unfold scal; cbn; unfold mult; cbn. ring.
Qed.
Variable p : list R.
Hypotheses (Lp : (length p <= S n)%nat) (Hp : forall i, (i <= n)%nat -> peval p (node n i) = F 0%nat (o + s * node n i)).
Let e m y := G m y - 1 * pjet p m y.
Lemma e_jet : jet_on (-1) 1 e.
Proof. apply jet_on_lin; [apply G_jet|apply pjet_jet]. Qed.
Lemma e_zero i : (i <= n)%nat -> e 0%nat (node n i) = 0.
Proof. intros Hi. unfold e, G. change (pjet p 0%nat (node n i)) with (peval p (node n i)). rewrite Hp by assumption. cbn [pow]. ring. Qed.
Lemma s_abs : Rabs s = (b - a) / 2.
Proof. unfold s. rewrite Rabs_left by lra. lra. Qed.
Lemma e_top B : (forall y, a <= y <= b -> Rabs (F (S n) y) <= B) -> forall y, -1 <= y <= 1 -> Rabs (e (S n) y) <= ((b - a) / 2) ^ S n * B.
Proof.
  intros HB y Hy. unfold e. rewrite pjet_beyond by assumption. rewrite Rmult_0_r, Rminus_0_r. unfold G. rewrite Rabs_mult, <- RPow_abs, s_abs.
  apply Rmult_le_compat_l; [apply pow_le; lra|]. now apply HB, in_interval.
Qed.
Lemma scaled_all B k y : (k <= S n)%nat -> -1 <= y <= 1 -> (forall y, a <= y <= b -> Rabs (F (S n) y) <= B) ->
  Rabs ((-2 / (b - a)) ^ k * pjet p k y - F k (o + s * y)) <= B / INR (fact (S n - k)) * (b - a) ^ (S n - k).
Proof.
  intros Hk Hy HB. pose proof (std_all n e k y _ Hn Hk e_jet e_zero Hy (e_top B HB)) as E.
  replace ((-2 / (b - a)) ^ k * pjet p k y - F k (o + s * y)) with (- ((-2 / (b - a)) ^ k * e k y)).
  2:{ unfold e, G. replace ((-2 / (b - a)) ^ k * (s ^ k * F k (o + s * y) - 1 * pjet p k y)) with (((-2 / (b - a)) ^ k * s ^ k) * F k (o + s * y) - (-2 / (b - a)) ^ k * pjet p k y) by ring.
      rewrite <- Rpow_mult_distr. replace (-2 / (b - a) * s) with 1 by (unfold s; field; lra). rewrite pow1. ring. }
  rewrite Rabs_Ropp, Rabs_mult, <- RPow_abs. replace (Rabs (-2 / (b - a))) with (2 / (b - a)).
  2:{ rewrite Rabs_left; [field; lra|]. apply Ropp_lt_cancel. rewrite Ropp_0. replace (- (-2 / (b - a))) with (2 / (b - a)) by (field; lra). apply Rdiv_lt_0_compat; lra. }
  apply Rle_trans with ((2 / (b - a)) ^ k * (((b - a) / 2) ^ S n * B / INR (fact (S n - k)) * 2 ^ (S n - k))).
  { apply Rmult_le_compat_l; [|exact E]. apply pow_le. apply Rlt_le, Rdiv_lt_0_compat; lra. }
  right. replace (S n) with ((S n - k) + k)%nat at 1 by lia. rewrite pow_add.
  replace ((2 / (b - a)) ^ k * (((b - a) / 2) ^ (S n - k) * ((b - a) / 2) ^ k * B / INR (fact (S n - k)) * 2 ^ (S n - k)))
    with (((2 / (b - a)) ^ k * ((b - a) / 2) ^ k) * (((b - a) / 2) ^ (S n - k) * 2 ^ (S n - k)) * (B / INR (fact (S n - k)))) by (field; apply INR_fact_neq_0).
  rewrite <- !Rpow_mult_distr. replace (2 / (b - a) * ((b - a) / 2)) with 1 by (field; lra). replace ((b - a) / 2 * 2) with (b - a) by field. rewrite pow1. ring.
Qed.
Lemma pow_quarter : ((b - a) / 4) ^ n * 2 ^ (n - 1) = ((b - a) / 2) ^ n / 2.
Proof.
  clear - Hn. replace ((b - a) / 4) with ((b - a) / 2 * / 2) by field. rewrite Rpow_mult_distr, pow_inv. destruct n as [|k]; [lia|]. replace (S k - 1)%nat with k by lia.
  cbn [pow]. assert (2 ^ k <> 0) by (apply pow_nonzero; lra). field. assumption.
Qed.
Lemma scaled_first B i : (i <= n)%nat -> (forall y, a <= y <= b -> Rabs (F (S n) y) <= B) ->
  Rabs ((-2 / (b - a)) ^ 1 * pjet p 1%nat (node n i) - F 1%nat (o + s * node n i)) <= B / INR (fact (S n)) * (4 * INR n * ((b - a) / 4) ^ n).
Proof.
  intros Hi HB. pose proof (std_first n e i _ Hn Hi e_jet e_zero (e_top B HB)) as E.
  replace ((-2 / (b - a)) ^ 1 * pjet p 1%nat (node n i) - F 1%nat (o + s * node n i)) with (2 / (b - a) * e 1%nat (node n i)).
  2:{ unfold e, G, s. field. lra. }
  pose proof (INR_fact_lt_0 (S n)) as F0. assert (P2 : 0 < 2 ^ (n - 1)) by (apply pow_lt; lra).
  rewrite Rabs_mult, (Rabs_pos_eq (2 / (b - a))) by (apply Rlt_le, Rdiv_lt_0_compat; lra).
  apply (Rmult_le_reg_r (INR (fact (S n)) * 2 ^ (n - 1))); [apply Rmult_lt_0_compat; lra|].
  rewrite Rmult_assoc. apply Rle_trans with (2 / (b - a) * (((b - a) / 2) ^ S n * B * (2 * INR n))).
  { apply Rmult_le_compat_l; [apply Rlt_le, Rdiv_lt_0_compat; lra|exact E]. }
  right. replace (B / INR (fact (S n)) * (4 * INR n * ((b - a) / 4) ^ n) * (INR (fact (S n)) * 2 ^ (n - 1))) with (B * 4 * INR n * (((b - a) / 4) ^ n * 2 ^ (n - 1))) by (field; lra).
  rewrite pow_quarter. rewrite <- (tech_pow_Rmult _ n). field. lra.
Qed.
Lemma scaled_zero B y : -1 <= y <= 1 -> (forall y, a <= y <= b -> Rabs (F (S n) y) <= B) ->
  Rabs (peval p y - F 0%nat (o + s * y)) <= B / INR (fact (S n)) * (4 * ((b - a) / 4) ^ S n).
Proof.
  intros Hy HB. pose proof (std_zero n e y _ Hn e_jet e_zero Hy (e_top B HB)) as E.
  replace (peval p y - F 0%nat (o + s * y)) with (- e 0%nat y) by (unfold e, G; change (pjet p 0%nat y) with (peval p y); cbn [pow]; ring).
  rewrite Rabs_Ropp. pose proof (INR_fact_lt_0 (S n)) as F0. assert (P2 : 0 < 2 ^ (n - 1)) by (apply pow_lt; lra).
  apply (Rmult_le_reg_r (INR (fact (S n)) * 2 ^ (n - 1))); [apply Rmult_lt_0_compat; lra|]. eapply Rle_trans; [exact E|].
  right. rewrite <- (tech_pow_Rmult ((b - a) / 4) n). replace (B / INR (fact (S n)) * (4 * ((b - a) / 4 * ((b - a) / 4) ^ n)) * (INR (fact (S n)) * 2 ^ (n - 1))) with (B * (b - a) * (((b - a) / 4) ^ n * 2 ^ (n - 1))) by (field; lra).
  rewrite pow_quarter. rewrite <- (tech_pow_Rmult _ n). field.
Qed.
End Scaled.

Lemma matder_value a b n h k F p : (1 <= n)%nat -> a < b -> (1 <= k)%nat -> (length p <= S n)%nat ->
  (forall i, (i <= n)%nat -> peval p (node n i) = F 0%nat ((a - (b - a) / -2) + (b - a) / -2 * node n i)) ->
  let c := matder_run h (cheb_init (S n) (Some (Some a)) (Some (Some b))) in
  let x := cheb_x (S n) (cb_xmin c) (cb_xmax c) in
  (forall i, x i = Some ((a - (b - a) / -2) + (b - a) / -2 * node n i)) /\
  exists A, fst (matder k c) = Matrix A /\ forall i, (i <= n)%nat ->
    matvec (S n) A (fun j => option_map (F 0%nat) (x j)) i = Some ((-2 / (b - a)) ^ k * pjet p k (node n i)).
Proof.
  intros H Hab Hk Lp Hp c x. destruct (matder_diff n a b h k H Hab Hk) as (A & E & HA). fold c in E.
  assert (Hx : forall j, x j = Some ((a - (b - a) / -2) + (b - a) / -2 * node n j)).
  { intros j. unfold x, c. destruct (matder_run_ok _ _ _ h _ (init_ok (S n) (Some (Some a)) (Some (Some b)))) as (_ & -> & -> & _).
    unfold cheb_x. rewrite xi_eval by exact H. cbn [cheb_init cb_xmin cb_xmax]. rewrite xi_to_x_eval. f_equal. field. }
  split; [exact Hx|]. exists A. split; [exact E|]. intros i Hi. unfold matvec.
  rewrite (nsum_Some (S n) _ (fun j => (-2 / (b - a)) ^ k * (peval p (node n j) * Lj n j k (node n i)))).
  2: { intros j Hj. rewrite Hx, HA by lia. cbn [option_map nmul]. rewrite <- Hp by lia. f_equal. ring. }
  rewrite rsum_scal. now rewrite <- (lagrange n p k _ H Lp).
Qed.
(*@P C110_derivative: For every npts >= 2, interval, call history, order 1 <= k <= npts and function with all its derivatives on [xmin, xmax], the derivative of order npts being bounded by B there: the matrix matder(k), applied to the values of the function at the collocation points, gives its k-th derivative at each of them within B (xmax-xmin)^(npts-k) / (npts-k)!; and for k = 1 within 4 (npts-1) ((xmax-xmin)/4)^(npts-1) B / npts!. *)
Lemma derivative_error : forall npts xmin xmax history k F B,
  (2 <= npts)%nat -> xmin < xmax -> (1 <= k <= npts)%nat -> derivatives_on xmin xmax F -> (forall y, xmin <= y <= xmax -> Rabs (F npts y) <= B) ->
  let c := matder_run history (cheb_init npts (Some (Some xmin)) (Some (Some xmax))) in
  let x := cheb_x npts (cb_xmin c) (cb_xmax c) in
  exists A, fst (matder k c) = Matrix A /\
  forall i, (i < npts)%nat -> exists xi d, x i = Some xi /\ xmin <= xi <= xmax /\
    matvec npts A (fun j => option_map (F 0%nat) (x j)) i = Some d /\
    Rabs (d - F k xi) <= B * (xmax - xmin) ^ (npts - k) / INR (fact (npts - k)) /\
    (k = 1%nat -> Rabs (d - F 1%nat xi) <= 4 * INR (npts - 1) * ((xmax - xmin) / 4) ^ (npts - 1) * B / INR (fact npts)).
Proof.
  intros [|n] a b h k F B H Hab Hk HF HB c x; [lia|]. assert (H1 : (1 <= n)%nat) by lia.
  destruct (interp_spec n (fun i => F 0%nat ((a - (b - a) / -2) + (b - a) / -2 * node n i)) H1) as [Lp Hp]. set (p := interp n _) in *.
  destruct (matder_value a b n h k F p H1 Hab ltac:(lia) Lp Hp) as (Hx & A & E & HA). fold c in Hx, E. fold c in HA. fold x in Hx, HA.
  exists A. split; [exact E|]. intros i Hi. eexists. eexists. split; [apply Hx|]. split; [apply (in_interval a b Hab), node_in|]. split; [apply HA; lia|].
  pose proof (INR_fact_lt_0 (S n - k)). pose proof (INR_fact_lt_0 (S n)). split.
  - eapply Rle_trans; [apply (scaled_all a b n F H1 Hab HF p Lp Hp B k _ (proj2 Hk) (node_in n i) HB)|]. right. field. lra.
  - intros ->. replace (S n - 1)%nat with n by lia. eapply Rle_trans; [apply (scaled_first a b n F H1 Hab HF p Lp Hp B i ltac:(lia) HB)|]. right. field. lra.
Qed.
(*@P C110_interpolation: Interpolation: under the same hypotheses and with a linear solver whose answers solve the system, every value that extrapol returns at a point of [xmin, xmax] from the values of the function at the collocation points differs from the value of the function by at most 4 ((xmax-xmin)/4)^npts B / npts!. *)
Lemma interpolation_error : forall solve npts xmin xmax F B z y,
  solves_linear solve -> (2 <= npts)%nat -> xmin < xmax -> derivatives_on xmin xmax F -> (forall y, xmin <= y <= xmax -> Rabs (F npts y) <= B) -> xmin <= z <= xmax ->
  let c := cheb_init npts (Some (Some xmin)) (Some (Some xmax)) in
  extrapol solve c (fun i => option_map (F 0%nat) (cheb_x npts (cb_xmin c) (cb_xmax c) i)) (Some z) = Some y ->
  Rabs (y - F 0%nat z) <= 4 * ((xmax - xmin) / 4) ^ npts * B / INR (fact npts).
Proof.
  intros solve [|n] a b F B z y HS H Hab HF HB Hz c E; [lia|]. assert (H1 : (1 <= n)%nat) by lia.
  set (s := (b - a) / -2). set (o := a - s). set (g i := o + s * node n i).
  assert (Hx : forall i, cheb_x (S n) (Some a) (Some b) i = Some (g i)). { intros i. unfold cheb_x. rewrite xi_eval, xi_to_x_eval by exact H1. f_equal. unfold g, o, s. field. }
  replace (fun i => option_map (F 0%nat) (cheb_x (S n) (cb_xmin c) (cb_xmax c) i)) with (fun i => Some (F 0%nat (g i))) in E.
  2:{ apply FunctionalExtensionality.functional_extensionality; intros i. unfold c; cbn [cheb_init cb_xmin cb_xmax]. rewrite Hx. reflexivity. }
  destruct (extrapol_interpolates solve (S n) a b (fun i => F 0%nat (g i)) HS H Hab) as [N|(q & Lq & Ev & Nd)].
  { fold c in N. rewrite N in E; discriminate. }
  fold c in Ev, Nd.
  rewrite Ev in E. apply Some_inj in E. subst y.
  set (p := pcomp o s q). assert (Lp : (length p <= S n)%nat) by (unfold p; now rewrite pcomp_length).
  assert (Hp : forall i, (i <= n)%nat -> peval p (node n i) = F 0%nat (a - (b - a) / -2 + (b - a) / -2 * node n i)).
  { intros i Hi. unfold p. rewrite pcomp_eval. specialize (Nd i ltac:(lia)). unfold c in Nd; cbn [cheb_init cb_xmin cb_xmax] in Nd. rewrite Hx in Nd. now apply Some_inj in Nd. }
  set (w := (z - o) / s). assert (S0 : s < 0) by (unfold s; lra).
  assert (Ez : z = o + s * w) by (unfold w; field; lra).
  assert (Hw : -1 <= w <= 1). { unfold o, s in *. split; nra. }
  pose proof (scaled_zero a b n F H1 Hab HF p Lp Hp B w Hw HB) as S. fold s in S. fold o in S. unfold p in S. rewrite pcomp_eval in S. rewrite <- Ez in S.
  eapply Rle_trans; [exact S|]. right. field. apply INR_fact_neq_0.
Qed.
(*@P C110_attained: The bound for k = 1 cannot be lowered, for any number of points: on [-1, 1], for every npts >= 2 there is a polynomial of degree npts whose derivative of order npts is a constant B > 0, and whose computed derivative at the first point is wrong by exactly 4 (npts-1) (2/4)^(npts-1) B / npts!. *)
Lemma bound_attained : forall npts, (2 <= npts)%nat ->
  let c := cheb_init npts None None in let x := cheb_x npts (cb_xmin c) (cb_xmax c) in
  exists p B A d, (length p = S npts)%nat /\ 0 < B /\ (forall y, Derive_n (peval p) npts y = B) /\ fst (matder 1%nat c) = Matrix A /\ x 0%nat = Some (-1) /\
    matvec npts A (fun j => option_map (peval p) (x j)) 0%nat = Some d /\
    Rabs (d - Derive_n (peval p) 1%nat (-1)) = 4 * INR (npts - 1) * (2 / 4) ^ (npts - 1) * B / INR (fact npts).
Proof.
  intros [|n] H c x; [lia|]. assert (H1 : (1 <= n)%nat) by lia. pose proof (INR_fact_lt_0 (S n)) as F0. assert (P2 : 0 < 2 ^ (n - 1)) by (apply pow_lt; lra).
  pose proof (INRp n H1) as N0.
  assert (Zp : forall i, (i <= n)%nat -> peval nil (node n i) = peval (pcomp 0 (-1) (Qp n)) (((-1) - (1 - -1) / -2) + (1 - -1) / -2 * node n i)).
  { intros i Hi. rewrite pcomp_eval. replace (0 + -1 * (-1 - (1 - -1) / -2 + (1 - -1) / -2 * node n i)) with (node n i) by field. rewrite Qp_root by assumption. reflexivity. }
  destruct (matder_value (-1) 1 n nil 1 (fun _ => peval (pcomp 0 (-1) (Qp n))) nil H1 ltac:(lra) (le_n _) ltac:(cbn; lia) Zp) as (Hx & A & E & HA).
  cbn [matder_run] in Hx, E, HA. change (cheb_init (S n) (Some (Some (-1))) (Some (Some 1))) with c in *. fold x in Hx, HA.
  set (p := pcomp 0 (-1) (Qp n)) in *.
  assert (JD : forall m y, Derive_n (peval p) m y = (-1) ^ m * pjet (Qp n) m (- y)).
  { intros m y. rewrite Derive_n_peval. rewrite (jet_ext (pjet p) (fun m y => (-1) ^ m * pjet (Qp n) m (0 + -1 * y))).
    - do 2 f_equal. ring. - apply pjet_jet. - apply jet_affine, pjet_jet.
    - intros z. change (pjet p 0%nat z) with (peval p z). unfold p. rewrite pcomp_eval. change (pjet (Qp n) 0%nat (0 + -1 * z)) with (peval (Qp n) (0 + -1 * z)). cbn [pow]. ring. }
  set (q := pscal ((-1) ^ S n) p).
  assert (JQ : forall m y, Derive_n (peval q) m y = (-1) ^ S n * ((-1) ^ m * pjet (Qp n) m (- y))).
  { intros m y. rewrite <- JD. rewrite <- Derive_n_scal_l. apply Derive_n_ext. intros z. unfold q. apply pscal_eval. }
  exists q, (INR (fact (S n)) * 2 ^ (n - 1)), A, 0.
  split; [unfold q, p; rewrite pscal_length, pcomp_length, Qp_length by assumption; reflexivity|]. split; [apply Rmult_lt_0_compat; lra|].
  split. { intros y. rewrite JQ. rewrite <- Rmult_assoc, <- Rpow_mult_distr. replace (-1 * -1) with 1 by ring. rewrite pow1, Rmult_1_l. rewrite pjet_top, Qp_top by (assumption || now apply Qp_length). reflexivity. }
  split; [exact E|]. split. { rewrite Hx, node_0 by assumption. f_equal. field. }
  split.
  { rewrite <- (Rmult_0_r ((-1) ^ S n)). 
    replace (fun j => option_map (peval q) (x j)) with (fun j => nmul (Some ((-1) ^ S n)) (option_map (peval p) (x j))).
    2:{ apply FunctionalExtensionality.functional_extensionality. intros j. rewrite Hx. cbn [option_map nmul]. unfold q. now rewrite pscal_eval. }
    assert (PZ : forall j, (j < S n)%nat -> option_map (peval p) (x j) = Some 0).
    { intros j Hj. rewrite Hx. cbn [option_map]. f_equal. rewrite <- (Zp j ltac:(lia)). reflexivity. }
    rewrite Rmult_0_r. unfold matvec. rewrite (nsum_Some (S n) _ (fun _ => 0)); [f_equal; apply rsum_zero; reflexivity|].
    intros j Hj. rewrite (PZ j Hj). destruct (matder_diff n (-1) 1 nil 1%nat H1 ltac:(lra) (le_n _)) as (A' & E' & HA'). cbn [matder_run] in E'. change (cheb_init (S n) (Some (Some (-1))) (Some (Some 1))) with c in E'.
    rewrite E in E'. injection E' as <-. rewrite HA' by lia. cbn [nmul]. f_equal. ring. }
  rewrite JQ. replace (- -1) with (node n 0) by (rewrite node_0 by assumption; ring). rewrite Qp_der by lia. replace (S n - 1)%nat with n by lia.
  rewrite Rminus_0_l, Rabs_Ropp, !Rabs_mult, <- !RPow_abs. replace (Rabs (-1)) with 1 by (rewrite Rabs_left; lra). rewrite !pow1. unfold sw, cw. cbn [Nat.eqb orb pow]. rewrite Rabs_pos_eq by nra.
  replace (2 / 4) with (/ 2) by field. rewrite pow_inv. destruct n as [|k]; [lia|]. replace (S k - 1)%nat with k by lia. cbn [pow]. assert (2 ^ k <> 0) by (apply pow_nonzero; lra). field. split; [assumption|apply INR_fact_neq_0].
Qed.
