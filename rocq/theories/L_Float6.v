(** * Rounding errors of positive expressions *)
From Coq Require Import Bool Reals List ZArith Lra Lia Psatz.
From Flocq Require Import Core.
From Verif Require Import M_Float FloatSpec L_Float L_Float2.
Open Scope R_scope.

Notation u := (/ 9007199254740992).
(** [v] is [x] up to [k] relative errors *)
Definition near (k : nat) (v x : R) : Prop := 0 < x /\ x * (1 - u) ^ k <= v /\ v * (1 - u) ^ k <= x.
Lemma w_pos k : 0 < (1 - u) ^ k. Proof. apply pow_lt. lra. Qed.
Lemma w_le k : (1 - u) ^ k <= 1.
Proof. rewrite <- (pow1 k) at 2. apply pow_incr. lra. Qed.
Lemma w_dec j k : (j <= k)%nat -> (1 - u) ^ k <= (1 - u) ^ j.
Proof. intros H. replace k with (j + (k - j))%nat by lia. rewrite pow_add. pose proof (w_pos j). pose proof (w_le (k - j)). nra. Qed.
Lemma near_pos k v x : near k v x -> 0 < v.
Proof. intros (H & A & _). pose proof (w_pos k). nra. Qed.
Lemma near_le j k v x : (j <= k)%nat -> near j v x -> near k v x.
Proof. intros L (H & A & B). pose proof (w_dec j k L). pose proof (near_pos j v x (conj H (conj A B))). repeat split; nra. Qed.
Lemma near_refl x : 0 < x -> near 0 x x.
Proof. intros H. repeat split; cbn; lra. Qed.
Lemma near_mul j k v x v' x' : near j v x -> near k v' x' -> near (j + k) (v * v') (x * x').
Proof.
  intros N N'. pose proof (near_pos _ _ _ N) as V. pose proof (near_pos _ _ _ N') as V'. destruct N as (X & A & B), N' as (X' & A' & B'). pose proof (w_pos j) as P. pose proof (w_pos k) as Q.
  split; [now apply Rmult_lt_0_compat|]. rewrite pow_add. set (p := (1 - u) ^ j) in *. set (q := (1 - u) ^ k) in *. clearbody p q. split.
  - replace (x * x' * (p * q)) with ((x * p) * (x' * q)) by ring. apply Rmult_le_compat; try assumption; apply Rlt_le, Rmult_lt_0_compat; assumption.
  - replace (v * v' * (p * q)) with ((v * p) * (v' * q)) by ring. apply Rmult_le_compat; try assumption; apply Rlt_le, Rmult_lt_0_compat; assumption.
Qed.
Lemma near_inv k v x : near k v x -> near k (/ v) (/ x).
Proof.
  intros N. pose proof (near_pos _ _ _ N) as V. destruct N as (H & A & B). pose proof (w_pos k). split; [now apply Rinv_0_lt_compat|]. split.
  - apply Rmult_le_reg_r with (v * x); [nra|]. replace (/ x * (1 - u) ^ k * (v * x)) with (v * (1 - u) ^ k) by (field; lra). replace (/ v * (v * x)) with x by (field; lra). exact B.
  - apply Rmult_le_reg_r with (v * x); [nra|]. replace (/ v * (1 - u) ^ k * (v * x)) with (x * (1 - u) ^ k) by (field; lra). replace (/ x * (v * x)) with v by (field; lra). exact A.
Qed.
Lemma near_div j k v x v' x' : near j v x -> near k v' x' -> near (j + k) (v / v') (x / x').
Proof. intros N N'. apply near_mul; [assumption|now apply near_inv]. Qed.
Lemma near_add j k v x v' x' : near j v x -> near k v' x' -> near (Nat.max j k) (v + v') (x + x').
Proof.
  intros N N'. apply (near_le _ (Nat.max j k)) in N; [|lia]. apply (near_le _ (Nat.max j k)) in N'; [|lia]. destruct N as (H & A & B), N' as (H' & A' & B'). repeat split; lra.
Qed.
Lemma near_sqrt k v x : near k v x -> near (S k / 2) (sqrt v) (sqrt x).
Proof.
  intros N. set (j := (S k / 2)%nat). assert (K : (k <= j + j)%nat). { unfold j. pose proof (Nat.div_mod (S k) 2 ltac:(lia)). pose proof (Nat.mod_upper_bound (S k) 2 ltac:(lia)). lia. }
  pose proof (near_pos _ _ _ N) as V. apply (near_le _ _ _ _ K) in N. destruct N as (H & A & B). rewrite pow_add in A, B. pose proof (w_pos j).
  split; [now apply sqrt_lt_R0|]. rewrite <- (sqrt_square ((1 - u) ^ j)) by lra. split; rewrite <- sqrt_mult by nra; apply sqrt_le_1_alt; lra.
Qed.
Lemma near_rn k v x : bpow radix2 (-1022) <= v -> near k v x -> near (S k) (rn v) x.
Proof.
  intros L N. pose proof (near_pos _ _ _ N) as V. destruct N as (H & A & B). assert (E := rel_pos v L). apply abs_split in E. pose proof (w_pos k). unfold near. cbn [pow]. split; [exact H|]. split.
  - apply Rle_trans with (v * (1 - u)); [|lra]. replace (x * ((1 - u) * (1 - u) ^ k)) with (x * (1 - u) ^ k * (1 - u)) by ring. apply Rmult_le_compat_r; lra.
  - apply Rle_trans with (v * (1 - u) ^ k); [|exact B]. replace (rn v * ((1 - u) * (1 - u) ^ k)) with (rn v * (1 - u) * (1 - u) ^ k) by ring. apply Rmult_le_compat_r; [lra|].
    apply Rle_trans with ((v + v * u) * (1 - u)); [apply Rmult_le_compat_r; lra|]. nra.
Qed.
Lemma w_lin k : 1 - INR k * u <= (1 - u) ^ k.
Proof. induction k as [|k IH]; [cbn; lra|]. rewrite S_INR. cbn [pow]. pose proof (pos_INR k). pose proof (w_pos k). nra. Qed.
Lemma near_close k b v x : (k < 2 ^ b)%nat -> (b <= 20)%nat -> near k v x -> Rabs (v - x) <= x / 2 ^ (53 - b).
Proof.
  intros K Hb N. pose proof (near_pos _ _ _ N) as V. destruct N as (H & A & B). pose proof (w_lin k) as W. pose proof (w_pos k).
  assert (P : 2 ^ (53 - b) * 2 ^ b = 9007199254740992) by (rewrite <- pow_add; replace (53 - b + b)%nat with 53%nat by lia; apply p53).
  assert (P0 : 0 < 2 ^ b) by (apply pow_lt; lra). assert (P1 : 0 < 2 ^ (53 - b)) by (apply pow_lt; lra).
  assert (Pb : 2 ^ b <= 1048576). { replace 1048576 with (2 ^ 20) by (rewrite pw; reflexivity). apply Rle_pow; [lra|exact Hb]. }
  assert (KR : INR k + 1 <= 2 ^ b). { rewrite <- S_INR. replace (2 ^ b) with (INR (2 ^ b)) by (rewrite pow_INR; reflexivity). apply le_INR. lia. }
  assert (D : x / 2 ^ (53 - b) = x * (2 ^ b * u)). { rewrite <- P. field. lra. } rewrite D.
  set (t := INR k) in *. assert (T0 : 0 <= t) by apply pos_INR. set (z := 2 ^ b) in *. clearbody z t. clear D P P1 Hb K.
  apply Rabs_le. split.
  - assert (x * (1 - t * u) <= v) by (eapply Rle_trans; [|exact A]; apply Rmult_le_compat_l; lra). nra.
  - assert (V1 : v * (1 - t * u) <= x) by (eapply Rle_trans; [|exact B]; apply Rmult_le_compat_l; lra).
    assert (V2 : v <= x * (1 + z * u)). { apply Rmult_le_reg_r with (1 - t * u); [lra|]. eapply Rle_trans; [exact V1|]. rewrite <- (Rmult_1_r x) at 1. rewrite Rmult_assoc. apply Rmult_le_compat_l; [lra|]. nra. }
    lra.
Qed.

(** ** expressions *)
Inductive fexp := FC (x : R) (lo hi : Z) | FAdd (a b : fexp) | FMul (a b : fexp) | FDiv (a b : fexp) | FSqrt (a : fexp).
Fixpoint fxf (e : fexp) : fnum :=
  match e with FC x _ _ => Some x | FAdd a b => fadd (fxf a) (fxf b) | FMul a b => fmul (fxf a) (fxf b) | FDiv a b => fdiv (fxf a) (fxf b) | FSqrt a => fsqrt (fxf a) end.
Fixpoint fxr (e : fexp) : R :=
  match e with FC x _ _ => x | FAdd a b => fxr a + fxr b | FMul a b => fxr a * fxr b | FDiv a b => fxr a / fxr b | FSqrt a => sqrt (fxr a) end.
Fixpoint bnd (e : fexp) : Z * Z :=
  match e with
  | FC _ l h => (l, h)
  | FAdd a b => let '(la, ha) := bnd a in let '(lb, hb) := bnd b in (Z.max la lb, Z.max ha hb + 1)
  | FMul a b => let '(la, ha) := bnd a in let '(lb, hb) := bnd b in (la + lb, ha + hb)
  | FDiv a b => let '(la, ha) := bnd a in let '(lb, hb) := bnd b in (la - hb, ha - lb)
  | FSqrt a => let '(la, ha) := bnd a in (la / 2, - ((- ha) / 2))
  end%Z.
Definition okb (p : Z * Z) : bool := ((-1000 <=? fst p)%Z && (fst p <=? snd p)%Z && (snd p <=? 1000)%Z)%bool.
Fixpoint chk (e : fexp) : bool :=
  (okb (bnd e) && match e with FC _ _ _ => true | FAdd a b | FMul a b | FDiv a b => chk a && chk b | FSqrt a => chk a end)%bool.
Fixpoint wf (e : fexp) : Prop :=
  match e with FC x l h => F x /\ bpow radix2 l <= x <= bpow radix2 h | FAdd a b | FMul a b | FDiv a b => wf a /\ wf b | FSqrt a => wf a end.
Fixpoint cnt (e : fexp) : nat :=
  match e with FC _ _ _ => 0 | FAdd a b => S (Nat.max (cnt a) (cnt b)) | FMul a b | FDiv a b => S (cnt a + cnt b) | FSqrt a => S (S (cnt a) / 2) end%nat.
Definition inb (p : Z * Z) (v : R) : Prop := bpow radix2 (fst p) <= v <= bpow radix2 (snd p).
Lemma fl_in z p : okb p = true -> inb p z -> fl z = Some (rn z) /\ inb p (rn z) /\ bpow radix2 (-1022) <= z.
Proof.
  unfold okb, inb. intros O [A B]. apply andb_prop in O. destruct O as [O O3]. apply andb_prop in O. destruct O as [O1 O2].
  apply Z.leb_le in O1, O2, O3. assert (P := bpow_gt_0 radix2 (fst p)). split; [|split].
  - apply fl_pos with (snd p); [lra|lia].
  - split; [apply rn_ge; [apply F_bpow; lia|exact A]|apply rn_le_F; [apply F_bpow; lia|exact B]].
  - eapply Rle_trans; [|exact A]. apply bpow_le. lia.
Qed.
Lemma in_add p q v w : inb p v -> inb q w -> inb (Z.max (fst p) (fst q), (Z.max (snd p) (snd q) + 1)%Z) (v + w).
Proof.
  unfold inb. cbn [fst snd]. intros [A B] [C D]. assert (P := bpow_gt_0 radix2 (fst p)). assert (Q := bpow_gt_0 radix2 (fst q)). split.
  - destruct (Z.max_spec (fst p) (fst q)) as [[_ ->]|[_ ->]]; lra.
  - rewrite bpow_plus. change (bpow radix2 1) with 2.
    assert (bpow radix2 (snd p) <= bpow radix2 (Z.max (snd p) (snd q))) by (apply bpow_le; lia).
    assert (bpow radix2 (snd q) <= bpow radix2 (Z.max (snd p) (snd q))) by (apply bpow_le; lia). lra.
Qed.
Lemma in_mul p q v w : inb p v -> inb q w -> inb (fst p + fst q, snd p + snd q)%Z (v * w).
Proof.
  unfold inb. cbn [fst snd]. intros [A B] [C D]. assert (P := bpow_gt_0 radix2 (fst p)). assert (Q := bpow_gt_0 radix2 (fst q)).
  rewrite !bpow_plus. split; apply Rmult_le_compat; lra.
Qed.
Lemma in_inv p v : inb p v -> inb (- snd p, - fst p)%Z (/ v).
Proof.
  unfold inb. cbn [fst snd]. intros [A B]. assert (P := bpow_gt_0 radix2 (fst p)). rewrite !bpow_opp. split; apply Rinv_le_contravar; lra.
Qed.
Lemma in_sqrt p v : inb p v -> inb (fst p / 2, - ((- snd p) / 2))%Z (sqrt v).
Proof.
  unfold inb. cbn [fst snd]. intros [A B]. assert (P := bpow_gt_0 radix2 (fst p)). split.
  - rewrite <- (sqrt_square (bpow radix2 (fst p / 2))) by apply bpow_ge_0. apply sqrt_le_1_alt. rewrite <- bpow_plus.
    eapply Rle_trans; [|exact A]. apply bpow_le. pose proof (Z.mul_div_le (fst p) 2 ltac:(lia)). lia.
  - rewrite <- (sqrt_square (bpow radix2 (- (- snd p / 2)))) by apply bpow_ge_0. apply sqrt_le_1_alt. rewrite <- bpow_plus.
    eapply Rle_trans; [exact B|]. apply bpow_le. pose proof (Z.mul_div_le (- snd p) 2 ltac:(lia)). lia.
Qed.
Theorem fexp_sound e : wf e -> chk e = true -> exists v, fxf e = Some v /\ near (cnt e) v (fxr e) /\ inb (bnd e) v /\ F v.
Proof.
  induction e as [x l h|a IHa b IHb|a IHa b IHb|a IHa b IHb|a IHa]; cbn [wf chk fxf fxr cnt bnd]; intros W C; apply andb_prop in C; destruct C as [O C].
  - exists x. assert (P := bpow_gt_0 radix2 l). repeat split; cbn [pow fst snd]; try lra; apply W.
  - apply andb_prop in C. destruct C as [Ca Cb], W as [Wa Wb], (IHa Wa Ca) as (v & -> & Na & Ba & Fa), (IHb Wb Cb) as (w & -> & Nb & Bb & Fb).
    destruct (bnd a) as [la ha], (bnd b) as [lb hb]. unfold fadd, fop2.
    destruct (fl_in (v + w) _ O (in_add _ _ _ _ Ba Bb)) as (-> & I & L). exists (rn (v + w)). split; [reflexivity|]. split; [|split; [exact I|apply F_rn]].
    apply near_rn; [exact L|]. now apply near_add.
  - apply andb_prop in C. destruct C as [Ca Cb], W as [Wa Wb], (IHa Wa Ca) as (v & -> & Na & Ba & Fa), (IHb Wb Cb) as (w & -> & Nb & Bb & Fb).
    destruct (bnd a) as [la ha], (bnd b) as [lb hb]. unfold fmul, fop2.
    destruct (fl_in (v * w) _ O (in_mul _ _ _ _ Ba Bb)) as (-> & I & L). exists (rn (v * w)). split; [reflexivity|]. split; [|split; [exact I|apply F_rn]].
    apply near_rn; [exact L|]. now apply near_mul.
  - apply andb_prop in C. destruct C as [Ca Cb], W as [Wa Wb], (IHa Wa Ca) as (v & -> & Na & Ba & Fa), (IHb Wb Cb) as (w & -> & Nb & Bb & Fb).
    destruct (bnd a) as [la ha], (bnd b) as [lb hb].
    assert (V := near_pos _ _ _ Nb). cbn [fdiv]. destruct (Req_EM_T w 0) as [?|_]; [lra|].
    destruct (fl_in (v / w) _ O (in_mul _ _ _ _ Ba (in_inv _ _ Bb))) as (-> & I & L). exists (rn (v / w)). split; [reflexivity|]. split; [|split; [exact I|apply F_rn]].
    apply near_rn; [exact L|]. now apply near_div.
  - destruct (IHa W C) as (v & -> & Na & Ba & Fa). destruct (bnd a) as [la ha].
    assert (V := near_pos _ _ _ Na). cbn [fsqrt]. destruct (Rlt_dec v 0) as [?|_]; [lra|].
    destruct (fl_in (sqrt v) _ O (in_sqrt _ _ Ba)) as (E & I & L). exists (rn (sqrt v)). rewrite ?E. split; [reflexivity|]. split; [|split; [exact I|apply F_rn]].
    apply near_rn; [exact L|]. now apply near_sqrt.
Qed.
