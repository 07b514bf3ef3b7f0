(** * C97: the spectrum of a uniform periodic flow is that of three advections *)
From Coq Require Import String.
From Verif Require Import Num L_Num Spec M_Isentropic M_Model1D M_Spectral M_Euler M_Tube PolySpec EulerSpec EigenSpec TubeSpec L_Isentropic L_Poly L_Spectral L_Spectral2 L_Spectral3 L_Spectral4 L_Euler1 L_Euler2 L_Euler4 L_Model1D L_OrrSommerfeld L_Eigen2.
From Coquelicot Require Import Complex.
Open Scope R_scope.

(** ** real rows *)
Lemma nsum_defined m f s : nsum m f = Some s -> forall j, (j < m)%nat -> f j <> None.
Proof. intros E j Hj Hf. rewrite (nsum_None m f j Hj Hf) in E. discriminate. Qed.
Definition val (A : mat) (i j : nat) : R := match A i j with Some x => x | None => 0 end.
Lemma val_row m A (w : nat -> R) i s : matvec m A (fun j => Some (w j)) i = Some s ->
  (forall j, (j < m)%nat -> A i j = Some (val A i j)) /\ rsum m (fun j => val A i j * w j) = s.
Proof.
  intros E. unfold matvec in E.
  assert (H : forall j, (j < m)%nat -> A i j = Some (val A i j)).
  { intros j Hj. pose proof (nsum_defined m _ s E j Hj) as K. cbv beta in K. unfold val. destruct (A i j); [reflexivity|]. exfalso. apply K. reflexivity. }
  split; [exact H|]. rewrite (nsum_Some m _ (fun j => val A i j * w j)) in E; [now apply Some_inj in E|]. intros j Hj. rewrite H by assumption. reflexivity.
Qed.
Lemma Capply_real m (b : nat -> nat -> R) V i :
  Capply m (fun i j => RtoC (b i j)) V i = (rsum m (fun j => b i j * fst (V j)), rsum m (fun j => b i j * snd (V j))).
Proof.
  unfold Capply. induction m; [reflexivity|]. cbn [Csum_spec rsum]. rewrite IHm. destruct (V m) as [x y]. cbn [fst snd].
  unfold Cplus, Cmult, RtoC. cbn [fst snd]. f_equal; ring.
Qed.
Lemma Capply_lin m A (x y : C) f g i : Capply m A (fun j => (x * f j + y * g j)%C) i = (x * Capply m A f i + y * Capply m A g i)%C.
Proof. unfold Capply. induction m; cbn [Csum_spec]; [ring|]. rewrite IHm. ring. Qed.
Lemma ddx_const n x d c k : differentiates n x 1 d -> (1 <= n)%nat -> (k < n)%nat -> ddx n d (fun _ => c) k = 0.
Proof.
  intros H Hn Hk. pose proof (H (c :: nil) k Hn Hk) as E. cbn [Derive_n] in E.
  rewrite (Derive_ext (peval (c :: nil)) (fun _ => c)) in E by (intros; cbn; ring). rewrite Derive_const in E. rewrite <- E.
  apply ddx_ext. intros l _. cbn. ring.
Qed.
Definition ubase (rho u p g : R) : estate := mk_estate (fun _ => Some rho) (fun _ => Some u) (fun _ => Some p) (Some g).
Lemma uniform_rows n D d x rho u p g w k : (forall i j, (i < n)%nat -> (j < n)%nat -> D i j = Some (d i j)) -> differentiates n x 1 d ->
  rho <> 0 -> (k < n)%nat ->
  let Bw := matvec (3 * n) (euler_B n D (ubase rho u p g)) (fun j => Some (w j)) in
  let dr := ddx n d w k in let du := ddx n d (fun l => w (n + l)%nat) k in let dp := ddx n d (fun l => w (2 * n + l)%nat) k in
  Bw k = Some (- (u * dr + rho * du)) /\ Bw (n + k)%nat = Some (- (u * du + dp / rho)) /\ Bw (2 * n + k)%nat = Some (- (u * dp + g * p * du)).
Proof.
  intros HD Df Hr Hk Bw dr du dp.
  destruct (linearisation n D d (ubase rho u p g) (fun _ => rho) (fun _ => u) (fun _ => p) g w k HD) as (b0 & b1 & b2 & E0 & E1 & E2 & F0 & F1 & F2);
    [intros; repeat split; assumption|reflexivity|exact Hk|].
  fold Bw in E0, E1, E2. rewrite E0, E1, E2.
  pose proof (ddx_const n x d rho k Df ltac:(lia) Hk) as Zr. pose proof (ddx_const n x d u k Df ltac:(lia) Hk) as Zu. pose proof (ddx_const n x d p k Df ltac:(lia) Hk) as Zp.
  apply is_derive_unique in F0, F1, F2.
  split; [|split]; f_equal; [rewrite <- F0|rewrite <- F1|rewrite <- F2]; apply is_derive_unique.
  - apply (is_derive_ext (fun eps => - ((u + eps * w (n + k)%nat) * (eps * dr) + (rho + eps * w k) * (eps * du)))).
    { intros eps. unfold rho_t. rewrite !ddx_pert, Zr, Zu. unfold pert, dr, du. rewrite !Rplus_0_l. reflexivity. }
    auto_derive; [trivial|ring].
  - apply (is_derive_ext (fun eps => - ((u + eps * w (n + k)%nat) * (eps * du) + eps * dp / (rho + eps * w k)))).
    { intros eps. unfold u_t. rewrite !ddx_pert, Zu, Zp. unfold pert, dp, du. rewrite !Rplus_0_l. reflexivity. }
    auto_derive; [lra|field; lra].
  - apply (is_derive_ext (fun eps => - ((u + eps * w (n + k)%nat) * (eps * dp) + g * (p + eps * w (2 * n + k)%nat) * (eps * du)))).
    { intros eps. unfold p_t. rewrite !ddx_pert, Zu, Zp. unfold pert, dp, du. rewrite !Rplus_0_l. reflexivity. }
    generalize (w (2 * n + k)%nat) (w (n + k)%nat). intros w2 w1. auto_derive; [trivial|ring].
Qed.

Lemma Mscal0 m (M : nat -> nat -> R) V i : Capply m (fun i j => (- Ci * RtoC (M i j))%C) V i = (- Ci * Capply m (fun i j => RtoC (M i j)) V i)%C.
Proof. unfold Capply. induction m as [|m IH]; cbn [Csum_spec]; [ring|]. rewrite IH. ring. Qed.

Section TUBE.
Context (n : nat) (D : mat) (d : nat -> nat -> R) (xs : nat -> R) (rho u p g : R).
Hypothesis Hn : (2 <= n)%nat.
Hypothesis HD : forall i j, (i < n)%nat -> (j < n)%nat -> D i j = Some (d i j).
Hypothesis Df : differentiates n xs 1 d.
Hypothesis Hr : 0 < rho.
Hypothesis Hp : 0 < p.
Hypothesis Hg : 0 < g.
Let o := setBC_per n D (mk_ops (3 * n) euler_At (euler_B n D (ubase rho u p g))).
Let B := val (o_B o).
Let A := val (o_At o).
Let dC := Capply n (fun i j => RtoC (d i j)).

Lemma Brow (w : nat -> R) : let Bw := matvec (3 * n) (o_B o) (fun j => Some (w j)) in
  let Aw := matvec (3 * n) (o_At o) (fun j => Some (w j)) in
  (forall k, (0 < k < n - 1)%nat ->
    let dr := ddx n d w k in let du := ddx n d (fun l => w (n + l)%nat) k in let dp := ddx n d (fun l => w (2 * n + l)%nat) k in
    Bw k = Some (- (u * dr + rho * du)) /\ Bw (n + k)%nat = Some (- (u * du + dp / rho)) /\ Bw (2 * n + k)%nat = Some (- (u * dp + g * p * du)) /\
    Aw k = Some (w k) /\ Aw (n + k)%nat = Some (w (n + k)%nat) /\ Aw (2 * n + k)%nat = Some (w (2 * n + k)%nat)) /\
  periodic_rows n d w Bw Aw.
Proof.
  intros Bw Aw. set (o0 := mk_ops (3 * n) euler_At (euler_B n D (ubase rho u p g))).
  destruct (per_rows n D d o0 w Hn eq_refl HD) as (N1 & P & U). fold o in P, U, N1. change (o_size o) with (3 * n)%nat in P. fold Bw in P.
  split.
  - intros k Hk dr du dp. destruct (uniform_rows n D d xs rho u p g w k HD Df ltac:(lra) ltac:(lia)) as (E0 & E1 & E2).
    assert (K : forall i, (i = k \/ i = n + k \/ i = 2 * n + k)%nat -> Bw i = matvec (3 * n) (euler_B n D (ubase rho u p g)) (fun j => Some (w j)) i /\ Aw i = Some (w i)).
    { intros i Hi. assert (Hi' : forall a, (a < 3)%nat -> (i <> a * n /\ i <> a * n + (n - 1))%nat) by (intros a Ha; destruct a as [|[|[|a]]]; lia).
      split; [apply row_change; intros j _; exact (proj1 (U i j Hi'))|].
      unfold Aw. rewrite (row_change (3 * n) (o_At o) eye) by (intros j _; exact (proj2 (U i j Hi'))). apply eye_row. lia. }
    destruct (K k) as [-> ->]; [lia|]. destruct (K (n + k)%nat) as [-> ->]; [lia|]. destruct (K (2 * n + k)%nat) as [-> ->]; [lia|].
    repeat (split; [first [exact E0|exact E1|exact E2|reflexivity]|]). reflexivity.
  - intros a Ha wa. destruct (P a Ha) as (P0 & P1 & Z).
    split; [exact P0|]. split; [exact P1|]. split; apply zero_row_mv; intros j; destruct (Z j); assumption.
Qed.
Lemma index3 i : (i < 3 * n)%nat -> exists a k, (a < 3)%nat /\ (k < n)%nat /\ (i = a * n + k)%nat.
Proof.
  intros H. exists (i / n)%nat, (i mod n)%nat. split; [apply Nat.div_lt_upper_bound; lia|]. split; [apply Nat.mod_upper_bound; lia|].
  rewrite Nat.mul_comm. apply Nat.div_mod. lia.
Qed.
Lemma row_def (w : nat -> R) i : (i < 3 * n)%nat -> exists b a, matvec (3 * n) (o_B o) (fun j => Some (w j)) i = Some b /\ matvec (3 * n) (o_At o) (fun j => Some (w j)) i = Some a.
Proof.
  intros Hi. destruct (Brow w) as [K P]. destruct (index3 i Hi) as (a & k & Ha & Hk & ->).
  destruct (Nat.eq_dec k 0) as [->|H0]; [|destruct (Nat.eq_dec k (n - 1)) as [->|H1]].
  - destruct (P a Ha) as (E1 & _ & E2 & _). rewrite Nat.add_0_r. do 2 eexists. split; [exact E1|exact E2].
  - destruct (P a Ha) as (_ & E1 & _ & E2). do 2 eexists. split; [exact E1|exact E2].
  - destruct (K k ltac:(lia)) as (E0 & E1 & E2 & F0 & F1 & F2). destruct a as [|[|[|a]]]; [| | |lia].
    + do 2 eexists. split; [exact E0|exact F0].
    + replace (1 * n + k)%nat with (n + k)%nat by lia. do 2 eexists. split; [exact E1|exact F1].
    + do 2 eexists. split; [exact E2|exact F2].
Qed.
Lemma finite_ops i j : (i < 3 * n)%nat -> (j < 3 * n)%nat -> o_B o i j = Some (B i j) /\ o_At o i j = Some (A i j).
Proof.
  intros Hi Hj. destruct (row_def (fun _ => 0) i Hi) as (b & a & E1 & E2).
  split; [exact (proj1 (val_row _ _ _ _ _ E1) j Hj)|exact (proj1 (val_row _ _ _ _ _ E2) j Hj)].
Qed.
(** complex rows *)
Let BC (V : nat -> C) := Capply (3 * n) (fun i j => RtoC (B i j)) V.
Let AC (V : nat -> C) := Capply (3 * n) (fun i j => RtoC (A i j)) V.
Lemma pairC (M : mat) V i b1 b2 : matvec (3 * n) M (fun j => Some (fst (V j))) i = Some b1 -> matvec (3 * n) M (fun j => Some (snd (V j))) i = Some b2 ->
  Capply (3 * n) (fun i j => RtoC (val M i j)) V i = (b1, b2).
Proof. intros E1 E2. rewrite Capply_real. f_equal; [exact (proj2 (val_row _ _ _ _ _ E1))|exact (proj2 (val_row _ _ _ _ _ E2))]. Qed.
Lemma dC_pair V off k : dC (fun l => V (off + l)%nat) k = (ddx n d (fun l => fst (V (off + l)%nat)) k, ddx n d (fun l => snd (V (off + l)%nat)) k).
Proof. unfold dC. rewrite Capply_real. reflexivity. Qed.
Lemma dC_pair0 V k : dC V k = (ddx n d (fun l => fst (V l)) k, ddx n d (fun l => snd (V l)) k).
Proof. unfold dC. rewrite Capply_real. reflexivity. Qed.
Lemma Crow V : (forall k, (0 < k < n - 1)%nat ->
    let dr := dC V k in let du := dC (fun l => V (n + l)%nat) k in let dp := dC (fun l => V (2 * n + l)%nat) k in
    BC V k = (- (RtoC u * dr + RtoC rho * du))%C /\ BC V (n + k)%nat = (- (RtoC u * du + RtoC (/ rho) * dp))%C /\
    BC V (2 * n + k)%nat = (- (RtoC u * dp + RtoC (g * p) * du))%C /\
    AC V k = V k /\ AC V (n + k)%nat = V (n + k)%nat /\ AC V (2 * n + k)%nat = V (2 * n + k)%nat) /\
  (forall a, (a < 3)%nat -> let Va := fun l => V (a * n + l)%nat in
    BC V (a * n)%nat = (Va 0%nat - Va (n - 1)%nat)%C /\ BC V (a * n + (n - 1))%nat = (dC Va 0%nat - dC Va (n - 1)%nat)%C /\
    AC V (a * n)%nat = RtoC 0 /\ AC V (a * n + (n - 1))%nat = RtoC 0).
Proof.
  destruct (Brow (fun j => fst (V j))) as [K1 P1]. destruct (Brow (fun j => snd (V j))) as [K2 P2]. split.
  - intros k Hk dr du dp. destruct (K1 k Hk) as (E0 & E1 & E2 & F0 & F1 & F2). destruct (K2 k Hk) as (G0 & G1 & G2 & I0 & I1 & I2).
    unfold BC, AC, B, A. rewrite (pairC _ V _ _ _ E0 G0), (pairC _ V _ _ _ E1 G1), (pairC _ V _ _ _ E2 G2), (pairC _ V _ _ _ F0 I0), (pairC _ V _ _ _ F1 I1), (pairC _ V _ _ _ F2 I2).
    unfold dr, du, dp. rewrite (dC_pair V n), (dC_pair V (2 * n)), (dC_pair0 V).
    unfold Cplus, Cmult, Copp, RtoC; cbn [fst snd].
    split; [f_equal; ring|]. split; [f_equal; field; lra|]. split; [f_equal; ring|].
    split; [now rewrite <- surjective_pairing|]. split; now rewrite <- surjective_pairing.
  - intros a Ha Va. destruct (P1 a Ha) as (E0 & E1 & F0 & F1). destruct (P2 a Ha) as (G0 & G1 & I0 & I1).
    unfold BC, AC, B, A. rewrite (pairC _ V _ _ _ E0 G0), (pairC _ V _ _ _ E1 G1), (pairC _ V _ _ _ F0 I0), (pairC _ V _ _ _ F1 I1).
    unfold Va. rewrite !(dC_pair V (a * n)). unfold Cminus, Cplus, Copp; cbn [fst snd].
    split; [reflexivity|]. split; [reflexivity|]. split; reflexivity.
Qed.

Lemma Csc r z : r <> 0 -> (RtoC r * z = RtoC 0)%C -> z = RtoC 0.
Proof. intros H E. replace z with (RtoC (/ r) * (RtoC r * z))%C; [rewrite E; ring|]. rewrite Cmult_assoc, <- RtoC_mult, Rinv_l by assumption. ring. Qed.
Lemma Mscal V i : Capply (3 * n) (fun i j => (- Ci * RtoC (A i j))%C) V i = (- Ci * AC V i)%C.
Proof. apply Mscal0. Qed.
Lemma Ceq0 (x y : C) : (x = y -> x - y = RtoC 0)%C. Proof. intros ->. ring. Qed.
Lemma Ceq1 (x y : C) : (x - y = RtoC 0 -> x = y)%C. Proof. intros E. replace x with (x - y + y)%C by ring. rewrite E. ring. Qed.

(** a combination of two blocks of an eigenvector is a mode of the advection at speed c *)
Lemma to_mode V omega c (x y z : R) : eigenpair (3 * n) (fun i j => RtoC (B i j)) (fun i j => (- Ci * RtoC (A i j))%C) omega V ->
  u * x = c * x -> rho * x + u * y + g * p * z = c * y -> / rho * y + u * z = c * z ->
  advects n d c omega (fun l => (RtoC x * V l + (RtoC y * V (n + l)%nat + RtoC z * V (2 * n + l)%nat))%C).
Proof.
  intros E Hx Hy Hz. destruct (Crow V) as [K P].
  assert (Lin : forall k, dC (fun l => (RtoC x * V l + (RtoC y * V (n + l)%nat + RtoC z * V (2 * n + l)%nat))%C) k =
     (RtoC x * dC V k + (RtoC y * dC (fun l => V (n + l)%nat) k + RtoC z * dC (fun l => V (2 * n + l)%nat) k))%C).
  { intros k. unfold dC. rewrite <- (Capply_lin n _ (RtoC y) (RtoC z)). 
    transitivity (Capply n (fun i j => RtoC (d i j)) (fun l => (RtoC x * V l + RtoC 1 * (RtoC y * V (n + l)%nat + RtoC z * V (2 * n + l)%nat))%C) k).
    - unfold Capply. f_equal. apply FunctionalExtensionality.functional_extensionality. intros j. ring.
    - rewrite Capply_lin. ring. }
  assert (EB : forall i, (i < 3 * n)%nat -> BC V i = (omega * (- Ci * AC V i))%C).
  { intros i Hi. specialize (E i Hi). rewrite Mscal in E. exact E. }
  assert (Pr : forall a, (a < 3)%nat -> V (a * n)%nat = V (a * n + (n - 1))%nat /\ dC (fun l => V (a * n + l)%nat) 0%nat = dC (fun l => V (a * n + l)%nat) (n - 1)%nat).
  { intros a Ha. destruct (P a Ha) as (P0 & P1 & Z0 & Z1). rewrite (EB (a * n)%nat) in P0 by nia. rewrite (EB (a * n + (n - 1))%nat) in P1 by nia.
    rewrite Z0 in P0. rewrite Z1 in P1. cbv beta in P0. rewrite Nat.add_0_r in P0.
    split; apply Ceq1; [rewrite <- P0|rewrite <- P1]; ring. }
  destruct (Pr 0%nat ltac:(lia)) as [A0 D0]. destruct (Pr 1%nat ltac:(lia)) as [A1 D1]. destruct (Pr 2%nat ltac:(lia)) as [A2 D2].
  cbn [Nat.mul Nat.add] in A0, D0. replace (1 * n)%nat with n in A1, D1 by lia.
  unfold advects. fold dC. split; [|split].
  - intros k Hk. rewrite Lin. destruct (K k Hk) as (E0 & E1 & E2 & F0 & F1 & F2).
    rewrite (EB k), F0 in E0 by lia. rewrite (EB (n + k)%nat), F1 in E1 by lia. rewrite (EB (2 * n + k)%nat), F2 in E2 by lia.
    set (dr := dC V k) in *. set (du := dC (fun l => V (n + l)%nat) k) in *. set (dp := dC (fun l => V (2 * n + l)%nat) k) in *.
    assert (G0 : (Ci * omega * V k = RtoC u * dr + RtoC rho * du)%C) by (replace (Ci * omega * V k)%C with (- (omega * (- Ci * V k)))%C by ring; rewrite E0; ring).
    assert (G1 : (Ci * omega * V (n + k)%nat = RtoC u * du + RtoC (/ rho) * dp)%C) by (replace (Ci * omega * V (n + k)%nat)%C with (- (omega * (- Ci * V (n + k)%nat)))%C by ring; rewrite E1; ring).
    assert (G2 : (Ci * omega * V (2 * n + k)%nat = RtoC u * dp + RtoC (g * p) * du)%C) by (replace (Ci * omega * V (2 * n + k)%nat)%C with (- (omega * (- Ci * V (2 * n + k)%nat)))%C by ring; rewrite E2; ring).
    transitivity (RtoC x * (Ci * omega * V k) + RtoC y * (Ci * omega * V (n + k)%nat) + RtoC z * (Ci * omega * V (2 * n + k)%nat))%C; [|ring].
    rewrite G0, G1, G2. apply (f_equal RtoC) in Hx, Hy, Hz. rewrite !RtoC_mult in Hx. rewrite !RtoC_plus, !RtoC_mult in Hy. rewrite !RtoC_plus, !RtoC_mult in Hz. rewrite RtoC_mult.
    transitivity ((RtoC c * RtoC x) * dr + (RtoC c * RtoC y) * du + (RtoC c * RtoC z) * dp)%C; [ring|]. rewrite <- Hx, <- Hy, <- Hz. ring.
  - cbv beta. rewrite Nat.add_0_r, (Nat.add_0_r (2 * n)), A0, A1, A2. reflexivity.
  - rewrite !Lin. change (dC V 0%nat) with (dC (fun l => V l) 0%nat). rewrite D0, D1, D2. reflexivity.
Qed.
(** a mode of the advection gives an eigenvector of the whole problem *)
Definition stack (al be ga : R) (v : nat -> C) (i : nat) : C :=
  if Nat.ltb i n then (RtoC al * v i)%C else if Nat.ltb i (2 * n) then (RtoC be * v (i - n)%nat)%C else (RtoC ga * v (i - 2 * n)%nat)%C.
Lemma stack0 al be ga v k : (k < n)%nat -> stack al be ga v k = (RtoC al * v k)%C.
Proof. intros H. unfold stack. now rewrite (proj2 (Nat.ltb_lt k n) H). Qed.
Lemma stack1 al be ga v k : (k < n)%nat -> stack al be ga v (n + k) = (RtoC be * v k)%C.
Proof. intros H. unfold stack. destruct (Nat.ltb_spec (n + k) n); [lia|]. destruct (Nat.ltb_spec (n + k) (2 * n)); [|lia]. now replace (n + k - n)%nat with k by lia. Qed.
Lemma stack2 al be ga v k : (k < n)%nat -> stack al be ga v (2 * n + k) = (RtoC ga * v k)%C.
Proof. intros H. unfold stack. destruct (Nat.ltb_spec (2 * n + k) n); [lia|]. destruct (Nat.ltb_spec (2 * n + k) (2 * n)); [lia|]. now replace (2 * n + k - 2 * n)%nat with k by lia. Qed.
Lemma dC_scal al (f v : nat -> C) k : (k < n)%nat -> (forall l, (l < n)%nat -> f l = (RtoC al * v l)%C) -> dC f k = (RtoC al * dC v k)%C.
Proof. intros Hk H. unfold dC. rewrite <- Capply_scal. apply Capply_ext; [exact Hk|reflexivity|exact H]. Qed.
Lemma of_mode v omega c al be ga : advects n d c omega v ->
  u * al + rho * be = c * al -> u * be + / rho * ga = c * be -> u * ga + g * p * be = c * ga ->
  eigenpair (3 * n) (fun i j => RtoC (B i j)) (fun i j => (- Ci * RtoC (A i j))%C) omega (stack al be ga v).
Proof.
  intros (M1 & M2 & M3) H1 H2 H3 i Hi. fold dC in M1, M3. rewrite Mscal. set (V := stack al be ga v). fold (BC V).
  destruct (Crow V) as [K P]. destruct (index3 i Hi) as (a & k & Ha & Hk & ->).
  assert (S0 : forall l, (l < n)%nat -> V l = (RtoC al * v l)%C) by (intros; now apply stack0).
  assert (S1 : forall l, (l < n)%nat -> V (n + l)%nat = (RtoC be * v l)%C) by (intros; now apply stack1).
  assert (S2 : forall l, (l < n)%nat -> V (2 * n + l)%nat = (RtoC ga * v l)%C) by (intros; now apply stack2).
  assert (Pr : BC V (a * n)%nat = RtoC 0 /\ BC V (a * n + (n - 1))%nat = RtoC 0).
  { destruct (P a Ha) as (P0 & P1 & _ & _). rewrite P0, P1.
    assert (Sa : exists x, forall l, (l < n)%nat -> V (a * n + l)%nat = (RtoC x * v l)%C).
    { destruct a as [|[|[|a]]]; [exists al|exists be|exists ga|lia]; intros l Hl; [exact (S0 l Hl)|replace (1 * n + l)%nat with (n + l)%nat by lia; exact (S1 l Hl)|exact (S2 l Hl)]. }
    destruct Sa as (x0 & Sa). rewrite (dC_scal x0 (fun l => V (a * n + l)%nat) v 0 ltac:(lia) Sa), (dC_scal x0 (fun l => V (a * n + l)%nat) v (n - 1) ltac:(lia) Sa).
    rewrite !Sa by lia. rewrite M2, M3. split; ring. }
  destruct (Nat.eq_dec k 0) as [->|H0]; [|destruct (Nat.eq_dec k (n - 1)) as [->|H4]].
  - rewrite Nat.add_0_r. destruct (P a Ha) as (_ & _ & Z0 & _). rewrite (proj1 Pr), Z0. ring.
  - destruct (P a Ha) as (_ & _ & _ & Z0). rewrite (proj2 Pr), Z0. ring.
  - destruct (K k ltac:(lia)) as (E0 & E1 & E2 & F0 & F1 & F2).
    rewrite (dC_scal al V v k Hk S0), (dC_scal be (fun l => V (n + l)%nat) v k Hk S1) in E0. rewrite (dC_scal be (fun l => V (n + l)%nat) v k Hk S1), (dC_scal ga (fun l => V (2 * n + l)%nat) v k Hk S2) in E1, E2.
    specialize (M1 k ltac:(lia)). apply (f_equal RtoC) in H1, H2, H3. rewrite !RtoC_plus, !RtoC_mult in H1. rewrite !RtoC_plus, !RtoC_mult in H2. rewrite !RtoC_plus, !RtoC_mult in H3. rewrite RtoC_mult in E2.
    destruct a as [|[|[|a]]]; [| | |lia].
    + cbn [Nat.mul Nat.add]. rewrite E0, F0, S0 by exact Hk. transitivity (- ((RtoC u * RtoC al + RtoC rho * RtoC be) * dC v k))%C; [ring|]. rewrite H1.
      transitivity (- (RtoC al * (RtoC c * dC v k)))%C; [ring|]. rewrite M1. ring.
    + replace (1 * n + k)%nat with (n + k)%nat by lia. rewrite E1, F1, S1 by exact Hk. transitivity (- ((RtoC u * RtoC be + RtoC (/ rho) * RtoC ga) * dC v k))%C; [ring|]. rewrite H2.
      transitivity (- (RtoC be * (RtoC c * dC v k)))%C; [ring|]. rewrite M1. ring.
    + rewrite E2, F2, S2 by exact Hk. transitivity (- ((RtoC u * RtoC ga + RtoC g * RtoC p * RtoC be) * dC v k))%C; [ring|]. rewrite H3.
      transitivity (- (RtoC ga * (RtoC c * dC v k)))%C; [ring|]. rewrite M1. ring.
Qed.
Let a := sqrt (g * p / rho).
Lemma a_sq : a * a = g * p / rho. Proof. apply sqrt_sqrt. apply Rlt_le. pos. Qed.
Lemma a_pos : 0 < a. Proof. apply sqrt_lt_R0. pos. Qed.
Lemma spectrum omega : pair_spectrum (3 * n) B A omega <->
  advection_spectrum n d u omega \/ advection_spectrum n d (u + a) omega \/ advection_spectrum n d (u - a) omega.
Proof.
  pose proof a_sq as Ha2. pose proof a_pos as Ha. assert (Hgp : g * p = rho * (a * a)) by (rewrite Ha2; field; lra).
  split.
  - intros (V & (i & Hi & HV) & E).
    pose proof (to_mode V omega u (- (a * a)) 0 1 E ltac:(ring) ltac:(rewrite Hgp; ring) ltac:(ring)) as T0.
    pose proof (to_mode V omega (u + a) 0 (rho * a) 1 E ltac:(ring) ltac:(rewrite Hgp; ring) ltac:(field; lra)) as T1.
    pose proof (to_mode V omega (u - a) 0 (- (rho * a)) 1 E ltac:(ring) ltac:(rewrite Hgp; ring) ltac:(field; lra)) as T2.
    destruct (index3 i Hi) as (b & k & Hb & Hk & Ei).
    set (v0 := fun l => (RtoC (- (a * a)) * V l + (RtoC 0 * V (n + l)%nat + RtoC 1 * V (2 * n + l)%nat))%C) in T0.
    set (v1 := fun l => (RtoC 0 * V l + (RtoC (rho * a) * V (n + l)%nat + RtoC 1 * V (2 * n + l)%nat))%C) in T1.
    set (v2 := fun l => (RtoC 0 * V l + (RtoC (- (rho * a)) * V (n + l)%nat + RtoC 1 * V (2 * n + l)%nat))%C) in T2.
    destruct (Ccase (v0 k)) as [Z0|N0]; [|left; exists v0; split; [exists k; split; assumption|exact T0]].
    destruct (Ccase (v1 k)) as [Z1|N1]; [|right; left; exists v1; split; [exists k; split; assumption|exact T1]].
    destruct (Ccase (v2 k)) as [Z2|N2]; [|right; right; exists v2; split; [exists k; split; assumption|exact T2]].
    exfalso. apply HV. rewrite Ei. unfold v0 in Z0. unfold v1 in Z1. unfold v2 in Z2.
    assert (U0 : V (n + k)%nat = RtoC 0).
    { apply (Csc (rho * a + rho * a)); [apply Rgt_not_eq; assert (0 < rho * a) by pos; lra|]. transitivity ((RtoC 0 * V k + (RtoC (rho * a) * V (n + k)%nat + RtoC 1 * V (2 * n + k)%nat)) - (RtoC 0 * V k + (RtoC (- (rho * a)) * V (n + k)%nat + RtoC 1 * V (2 * n + k)%nat)))%C.
      - rewrite RtoC_opp, RtoC_plus. ring.
      - rewrite Z1, Z2. ring. }
    assert (P0 : V (2 * n + k)%nat = RtoC 0).
    { rewrite U0 in Z1. rewrite <- Z1. ring. }
    assert (R0 : V k = RtoC 0).
    { apply (Csc (- (a * a))); [nra|]. rewrite U0, P0 in Z0. rewrite <- Z0. ring. }
    destruct b as [|[|[|b]]]; [exact R0|replace (1 * n + k)%nat with (n + k)%nat by lia; exact U0|exact P0|lia].
  - intros [H|[H|H]]; destruct H as (v & (k & Hk & Hv) & M).
    + exists (stack 1 0 0 v). split; [|apply (of_mode v omega u 1 0 0 M); ring].
      exists k. split; [lia|]. rewrite stack0 by exact Hk. intros E. apply Hv. rewrite <- E. ring.
    + exists (stack rho a (rho * (a * a)) v). split; [|apply (of_mode v omega (u + a) _ _ _ M); [ring|field; lra|rewrite Hgp; ring]].
      exists k. split; [lia|]. rewrite stack0 by exact Hk. intros E. apply Hv. apply (Csc rho); [lra|exact E].
    + exists (stack rho (- a) (rho * (a * a)) v). split; [|apply (of_mode v omega (u - a) _ _ _ M); [ring|field; lra|rewrite Hgp; ring]].
      exists k. split; [lia|]. rewrite stack0 by exact Hk. intros E. apply Hv. apply (Csc rho); [lra|exact E].
Qed.
End TUBE.

(*@P C97_three_advections: For every number of nodes, interval, and uniform base flow (positive density, pressure and gamma, any velocity), with periodic ends: the operators requested from a new Euler1D object are finite, and a complex number omega is an eigenvalue of the problem solved by solve_eig (B V = omega (-i At) V, V not zero) if and only if it is an eigenvalue of the advection at speed u, at speed u + a or at speed u - a on the same nodes, with a exact differentiation matrix; a is the sound speed. *)
Lemma three_advections : forall n x0 x1 h rho u p g, (2 <= n)%nat -> x0 < x1 -> 0 < rho -> 0 < p -> 0 < g ->
  let q := mk_estate (fun _ => Some rho) (fun _ => Some u) (fun _ => Some p) (Some g) in
  let s := erun (OpBase q :: OpBC (ArgStr "per") (ArgStr "per") :: nil) (h, euler_init n (Some (Some x0)) (Some (Some x1)) None) in
  exists o x d B A, fst (fst (get_RHS_time_matrices (fst s) (snd s))) = inr o /\ o_size o = (3 * n)%nat /\
  (forall i j, (i < 3 * n)%nat -> (j < 3 * n)%nat -> o_B o i j = Some (B i j) /\ o_At o i j = Some (A i j)) /\
  (forall i, (i < n)%nat -> cheb_x n (Some x0) (Some x1) i = Some (x i)) /\ differentiates n x 1 d /\
  let a := sqrt (g * p / rho) in
  forall omega, pair_spectrum (3 * n) B A omega <->
    advection_spectrum n d u omega \/ advection_spectrum n d (u + a) omega \/ advection_spectrum n d (u - a) omega.
Proof.
  intros n x0 x1 h rho u p g Hn Hx Hr Hp Hg q s.
  destruct (fresh_get n x0 x1 h q "per" "per" (fun D o => setBC_per n D o) Hn Hx known_per known_per) as (D & x & d & HD & Ex & Df & E).
  { intros. eexists. now apply compute_per_per. }
  cbv beta in E. fold s in E. set (o := setBC_per n D (mk_ops (3 * n) euler_At (euler_B n D q))) in *.
  exists o, x, d, (val (o_B o)), (val (o_At o)). split; [exact E|]. split; [reflexivity|].
  split; [intros i j Hi Hj; exact (finite_ops n D d x rho u p g Hn HD Df Hr i j Hi Hj)|]. split; [exact Ex|]. split; [exact Df|].
  intros a omega. exact (spectrum n D d x rho u p g Hn HD Df Hr Hp Hg omega).
Qed.

Lemma Capply_conj n (d : nat -> nat -> R) v k : Capply n (fun i j => RtoC (d i j)) (fun l => Cconj (v l)) k = Cconj (Capply n (fun i j => RtoC (d i j)) v k).
Proof.
  rewrite !Capply_real. unfold Cconj. cbn [fst snd]. f_equal. rewrite <- rsum_opp. apply rsum_ext. intros. ring.
Qed.
Lemma Cmul_conj x y : Cconj (x * y)%C = (Cconj x * Cconj y)%C.
Proof. destruct x, y. unfold Cconj, Cmult. cbn [fst snd]. f_equal; ring. Qed.
Lemma Cconj_inj_0 z : Cconj z = RtoC 0 -> z = RtoC 0.
Proof. destruct z as [x y]. unfold Cconj, RtoC. cbn [fst snd]. intros E. pose proof (f_equal fst E). pose proof (f_equal snd E). cbn [fst snd] in *. f_equal; lra. Qed.
(*@P C97_families: On any nodes and for any speed c other than 0: omega is an eigenvalue of the advection at speed c exactly when omega / c is one of the advection at unit speed, so that the eigenvalues of the flow come in three families in the exact ratios u : u + a : u - a; and the eigenvalues come in pairs omega, -conj(omega), so that those of negative real part, dropped by the script, carry no more information. *)
Lemma families : forall n d c omega, 
  (c <> 0 -> (advection_spectrum n d c omega <-> advection_spectrum n d 1 (omega / RtoC c)%C)) /\
  (advection_spectrum n d c omega <-> advection_spectrum n d c (- Cconj omega)%C).
Proof.
  intros n d c omega. split.
  - intros Hc. assert (HcC : RtoC c <> RtoC 0) by (intros E; apply RtoC_inj in E; contradiction).
    split; intros (v & Hv & M1 & M2 & M3); exists v; (split; [exact Hv|]); (split; [|split; assumption]); intros k Hk; specialize (M1 k Hk).
    + set (dv := Capply n _ v k) in *. transitivity (/ RtoC c * (RtoC c * dv))%C; [field; exact HcC|]. rewrite M1. field. exact HcC.
    + set (dv := Capply n _ v k) in *. transitivity (RtoC c * (RtoC 1 * dv))%C; [ring|]. rewrite M1. field. exact HcC.
  - assert (K : forall w, advection_spectrum n d c w -> advection_spectrum n d c (- Cconj w)%C).
    { intros w (v & (i & Hi & Hv) & M1 & M2 & M3). exists (fun l => Cconj (v l)). split.
      - exists i. split; [exact Hi|]. intros E. apply Hv. now apply Cconj_inj_0.
      - unfold advects. split; [|split].
        + intros k Hk. specialize (M1 k Hk). rewrite Capply_conj. set (dv := Capply n _ v k) in *.
          transitivity (Cconj (RtoC c * dv))%C; [rewrite Cmul_conj; f_equal; unfold Cconj, RtoC; cbn [fst snd]; f_equal; ring|].
          rewrite M1. rewrite !Cmul_conj. replace (Cconj Ci) with (- Ci)%C by (unfold Cconj, Ci, Copp; cbn [fst snd]; f_equal; ring). ring.
        + f_equal. exact M2.
        + rewrite !Capply_conj. f_equal. exact M3. }
    split; [apply K|]. intros H. apply K in H. replace omega with (- Cconj (- Cconj omega))%C; [exact H|].
    destruct omega as [x y]. unfold Cconj, Copp. cbn [fst snd]. f_equal; ring.
Qed.

(** ** the script *)
Lemma tube_base_eq M : tube_base (Some M) = mk_estate (fun _ => Some (14/10)) (fun _ => Some (M * 100)) (fun _ => Some 10000) (Some (14/10)).
Proof. unfold tube_base, tube_state, tube_asound, state_init. cbn [st_rho st_u st_p st_g]. ncbn. unfold dgamma. f_equal; apply FunctionalExtensionality.functional_extensionality; intros _; f_equal; ring. Qed.
Lemma tube_sound : sqrt (14/10 * 10000 / (14/10)) = 100.
Proof. replace (14/10 * 10000 / (14/10)) with (100 * 100) by field. apply sqrt_square. lra. Qed.
Lemma tube_state_eval M i : asound (tube_state (Some M) i) = Some 100 /\ M_Model1D.Mach (tube_state (Some M) i) = Some M.
Proof.
  assert (E : tube_state (Some M) i = obj (14/10) (mkflow (14/10) (M * 100) 10000)).
  { unfold tube_state, tube_asound, state_init, obj. ncbn. cbn [f_rho f_u f_p]. unfold dgamma. f_equal; f_equal; ring. }
  assert (Hq : positive_state (mkflow (14/10) (M * 100) 10000)) by (split; cbn; lra).
  rewrite E, asound_eval, Mach_eval by (lra || assumption). unfold flow_sound. cbn [f_rho f_u f_p]. rewrite tube_sound. split; [reflexivity|f_equal; field].
Qed.
Lemma tube_asound_eval M i : asound (tube_state (Some M) i) = Some 100. Proof. apply tube_state_eval. Qed.
(*@P C97_tube: The Tube object of the script, for every number of nodes and every Mach number M other than 0, 1 and -1: its sound speed is 100 and its Mach number M at every node, the boundary conditions are accepted, and omega is an eigenvalue exactly when omega/(100 M), omega/(100 (M+1)) or omega/(100 (M-1)) is an eigenvalue of the unit advection on the nodes of [0,1]. *)
Lemma tube_spectrum : forall n M h, (2 <= n)%nat -> M <> 0 -> M <> 1 -> M <> -1 ->
  (forall i, asound (tube_state (Some M) i) = Some 100 /\ M_Model1D.Mach (tube_state (Some M) i) = Some M) /\
  exists h' e o x d B A, new_tube n (Some M) h = (None, h', e) /\ fst (fst (get_RHS_time_matrices h' e)) = inr o /\ o_size o = (3 * n)%nat /\
  (forall i j, (i < 3 * n)%nat -> (j < 3 * n)%nat -> o_B o i j = Some (B i j) /\ o_At o i j = Some (A i j)) /\
  (forall i, (i < n)%nat -> cheb_x n (Some 0) (Some 1) i = Some (x i)) /\ differentiates n x 1 d /\
  forall omega, pair_spectrum (3 * n) B A omega <->
    advection_spectrum n d 1 (omega / RtoC (100 * M))%C \/ advection_spectrum n d 1 (omega / RtoC (100 * (M + 1)))%C \/ advection_spectrum n d 1 (omega / RtoC (100 * (M - 1)))%C.
Proof.
  intros n M h Hn H0 H1 H2. split.
  - apply tube_state_eval.
  - destruct (three_advections n 0 1 h (14/10) (M * 100) 10000 (14/10) Hn ltac:(lra) ltac:(lra) ltac:(lra) ltac:(lra)) as (o & x & d & B & A & E & S & F & Ex & Df & K).
    cbv zeta in K. rewrite tube_sound in K. rewrite <- tube_base_eq in E. cbn [erun estep] in E.
    assert (Es : new_tube n (Some M) h = set_BC (ArgStr "per") (ArgStr "per") h (set_basestate (tube_base (Some M)) (euler_init n (Some (Some 0)) (Some (Some 1)) None))) by reflexivity.
    destruct (set_strings "per" "per" h (set_basestate (tube_base (Some M)) (euler_init n (Some (Some 0)) (Some (Some 1)) None)) known_per known_per) as (h2 & l & r & Es2 & _).
    rewrite Es. rewrite Es2 in E |- *. cbn [fst snd] in E.
    do 2 eexists. exists o, x, d, B, A. split; [reflexivity|]. split; [exact E|]. split; [exact S|]. split; [exact F|]. split; [exact Ex|]. split; [exact Df|].
    intros omega. rewrite K. rewrite (proj1 (families n d (M * 100) omega)), (proj1 (families n d (M * 100 + 100) omega)), (proj1 (families n d (M * 100 - 100) omega)) by lra.
    replace (M * 100 + 100) with (100 * (M + 1)) by ring. replace (M * 100 - 100) with (100 * (M - 1)) by ring. rewrite (Rmult_comm M 100). reflexivity.
Qed.

Lemma nsum_const n c : nsum n (fun _ => Some c) = Some (INR n * c).
Proof. induction n; [cbn; f_equal; ring|]. cbn [nsum]. rewrite IHn, S_INR. ncbn. f_equal. ring. Qed.
Lemma nmean_const n c : (1 <= n)%nat -> nmean n (fun _ => Some c) = Some c.
Proof.
  intros Hn. unfold nmean. rewrite nsum_const. unfold nofnat. assert (0 < INR n) by (apply lt_0_INR; lia). rewrite ndiv_Some by lra. f_equal. field. lra.
Qed.
Lemma nmax_last n (v : vec) (x : nat -> R) : (forall i, (i <= n)%nat -> v i = Some (x i)) -> (forall i j, (i < j <= n)%nat -> x i < x j) ->
  nmaximum n v = Some (x n) /\ nminimum n v = Some (x 0%nat).
Proof.
  intros Hv Hx. induction n as [|m IH]; [split; apply Hv; lia|].
  destruct IH as [I1 I2]; [intros; apply Hv; lia|intros; apply Hx; lia|].
  cbn [nmaximum nminimum]. rewrite I1, I2, Hv by lia. ncbn. split; f_equal.
  - apply Rmax_right. left. apply Hx. lia.
  - apply Rmin_left. left. apply Hx. lia.
Qed.

(** ** the printed values *)
Lemma cos_one x : cos x = 1 -> exists m : Z, x = 2 * PI * IZR m.
Proof.
  intros H. assert (S : sin (x / 2) = 0).
  { replace x with (2 * (x / 2)) in H by field. rewrite cos_2a_sin in H. apply Rsqr_0_uniq. unfold Rsqr. lra. }
  destruct (sin_eq_0_0 _ S) as (k & Hk). exists k. lra.
Qed.
Lemma zero_derive_const f : (forall x, is_derive f x 0) -> forall x y, f x = f y.
Proof.
  intros H x y. destruct (MVT_gen f x y (fun _ => 0)) as (z & _ & E).
  - intros t _. apply H.
  - intros t _. apply continuity_pt_filterlim. apply (ex_derive_continuous (V := R_NormedModule)). exists 0. apply H.
  - lra.
Qed.
Lemma exact_pulsations c L omega : c <> 0 -> 0 < L ->
  (periodic_pulsation c L omega <-> exists m : Z, omega = RtoC (2 * PI * c / L * IZR m)).
Proof.
  intros Hc HL. split.
  - destruct omega as [wr wi]. intros (p & q & (x0 & N) & Per & D).
    assert (Dp : forall x, is_derive p x (- (wi * p x + wr * q x) / c) /\ is_derive q x ((wr * p x - wi * q x) / c)).
    { intros x. destruct (D x) as (p' & q' & Hp & Hq & E). unfold Cmult, RtoC, Ci in E. cbn [fst snd] in E.
      pose proof (f_equal fst E) as E1. pose proof (f_equal snd E) as E2. cbn [fst snd] in E1, E2.
      split; [replace (- (wi * p x + wr * q x) / c) with p'; [exact Hp|]|replace ((wr * p x - wi * q x) / c) with q'; [exact Hq|]].
      - apply (Rmult_eq_reg_l c); [|exact Hc]. transitivity (c * p' - 0 * q'); [ring|]. rewrite E1. field. exact Hc.
      - apply (Rmult_eq_reg_l c); [|exact Hc]. transitivity (c * q' + 0 * p'); [ring|]. rewrite E2. field. exact Hc. }
    assert (Nn : 0 < p x0 * p x0 + q x0 * q x0) by (destruct N; nra).
    assert (Hwi : wi = 0).
    { assert (K : forall x y, (p x * p x + q x * q x) * exp (2 * wi / c * x) = (p y * p y + q y * q y) * exp (2 * wi / c * y)).
      { apply (zero_derive_const (fun x => (p x * p x + q x * q x) * exp (2 * wi / c * x))). intros x. destruct (Dp x) as [P Q].
      pose proof (is_derive_unique _ _ _ P) as P1. pose proof (is_derive_unique _ _ _ Q) as Q1. auto_derive; [repeat split; eexists; eassumption|]. replace (Derive (fun x1 : R => p x1) x) with (Derive p x) by reflexivity. replace (Derive (fun x1 : R => q x1) x) with (Derive q x) by reflexivity. rewrite P1, Q1. field. exact Hc. }
      specialize (K (x0 + L) x0). destruct (Per x0) as [-> ->] in K. apply Rmult_eq_reg_l in K; [|lra]. apply exp_inv in K.
      assert (Z : 2 * wi * L / c = 0) by (replace (2 * wi * L / c) with (2 * wi / c * (x0 + L) - 2 * wi / c * x0) by (field; exact Hc); lra).
      assert (Z2 : wi * L = 0) by (replace (wi * L) with (2 * wi * L / c * c / 2) by (field; exact Hc); rewrite Z; field). nra. }
    subst wi. set (k := wr / c).
    assert (K1 : forall x y, p x * cos (k * x) + q x * sin (k * x) = p y * cos (k * y) + q y * sin (k * y)).
    { apply (zero_derive_const (fun x => p x * cos (k * x) + q x * sin (k * x))). intros x. destruct (Dp x) as [P Q].
      pose proof (is_derive_unique _ _ _ P) as P1. pose proof (is_derive_unique _ _ _ Q) as Q1. auto_derive; [repeat split; eexists; eassumption|]. replace (Derive (fun x1 : R => p x1) x) with (Derive p x) by reflexivity. replace (Derive (fun x1 : R => q x1) x) with (Derive q x) by reflexivity. rewrite P1, Q1. unfold k. field. exact Hc. }
    assert (K2 : forall x y, q x * cos (k * x) - p x * sin (k * x) = q y * cos (k * y) - p y * sin (k * y)).
    { apply (zero_derive_const (fun x => q x * cos (k * x) - p x * sin (k * x))). intros x. destruct (Dp x) as [P Q].
      pose proof (is_derive_unique _ _ _ P) as P1. pose proof (is_derive_unique _ _ _ Q) as Q1. auto_derive; [repeat split; eexists; eassumption|]. replace (Derive (fun x1 : R => p x1) x) with (Derive p x) by reflexivity. replace (Derive (fun x1 : R => q x1) x) with (Derive q x) by reflexivity. rewrite P1, Q1. unfold k. field. exact Hc. }
    specialize (K1 (x0 + L) x0). specialize (K2 (x0 + L) x0). destruct (Per x0) as [Ep Eq]. rewrite Ep, Eq in K1. rewrite Ep, Eq in K2.
    assert (C1 : cos (k * L) = 1).
    { assert (S1 : (p x0 * p x0 + q x0 * q x0) * cos (k * (x0 + L)) = (p x0 * p x0 + q x0 * q x0) * cos (k * x0)).
      { transitivity (p x0 * (p x0 * cos (k * (x0 + L)) + q x0 * sin (k * (x0 + L))) + q x0 * (q x0 * cos (k * (x0 + L)) - p x0 * sin (k * (x0 + L)))); [ring|]. rewrite K1, K2. ring. }
      assert (S2 : (p x0 * p x0 + q x0 * q x0) * sin (k * (x0 + L)) = (p x0 * p x0 + q x0 * q x0) * sin (k * x0)).
      { transitivity (q x0 * (p x0 * cos (k * (x0 + L)) + q x0 * sin (k * (x0 + L))) - p x0 * (q x0 * cos (k * (x0 + L)) - p x0 * sin (k * (x0 + L)))); [ring|]. rewrite K1, K2. ring. }
      apply Rmult_eq_reg_l in S1; [|lra]. apply Rmult_eq_reg_l in S2; [|lra].
      replace (k * L) with (k * (x0 + L) - k * x0) by ring. rewrite cos_minus, S1, S2. pose proof (sin2_cos2 (k * x0)) as T. unfold Rsqr in T. lra. }
    destruct (cos_one _ C1) as (m & Hm). exists m. unfold RtoC. f_equal. unfold k in Hm.
    replace wr with (wr / c * L * c / L) by (field; lra). rewrite Hm. field. lra.
  - intros (m & ->). set (k := 2 * PI / L * IZR m). exists (fun x => cos (k * x)), (fun x => sin (k * x)).
    split; [exists 0; left; rewrite Rmult_0_r, cos_0; lra|]. split.
    + intros x. replace (k * (x + L)) with (k * x + 2 * PI * IZR m) by (unfold k; field; lra).
      assert (Cm : cos (2 * PI * IZR m) = 1 /\ sin (2 * PI * IZR m) = 0).
      { assert (sin (IZR m * PI) = 0) by (apply sin_eq_0_1; exists m; reflexivity). replace (2 * PI * IZR m) with (2 * (IZR m * PI)) by ring. rewrite cos_2a_sin, sin_2a, H. split; ring. }
      destruct Cm as [C1 C2]. rewrite cos_plus, sin_plus, C1, C2. split; ring.
    + intros x. do 2 eexists. split; [auto_derive; [exact I|reflexivity]|]. split; [auto_derive; [exact I|reflexivity]|].
      unfold Cmult, RtoC, Ci, k. cbn [fst snd]. f_equal; field; lra.
Qed.
Lemma tube_length n : (2 <= n)%nat -> let x := cheb_x n (Some 0) (Some 1) in nmaximum (n - 1) x = Some 1 /\ nminimum (n - 1) x = Some 0.
Proof.
  intros Hn x. destruct (x_nodes n 0 1 Hn ltac:(lra)) as (E0 & E1 & E). cbn [cheb_init cb_xmin cb_xmax] in E0, E1, E. fold x in E0, E1, E.
  destruct (nmax_last (n - 1) x (fun i => match x i with Some r => r | None => 0 end)) as [A B].
  - intros i Hi. destruct (Nat.eq_dec i 0) as [->|Hi0]; [now rewrite E0|]. destruct (E 0%nat i ltac:(lia) ltac:(lia)) as (a & b & _ & -> & _). reflexivity.
  - intros i j Hij. destruct (E i j ltac:(lia) ltac:(lia)) as (a & b & -> & -> & H & _). lra.
  - rewrite A, B, E0, E1. split; reflexivity.
Qed.
(*@P C97_theory: For every number of nodes and Mach number M between 0 and 1, the three printed theoretical pulsations are 200 pi (1 - M), 200 pi M and 200 pi (1 + M), and each is the generator of the exact pulsations of the corresponding wave on the tube of unit length: omega is a pulsation of the advection at speed a - u (resp. u, u + a) exactly when it is an integer multiple of the printed value. *)
Lemma theory_printed : forall n M, (2 <= n)%nat -> 0 < M < 1 ->
  exists w1 w2 w3, tube_theory n (Some M) = Some w1 :: Some w2 :: Some w3 :: nil /\
  w1 = 200 * PI * (1 - M) /\ w2 = 200 * PI * M /\ w3 = 200 * PI * (1 + M) /\
  forall omega, (periodic_pulsation (100 - 100 * M) 1 omega <-> exists m : Z, omega = RtoC (w1 * IZR m)) /\
    (periodic_pulsation (100 * M) 1 omega <-> exists m : Z, omega = RtoC (w2 * IZR m)) /\
    (periodic_pulsation (100 * M + 100) 1 omega <-> exists m : Z, omega = RtoC (w3 * IZR m)).
Proof.
  intros n M Hn HM. do 3 eexists. split; [|split; [reflexivity|split; [reflexivity|split; [reflexivity|]]]].
  - unfold tube_theory. destruct (tube_length n Hn) as [E1 E2]. cbv zeta in E1, E2 |- *. rewrite E1, E2.
    replace (nmean n (fun i => st_u (tube_state (Some M) i))) with (Some (M * 100)).
    2:{ symmetry. rewrite <- (nmean_const n (M * 100)) by lia. f_equal. apply FunctionalExtensionality.functional_extensionality. intros i. unfold tube_state, tube_asound, state_init. cbn [st_u]. ncbn. f_equal. ring. }
    replace (nmean n (fun i => asound (tube_state (Some M) i))) with (Some 100).
    2:{ symmetry. rewrite <- (nmean_const n 100) by lia. f_equal. apply FunctionalExtensionality.functional_extensionality. intros i. exact (tube_asound_eval M i). }
    unfold npi. cbn [map]. ncbn. rewrite !ndiv_Some by lra.
    match goal with |- Some ?a :: Some ?b :: Some ?c :: nil = Some ?a' :: Some ?b' :: Some ?c' :: nil => replace a with a' by field; replace b with b' by field; replace c with c' by field end. reflexivity.
  - intros omega. rewrite !exact_pulsations by lra. split; [|split]; split; intros (m & ->); exists m; f_equal; field.
Qed.
(*@E C97_example: a number of nodes and Mach number of the theorems (those of the script), and an eigenvalue of the flow: 0, the uniform perturbation. *)
Lemma tube_ex : (2 <= 101)%nat /\ 0 < 55/100 < 1 /\
  forall n x d c, (1 <= n)%nat -> differentiates n x 1 d -> advection_spectrum n d c (RtoC 0).
Proof.
  split; [lia|]. split; [lra|]. intros n x d c Hn Df. exists (fun _ => RtoC 1).
  assert (Z : forall k, (k < n)%nat -> Capply n (fun i j => RtoC (d i j)) (fun _ => RtoC 1) k = RtoC 0).
  { intros k Hk. rewrite Capply_real. pose proof (ddx_const n x d 1 k Df Hn Hk) as Z1. unfold ddx in Z1. pose proof (ddx_const n x d 0 k Df Hn Hk) as Z0. unfold ddx in Z0. change (Sum n) with (rsum n) in Z1, Z0. unfold RtoC. cbn [fst snd]. rewrite Z1, Z0. reflexivity. }
  split; [exists 0%nat; split; [lia|intros E; apply RtoC_inj in E; lra]|].
  split; [|split].
  - intros k Hk. rewrite Z by lia. ring.
  - reflexivity.
  - rewrite !Z by lia. reflexivity.
Qed.
