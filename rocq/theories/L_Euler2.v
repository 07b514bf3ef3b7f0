(** * Boundary rows of the Euler1D operator *)
From Verif Require Import Num L_Num M_Spectral M_Euler EulerSpec L_Poly L_Spectral L_Spectral2 L_Spectral3 L_Euler1.
Open Scope R_scope.

Ltac rngE := repeat match goal with
  | |- context [Nat.eqb ?a ?b] => destruct (Nat.eqb_spec a b); try lia; cbn [andb]
  | |- context [Nat.leb ?a ?b] => destruct (Nat.leb_spec a b); try lia; cbn [andb]
  | |- context [Nat.ltb ?a ?b] => destruct (Nat.ltb_spec a b); try lia; cbn [andb]
  end.

(** product of a row with a vector, for a matrix of size 3n or 3n+1 *)
Lemma matvecN n N A w i f0 f1 f2 : (N = 3 * n \/ N = 3 * n + 1)%nat ->
  (forall l, (l < n)%nat -> A i l = Some (f0 l)) -> (forall l, (l < n)%nat -> A i (n + l)%nat = Some (f1 l)) ->
  (forall l, (l < n)%nat -> A i (2 * n + l)%nat = Some (f2 l)) -> A i (3 * n)%nat = Some 0 ->
  matvec N A (fun j => Some (w j)) i =
  Some (rsum n (fun l => f0 l * w l) + rsum n (fun l => f1 l * w (n + l)%nat) + rsum n (fun l => f2 l * w (2 * n + l)%nat)).
Proof.
  intros HN H0 H1 H2 H3. destruct HN as [->|Hn]; subst.
  - now apply matvec3.
  - replace (3 * n + 1)%nat with (S (3 * n)) by lia. unfold matvec. cbn [nsum].
    pose proof (matvec3 n A w i f0 f1 f2 H0 H1 H2) as E. unfold matvec in E. rewrite E, H3. ncbn. f_equal; ring.
Qed.
Lemma rsum_0w n (w : nat -> R) : rsum n (fun l => 0 * w l) = 0.
Proof. apply rsum_zero; intros; ring. Qed.

(*@P C50_sym: Whatever the size, differentiation matrix and current matrices (of size 3n, or 3n+1 after a shock condition): the symmetry condition at node s written at row i0 replaces rows i0, n+i0 and 2n+i0 by rho_x(s), u(s) and p_x(s) with a zero time row, and leaves every other row of both matrices unchanged. *)
Lemma sym_rows : forall n D d o s i0 w,
  (s < n)%nat -> (i0 < n)%nat -> (o_size o = 3 * n \/ o_size o = 3 * n + 1)%nat ->
  (forall i j, (i < n)%nat -> (j < n)%nat -> D i j = Some (d i j)) ->
  let o' := setBC_sym n D s i0 o in
  let Bw := matvec (o_size o') (o_B o') (fun j => Some (w j)) in
  o_size o' = o_size o /\
  Bw i0 = Some (ddx n d w s) /\ Bw (n + i0)%nat = Some (w (n + s)%nat) /\
  Bw (2 * n + i0)%nat = Some (ddx n d (fun l => w (2 * n + l)%nat) s) /\
  (forall j, o_At o' i0 j = Some 0 /\ o_At o' (n + i0)%nat j = Some 0 /\ o_At o' (2 * n + i0)%nat j = Some 0) /\
  forall i j, i <> i0 -> i <> (n + i0)%nat -> i <> (2 * n + i0)%nat ->
    o_B o' i j = o_B o i j /\ o_At o' i j = o_At o i j.
Proof.
  intros n D d o s i0 w Hs Hi HN HD o' Bw.
  split; [reflexivity|].
  assert (EB : forall i j, o_B o' i j = 
    if Nat.eqb i (i0 + 2 * n) then (if andb (Nat.leb (2 * n) j) (Nat.ltb j (3 * n)) then D s (j - 2 * n)%nat else Some 0)
    else if Nat.eqb i (i0 + n) then (if Nat.eqb j (n + s) then Some 1 else Some 0)
    else if Nat.eqb i i0 then (if Nat.ltb j n then D s j else Some 0) else o_B o i j).
  { intros i j. unfold o', setBC_sym; cbn [o_B]. unfold set_row, set_entry, zero_row, in_range.
    replace (j - 0)%nat with j by lia. rewrite !Nat.add_0_r.
    destruct (Nat.eqb_spec i (i0 + 2 * n)); [|destruct (Nat.eqb_spec i (i0 + n)); [|destruct (Nat.eqb_spec i i0)]]; cbn [andb]; rngE; reflexivity. }
  assert (R0 : Bw i0 = Some (ddx n d w s)).
  { unfold Bw. rewrite (matvecN n (o_size o') (o_B o') w i0 (d s) (fun _ => 0) (fun _ => 0) HN); [| | | |].
    - rewrite (rsum_0w n (fun l => w (n + l)%nat)), (rsum_0w n (fun l => w (2 * n + l)%nat)).
      unfold ddx; change Sum with rsum. f_equal; ring.
    - intros l Hl. rewrite EB. rngE. apply HD; assumption.
    - intros l Hl. rewrite EB. rngE. reflexivity.
    - intros l Hl. rewrite EB. rngE. reflexivity.
    - rewrite EB. rngE. reflexivity. }
  assert (R1 : Bw (n + i0)%nat = Some (w (n + s)%nat)).
  { unfold Bw. rewrite (matvecN n (o_size o') (o_B o') w (n + i0) (fun _ => 0) (fun l => delta s l) (fun _ => 0) HN); [| | | |].
    - rewrite (rsum_0w n w), (rsum_0w n (fun l => w (2 * n + l)%nat)), (rsum_delta n s (fun l => w (n + l)%nat)) by assumption. f_equal; ring.
    - intros l Hl. rewrite EB. rngE. reflexivity.
    - intros l Hl. rewrite EB. unfold delta. rngE; reflexivity.
    - intros l Hl. rewrite EB. rngE. reflexivity.
    - rewrite EB. rngE. reflexivity. }
  assert (R2 : Bw (2 * n + i0)%nat = Some (ddx n d (fun l => w (2 * n + l)%nat) s)).
  { unfold Bw. rewrite (matvecN n (o_size o') (o_B o') w (2 * n + i0) (fun _ => 0) (fun _ => 0) (d s) HN); [| | | |].
    - rewrite (rsum_0w n w), (rsum_0w n (fun l => w (n + l)%nat)).
      unfold ddx; change Sum with rsum. f_equal; ring.
    - intros l Hl. rewrite EB. rngE. reflexivity.
    - intros l Hl. rewrite EB. rngE. reflexivity.
    - intros l Hl. rewrite EB. rngE. replace (2 * n + l - 2 * n)%nat with l by lia. apply HD; assumption.
    - rewrite EB. rngE. reflexivity. }
  split; [exact R0|]. split; [exact R1|]. split; [exact R2|]. split.
  - intros j. unfold o', setBC_sym; cbn [o_At]. unfold zero_row. repeat split; rngE; reflexivity.
  - intros i j H0 H1 H2. split; [rewrite EB; rngE; reflexivity|].
    unfold o', setBC_sym; cbn [o_At]. unfold zero_row. rngE; reflexivity.
Qed.

(*@P C50_per: The periodic condition (n >= 2) replaces, for each of rho, u, p, the first row by q(0) - q(n-1) and the last row by q_x(0) - q_x(n-1), with zero time rows, and leaves every other row of both matrices unchanged. *)
Lemma per_rows : forall n D d o w,
  (2 <= n)%nat -> (o_size o = 3 * n)%nat ->
  (forall i j, (i < n)%nat -> (j < n)%nat -> D i j = Some (d i j)) ->
  let o' := setBC_per n D o in
  let Bw := matvec (o_size o') (o_B o') (fun j => Some (w j)) in
  o_size o' = o_size o /\
  (forall a, (a < 3)%nat -> let wa := fun l => w (a * n + l)%nat in
     Bw (a * n)%nat = Some (wa 0%nat - wa (n - 1)%nat) /\
     Bw (a * n + (n - 1))%nat = Some (ddx n d wa 0%nat - ddx n d wa (n - 1)%nat) /\
     forall j, o_At o' (a * n)%nat j = Some 0 /\ o_At o' (a * n + (n - 1))%nat j = Some 0) /\
  forall i j, (forall a, (a < 3)%nat -> i <> a * n /\ i <> a * n + (n - 1))%nat ->
    o_B o' i j = o_B o i j /\ o_At o' i j = o_At o i j.
Proof.
  intros n D d o w Hn HN HD o' Bw. split; [reflexivity|].
  assert (EB : forall i j, o_B o' i j =
    if Nat.eqb i 0 then (if Nat.eqb j (n - 1) then Some (-1) else if Nat.eqb j 0 then Some 1 else Some 0)
    else if Nat.eqb i (n - 1) then (if Nat.ltb j n then nsub (D 0%nat j) (D (n - 1)%nat j) else Some 0)
    else if Nat.eqb i n then (if Nat.eqb j (n + (n - 1)) then Some (-1) else if Nat.eqb j n then Some 1 else Some 0)
    else if Nat.eqb i (n + (n - 1)) then (if andb (Nat.leb n j) (Nat.ltb j (2 * n)) then nsub (D 0%nat (j - n)%nat) (D (n - 1)%nat (j - n)%nat) else Some 0)
    else if Nat.eqb i (2 * n) then (if Nat.eqb j (2 * n + (n - 1)) then Some (-1) else if Nat.eqb j (2 * n) then Some 1 else Some 0)
    else if Nat.eqb i (2 * n + (n - 1)) then (if andb (Nat.leb (2 * n) j) (Nat.ltb j (3 * n)) then nsub (D 0%nat (j - 2 * n)%nat) (D (n - 1)%nat (j - 2 * n)%nat) else Some 0)
    else o_B o i j).
  { intros i j. unfold o', setBC_per; cbn [o_B fold_left].
    replace (0 * n)%nat with 0%nat by lia. replace (1 * n)%nat with n by lia. replace ((0 + 1) * n)%nat with n by lia. replace ((1 + 1) * n)%nat with (2 * n)%nat by lia. replace ((2 + 1) * n)%nat with (3 * n)%nat by lia.
    clear - Hn. destruct (Nat.eqb_spec i 0); [|destruct (Nat.eqb_spec i (n - 1)); [|destruct (Nat.eqb_spec i n); [|destruct (Nat.eqb_spec i (n + (n - 1)));
      [|destruct (Nat.eqb_spec i (2 * n)); [|destruct (Nat.eqb_spec i (2 * n + (n - 1)))]]]]];
    unfold sub_row, set_row, set_entry, zero_row, in_range;
    repeat (match goal with |- context [Nat.eqb i ?b] => destruct (Nat.eqb_spec i b); try lia; cbn [andb] end);
    rngE; rewrite ?Nat.sub_0_r; reflexivity. }
  assert (Pt : forall k c, (k < n)%nat -> (c < n)%nat -> k <> c -> forall v : nat -> R,
     rsum n (fun l => (if Nat.eqb l c then -1 else if Nat.eqb l k then 1 else 0) * v l) = v k - v c).
  { clear. intros k c Hk Hc Hkc v. rewrite (rsum_ext n _ (fun l => delta k l * v l + (-1) * (delta c l * v l))).
    - rewrite rsum_plus, rsum_scal, !rsum_delta by assumption. ring.
    - intros l _. unfold delta. destruct (Nat.eqb_spec l c), (Nat.eqb_spec l k), (Nat.eqb_spec k l), (Nat.eqb_spec c l); try lia; try congruence; ring. }
  assert (Dr : forall v : nat -> R, rsum n (fun l => (d 0%nat l - d (n - 1)%nat l) * v l) = ddx n d v 0%nat - ddx n d v (n - 1)%nat).
  { intros v. unfold ddx; change Sum with rsum.
    rewrite (rsum_ext n _ (fun l => d 0%nat l * v l + (-1) * (d (n - 1)%nat l * v l))) by (intros; ring).
    rewrite rsum_plus, rsum_scal. ring. }
  assert (Dn : forall l, (l < n)%nat -> nsub (D 0%nat l) (D (n - 1)%nat l) = Some (d 0%nat l - d (n - 1)%nat l)).
  { intros l Hl. rewrite !HD by lia. reflexivity. }
  set (z := fun _ : nat => 0).
  set (pt := fun l => if Nat.eqb l (n - 1) then -1 else if Nat.eqb l 0 then 1 else 0).
  set (dr := fun l => d 0%nat l - d (n - 1)%nat l).
  assert (Row : forall i f0 f1 f2,
    (forall l, (l < n)%nat -> o_B o' i l = Some (f0 l)) -> (forall l, (l < n)%nat -> o_B o' i (n + l)%nat = Some (f1 l)) ->
    (forall l, (l < n)%nat -> o_B o' i (2 * n + l)%nat = Some (f2 l)) ->
    Bw i = Some (rsum n (fun l => f0 l * w l) + rsum n (fun l => f1 l * w (n + l)%nat) + rsum n (fun l => f2 l * w (2 * n + l)%nat))).
  { intros i f0 f1 f2 H0 H1 H2. unfold Bw. change (o_size o') with (o_size o). rewrite HN. now apply matvec3. }
  assert (Z : forall v : nat -> R, rsum n (fun l => z l * v l) = 0) by (intros; apply rsum_0w).
  split.
  - intros a Ha wa.
    assert (Hat : forall j, o_At o' (a * n)%nat j = Some 0 /\ o_At o' (a * n + (n - 1))%nat j = Some 0).
    { intros j. unfold o', setBC_per; cbn [o_At fold_left]. unfold zero_row. clear - Hn Ha.
      split; repeat (match goal with |- (if Nat.eqb ?i ?b then _ else _) = _ => destruct (Nat.eqb_spec i b) as [|?]; [reflexivity|] end); exfalso.
      - destruct a as [|[|[|a]]]; lia. - destruct a as [|[|[|a]]]; lia. }
    destruct a as [|[|[|a]]]; [| | |lia]; unfold wa; split; [| split; [|exact Hat] | | split; [|exact Hat] | | split; [|exact Hat]]; clear Hat.
    + rewrite (Row _ pt z z); [|intros l Hl; rewrite EB; unfold pt, z; clear - Hn Hl; cbn [Nat.mul Nat.add]; rngE; reflexivity..].
      rewrite !Z; unfold pt; rewrite (Pt 0%nat (n - 1)%nat ltac:(lia) ltac:(lia) ltac:(lia) w). f_equal; cbn; ring.
    + rewrite (Row _ dr z z).
      * rewrite !Z. unfold dr. rewrite (Dr w). change (fun l => w (0 * n + l)%nat) with w; f_equal; ring.
      * intros l Hl; rewrite EB; replace (0 * n + (n - 1))%nat with (n - 1)%nat by lia; rngE. apply Dn; assumption.
      * intros l Hl; rewrite EB; unfold z; clear - Hn Hl; cbn [Nat.mul Nat.add]; rngE; reflexivity.
      * intros l Hl; rewrite EB; unfold z; clear - Hn Hl; cbn [Nat.mul Nat.add]; rngE; reflexivity.
    + rewrite (Row _ z pt z); [|intros l Hl; rewrite EB; unfold pt, z; clear - Hn Hl; rngE; reflexivity..].
      rewrite !Z; unfold pt; rewrite (Pt 0%nat (n - 1)%nat ltac:(lia) ltac:(lia) ltac:(lia) (fun l => w (n + l)%nat)).
      replace (1 * n)%nat with n by lia. f_equal; ring.
    + rewrite (Row _ z dr z).
      * rewrite !Z. unfold dr. rewrite (Dr (fun l => w (n + l)%nat)). replace (1 * n)%nat with n by lia. f_equal; ring.
      * intros l Hl; rewrite EB; unfold z; clear - Hn Hl; rngE; reflexivity.
      * intros l Hl; rewrite EB; rngE. replace (n + l - n)%nat with l by lia. apply Dn; assumption.
      * intros l Hl; rewrite EB; unfold z; clear - Hn Hl; rngE; reflexivity.
    + rewrite (Row _ z z pt); [|intros l Hl; rewrite EB; unfold pt, z; clear - Hn Hl; rngE; reflexivity..].
      rewrite !Z; unfold pt; rewrite (Pt 0%nat (n - 1)%nat ltac:(lia) ltac:(lia) ltac:(lia) (fun l => w (2 * n + l)%nat)). f_equal; ring.
    + rewrite (Row _ z z dr).
      * rewrite !Z. unfold dr. rewrite (Dr (fun l => w (2 * n + l)%nat)). f_equal; ring.
      * intros l Hl; rewrite EB; unfold z; clear - Hn Hl; rngE; reflexivity.
      * intros l Hl; rewrite EB; unfold z; clear - Hn Hl; rngE; reflexivity.
      * intros l Hl; rewrite EB; rngE. replace (2 * n + l - 2 * n)%nat with l by lia. apply Dn; assumption.
  - intros i j Hi. pose proof (Hi 0%nat ltac:(lia)) as H0. pose proof (Hi 1%nat ltac:(lia)) as H1. pose proof (Hi 2%nat ltac:(lia)) as H2.
    clear Hi. split; [rewrite EB|unfold o', setBC_per; cbn [o_At fold_left]; unfold zero_row]; clear - H0 H1 H2 Hn; rngE; reflexivity.
Qed.
