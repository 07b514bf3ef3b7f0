From Verif Require Import L_Num Spec NumSpec M_Degree M_IterSolve M_MassFlow M_Isentropic M_Supersonic M_Fan FanSpec L_Isentropic L_Degree L_Supersonic L_Fan.
Open Scope R_scope.

Lemma put_spec v : forall l i, (i < length l)%nat -> exists l', put i v l = Some l' /\ length l' = length l /\
  forall d j, nth j l' d = if Nat.eqb j i then v else nth j l d.
Proof.
  induction l as [|a l IH]; intros i Hi; [cbn in Hi; lia|]. destruct i as [|i]; cbn [put].
  - exists (v :: l). split; [reflexivity|]. split; [reflexivity|]. intros d [|j]; reflexivity.
  - cbn in Hi. destruct (IH i ltac:(lia)) as [l' [E [L N]]]. rewrite E. exists (a :: l'). split; [reflexivity|]. split; [cbn; lia|].
    intros d [|j]; [reflexivity|]. cbn [nth Nat.eqb]. apply N.
Qed.
Section March.
Variables (angle : num -> num -> num) (ds : num) (wh : nat -> nat).
Fixpoint it (k : nat) (s : point) : point := match k with O => s | S k => rk2 angle ds (it k s) end.
Lemma it_S k s : it k (rk2 angle ds s) = it (S k) s.
Proof. induction k as [|k IH]; [reflexivity|]. cbn [it]. rewrite IH. reflexivity. Qed.
Lemma march_spec : forall n i s l, (forall j, (i <= j < i + n)%nat -> (wh j < length l)%nat) ->
  (forall j k, (i <= j < i + n)%nat -> (i <= k < i + n)%nat -> wh j = wh k -> j = k) ->
  exists l', march angle ds wh n i s l = Some l' /\ length l' = length l /\ forall d,
    (forall k, (k < n)%nat -> nth (wh (i + k)%nat) l' d = it (S k) s) /\
    (forall p, (forall k, (k < n)%nat -> wh (i + k)%nat <> p) -> nth p l' d = nth p l d).
Proof.
  induction n as [|n IH]; intros i s l Hb Hi.
  - exists l. split; [reflexivity|]. split; [reflexivity|]. intros d. split; [intros k Hk; lia|reflexivity].
  - cbn [march]. destruct (put_spec (rk2 angle ds s) l (wh i) ltac:(apply Hb; lia)) as [l1 [E1 [L1 N1]]]. rewrite E1.
    destruct (IH (S i) (rk2 angle ds s) l1) as [l' [E [L N]]].
    { intros j Hj. rewrite L1. apply Hb. lia. }
    { intros j k Hj Hk. apply Hi; lia. }
    exists l'. split; [exact E|]. split; [congruence|]. intros d. destruct (N d) as [NA NB]. split.
    + intros [|k] Hk.
      * rewrite Nat.add_0_r, NB. { rewrite N1, Nat.eqb_refl. reflexivity. }
        intros k Hk' E'. apply Hi in E'; lia.
      * rewrite <- it_S. replace (i + S k)%nat with (S i + k)%nat by lia. apply NA. lia.
    + intros p Hp. rewrite NB.
      * rewrite N1. destruct (Nat.eqb_spec p (wh i)) as [->|]; [|reflexivity]. exfalso. apply (Hp 0%nat ltac:(lia)). now rewrite Nat.add_0_r.
      * intros k Hk. replace (S i + k)%nat with (i + S k)%nat by lia. apply Hp. lia.
Qed.
End March.
Lemma nth_eq_list (l l' : list point) : length l = length l' -> (forall i, (i < length l)%nat -> nth i l (None, None) = nth i l' (None, None)) -> l = l'.
Proof. intros HL H. apply nth_ext with (None, None) (None, None); assumption. Qed.
(** number of forward steps *)
Definition nfw (npts : nat) (smin smax : R) : nat := Z.to_nat (Int_part (INR npts * smax / (smax - smin))).
Lemma Int_part_floor q : IZR (Int_part q) <= q < IZR (Int_part q) + 1.
Proof. pose proof (base_Int_part q). lra. Qed.
Lemma nfw_eval npts smin smax : smin <= 0 -> 0 <= smax -> smin < smax -> nforw_of npts (Some smin) (Some smax) = Some (nfw npts smin smax) /\
  INR (nfw npts smin smax) <= INR npts * smax / (smax - smin) < INR (nfw npts smin smax) + 1 /\ (nfw npts smin smax <= npts)%nat.
Proof.
  intros H1 H2 H3. pose proof (pos_INR npts) as Hn. set (q := INR npts * smax / (smax - smin)).
  assert (Hq : 0 <= q <= INR npts).
  { unfold q. split; [apply Rmult_le_pos; [nra|left; pos]|]. apply Rle_div_l; [lra|]. nra. }
  pose proof (Int_part_floor q) as HF.
  assert (HZ : (0 <= Int_part q)%Z). { apply Z.lt_succ_r. apply lt_IZR. rewrite succ_IZR. lra. }
  assert (EI : INR (nfw npts smin smax) = IZR (Int_part q)). { unfold nfw. fold q. rewrite INR_IZR_INZ, Z2Nat.id by assumption. reflexivity. }
  split; [|split; [rewrite EI; exact HF|apply INR_le; lra]].
  unfold nforw_of. ncbn. rewrite ndiv_Some by lra. fold q. destruct (Rle_dec 0 q); [|lra]. destruct (Rle_dec q (INR npts)); [|lra]. reflexivity.
Qed.
Lemma integ_eval angle x y smin smax npts : smin <= 0 -> 0 <= smax -> smin < smax ->
  let nf := nfw npts smin smax in let nb := (npts - nf)%nat in
  integ angle (Some x) (Some y) (Some smin) (Some smax) npts =
  Some (map (fun i => if Nat.leb nb i then it angle (Some smax / nat_num nf)%num (i - nb) (Some x, Some y)
                      else it angle (Some smin / nat_num nb)%num (nb - i) (Some x, Some y)) (seq 0 (npts + 1))).
Proof.
  intros H1 H2 H3 nf nb. destruct (nfw_eval npts smin smax H1 H2 H3) as [E1 [_ Hle]]. fold nf in E1, Hle. unfold integ. rewrite E1. cbv zeta. fold nb.
  assert (Hnb : (nb + nf = npts)%nat) by (unfold nb; lia).
  match goal with |- context [put nb ?v ?l] => destruct (put_spec v l nb) as [l1 [P1 [L1 N1]]] end. { rewrite repeat_length. lia. }
  rewrite P1. rewrite repeat_length in L1.
  assert (B : exists l2, (if Nat.ltb 0 nb then march angle (Some smin / nat_num nb)%num (fun i => (nb - i - 1)%nat) nb 0 (Some x, Some y) l1 else Some l1) = Some l2 /\
    length l2 = (npts + 1)%nat /\ nth nb l2 (None, None) = (Some x, Some y) /\
    forall k, (k < nb)%nat -> nth (nb - k - 1) l2 (None, None) = it angle (Some smin / nat_num nb)%num (S k) (Some x, Some y)).
  { destruct (Nat.ltb_spec 0 nb) as [Hp|Hp].
    - destruct (march_spec angle (Some smin / nat_num nb)%num (fun i => (nb - i - 1)%nat) nb 0 (Some x, Some y) l1) as [l2 [E2 [L2 N2]]].
      { intros j Hj. lia. } { intros j k Hj Hk E. lia. }
      exists l2. split; [exact E2|]. split; [congruence|]. destruct (N2 (None, None)) as [NA NB]. split.
      + rewrite NB by (intros k Hk; cbv beta; lia). rewrite N1, Nat.eqb_refl. reflexivity.
      + intros k Hk. exact (NA k Hk).
    - exists l1. split; [reflexivity|]. split; [exact L1|]. split; [rewrite N1, Nat.eqb_refl; reflexivity|]. intros k Hk. lia. }
  destruct B as [l2 [E2 [L2 [C2 N2]]]]. match goal with |- match ?b with _ => _ end = _ => replace b with (Some l2) by (symmetry; exact E2) end.
  assert (F : exists l3, (if Nat.ltb 0 nf then march angle (Some smax / nat_num nf)%num (fun i => (nb + i + 1)%nat) nf 0 (Some x, Some y) l2 else Some l2) = Some l3 /\
    length l3 = (npts + 1)%nat /\ (forall k, (k < nf)%nat -> nth (nb + k + 1) l3 (None, None) = it angle (Some smax / nat_num nf)%num (S k) (Some x, Some y)) /\
    forall p, (p <= nb)%nat -> nth p l3 (None, None) = nth p l2 (None, None)).
  { destruct (Nat.ltb_spec 0 nf) as [Hp|Hp].
    - destruct (march_spec angle (Some smax / nat_num nf)%num (fun i => (nb + i + 1)%nat) nf 0 (Some x, Some y) l2) as [l3 [E3 [L3 N3]]].
      { intros j Hj. lia. } { intros j k Hj Hk E. lia. }
      exists l3. split; [exact E3|]. split; [congruence|]. destruct (N3 (None, None)) as [NA NB]. split; [intros k Hk; exact (NA k Hk)|].
      intros p Hp'. apply NB. intros k Hk. lia.
    - exists l2. split; [reflexivity|]. split; [exact L2|]. split; [intros k Hk; lia|reflexivity]. }
  destruct F as [l3 [E3 [L3 [N3 K3]]]]. etransitivity; [exact E3|]. f_equal. apply nth_eq_list; [rewrite map_length, seq_length; exact L3|].
  intros i Hi. rewrite L3 in Hi.
  set (G := fun i => if Nat.leb nb i then it angle (Some smax / nat_num nf)%num (i - nb) (Some x, Some y) else it angle (Some smin / nat_num nb)%num (nb - i) (Some x, Some y)).
  assert (EG : nth i (map G (seq 0 (npts + 1))) (None, None) = G i).
  { rewrite (nth_indep _ _ (G 0%nat)) by (rewrite map_length, seq_length; exact Hi). rewrite map_nth, seq_nth by exact Hi. reflexivity. }
  rewrite EG. unfold G. destruct (Nat.leb_spec nb i) as [L|L].
  - destruct (Nat.eq_dec i nb) as [->|Ne]; [rewrite Nat.sub_diag; cbn [it]; rewrite K3 by lia; exact C2|].
    replace i with (nb + (i - nb - 1) + 1)%nat at 1 by lia. rewrite N3 by lia. f_equal. lia.
  - rewrite K3 by lia. replace i with (nb - (nb - i - 1) - 1)%nat at 1 by lia. rewrite N2 by lia. f_equal. lia.
Qed.
(** real trajectories *)
Section RealField.
Variables (angle : num -> num -> num) (A : R -> R -> R).
Hypothesis HA : forall x y, angle (Some x) (Some y) = Some (A x y).
Definition mid (ds : R) (p : R * R) : R * R :=
  let a := rd (A (fst p) (snd p)) in
  let b := rd (A (fst p + ds / 2 * cos a) (snd p + ds / 2 * sin a)) in
  (fst p + ds * cos b, snd p + ds * sin b).
Fixpoint mids (ds : R) (k : nat) (p : R * R) : R * R := match k with O => p | S k => mid ds (mids ds k p) end.
Definition up (p : R * R) : point := (Some (fst p), Some (snd p)).
Lemma rk2_mid ds p : rk2 angle (Some ds) (up p) = up (mid ds p).
Proof using HA.
  unfold rk2, up, step, mid. cbn [fst snd]. rewrite HA. unfold dcos, dsin. ncbn. rewrite HA. ncbn. unfold rd.
  assert (EA : forall a, a * (PI / 180) = a * PI / 180) by (intros; field). rewrite !EA.
  replace (1 / 2 * ds) with (ds / 2) by field. reflexivity.
Qed.
Lemma it_mids ds k p : it angle (Some ds) k (up p) = up (mids ds k p).
Proof using HA. induction k as [|k IH]; [reflexivity|]. cbn [it mids]. rewrite IH. apply rk2_mid. Qed.
End RealField.
(*@P C89_trajectory: Drawing a line through (x, y) along any of the three direction fields (any direction field with finite values), over arc lengths smin <= 0 <= smax, not both 0, with npts segments: the result has npts + 1 points, and (x, y) is the one of index nback; the points after it are successive midpoint-rule steps of length smax / (npts - nback), the points before it successive midpoint-rule steps backwards, of length smin / nback; npts - nback is the integer part of npts smax / (smax - smin). *)
Lemma integ_trajectory : forall angle A x y smin smax npts, (forall x y, angle (Some x) (Some y) = Some (A x y)) ->
  smin <= 0 -> 0 <= smax -> smin < smax -> exists nback (X Y : nat -> R), (nback <= npts)%nat /\
  INR (npts - nback) <= INR npts * smax / (smax - smin) < INR (npts - nback) + 1 /\
  integ angle (Some x) (Some y) (Some smin) (Some smax) npts = Some (map (fun i => (Some (X i), Some (Y i))) (seq 0 (npts + 1))) /\
  X nback = x /\ Y nback = y /\
  (forall i, (nback <= i < npts)%nat -> midpoint_step A (smax / INR (npts - nback)) (X i) (Y i) (X (S i)) (Y (S i))) /\
  (forall i, (i < nback)%nat -> midpoint_step A (smin / INR nback) (X (S i)) (Y (S i)) (X i) (Y i)).
Proof.
  intros angle A x y smin smax npts HA H1 H2 H3. destruct (nfw_eval npts smin smax H1 H2 H3) as [_ [HF Hle]].
  set (nf := nfw npts smin smax) in *. set (nb := (npts - nf)%nat).
  assert (Ef : (npts - nb)%nat = nf) by (unfold nb; lia).
  set (G := fun i => if Nat.leb nb i then mids A (smax / INR nf) (i - nb) (x, y) else mids A (smin / INR nb) (nb - i) (x, y)).
  exists nb, (fun i => fst (G i)), (fun i => snd (G i)). split; [unfold nb; lia|]. rewrite Ef. split; [exact HF|]. split.
  { rewrite integ_eval by assumption. fold nf. fold nb. f_equal. apply map_ext_in. intros i Hi. apply in_seq in Hi. unfold G. destruct (Nat.leb_spec nb i) as [L|L].
    - destruct (Nat.eq_dec i nb) as [->|Ne]; [rewrite Nat.sub_diag; reflexivity|].
      assert (0 < INR nf) by (apply lt_0_INR; lia). unfold nat_num. rewrite ndiv_Some by lra. exact (it_mids angle A HA _ _ (x, y)).
    - assert (0 < INR nb) by (apply lt_0_INR; lia). unfold nat_num. rewrite ndiv_Some by lra. exact (it_mids angle A HA _ _ (x, y)). }
  assert (EG : G nb = (x, y)). { unfold G. rewrite Nat.leb_refl, Nat.sub_diag. reflexivity. }
  rewrite EG. split; [reflexivity|]. split; [reflexivity|]. split.
  - intros i Hi. unfold G. destruct (Nat.leb_spec nb i); [|lia]. destruct (Nat.leb_spec nb (S i)); [|lia].
    replace (S i - nb)%nat with (S (i - nb)) by lia. cbn [mids]. split; reflexivity.
  - intros i Hi. assert (EGi : G i = mid A (smin / INR nb) (G (S i))).
    { unfold G at 1. destruct (Nat.leb_spec nb i); [lia|]. replace (nb - i)%nat with (S (nb - S i)) by lia. cbn [mids]. f_equal.
      unfold G. destruct (Nat.leb_spec nb (S i)); [|reflexivity]. replace (S i) with nb by lia. rewrite Nat.sub_diag. reflexivity. }
    rewrite EGi. split; reflexivity.
Qed.
