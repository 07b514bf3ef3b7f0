From Verif Require Import L_Num Spec NumSpec NozzleSpec NozzleNBSpec M_Isentropic M_MassFlow M_ShockWave M_DefaultGas M_Nozzle M_NozzleNB L_Isentropic L_MassFlow L_Shock L_ShockPt L_DefaultGas L_Nozzle1 L_Nozzle2 L_Secant.
Open Scope R_scope.
Open Scope list_scope.
Notation g0 := (14/10).

Lemma SomeI (x y : R) : Some x = Some y -> x = y.
Proof. congruence. Qed.
(** ** The grid and the wanted Mach numbers *)
Notation rx := station.
Notation rma := wanted.
Lemma INR_pred_pos n : (2 <= n)%nat -> 0 < INR (n - 1).
Proof. intros H. apply lt_0_INR. lia. Qed.
Lemma nth_error_seq_map {B} (f : nat -> B) n i : (i < n)%nat -> nth_error (map f (seq 0 n)) i = Some (f i).
Proof.
  intros H. apply map_nth_error. rewrite (nth_error_nth' _ 0%nat) by now rewrite seq_length. now rewrite seq_nth.
Qed.
Lemma grid_eval len n : (2 <= n)%nat -> nb_grid (Some len) n = map (fun i => Some (rx len n i)) (seq 0 n).
Proof.
  intros H. unfold nb_grid. apply map_ext. intros i. unfold nb_x. ncbn. pose proof (INR_pred_pos n H). rewrite ndiv_Some by lra. reflexivity.
Qed.
Lemma rx_range len n i : (2 <= n)%nat -> (i < n)%nat -> 0 < len -> 0 <= rx len n i <= len.
Proof.
  intros Hn Hi Hl. pose proof (INR_pred_pos n Hn) as P. unfold station. pose proof (pos_INR i). assert (Q : INR i <= INR (n - 1)) by (apply le_INR; lia).
  split; [apply Rmult_le_pos; [apply Rmult_le_pos; lra|left; now apply Rinv_0_lt_compat]|].
  apply (Rmult_le_reg_r (INR (n - 1))); [exact P|]. unfold Rdiv. rewrite Rmult_assoc, Rinv_l by lra. nra.
Qed.
Lemma rx_last len n : (2 <= n)%nat -> rx len n (n - 1) = len.
Proof. intros Hn. pose proof (INR_pred_pos n Hn). unfold station. field. lra. Qed.
Lemma rx_incr len n i j : (2 <= n)%nat -> 0 < len -> (i < j)%nat -> rx len n i < rx len n j.
Proof.
  intros Hn Hl H. pose proof (INR_pred_pos n Hn) as P. unfold station. apply lt_INR in H.
  apply Rmult_lt_compat_r; [now apply Rinv_0_lt_compat|]. nra.
Qed.
Lemma rma_eval M len x : 2 <= len -> nb_law (Some M) (Some len) (Some x) = Some (rma M len x).
Proof. intros H. unfold nb_law, npi. ncbn. rewrite ndiv_Some by lra. reflexivity. Qed.
Lemma rma_arg len x : 2 <= len -> 0 <= x <= len -> - (PI / 2) <= 1 / 2 * (x - 1) * PI / (len - 1) <= PI / 2.
Proof.
  intros Hl Hx. pose proof PI_RGT_0 as P. replace (1 / 2 * (x - 1) * PI / (len - 1)) with ((x - 1) / (len - 1) * (PI / 2)) by (field; lra).
  assert (A : -1 <= (x - 1) / (len - 1) <= 1).
  { split; (apply (Rmult_le_reg_r (len - 1)); [lra|]; unfold Rdiv; rewrite Rmult_assoc, Rinv_l by lra; lra). }
  nra.
Qed.
Lemma rma_incr M len x y : 1 < M -> 2 <= len -> 0 <= x -> x < y -> y <= len -> rma M len x < rma M len y.
Proof.
  intros HM Hl Hx Hxy Hy. unfold wanted. apply Rplus_lt_compat_l, Rmult_lt_compat_l; [lra|].
  destruct (rma_arg len x Hl ltac:(lra)). destruct (rma_arg len y Hl ltac:(lra)). apply sin_increasing_1; try lra.
  unfold Rdiv. apply Rmult_lt_compat_r; [apply Rinv_0_lt_compat; lra|]. pose proof PI_RGT_0. nra.
Qed.
Lemma rma_1 M len : 2 <= len -> rma M len 1 = 1.
Proof. intros. unfold wanted. replace (1 / 2 * (1 - 1) * PI / (len - 1)) with 0 by (field; lra). rewrite sin_0. ring. Qed.
Lemma rma_len M len : 2 <= len -> rma M len len = M.
Proof. intros. unfold wanted. replace (1 / 2 * (len - 1) * PI / (len - 1)) with (PI / 2) by (field; lra). rewrite sin_PI2. ring. Qed.
Lemma rma_0 M len : 2 <= len -> rma M len 0 = 1 - (M - 1) * sin (PI / (2 * (len - 1))).
Proof. intros. unfold wanted. replace (1 / 2 * (0 - 1) * PI / (len - 1)) with (- (PI / (2 * (len - 1)))) by (field; lra). rewrite sin_neg. ring. Qed.
Lemma rma_pos M len x : 1 < M -> 2 <= len -> (M - 1) * sin (PI / (2 * (len - 1))) < 1 -> 0 <= x <= len -> 0 < rma M len x.
Proof.
  intros HM Hl H Hx. pose proof (rma_0 M len Hl). destruct (Req_dec x 0) as [->|]; [lra|].
  pose proof (rma_incr M len 0 x HM Hl ltac:(lra) ltac:(lra) ltac:(lra)). lra.
Qed.
Lemma rma_sides M len x : 1 < M -> 2 <= len -> 0 <= x <= len -> (x < 1 -> rma M len x < 1) /\ (1 < x -> 1 < rma M len x).
Proof.
  intros HM Hl Hx. pose proof (rma_1 M len Hl) as E. split; intros H.
  - pose proof (rma_incr M len x 1 HM Hl ltac:(lra) H ltac:(lra)). lra.
  - pose proof (rma_incr M len 1 x HM Hl ltac:(lra) H ltac:(lra)). lra.
Qed.
Lemma ma_max_eval newton t : branch_solver g0 newton -> 1 < t -> exists M, nb_ma_max newton (Some t) = Some M /\ 1 < M /\ sig g0 M = t.
Proof.
  intros [HN _] Ht. destruct (HN t 2 ltac:(lra) ltac:(lra)) as (r & E & Hr & S & _ & U). exists r. split; [exact E|].
  specialize (U Ht ltac:(lra)). split; [exact U|]. rewrite Sigma_eval in S by lra. now apply SomeI in S.
Qed.
(** the section law as a list of reals *)
Definition rsec (M len : R) (n : nat) : list R := map (fun i => sig g0 (rma M len (rx len n i))) (seq 0 n).
Lemma rsec_length M len n : length (rsec M len n) = n.
Proof. unfold rsec. now rewrite map_length, seq_length. Qed.
Lemma rsec_nth M len n i : (i < n)%nat -> nth i (rsec M len n) 0 = sig g0 (rma M len (rx len n i)).
Proof. intros H. pose proof (nth_error_seq_map (fun i => sig g0 (rma M len (rx len n i))) n i H) as E. now apply (nth_error_nth _ _ 0) in E. Qed.
Section Design.
Context (newton : solver) (t len M : R) (n : nat).
Hypothesis HN : branch_solver g0 newton.
Hypothesis Ht : 1 < t.
Hypothesis Hl : 2 <= len.
Hypothesis Hn : (2 <= n)%nat.
Hypothesis EM : nb_ma_max newton (Some t) = Some M.
Hypothesis Hp : (M - 1) * sin (PI / (2 * (len - 1))) < 1.
Let ma i := rma M len (rx len n i).
Lemma M_spec : 1 < M /\ sig g0 M = t.
Proof. destruct (ma_max_eval newton t HN Ht) as (M' & E & H). rewrite EM in E. apply SomeI in E. now subst M'. Qed.
Lemma x_ran i : (i < n)%nat -> 0 <= rx len n i <= len.
Proof. intros. apply rx_range; try assumption; lra. Qed.
Lemma ma_pos i : (i < n)%nat -> 0 < ma i.
Proof. intros Hi. apply rma_pos; try assumption; [apply M_spec|now apply x_ran]. Qed.
Lemma area_eval : nb_area newton (Some t) (Some len) n = map (@Some R) (rsec M len n).
Proof.
  unfold nb_area, rsec. rewrite grid_eval by exact Hn. rewrite !map_map. apply map_ext_in. intros i Hi. apply in_seq in Hi.
  rewrite EM, rma_eval by exact Hl. unfold dgamma. rewrite Sigma_eval; [reflexivity|lra|apply ma_pos; lia].
Qed.
Lemma sec_ge1 a : In a (rsec M len n) -> 1 <= a.
Proof.
  intros H. unfold rsec in H. apply in_map_iff in H. destruct H as (i & <- & Hi). apply in_seq in Hi.
  destruct (Req_dec (ma i) 1) as [E|]; [fold (ma i); rewrite E, sig_1; lra|]. left. apply sig_gt_1; [lra|apply ma_pos; lia|assumption].
Qed.
Lemma sec_last : last (rsec M len n) 0 = t.
Proof.
  rewrite <- nth_last by (intros E; apply (f_equal (@length R)) in E; rewrite rsec_length in E; cbn in E; lia).
  rewrite rsec_length, rsec_nth by lia. rewrite rx_last by exact Hn. rewrite rma_len by exact Hl. apply M_spec.
Qed.
Lemma ma_sub i m : (i < n)%nat -> rx len n i <= 1 -> 0 < m <= 1 -> sig g0 m = sig g0 (ma i) -> m = ma i.
Proof.
  intros Hi Hx Hm E. pose proof (ma_pos i Hi). destruct M_spec as [HM _]. destruct (rma_sides M len (rx len n i) HM Hl (x_ran i Hi)) as [S1 _].
  assert (ma i <= 1) by (unfold ma; destruct (Req_dec (rx len n i) 1) as [->|]; [rewrite rma_1; lra|left; apply S1; lra]).
  destruct (Rtotal_order m (ma i)) as [G|[G|G]]; [|assumption|].
  - pose proof (sig_decr g0 m (ma i) ltac:(lra)); lra.
  - pose proof (sig_decr g0 (ma i) m ltac:(lra)); lra.
Qed.
Lemma ma_sup i m : (i < n)%nat -> 1 <= rx len n i -> 1 <= m -> sig g0 m = sig g0 (ma i) -> m = ma i.
Proof.
  intros Hi Hx Hm E. destruct M_spec as [HM _]. destruct (rma_sides M len (rx len n i) HM Hl (x_ran i Hi)) as [_ S1].
  assert (1 <= ma i) by (unfold ma; destruct (Req_dec (rx len n i) 1) as [->|]; [rewrite rma_1; lra|left; apply S1; lra]).
  destruct (Rtotal_order m (ma i)) as [G|[G|G]]; [|assumption|].
  - pose proof (sig_incr g0 m (ma i) ltac:(lra)); lra.
  - pose proof (sig_incr g0 (ma i) m ltac:(lra)); lra.
Qed.
Lemma sec_nth_ge1 i : (i < n)%nat -> 1 <= sig g0 (ma i).
Proof. intros Hi. apply sec_ge1. unfold rsec. apply in_map_iff. exists i. split; [reflexivity|]. apply in_seq. lia. Qed.
Lemma elt_eval i : (i < n)%nat -> Mach_Sigma_elt newton (Some (sig g0 (ma i))) (nb_Minit (Some (rx len n i))) dgamma = Some (ma i).
Proof.
  intros Hi. unfold nb_Minit. pose proof (sec_nth_ge1 i Hi) as H1. destruct (Rle_lt_dec (rx len n i) 1) as [H|H].
  - rewrite ngt_false by exact H. ncbn. unfold Mach_Sigma_elt. rewrite nle_true by lra. cbn [nif].
    destruct (MachSub_branch newton g0 _ HN ltac:(lra) H1) as (m & E & Hm & S & _). unfold MachSub_Sigma, Mach_Sigma in E.
    unfold dgamma. rewrite E. f_equal. now apply ma_sub.
  - rewrite ngt_true by exact H. ncbn. unfold Mach_Sigma_elt. rewrite nle_false by lra. cbn [nif].
    destruct (MachSup_branch newton g0 _ HN ltac:(lra) H1) as (m & E & Hm & S & _). unfold MachSup_Sigma, Mach_Sigma in E.
    unfold dgamma. rewrite E. f_equal. apply ma_sup; try assumption; lra.
Qed.
Lemma combine_map2 {B C D} (f : B -> C) (h : B -> D) l : combine (map f l) (map h l) = map (fun b => (f b, h b)) l.
Proof. induction l as [|b l IH]; [reflexivity|]. cbn [map combine]. now rewrite IH. Qed.
Definition mas : list num := map (fun i => Some (ma i)) (seq 0 n).
Lemma choked_eval : nb_choked newton (nb_grid (Some len) n) (nb_area newton (Some t) (Some len) n) = mas.
Proof.
  unfold nb_choked. rewrite grid_eval by exact Hn. rewrite area_eval. unfold rsec. rewrite map_map, combine_map2, map_map.
  apply map_ext_in. intros i Hi. apply in_seq in Hi. cbn [fst snd]. apply elt_eval. lia.
Qed.
Lemma mas_length : length mas = n.
Proof. unfold mas. now rewrite map_length, seq_length. Qed.
Lemma mas_last : alast mas = Some M.
Proof.
  unfold mas. replace (map (fun i => Some (ma i)) (seq 0 n)) with (map (@Some R) (map ma (seq 0 n))) by now rewrite map_map.
  rewrite last_map_Some by (intros E; apply (f_equal (@length R)) in E; rewrite map_length, seq_length in E; cbn in E; lia).
  f_equal. rewrite <- nth_last by (intros E; apply (f_equal (@length R)) in E; rewrite map_length, seq_length in E; cbn in E; lia).
  rewrite map_length, seq_length. apply nth_error_nth. rewrite nth_error_seq_map by lia. unfold ma. now rewrite rx_last, rma_len.
Qed.
Lemma mas_nth i : (i < n)%nat -> nth_error mas i = Some (Some (ma i)).
Proof. intros H. unfold mas. now rewrite nth_error_seq_map. Qed.
Lemma area_nth i : (i < n)%nat -> nth_error (nb_area newton (Some t) (Some len) n) i = Some (Some (sig g0 (ma i))).
Proof. intros H. rewrite area_eval. rewrite nth_error_map_some by now rewrite rsec_length. now rewrite rsec_nth. Qed.
Lemma area_length : length (nb_area newton (Some t) (Some len) n) = n.
Proof. rewrite area_eval, map_length. apply rsec_length. Qed.
Lemma mass_i i : (i < n)%nat -> sig g0 (ma i) * wmf g0 (ma i) = wmf g0 1.
Proof.
  intros Hi. pose proof (mass_of_sig g0 (sig g0 (ma i)) 1 1 (ma i) 1 ltac:(lra) (ma_pos i Hi) ltac:(lra) ltac:(lra) ltac:(field)). lra.
Qed.
End Design.

(*@P C101_section: The section law of the notebook, for every target ratio above 1, length from 2, number of stations from 2 and exact root finder whose exit Mach number M leaves the wanted inlet Mach number positive: the exit section is the target; every section is at least 1, and 1 exactly at x = 1; sections decrease up to x = 1 and increase from it. *)
Lemma section_law : forall newton t len n M, branch_solver (14/10) newton -> 1 < t -> 2 <= len -> (2 <= n)%nat ->
  Mach_Sigma newton (Some t) (Some 2) (Some (14/10)) = Some M -> (M - 1) * sin (PI / (2 * (len - 1))) < 1 ->
  exists a : nat -> R, (forall i, (i < n)%nat -> nth_error (nb_grid (Some len) n) i = Some (Some (station len n i)) /\
      nth_error (nb_area newton (Some t) (Some len) n) i = Some (Some (a i))) /\
    length (nb_grid (Some len) n) = n /\ length (nb_area newton (Some t) (Some len) n) = n /\
    station len n 0 = 0 /\ station len n (n - 1) = len /\ a (n - 1)%nat = t /\
    (forall i, (i < n)%nat -> 1 <= a i /\ (a i = 1 <-> station len n i = 1) /\ Sigma_Mach (Some (wanted M len (station len n i))) (Some (14/10)) = Some (a i)) /\
    (forall i j, (i < j < n)%nat -> station len n j <= 1 -> a j < a i) /\
    (forall i j, (i < j < n)%nat -> 1 <= station len n i -> a i < a j).
Proof.
  intros newton t len n M HN Ht Hl Hn EM Hp. destruct (M_spec newton t M HN Ht EM) as [HM SM].
  exists (fun i => sig g0 (rma M len (rx len n i))).
  split. { intros i Hi. split; [rewrite grid_eval by exact Hn; now rewrite nth_error_seq_map|]. now apply area_nth. }
  split; [rewrite grid_eval by exact Hn; now rewrite map_length, seq_length|]. split; [now apply (area_length newton t len M n)|].
  split; [unfold station; cbn [INR]; unfold Rdiv; ring|]. split; [now apply rx_last|].
  split; [rewrite rx_last, rma_len by assumption; exact SM|].
  assert (R : forall i, (i < n)%nat -> 0 <= rx len n i <= len) by (intros i Hi; now apply (x_ran len n)).
  assert (P : forall i, (i < n)%nat -> 0 < rma M len (rx len n i)) by (intros i Hi; now apply (ma_pos newton t len M n)).
  split; [|split].
  - intros i Hi. split; [now apply (sec_nth_ge1 newton t len M n)|]. split; [|rewrite Sigma_eval; [reflexivity|lra|now apply P]]. split.
    + intros E. apply sig_sonic_unique in E; [|lra|now apply P]. destruct (rma_sides M len (rx len n i) HM Hl (R i Hi)) as [A B].
      destruct (Rtotal_order (rx len n i) 1) as [G|[G|G]]; [specialize (A G); lra|assumption|specialize (B G); lra].
    + intros ->. rewrite rma_1 by assumption. apply sig_1; lra.
  - intros i j Hij Hx. pose proof (rx_incr len n i j Hn ltac:(lra) ltac:(lia)) as I. pose proof (R i ltac:(lia)). pose proof (R j ltac:(lia)).
    apply sig_decr; [lra|apply P; lia|apply rma_incr; try assumption; lra|].
    destruct (Req_dec (rx len n j) 1) as [->|]; [rewrite rma_1; lra|]. left. apply rma_sides; try assumption; lra.
  - intros i j Hij Hx. pose proof (rx_incr len n i j Hn ltac:(lra) ltac:(lia)) as I. pose proof (R i ltac:(lia)). pose proof (R j ltac:(lia)).
    apply sig_incr; [lra| |apply rma_incr; try assumption; lra].
    destruct (Req_dec (rx len n i) 1) as [->|]; [rewrite rma_1; lra|]. left. apply rma_sides; try assumption; lra.
Qed.

(*@P C101_inlet_refuted: When the target is so large that the wanted inlet Mach number is negative, the inlet section is negative. *)
Lemma inlet_negative : forall newton t len n M, 2 <= len -> (2 <= n)%nat ->
  Mach_Sigma newton (Some t) (Some 2) (Some (14/10)) = Some M -> 1 < (M - 1) * sin (PI / (2 * (len - 1))) ->
  exists a, nth_error (nb_area newton (Some t) (Some len) n) 0 = Some (Some a) /\ a < 0.
Proof.
  intros newton t len n M Hl Hn EM Hp. unfold nb_area. rewrite grid_eval by exact Hn. rewrite map_map, nth_error_seq_map by lia.
  change (nb_ma_max newton (Some t)) with (Mach_Sigma newton (Some t) (Some 2) (Some g0)). rewrite EM, rma_eval by exact Hl.
  replace (rx len n 0) with 0 by (unfold station; cbn [INR]; unfold Rdiv; ring). rewrite rma_0 by exact Hl. set (m := 1 - _).
  assert (Hm : m < 0) by (unfold m; lra). clearbody m. unfold Sigma_Mach, dgamma. ncbn. rewrite !ndiv_Some by lra. ncbn.
  assert (B : 0 < 2 / (g0 + 1) * (1 + 1 / 2 * (g0 - 1) * m ^ 2)) by (pose proof (pow2_ge_0 m); apply Rmult_lt_0_compat; [lra|nra]).
  rewrite npow_Some by exact B. rewrite ndiv_Some by lra. eexists. split; [reflexivity|].
  pose proof (Rpower_pos (2 / (g0 + 1) * (1 + 1 / 2 * (g0 - 1) * m ^ 2)) (1 / 2 * (g0 + 1) / (g0 - 1))) as RP.
  unfold Rdiv at 1. assert (/ m < 0) by (now apply Rinv_lt_0_compat). nra.
Qed.

Lemma app2_nth (l : list num) a b i n : length l = n -> (i < n + 2)%nat ->
  nth_error (l ++ a :: b :: nil) i = if (i <? n)%nat then nth_error l i else if (i =? n)%nat then Some a else Some b.
Proof.
  intros L Hi. destruct (Nat.ltb_spec i n); [now rewrite nth_error_app1 by lia|]. rewrite nth_error_app2 by lia. rewrite L.
  destruct (Nat.eqb_spec i n) as [->|]; [now rewrite Nat.sub_diag|]. replace (i - n)%nat with 1%nat by lia. reflexivity.
Qed.
Lemma ones_length A : length (nb_ones A) = length A. Proof. apply map_length. Qed.
Lemma ones_nth A i : (i < length A)%nat -> nth_error (nb_ones A) i = Some (Some 1).
Proof.
  intros H. unfold nb_ones. destruct (nth_error A i) as [x|] eqn:E; [now rewrite (map_nth_error _ _ _ E)|]. apply nth_error_None in E. lia.
Qed.
Lemma Ps_nth Pt M i p m : nth_error Pt i = Some (Some p) -> nth_error M i = Some (Some m) -> nth_error (nb_Ps Pt M) i = Some (Some (p / pp g0 m)).
Proof.
  intros H1 H2. unfold nb_Ps. rewrite (nth_combine_map _ _ _ i _ _ H1 H2). cbn [fst snd]. unfold dgamma. rewrite PtPs_eval by lra.
  fold (pp g0 m). pose proof (pp_pos g0 m). now rewrite ndiv_Some by lra.
Qed.

(*@P C101_supersonic: The supersonic regime recovers the Mach numbers the section was drawn for: at every station the computed Mach number is the wanted one, at the two added points it is the exit one, total pressure is 1, static pressure is total pressure over PtPs of that Mach number - 1/NPR1 at the end -, and section times mass flow is that of the throat. *)
Lemma supersonic_regime : forall newton t len n M, branch_solver (14/10) newton -> 1 < t -> 2 <= len -> (2 <= n)%nat ->
  Mach_Sigma newton (Some t) (Some 2) (Some (14/10)) = Some M -> (M - 1) * sin (PI / (2 * (len - 1))) < 1 ->
  let '(Ma, Pt, Ps) := nb_supersonic newton (nb_grid (Some len) n) (nb_area newton (Some t) (Some len) n) in
  exists w1 n1, WeightMassFlow (Some 1) (Some 1) (Some (14/10)) = Some w1 /\ nb_NPR1 newton (Some t) = Some n1 /\
  forall i, (i < n + 2)%nat -> let m := if (i <? n)%nat then wanted M len (station len n i) else M in
    nth_error Ma i = Some (Some m) /\ nth_error Pt i = Some (Some 1) /\
    exists ps q w, nth_error Ps i = Some (Some ps) /\ PtPs_Mach (Some m) (Some (14/10)) = Some q /\ ps * q = 1 /\
      WeightMassFlow (Some m) (Some 1) (Some (14/10)) = Some w /\
      (forall a, (i < n)%nat -> nth_error (nb_area newton (Some t) (Some len) n) i = Some (Some a) -> a * w = w1) /\
      ((n - 1 <= i)%nat -> t * w = w1 /\ ps * n1 = 1).
Proof.
  intros newton t len n M HN Ht Hl Hn EM Hp. destruct (M_spec newton t M HN Ht EM) as [HM SM].
  unfold nb_supersonic. rewrite (choked_eval newton t len M n) by assumption.
  pose proof (area_length newton t len M n HN Ht Hl Hn EM Hp) as LA.
  set (A := nb_area newton (Some t) (Some len) n) in *. rewrite (mas_last newton t len M n) by assumption.
  destruct (lims newton t HN Ht) as (m0 & M0 & E1 & E2 & Hm0 & HM0 & S1 & S2 & L).
  assert (M0 = M). { destruct (Rtotal_order M0 M) as [G|[G|G]]; [|assumption|]; [pose proof (sig_incr g0 M0 M ltac:(lra) ltac:(lra) G)|pose proof (sig_incr g0 M M0 ltac:(lra) ltac:(lra) G)]; lra. }
  subst M0. exists (wmf g0 1), (pp g0 M). split; [apply WMF_eval; lra|].
  split; [unfold nb_NPR1, nb_Msup; rewrite E2; unfold dgamma; rewrite PtPs_eval by lra; reflexivity|].
  intros i Hi. set (m := if (i <? n)%nat then rma M len (rx len n i) else M). assert (Hm : 0 < m) by (unfold m; destruct (Nat.ltb_spec i n); [now apply (ma_pos newton t len M n)|lra]).
  assert (H1 : nth_error (mas len M n ++ Some M :: Some M :: nil) i = Some (Some m)).
  { rewrite (app2_nth _ _ _ i n (mas_length len M n) Hi). unfold m. destruct (Nat.ltb_spec i n); [now apply mas_nth|destruct (i =? n)%nat; reflexivity]. }
  assert (H2 : nth_error (nb_ones A ++ Some 1 :: Some 1 :: nil) i = Some (Some 1)).
  { rewrite (app2_nth _ _ _ i n) by (rewrite ?ones_length; assumption). destruct (Nat.ltb_spec i n); [apply ones_nth; lia|destruct (i =? n)%nat; reflexivity]. }
  split; [exact H1|]. split; [exact H2|]. pose proof (pp_pos g0 m) as Hpp. exists (1 / pp g0 m), (pp g0 m), (wmf g0 m).
  split; [now apply Ps_nth|]. split; [now rewrite PtPs_eval by lra|]. split; [field; lra|]. split; [apply WMF_eval; lra|]. split.
  - intros a Hlt Ea. unfold A in Ea. rewrite (area_nth newton t len M n) in Ea by assumption. injection Ea as <-.
    unfold m. destruct (Nat.ltb_spec i n); [|lia]. now apply (mass_i newton t len M n).
  - intros Hge. assert (m = M).
    { unfold m. destruct (Nat.ltb_spec i n); [|reflexivity]. replace i with (n - 1)%nat by lia. now rewrite rx_last, rma_len. }
    rewrite H. split; [|field; rewrite <- H; lra]. pose proof (mass_of_sig g0 t 1 1 M 1 ltac:(lra) ltac:(lra) ltac:(lra) ltac:(lra) ltac:(rewrite SM; field)). lra.
Qed.

(*@P C101_exit_shock: The regime with a shock at the exit: the stations have the wanted Mach numbers and total pressure 1; the two added points have the Mach number behind a normal shock at the exit Mach number, the total pressure behind it, and static pressure exactly 1/NPRsw; section times total pressure times mass flow is that of the throat throughout. *)
Lemma exit_shock_regime : forall newton t len n M, branch_solver (14/10) newton -> 1 < t -> 2 <= len -> (2 <= n)%nat ->
  Mach_Sigma newton (Some t) (Some 2) (Some (14/10)) = Some M -> (M - 1) * sin (PI / (2 * (len - 1))) < 1 ->
  let '(Ma, Pt, Ps) := nb_exit_shock newton (nb_grid (Some len) n) (nb_area newton (Some t) (Some len) n) in
  exists w1 nsw h loss, WeightMassFlow (Some 1) (Some 1) (Some (14/10)) = Some w1 /\ nb_NPRsw newton (Some t) = Some nsw /\
  downstream_Mn (Some M) (Some (14/10)) = Some h /\ 0 < h < 1 /\ Pt_ratio (Some M) (Some (14/10)) = Some loss /\ 0 < loss < 1 /\
  forall i, (i < n + 2)%nat -> let m := if (i <? n)%nat then wanted M len (station len n i) else h in
    let p := if (i <? n)%nat then 1 else loss in
    nth_error Ma i = Some (Some m) /\ nth_error Pt i = Some (Some p) /\
    exists ps q w, nth_error Ps i = Some (Some ps) /\ PtPs_Mach (Some m) (Some (14/10)) = Some q /\ ps * q = p /\
      WeightMassFlow (Some m) (Some 1) (Some (14/10)) = Some w /\
      (forall a, (i < n)%nat -> nth_error (nb_area newton (Some t) (Some len) n) i = Some (Some a) -> a * w = w1) /\
      ((n <= i)%nat -> t * loss * w = w1 /\ ps * nsw = 1).
Proof.
  intros newton t len n M HN Ht Hl Hn EM Hp. destruct (M_spec newton t M HN Ht EM) as [HM SM].
  unfold nb_exit_shock. rewrite (choked_eval newton t len M n) by assumption.
  pose proof (area_length newton t len M n HN Ht Hl Hn EM Hp) as LA.
  set (A := nb_area newton (Some t) (Some len) n) in *. rewrite (mas_last newton t len M n) by assumption.
  destruct (lims newton t HN Ht) as (m0 & M0 & E1 & E2 & Hm0 & HM0 & S1 & S2 & L).
  assert (M0 = M). { destruct (Rtotal_order M0 M) as [G|[G|G]]; [|assumption|]; [pose proof (sig_incr g0 M0 M ltac:(lra) ltac:(lra) G)|pose proof (sig_incr g0 M M0 ltac:(lra) ltac:(lra) G)]; lra. }
  subst M0. assert (D : sdom g0 M) by (apply sdom_ge1; lra).
  assert (ED : downstream_Mn (Some M) dgamma = Some (sqrt (md2 g0 M))) by (unfold dgamma; rewrite Md_eval by first [assumption|lra]; reflexivity).
  assert (EP : Pi_ratio (Some M) dgamma = Some (ptr g0 M)) by (unfold Pi_ratio, dgamma; now apply Pt_eval_14).
  rewrite ED, EP. pose proof (md_lt1 g0 M ltac:(lra) HM) as Hd. pose proof (ptr_lt1 g0 M ltac:(lra) HM) as Hr.
  set (h := sqrt (md2 g0 M)) in *. set (loss := ptr g0 M) in *.
  exists (wmf g0 1), (pp g0 h / loss), h, loss. split; [apply WMF_eval; lra|].
  split; [unfold nb_NPRsw, nb_Msh, nb_Msup; rewrite E2, ED, EP; unfold dgamma; rewrite PtPs_eval by lra; now rewrite ndiv_Some by lra|].
  split; [exact ED|]. split; [exact Hd|]. split; [exact EP|]. split; [exact Hr|].
  intros i Hi. set (m := if (i <? n)%nat then rma M len (rx len n i) else h). set (p := if (i <? n)%nat then 1 else loss). assert (Hm : 0 < m) by (unfold m; destruct (Nat.ltb_spec i n); [now apply (ma_pos newton t len M n)|lra]).
  assert (H1 : nth_error (mas len M n ++ Some h :: Some h :: nil) i = Some (Some m)).
  { rewrite (app2_nth _ _ _ i n (mas_length len M n) Hi). unfold m. destruct (Nat.ltb_spec i n); [now apply mas_nth|destruct (i =? n)%nat; reflexivity]. }
  assert (H2 : nth_error (nb_ones A ++ Some loss :: Some loss :: nil) i = Some (Some p)).
  { rewrite (app2_nth _ _ _ i n) by (rewrite ?ones_length; assumption). unfold p. destruct (Nat.ltb_spec i n); [apply ones_nth; lia|destruct (i =? n)%nat; reflexivity]. }
  split; [exact H1|]. split; [exact H2|]. pose proof (pp_pos g0 m) as Hpp. exists (p / pp g0 m), (pp g0 m), (wmf g0 m).
  split; [now apply Ps_nth|]. split; [now rewrite PtPs_eval by lra|]. split; [field; lra|]. split; [apply WMF_eval; lra|]. split.
  - intros a Hlt Ea. unfold A in Ea. rewrite (area_nth newton t len M n) in Ea by assumption. injection Ea as <-.
    unfold m. destruct (Nat.ltb_spec i n); [|lia]. now apply (mass_i newton t len M n).
  - intros Hge. unfold m, p. destruct (Nat.ltb_spec i n); [lia|]. pose proof (pp_pos g0 h). split; [|field; lra].
    pose proof (sig_md g0 M ltac:(lra) ltac:(lra) D) as SD. fold h loss in SD. rewrite SM in SD.
    pose proof (mass_of_sig g0 t 1 loss h loss ltac:(lra) ltac:(lra) ltac:(lra) ltac:(lra) ltac:(rewrite SD; field)) as Q.
    replace (loss / loss) with 1 in Q by (field; lra). lra.
Qed.

(*@P C101_subsonic: The subsonic regime of throat Mach number c in (0, 1): at every station the flow is subsonic with a Mach number at most c - equal to c exactly where the section is 1 -, total pressure 1, static pressure 1/PtPs, and section times mass flow is that of the sonic-free throat at c; the two added points repeat the exit. *)
Lemma subsonic_regime : forall newton t len n M c, branch_solver (14/10) newton -> 1 < t -> 2 <= len -> (2 <= n)%nat -> 0 < c < 1 ->
  Mach_Sigma newton (Some t) (Some 2) (Some (14/10)) = Some M -> (M - 1) * sin (PI / (2 * (len - 1))) < 1 ->
  exists Ma Pt Ps wc, nb_subsonic newton (nb_area newton (Some t) (Some len) n) (Some c) = Some (Ma, Pt, Ps) /\
  WeightMassFlow (Some c) (Some 1) (Some (14/10)) = Some wc /\
  forall i a, (i < n + 2)%nat -> nth_error (nb_area newton (Some t) (Some len) n) (Nat.min i (n - 1)) = Some (Some a) ->
    exists m ps q w, nth_error Ma i = Some (Some m) /\ nth_error Pt i = Some (Some 1) /\ 0 < m <= c /\ (m = c <-> a = 1) /\
      nth_error Ps i = Some (Some ps) /\ PtPs_Mach (Some m) (Some (14/10)) = Some q /\ ps * q = 1 /\
      WeightMassFlow (Some m) (Some 1) (Some (14/10)) = Some w /\ a * w = wc.
Proof.
  intros newton t len n M c HN Ht Hl Hn Hc EM Hp. destruct (M_spec newton t M HN Ht EM) as [HM SM].
  pose proof (area_length newton t len M n HN Ht Hl Hn EM Hp) as LA. unfold nb_subsonic.
  set (A := nb_area newton (Some t) (Some len) n) in *. unfold dgamma. rewrite Sigma_eval by lra.
  set (sl := map (fun a => nmul a (Some (sig g0 c))) A). assert (LS : length sl = n) by (unfold sl; rewrite map_length; exact LA).
  destruct (MachSub_array newton sl (Some g0)) as [M0|] eqn:E0.
  2:{ exfalso. unfold MachSub_array in E0. destruct sl as [|a0 [|b l]]; cbn [length] in LS; [lia|discriminate|discriminate]. }
  pose proof (SubArr_length _ _ _ _ E0) as L0. rewrite LS in L0.
  pose proof (sig_gt_1 g0 c ltac:(lra) ltac:(lra) ltac:(lra)) as Hsc.
  assert (K : forall i, (i < n)%nat -> exists m, nth_error M0 i = Some (Some m) /\ 0 < m <= 1 /\ sig g0 m = sig g0 (rma M len (rx len n i)) * sig g0 c).
  { intros i Hi. pose proof (sec_nth_ge1 newton t len M n HN Ht Hl Hn EM Hp i Hi) as H1.
    destruct (SubArr_nth newton sl g0 M0 i E0 HN ltac:(lra) (sig g0 (rma M len (rx len n i)) * sig g0 c)) as (m & Em & Hm & Sm & _).
    - unfold sl. assert (EA : nth_error A i = Some (Some (sig g0 (rma M len (rx len n i))))) by now apply (area_nth newton t len M n). now rewrite (map_nth_error _ _ _ EA).
    - nra.
    - exists m. auto. }
  destruct (K (n - 1)%nat ltac:(lia)) as (me & Eme & Hme & Sme).
  assert (EL : alast M0 = Some me).
  { unfold alast. assert (NN : M0 <> nil) by (intros ->; cbn in L0; lia). clear - Eme L0 NN. rewrite <- L0 in Eme. clear L0.
    induction M0 as [|x l IH]; [congruence|]. destruct l as [|y l]; [cbn in Eme; injection Eme as ->; reflexivity|].
    change (last (x :: y :: l) None) with (last (y :: l) None). apply IH; [|discriminate]. cbn [length] in *. cbn [Nat.sub nth_error] in *. replace (length l - 0)%nat with (length l) by lia. exact Eme. }
  rewrite EL. do 3 eexists. exists (wmf g0 c). split; [reflexivity|]. split; [apply WMF_eval; lra|].
  intros i a Hi Ha. set (j := Nat.min i (n - 1)) in *. assert (Hj : (j < n)%nat) by (unfold j; lia).
  unfold A in Ha. rewrite (area_nth newton t len M n) in Ha by assumption. injection Ha as <-. fold A.
  destruct (K j Hj) as (m & Em & Hm & Sm). pose proof (sec_nth_ge1 newton t len M n HN Ht Hl Hn EM Hp j Hj) as H1. set (a := sig g0 (rma M len (rx len n j))) in *.
  assert (E1 : nth_error (M0 ++ Some me :: Some me :: nil) i = Some (Some m)).
  { rewrite (app2_nth _ _ _ i n L0 Hi). destruct (Nat.ltb_spec i n).
    - replace i with j by (unfold j; lia). exact Em.
    - replace j with (n - 1)%nat in Em by (unfold j; lia). rewrite Eme in Em. injection Em as <-. destruct (i =? n)%nat; reflexivity. }
  assert (H2 : nth_error (nb_ones A ++ Some 1 :: Some 1 :: nil) i = Some (Some 1)).
  { rewrite (app2_nth _ _ _ i n) by (rewrite ?ones_length; assumption). destruct (Nat.ltb_spec i n); [apply ones_nth; lia|destruct (i =? n)%nat; reflexivity]. }
  exists m, (1 / pp g0 m), (pp g0 m), (wmf g0 m). pose proof (pp_pos g0 m).
  assert (C : m <= c). { destruct (Rle_lt_dec m c) as [|G]; [assumption|]. pose proof (sig_decr g0 c m ltac:(lra) ltac:(lra) G ltac:(lra)). nra. }
  split; [exact E1|]. split; [exact H2|]. split; [lra|]. split.
  { split; intros Q; [rewrite Q in Sm; nra|]. rewrite Q in Sm. destruct (Req_dec m c) as [|N]; [assumption|].
    pose proof (sig_decr g0 m c ltac:(lra) ltac:(lra) ltac:(lra) ltac:(lra)). nra. }
  split; [now apply Ps_nth|]. split; [now rewrite PtPs_eval by lra|]. split; [field; lra|]. split; [apply WMF_eval; lra|].
  rewrite (sig_wmf g0 m), (sig_wmf g0 c) in Sm by lra. pose proof (wmf_pos g0 m ltac:(lra) ltac:(lra)). pose proof (wmf_pos g0 c ltac:(lra) ltac:(lra)). pose proof (wmf_pos g0 1 ltac:(lra) ltac:(lra)).
  apply (Rmult_eq_reg_l (wmf g0 1 / (wmf g0 m * wmf g0 c))).
  - transitivity (a * (wmf g0 1 / wmf g0 c)); [field; lra|]. rewrite <- Sm. field. lra.
  - apply Rgt_not_eq. apply Rdiv_lt_0_compat; [assumption|nra].
Qed.

Definition shocked_form (newton : solver) (cur target NPR : num) (X A : list num) : option drawn :=
  let M0 := nb_choked newton X A in
  let Ms := shocked_exit_Mach cur target NPR in
  let Ptloss := ndiv (PtPs_Mach Ms dgamma) NPR in
  match argmin (map (fun m => nabs (nsub m (Mn_Pi_ratio Ptloss dgamma))) M0) with
  | None => None
  | Some ish =>
    match MachSub_array newton (map (fun a => ndiv (nmul a (Sigma_Mach Ms dgamma)) target) (skipn ish A)) dgamma with
    | None => None
    | Some M3 =>
      let M := firstn ish M0 ++ M3 ++ Ms :: Ms :: nil in
      let Pt0 := nb_ones A ++ Ptloss :: Ptloss :: nil in
      let Pt := firstn ish Pt0 ++ map (fun _ => Ptloss) (skipn ish Pt0) in
      Some (M, Pt, nb_Ps Pt M)
    end
  end.
Lemma shocked_form_eq newton cur target NPR X A : nb_shocked newton cur target NPR X A = shocked_form newton cur target NPR X A.
Proof. reflexivity. Qed.
Lemma argmin_abs (f : nat -> R) n h k : (0 < n)%nat -> argmin (map (fun m => nabs (nsub m h)) (map (fun i => Some (f i)) (seq 0 n))) = Some k ->
  exists hr, h = Some hr /\ (k < n)%nat /\ forall i, (i < n)%nat -> Rabs (f k - hr) <= Rabs (f i - hr).
Proof.
  intros Hn E. destruct h as [hr|].
  2:{ exfalso. destruct n as [|n]; [lia|]. unfold argmin in E. cbn in E. discriminate. }
  exists hr. split; [reflexivity|]. rewrite map_map in E. unfold argmin in E.
  replace (map (fun x => nabs (nsub (Some (f x)) (Some hr))) (seq 0 n)) with (map (@Some R) (map (fun i => Rabs (f i - hr)) (seq 0 n))) in E by (rewrite map_map; reflexivity).
  rewrite all_some_map in E. set (l := map (fun i => Rabs (f i - hr)) (seq 0 n)) in *.
  assert (LL : length l = n) by (unfold l; now rewrite map_length, seq_length).
  assert (NL : forall i, (i < n)%nat -> nth i l 0 = Rabs (f i - hr)) by (intros i Hi; apply nth_error_nth; unfold l; now rewrite nth_error_seq_map).
  destruct (argmin_R_spec l) as (i & b & EI & Hi & Eb & Hmin); [intros ->; cbn in LL; lia|]. rewrite EI in E. injection E as <-. rewrite LL in Hi.
  split; [exact Hi|]. intros j Hj. rewrite <- (NL i Hi), Eb, <- (NL j Hj). apply Hmin, nth_In. now rewrite LL.
Qed.
Lemma firstn_nth (l : list num) k i : (i < k)%nat -> (k <= length l)%nat -> nth_error (firstn k l) i = nth_error l i.
Proof.
  intros Hi Hk. rewrite <- (firstn_skipn k l) at 2. rewrite nth_error_app1; [reflexivity|]. rewrite firstn_length. lia.
Qed.
Lemma skipn_nth (l : list num) k i : (k <= i)%nat -> (k <= length l)%nat -> nth_error (skipn k l) (i - k) = nth_error l i.
Proof.
  intros Hi Hk. rewrite <- (firstn_skipn k l) at 2. rewrite nth_error_app2 by (rewrite firstn_length; lia). rewrite firstn_length.
  now replace (Nat.min k (length l)) with k by lia.
Qed.

(*@P C101_shocked: The regime with a shock in the diffuser, for every position parameter in [0, 1] (default gas unchanged), whenever the cell completes: the imposed pressure ratio lies between the first two limits; there are a total pressure loss in (0, 1] whose shock Mach number the library's inversion gives as h, and a station - one whose wanted Mach number is nearest to h - such that: before it the Mach numbers are the wanted ones with total pressure 1; from it on total pressure is the loss, and at every station whose section is at least the sonic section of the shocked flow the flow is subsonic and section times total pressure times mass flow is that of the throat (elsewhere the Mach number is not a number); static pressure is total pressure over PtPs; and the two added points have a subsonic Mach number, the throat's mass flow and static pressure exactly 1/NPR. *)
Lemma shocked_regime : forall newton t len n M pos Ma Pt Ps, branch_solver (14/10) newton -> 1 < t -> 2 <= len -> (2 <= n)%nat -> 0 <= pos <= 1 ->
  Mach_Sigma newton (Some t) (Some 2) (Some (14/10)) = Some M -> (M - 1) * sin (PI / (2 * (len - 1))) < 1 ->
  nb_shocked newton (Some (14/10)) (Some t) (nb_NPR newton (Some t) (Some pos)) (nb_grid (Some len) n) (nb_area newton (Some t) (Some len) n) = Some (Ma, Pt, Ps) ->
  exists npr n0 nsw ish loss h w1, nb_NPR newton (Some t) (Some pos) = Some npr /\ nb_NPR0 newton (Some t) = Some n0 /\ nb_NPRsw newton (Some t) = Some nsw /\
    n0 <= npr <= nsw /\ (ish < n)%nat /\ 0 < loss <= 1 /\ Mn_Pt_ratio (Some loss) (Some (14/10)) = Some h /\
    (forall i, (i < n)%nat -> Rabs (wanted M len (station len n ish) - h) <= Rabs (wanted M len (station len n i) - h)) /\
    WeightMassFlow (Some 1) (Some 1) (Some (14/10)) = Some w1 /\
    (forall i, (i < n + 2)%nat -> nth_error Pt i = Some (Some (if (i <? ish)%nat then 1 else loss)) /\
      forall m, nth_error Ma i = Some (Some m) -> exists ps q, nth_error Ps i = Some (Some ps) /\ PtPs_Mach (Some m) (Some (14/10)) = Some q /\ ps * q = (if (i <? ish)%nat then 1 else loss)) /\
    (forall i, (i < ish)%nat -> nth_error Ma i = Some (Some (wanted M len (station len n i)))) /\
    (forall i a, (ish <= i < n)%nat -> nth_error (nb_area newton (Some t) (Some len) n) i = Some (Some a) ->
      (1 <= a * loss -> exists m w, nth_error Ma i = Some (Some m) /\ 0 < m <= 1 /\ WeightMassFlow (Some m) (Some 1) (Some (14/10)) = Some w /\ a * loss * w = w1) /\
      (a * loss < 1 -> nth_error Ma i = Some None)) /\
    (forall i, (n <= i < n + 2)%nat -> exists m w, nth_error Ma i = Some (Some m) /\ 0 < m < 1 /\
      WeightMassFlow (Some m) (Some 1) (Some (14/10)) = Some w /\ t * loss * w = w1 /\ nth_error Ps i = Some (Some (1 / npr))).
Proof.
  intros newton t len n M pos Ma Pt Ps HN Ht Hl Hn Hpos EM Hp ES. destruct (M_spec newton t M HN Ht EM) as [HM SM].
  pose proof (area_length newton t len M n HN Ht Hl Hn EM Hp) as LA. pose proof (area_nth newton t len M n HN Ht Hl Hn EM Hp) as NA.
  rewrite shocked_form_eq in ES. unfold shocked_form in ES. rewrite (choked_eval newton t len M n) in ES by assumption.
  set (A := nb_area newton (Some t) (Some len) n) in *.
  destruct (lims newton t HN Ht) as (m0 & M0 & E1 & E2 & Hm0 & HM0 & S1 & S2 & _).
  assert (M0 = M). { destruct (Rtotal_order M0 M) as [G|[G|G]]; [|assumption|]; [pose proof (sig_incr g0 M0 M ltac:(lra) ltac:(lra) G)|pose proof (sig_incr g0 M M0 ltac:(lra) ltac:(lra) G)]; lra. }
  subst M0. assert (D : sdom g0 M) by (apply sdom_ge1; lra).
  pose proof (ptr_lt1 g0 M ltac:(lra) HM) as Hptr. pose proof (md_lt1 g0 M ltac:(lra) HM) as Hmd.
  destruct (limits_order g0 m0 M t ltac:(lra) Hm0 HM S1 S2) as (_ & O & _).
  set (nsw := pp g0 (sqrt (md2 g0 M)) / ptr g0 M) in *. set (n0 := pp g0 m0) in *.
  assert (EN0 : nb_NPR0 newton (Some t) = Some n0) by (unfold nb_NPR0, nb_Msub; rewrite E1; unfold dgamma; now rewrite PtPs_eval by lra).
  assert (ENs : nb_NPRsw newton (Some t) = Some nsw).
  { unfold nb_NPRsw, nb_Msh, nb_Msup, Pi_ratio. rewrite E2. rewrite (Pt_eval_14 M D). unfold dgamma. rewrite Md_eval by first [assumption|lra]. rewrite PtPs_eval by lra. now rewrite ndiv_Some by lra. }
  set (npr := n0 * (1 - pos) + nsw * pos).
  assert (ENP : nb_NPR newton (Some t) (Some pos) = Some npr) by (unfold nb_NPR; rewrite EN0, ENs; reflexivity).
  assert (Hnpr : n0 <= npr <= nsw) by (unfold npr; nra). rewrite ENP in ES.
  destruct (shocked_eval g0 t npr ltac:(lra) ltac:(lra) ltac:(lra)) as (Ms & EMs & HMs & EF). rewrite EMs in ES.
  pose proof (shocked_loss g0 t npr Ms ltac:(lra) ltac:(lra) ltac:(lra) HMs EF) as SL.
  destruct (shocked_between g0 t m0 M npr Ms ltac:(lra) Hm0 HM S1 S2 HMs EF) as (B1 & B2 & _).
  specialize (B1 ltac:(fold n0; lra)). specialize (B2 ltac:(fold nsw; lra)).
  unfold dgamma in ES. rewrite PtPs_eval in ES by lra. fold (pp g0 Ms) in ES. rewrite ndiv_Some in ES by lra.
  rewrite Sigma_eval in ES by lra. pose proof (pp_pos g0 Ms) as HpMs.
  set (loss := pp g0 Ms / npr) in *. assert (Hloss : 0 < loss) by (unfold loss; apply Rdiv_lt_0_compat; lra).
  assert (Hloss1 : loss <= 1).
  { assert (sig g0 Ms <= t). { destruct (Req_dec Ms m0) as [->|]; [lra|]. rewrite <- S1. left; apply sig_decr; lra. }
    rewrite SL in H. destruct (Rle_lt_dec loss 1); [assumption|nra]. }
  destruct (argmin _) as [ish|] eqn:EAM; [|discriminate]. unfold mas in EAM. apply argmin_abs in EAM; [|lia]. destruct EAM as (h & Eh & Hish & Hmin).
  set (sl := map (fun a => ndiv (nmul a (Some (sig g0 Ms))) (Some t)) (skipn ish A)) in *.
  destruct (MachSub_array newton sl (Some g0)) as [M3|] eqn:E3; [|discriminate].
  apply (f_equal (fun o => match o with Some d => d | None => (Ma, Pt, Ps) end)) in ES. cbv beta iota in ES.
  set (MM := firstn ish (mas len M n) ++ M3 ++ Some Ms :: Some Ms :: nil) in ES. set (PP := firstn ish (nb_ones A ++ _) ++ _) in ES.
  pose proof (f_equal (fun d => fst (fst d)) ES) as EMa. pose proof (f_equal (fun d => snd (fst d)) ES) as EPt. pose proof (f_equal snd ES) as EPs. cbn [fst snd] in EMa, EPt, EPs. clear ES.
  assert (QM : Ma = MM) by (symmetry; exact EMa). assert (QP : Pt = PP) by (symmetry; exact EPt). assert (QS : Ps = nb_Ps PP MM) by (symmetry; exact EPs). clear EMa EPt EPs. subst Ma Pt Ps.
  assert (L3 : length M3 = (n - ish)%nat) by (rewrite (SubArr_length _ _ _ _ E3); unfold sl; rewrite map_length, skipn_length, LA; reflexivity).
  assert (LF : length (firstn ish (mas len M n)) = ish) by (rewrite firstn_length, mas_length; lia).
  assert (N1 : forall i, (i < ish)%nat -> nth_error MM i = Some (Some (rma M len (rx len n i)))).
  { intros i Hi. unfold MM. rewrite nth_error_app1 by lia. rewrite firstn_nth by (rewrite ?mas_length; lia). apply mas_nth. lia. }
  assert (N2 : forall i, (ish <= i < n)%nat -> nth_error MM i = nth_error M3 (i - ish)).
  { intros i Hi. unfold MM. rewrite nth_error_app2 by lia. rewrite LF. now rewrite nth_error_app1 by lia. }
  assert (N3 : forall i, (n <= i < n + 2)%nat -> nth_error MM i = Some (Some Ms)).
  { intros i Hi. unfold MM. rewrite nth_error_app2 by lia. rewrite LF. rewrite nth_error_app2 by lia. rewrite L3.
    destruct (Nat.eq_dec i n) as [->|]; [replace (n - ish - (n - ish))%nat with 0%nat by lia; reflexivity|]. replace (i - ish - (n - ish))%nat with 1%nat by lia. reflexivity. }
  assert (NP : forall i, (i < n + 2)%nat -> nth_error PP i = Some (Some (if (i <? ish)%nat then 1 else loss))).
  { intros i Hi. set (P0 := (nb_ones A ++ (Some loss : num) :: (Some loss : num) :: nil) : list num). change PP with (firstn ish P0 ++ @map num num (fun _ => Some loss) (skipn ish P0)). assert (LP : length P0 = (n + 2)%nat) by (unfold P0; rewrite app_length, ones_length, LA; reflexivity).
    assert (LQ : length (firstn ish P0) = ish) by (rewrite firstn_length; lia).
    destruct (Nat.ltb_spec i ish).
    - rewrite nth_error_app1 by lia. rewrite firstn_nth by lia. unfold P0. rewrite (app2_nth _ _ _ i n) by (rewrite ?ones_length; lia).
      destruct (Nat.ltb_spec i n); [apply ones_nth; lia|lia].
    - rewrite nth_error_app2 by lia. rewrite LQ. destruct (nth_error (skipn ish P0) (i - ish)) as [x|] eqn:EX; [now rewrite (map_nth_error _ _ _ EX)|].
      apply nth_error_None in EX. rewrite skipn_length in EX. lia. }
  assert (SLn : forall i, (ish <= i < n)%nat -> nth_error sl (i - ish) = Some (Some (sig g0 (rma M len (rx len n i)) * loss))).
  { intros i Hi. unfold sl. assert (HA : nth_error (skipn ish A) (i - ish) = Some (Some (sig g0 (rma M len (rx len n i))))) by (rewrite skipn_nth by lia; apply NA; lia).
    rewrite (map_nth_error _ _ _ HA). cbn [nmul]. rewrite ndiv_Some by lra. do 2 f_equal. rewrite SL. field. lra. }
  exists npr, n0, nsw, ish, loss, h, (wmf g0 1). split; [exact ENP|]. split; [exact EN0|]. split; [exact ENs|]. split; [exact Hnpr|]. split; [exact Hish|]. split; [lra|]. split; [exact Eh|].
  split; [exact Hmin|]. split; [apply WMF_eval; lra|].
  split; [|split; [exact N1|split]].
  - intros i Hi. split; [now apply NP|]. intros m Em. pose proof (pp_pos g0 m). eexists. exists (pp g0 m). split; [apply Ps_nth; [now apply NP|exact Em]|].
    split; [now rewrite PtPs_eval by lra|]. field. lra.
  - intros i a Hi Ea. rewrite (NA i ltac:(lia)) in Ea. injection Ea as <-. rewrite (N2 i Hi).
    pose proof (sec_nth_ge1 newton t len M n HN Ht Hl Hn EM Hp i ltac:(lia)) as Hge. split; intros Hc.
    + destruct (SubArr_nth newton sl g0 M3 (i - ish) E3 HN ltac:(lra) _ (SLn i Hi) Hc) as (m & Em & Hm & Sm & _).
      exists m, (wmf g0 m). split; [exact Em|]. split; [lra|]. split; [apply WMF_eval; lra|].
      pose proof (mass_of_sig g0 (sig g0 (rma M len (rx len n i))) 1 loss m loss ltac:(lra) ltac:(lra) ltac:(lra) Hloss ltac:(rewrite Sm; field)) as Q.
      replace (loss / loss) with 1 in Q by (field; lra). lra.
    + apply (SubArr_none newton sl g0 M3 (i - ish) E3 HN ltac:(lra) _ (SLn i Hi)). split; [nra|exact Hc].
  - intros i Hi. exists Ms, (wmf g0 Ms). rewrite (N3 i Hi). split; [reflexivity|]. split; [lra|]. split; [apply WMF_eval; lra|]. split.
    + pose proof (mass_of_sig g0 t 1 loss Ms loss ltac:(lra) HMs ltac:(lra) Hloss ltac:(rewrite SL; field)) as Q.
      replace (loss / loss) with 1 in Q by (field; lra). lra.
    + assert (P1 : nth_error PP i = Some (Some loss)) by (rewrite (NP i ltac:(lia)); destruct (Nat.ltb_spec i ish); [lia|reflexivity]).
      rewrite (Ps_nth PP MM i loss Ms P1 (N3 i Hi)). do 2 f_equal. unfold loss. field. lra.
Qed.

Lemma list_ext (l1 l2 : list num) : length l1 = length l2 -> (forall i, (i < length l1)%nat -> nth_error l1 i = nth_error l2 i) -> l1 = l2.
Proof.
  revert l2. induction l1 as [|a l1 IH]; intros [|b l2] L H; cbn in L; try lia; [reflexivity|].
  pose proof (H 0%nat ltac:(cbn; lia)) as E. cbn in E. injection E as ->. f_equal. apply IH; [lia|]. intros i Hi. apply (H (S i)). cbn. lia.
Qed.
Lemma combine_app (a b c d : list num) : length a = length c -> combine (a ++ b) (c ++ d) = combine a c ++ combine b d.
Proof. revert c. induction a as [|x a IH]; intros [|y c] L; cbn in *; try lia; [reflexivity|]. f_equal. apply IH. lia. Qed.
Lemma nb_Ps_app (a b c d : list num) : length a = length c -> nb_Ps (a ++ b) (c ++ d) = nb_Ps a c ++ nb_Ps b d.
Proof. intros L. unfold nb_Ps. rewrite combine_app by exact L. apply map_app. Qed.

(** the library's nozzle on this section, when x = 1 is a station *)
Lemma library_nozzle newton st t len n M k npr : branch_solver g0 newton -> 1 < t -> 2 <= len -> (2 <= n)%nat ->
  nb_ma_max newton (Some t) = Some M -> (M - 1) * sin (PI / (2 * (len - 1))) < 1 -> (k < n)%nat -> rx len n k = 1 -> 0 < npr ->
  let A := nb_area newton (Some t) (Some len) n in
  exists it M1 M2, (it < n)%nat /\
  let nz0 := mk_nozzle (Some g0) (Some t) A it (NPR_Ms_list newton (Some t)) None in
  snd (nozzle_init newton st A None (Some g0) (Some (Some npr))) = set_NPR newton (mk_defgas (dg_gamma st) (dg_r st) (Some (dg_r st, dg_gamma st)) (captured st)) nz0 (Some npr) /\
  MachSub_array newton (firstn (S it) A) (Some g0) = Some M1 /\ MachSup_array newton (skipn (S it) A) (Some g0) = Some M2 /\ M1 ++ M2 = mas len M n.
Proof.
  intros HN Ht Hl Hn EM Hp Hk Ek Hnpr A. destruct (M_spec newton t M HN Ht EM) as [HM SM].
  pose proof (area_eval newton t len M n HN Ht Hl Hn EM Hp) as EA. fold A in EA. set (sec := rsec M len n) in *.
  assert (LS : length sec = n) by apply rsec_length.
  assert (Hne : sec <> nil) by (intros E; rewrite E in LS; cbn in LS; lia).
  assert (Hge : forall a, In a sec -> 1 <= a) by (apply (sec_ge1 newton t len M n); assumption).
  assert (Hpos : forall a, In a sec -> 0 < a) by (intros a Ha; specialize (Hge a Ha); lra).
  assert (NS : forall i, (i < n)%nat -> nth i sec 0 = sig g0 (rma M len (rx len n i))) by (intros; now apply rsec_nth).
  assert (In1 : In 1 sec) by (rewrite <- (sig_1 g0) at 1 by lra; rewrite <- (rma_1 M len Hl), <- Ek, <- NS by exact Hk; apply nth_In; lia).
  assert (HL : last sec 0 = t) by (apply (sec_last newton t len M n); assumption).
  destruct (init_eval newton st sec (Some g0) (Some (Some npr)) Hne Hpos) as (it & Hit & Hthr & _ & _ & HI).
  rewrite (amin_unique sec 1 Hne In1 Hge) in *. rewrite HL in HI. rewrite LS in Hit.
  assert (EX : @map R num (fun a => Some (a / 1)) sec = A) by (rewrite EA; apply map_ext; intros a; f_equal; field).
  destruct (choked_arrays newton sec 1 it g0 HN ltac:(lra) Hpos Hge ltac:(lra) ltac:(lia) Hthr ltac:(lra)) as (HS & M1 & M2 & E1 & E2 & L1 & LL & HMi).
  rewrite EX in E1, E2, HI. replace (t / 1) with t in HI by field.
  exists it, M1, M2. split; [exact Hit|]. cbv zeta. split.
  { rewrite EA at 1. rewrite (HI None eq_refl).
    assert (HT : truthy (Some (Some npr)) = true) by (cbn; destruct (Req_EM_T npr 0); [lra|reflexivity]). rewrite HT. reflexivity. }
  split; [exact E1|]. split; [exact E2|]. apply list_ext; [rewrite LL, LS; symmetry; apply mas_length|].
  intros i Hi. rewrite LL, LS in Hi. rewrite mas_nth by exact Hi. destruct (HMi i ltac:(lia)) as (m & Em & Hm & Sm & Hsub & Hsup). rewrite Em. do 2 f_equal.
  rewrite NS in Sm by exact Hi. replace (sig g0 (rma M len (rx len n i)) / 1) with (sig g0 (rma M len (rx len n i))) in Sm by field.
  assert (Eit : rx len n it = 1).
  { rewrite NS in Hthr by exact Hit. apply sig_sonic_unique in Hthr; [|lra|now apply (ma_pos newton t len M n)].
    destruct (rma_sides M len (rx len n it) HM Hl (x_ran len n Hl Hn it Hit)) as [P Q].
    destruct (Rtotal_order (rx len n it) 1) as [G|[G|G]]; [specialize (P G); lra|assumption|specialize (Q G); lra]. }
  destruct (le_lt_dec i it) as [Hle|Hlt].
  - apply (ma_sub newton t len M n HN Ht Hl Hn EM Hp i m Hi); [|split; [exact Hm|now apply Hsub]|exact Sm].
    destruct (Nat.eq_dec i it) as [->|]; [lra|]. pose proof (rx_incr len n i it Hn ltac:(lra) ltac:(lia)). lra.
  - apply (ma_sup newton t len M n HN Ht Hl Hn EM i m Hi); [|now apply Hsup|exact Sm].
    pose proof (rx_incr len n it i Hn ltac:(lra) ltac:(lia)). lra.
Qed.

(*@P C101_library: When x = 1 is one of the stations, the notebook draws the library's nozzle: for every pressure ratio from the first limit up to (not including) the shock-at-exit limit, the nozzle object built on the same section gives exactly the notebook's Mach, total and static pressure arrays without their two added points, and fails when the cell fails; from the shock-at-exit limit on it gives those of the supersonic regime. *)
Lemma library_agrees : forall newton st t len n M k npr n0 nsw, branch_solver (14/10) newton -> 1 < t -> 2 <= len -> (2 <= n)%nat ->
  Mach_Sigma newton (Some t) (Some 2) (Some (14/10)) = Some M -> (M - 1) * sin (PI / (2 * (len - 1))) < 1 -> (k < n)%nat -> station len n k = 1 ->
  dg_gamma st = Some (14/10) -> nb_NPR0 newton (Some t) = Some n0 -> nb_NPRsw newton (Some t) = Some nsw -> n0 <= npr ->
  let X := nb_grid (Some len) n in let A := nb_area newton (Some t) (Some len) n in
  (npr < nsw ->
   match snd (nozzle_init newton st A None (Some (14/10)) (Some (Some npr))) with
   | Some nz => exists Ma Pt Ps Ms loss, nz_flow nz = Some (Ma, Pt, Ps) /\
       nb_shocked newton (Some (14/10)) (Some t) (Some npr) X A = Some (Ma ++ Ms :: Ms :: nil, Pt ++ loss :: loss :: nil, Ps ++ Some (1 / npr) :: Some (1 / npr) :: nil)
   | None => nb_shocked newton (Some (14/10)) (Some t) (Some npr) X A = None end) /\
  (nsw <= npr ->
   exists nz Ma Pt Ps ps, snd (nozzle_init newton st A None (Some (14/10)) (Some (Some npr))) = Some nz /\ nz_flow nz = Some (Ma, Pt, Ps) /\
     nb_supersonic newton X A = (Ma ++ Some M :: Some M :: nil, Pt ++ Some 1 :: Some 1 :: nil, Ps ++ ps :: ps :: nil)).
Proof.
  intros newton st t len n M k npr n0 nsw HN Ht Hl Hn EM Hp Hk Ek Hst E0 Es Hge X A. destruct (M_spec newton t M HN Ht EM) as [HM SM].
  destruct (lims newton t HN Ht) as (m0 & M0 & E1 & E2 & Hm0 & HM0 & S1 & S2 & L). clear L.
  assert (Hn0 : 0 < n0) by (unfold nb_NPR0, nb_Msub in E0; rewrite E1 in E0; unfold dgamma in E0; rewrite PtPs_eval in E0 by lra; injection E0 as <-; apply Rpower_pos).
  destruct (library_nozzle newton st t len n M k npr HN Ht Hl Hn EM Hp Hk Ek ltac:(lra)) as (it & M1 & M2 & Hit & EI & EA & EB & EC).
  cbv zeta in EI. fold A in EI, EA, EB. rewrite EI. clear EI.
  destruct (Ms_regimes newton t npr HN Ht ltac:(lra)) as (m0' & M0' & nsw' & E1' & E2' & Hm0' & HM0' & S1' & S2' & EN & F0 & Fsw & F1 & L & O & HRg).
  change (NPR_choked_subsonic newton (Some t)) with (nb_NPR0 newton (Some t)) in F0. change (NPR_shock_at_exit newton (Some t)) with (nb_NPRsw newton (Some t)) in Fsw.
  rewrite E0 in F0. injection F0 as F0. rewrite Es in Fsw. injection Fsw as Fsw. clear EN. subst nsw'. rewrite <- F0 in *. clear F0.
  pose proof (area_length newton t len M n HN Ht Hl Hn EM Hp) as LA. fold A in LA.
  unfold set_NPR, flow_at. cbn [nz_AxoAc nz_gamma nz_lim nz_AsoAc nz_ithroat dg_gamma]. rewrite L. cbn [NPR0 NPRsw].
  rewrite nlt_false by exact Hge. cbn [nif]. rewrite EA, EB, EC. rewrite Hst.
  assert (ECH : nb_choked newton X A = mas len M n) by (apply (choked_eval newton t len M n); assumption).
  split; intros Hc.
  - rewrite nlt_true by exact Hc. cbn [nif]. destruct (HRg (Some g0)) as (_ & R2 & _). rewrite R2 by lra.
    rewrite shocked_form_eq. unfold shocked_form. rewrite ECH.
    destruct (shocked_eval g0 t npr ltac:(lra) ltac:(lra) ltac:(lra)) as (Ms & EMs & HMs & EF). rewrite EMs. unfold dgamma.
    rewrite PtPs_eval by lra. fold (pp g0 Ms). rewrite ndiv_Some by lra. pose proof (pp_pos g0 Ms) as HpMs. set (loss := pp g0 Ms / npr).
    destruct (argmin _) as [ish|] eqn:EAM; [|reflexivity]. apply argmin_lt in EAM. rewrite map_length, mas_length in EAM.
    pose (sl := @map num num (fun a => ndiv (nmul a (Sigma_Mach (Some Ms) (Some g0))) (Some t)) (skipn ish A)).
    destruct (MachSub_array newton sl (Some g0)) as [M3|] eqn:E3.
    2:{ repeat match goal with |- context [MachSub_array newton ?l ?g] => replace (MachSub_array newton l g) with (@None (list num)) by (symmetry; exact E3) end. reflexivity. }
    repeat match goal with |- context [MachSub_array newton ?l ?g] => replace (MachSub_array newton l g) with (Some M3) by (symmetry; exact E3) end.
    assert (L3 : length M3 = (n - ish)%nat) by (rewrite (SubArr_length _ _ _ _ E3); unfold sl; rewrite map_length, skipn_length, LA; reflexivity).
    cbn [nz_flow]. do 3 eexists. exists (Some Ms), (Some loss). split; [reflexivity|].
    set (MM := firstn ish (mas len M n) ++ M3). set (PP := (firstn ish (nb_ones A) ++ @map num num (fun _ => Some loss) (skipn ish (nb_ones A))) : list num).
    assert (LMM : length MM = n) by (unfold MM; rewrite app_length, firstn_length, mas_length, L3; lia).
    assert (LPP : length PP = n) by (unfold PP; rewrite app_length, firstn_length, map_length, skipn_length, ones_length, LA; lia).
    set (e1 := (Some Ms : num) :: (Some Ms : num) :: nil). set (e2 := (Some loss : num) :: (Some loss : num) :: nil).
    assert (Q1 : firstn ish (mas len M n) ++ M3 ++ e1 = MM ++ e1) by (unfold MM; now rewrite app_assoc).
    assert (Q2 : firstn ish (nb_ones A ++ e2) ++ @map num num (fun _ => Some loss) (skipn ish (nb_ones A ++ e2)) = PP ++ e2).
    { rewrite firstn_app, skipn_app, ones_length, LA. replace (ish - n)%nat with 0%nat by lia. cbn [firstn skipn]. rewrite app_nil_r, map_app. unfold PP. now rewrite app_assoc. }
    assert (EE : nb_Ps e2 e1 = Some (1 / npr) :: Some (1 / npr) :: nil).
    { unfold nb_Ps, dgamma, e1, e2. cbn [combine map fst snd]. rewrite PtPs_eval by lra. fold (pp g0 Ms). rewrite ndiv_Some by lra. unfold loss.
      replace (pp g0 Ms / npr / pp g0 Ms) with (1 / npr) by (field; lra). reflexivity. }
    transitivity (Some (MM ++ e1, PP ++ e2, nb_Ps (PP ++ e2) (MM ++ e1))).
    { rewrite <- Q1, <- Q2. reflexivity. }
    rewrite nb_Ps_app by lia. rewrite EE. reflexivity.
  - rewrite nlt_false by exact Hc. cbn [nif]. do 5 eexists. split; [reflexivity|]. cbn [nz_flow]. split; [reflexivity|].
    unfold nb_supersonic. rewrite ECH. rewrite (mas_last newton t len M n) by assumption.
    rewrite nb_Ps_app by (rewrite ones_length, mas_length; exact LA). reflexivity.
Qed.

Lemma nozzle_limits_shift newton st sec t : branch_solver g0 newton -> sec <> nil -> (forall a, In a sec -> 1 < a) -> last sec 0 = t ->
  exists nz s n0 n1 N0 N1, snd (nozzle_init newton st (map (@Some R) sec) None (Some g0) None) = Some nz /\ nz_AsoAc nz = Some s /\ 1 <= s < t /\
    NPR0 (NPR_Ms_list newton (Some t)) = Some n0 /\ NPR1 (NPR_Ms_list newton (Some t)) = Some n1 /\
    NPR0 (nz_lim nz) = Some N0 /\ NPR1 (nz_lim nz) = Some N1 /\ n0 < N0 /\ N1 < n1.
Proof.
  intros HN Hne Hgt HL. destruct (init_eval newton st sec (Some g0) None Hne ltac:(intros a Ha; specialize (Hgt a Ha); lra)) as (it & Hit & Hthr & Hc & Hmin & HI).
  set (c := amin_R sec) in *. assert (C1 : 1 < c) by (rewrite <- Hthr; apply Hgt, nth_In; exact Hit).
  assert (CT : c <= t) by (rewrite <- HL; apply Hmin, last_In; exact Hne). rewrite HL in HI. set (s := t / c) in *.
  assert (Hs : 1 <= s < t).
  { unfold s. split; [now apply ratio_ge1|]. apply (Rmult_lt_reg_r c); [lra|]. unfold Rdiv. rewrite Rmult_assoc, Rinv_l by lra. nra. }
  rewrite (HI None eq_refl). cbn [truthy snd].
  destruct (MachSub_branch newton g0 t HN ltac:(lra) ltac:(lra)) as (mt & E1 & Hmt & S1 & _ & _).
  destruct (MachSup_branch newton g0 t HN ltac:(lra) ltac:(lra)) as (Mt & E2 & HMt & S2 & _ & _).
  destruct (MachSub_branch newton g0 s HN ltac:(lra) ltac:(lra)) as (ms & E3 & Hms & S3 & _ & _).
  destruct (MachSup_branch newton g0 s HN ltac:(lra) ltac:(lra)) as (Ms & E4 & HMs & S4 & _ & _).
  eexists. exists s, (pp g0 mt), (pp g0 Mt), (pp g0 ms), (pp g0 Ms). split; [reflexivity|]. cbn [nz_AsoAc nz_lim]. split; [reflexivity|]. split; [exact Hs|].
  unfold NPR_Ms_list, dgamma. rewrite E1, E2, E3, E4. cbn [NPR0 NPR1]. rewrite !PtPs_eval by lra.
  split; [reflexivity|]. split; [reflexivity|]. split; [reflexivity|]. split; [reflexivity|]. split; apply pp_incr; try lra.
  - destruct (Rlt_le_dec mt ms) as [|G]; [assumption|]. destruct (Req_dec mt ms) as [Q|]; [rewrite Q in S1; lra|]. pose proof (sig_decr g0 ms mt ltac:(lra)); lra.
  - destruct (Rlt_le_dec Ms Mt) as [|G]; [assumption|]. destruct (Req_dec mt ms) as [Q|]; [rewrite Q in S1; lra|]. destruct (Req_dec Mt Ms) as [Q|]; [rewrite Q in S2; lra|].
    pose proof (sig_incr g0 Mt Ms ltac:(lra)); lra.
Qed.

(*@P C101_grid_refuted: When x = 1 is not a station (the notebooks' own 200 and 400 stations on length 8 are such grids), the library's nozzle on the notebook's section is another nozzle: its exit-to-throat ratio is strictly below the target, its choked-subsonic limit strictly above and its choked-supersonic limit strictly below the limits the notebook prints. *)
Lemma grid_misses_throat : forall newton st t len n M, branch_solver (14/10) newton -> 1 < t -> 2 <= len -> (2 <= n)%nat ->
  Mach_Sigma newton (Some t) (Some 2) (Some (14/10)) = Some M -> (M - 1) * sin (PI / (2 * (len - 1))) < 1 ->
  (forall i, (i < n)%nat -> station len n i <> 1) ->
  exists nz s n0 n1 N0 N1, snd (nozzle_init newton st (nb_area newton (Some t) (Some len) n) None (Some (14/10)) None) = Some nz /\ nz_AsoAc nz = Some s /\ 1 <= s < t /\
    nb_NPR0 newton (Some t) = Some n0 /\ nb_NPR1 newton (Some t) = Some n1 /\
    NPR0 (nz_lim nz) = Some N0 /\ NPR1 (nz_lim nz) = Some N1 /\ n0 < N0 /\ N1 < n1.
Proof.
  intros newton st t len n M HN Ht Hl Hn EM Hp Hx. destruct (M_spec newton t M HN Ht EM) as [HM SM].
  rewrite (area_eval newton t len M n) by assumption.
  apply (nozzle_limits_shift newton st (rsec M len n) t HN); [|  |now apply (sec_last newton t len M n)].
  - intros E. apply (f_equal (@length R)) in E. rewrite rsec_length in E. cbn in E. lia.
  - intros a Ha. unfold rsec in Ha. apply in_map_iff in Ha. destruct Ha as (i & <- & Hi). apply in_seq in Hi.
    apply sig_gt_1; [lra|apply (ma_pos newton t len M n); try assumption; lia|]. intros E.
    apply (Hx i ltac:(lia)). destruct (rma_sides M len (rx len n i) HM Hl (x_ran len n Hl Hn i ltac:(lia))) as [P Q].
    destruct (Rtotal_order (rx len n i) 1) as [G|[G|G]]; [specialize (P G); lra|assumption|specialize (Q G); lra].
Qed.

(*@P C101_widget: The widget's rescaled section for another exit ratio above 1 has that exit, sections at least 1, and 1 exactly at x = 1; and when x = 1 is not a station (refuting what the widget marks on the figure) the nozzle it draws has a smaller exit-to-throat ratio, a larger choked-subsonic and a smaller choked-supersonic limit than those it marks for the chosen ratio. *)
Lemma widget_section : forall newton st t s len n M, branch_solver (14/10) newton -> 1 < t -> 1 < s -> 2 <= len -> (2 <= n)%nat ->
  Mach_Sigma newton (Some t) (Some 2) (Some (14/10)) = Some M -> (M - 1) * sin (PI / (2 * (len - 1))) < 1 ->
  let W := nb_rescaled (Some s) (Some t) (nb_area newton (Some t) (Some len) n) in
  (exists a : nat -> R, length W = n /\ (forall i, (i < n)%nat -> nth_error W i = Some (Some (a i)) /\ 1 <= a i /\ (a i = 1 <-> station len n i = 1)) /\ a (n - 1)%nat = s) /\
  ((forall i, (i < n)%nat -> station len n i <> 1) ->
   exists nz s' n0 n1 N0 N1, snd (nozzle_init newton st W None (Some (14/10)) None) = Some nz /\ nz_AsoAc nz = Some s' /\ 1 <= s' < s /\
    NPR0 (NPR_Ms_list newton (Some s)) = Some n0 /\ NPR1 (NPR_Ms_list newton (Some s)) = Some n1 /\
    NPR0 (nz_lim nz) = Some N0 /\ NPR1 (nz_lim nz) = Some N1 /\ n0 < N0 /\ N1 < n1).
Proof.
  intros newton st t s len n M HN Ht Hs Hl Hn EM Hp W. destruct (M_spec newton t M HN Ht EM) as [HM SM].
  pose proof (area_eval newton t len M n HN Ht Hl Hn EM Hp) as EA.
  set (sec := map (fun i => 1 + (s - 1) / (t - 1) * (sig g0 (rma M len (rx len n i)) - 1)) (seq 0 n)).
  assert (EW : W = map (@Some R) sec).
  { unfold W, nb_rescaled, sec. rewrite EA. unfold rsec. rewrite !map_map. apply map_ext. intros i. ncbn. rewrite ndiv_Some by lra. reflexivity. }
  assert (K : 0 < (s - 1) / (t - 1)) by (apply Rdiv_lt_0_compat; lra). set (k := (s - 1) / (t - 1)) in *.
  assert (Hlast : 1 + k * (t - 1) = s) by (unfold k; field; lra).
  assert (IFF : forall i, (i < n)%nat -> 1 <= sig g0 (rma M len (rx len n i)) /\ (sig g0 (rma M len (rx len n i)) = 1 <-> rx len n i = 1)).
  { intros i Hi. split; [now apply (sec_nth_ge1 newton t len M n)|]. split.
    - intros E. apply sig_sonic_unique in E; [|lra|now apply (ma_pos newton t len M n)]. destruct (rma_sides M len (rx len n i) HM Hl (x_ran len n Hl Hn i Hi)) as [P Q].
      destruct (Rtotal_order (rx len n i) 1) as [G|[G|G]]; [specialize (P G); lra|assumption|specialize (Q G); lra].
    - intros ->. rewrite rma_1 by assumption. apply sig_1; lra. }
  assert (LS : length sec = n) by (unfold sec; now rewrite map_length, seq_length).
  assert (NS : forall i, (i < n)%nat -> nth i sec 0 = 1 + k * (sig g0 (rma M len (rx len n i)) - 1)) by (intros i Hi; apply nth_error_nth; unfold sec; now rewrite nth_error_seq_map).
  split.
  - exists (fun i => 1 + k * (sig g0 (rma M len (rx len n i)) - 1)). split; [rewrite EW, map_length; exact LS|]. split.
    + intros i Hi. destruct (IFF i Hi) as [I1 I2]. split; [rewrite EW, nth_error_map_some, NS by lia; reflexivity|]. split; [nra|]. rewrite <- I2. split; intros E; nra.
    + rewrite rx_last, rma_len, SM by assumption. exact Hlast.
  - intros Hx. rewrite EW. apply (nozzle_limits_shift newton st sec s HN).
    + intros E. rewrite E in LS. cbn in LS. lia.
    + intros a Ha. unfold sec in Ha. apply in_map_iff in Ha. destruct Ha as (i & <- & Hi). apply in_seq in Hi. destruct (IFF i ltac:(lia)) as [I1 I2].
      specialize (Hx i ltac:(lia)). assert (sig g0 (rma M len (rx len n i)) <> 1) by tauto. nra.
    + rewrite <- nth_last by (intros E; rewrite E in LS; cbn in LS; lia). rewrite LS, NS by lia. rewrite rx_last, rma_len, SM by assumption. exact Hlast.
Qed.

Lemma no_station (n i : nat) (z : Z) : Z.of_nat (n - 1) = z -> (0 < z)%Z -> (forall k, 8 * k <> z)%Z -> station 8 n i <> 1.
Proof.
  intros En Hz Hk E. unfold station in E. rewrite !INR_IZR_INZ, En in E. assert (0 < IZR z) by (now apply IZR_lt).
  apply (Hk (Z.of_nat i)). apply eq_IZR. rewrite mult_IZR. apply (Rmult_eq_reg_r (/ IZR z)); [|apply Rinv_neq_0_compat; lra].
  rewrite Rinv_r by lra. unfold Rdiv in E. exact E.
Qed.
Lemma sig_4_gt : 6 < sig g0 4.
Proof.
  rewrite sig_form by lra. replace (sexp g0) with (INR 3) by (unfold sexp; cbn [INR]; field). unfold tt.
  rewrite Rpower_pow by lra. lra.
Qed.
(*@E C101_example: the notebook's values (target ratio 6, length 8) meet the hypotheses with an exact root finder; neither its 200 nor the widget's 400 stations contain x = 1, while with 201 stations the one of index 25 is at x = 1; and on that length a target with a negative inlet section exists. *)
Lemma nozzle_nb_example : exists newton M, branch_solver (14/10) newton /\ Mach_Sigma newton (Some 6) (Some 2) (Some (14/10)) = Some M /\
  (M - 1) * sin (PI / (2 * (8 - 1))) < 1 /\ (forall i, station 8 200 i <> 1) /\ (forall i, station 8 400 i <> 1) /\ station 8 201 25 = 1 /\
  (exists t M', 1 < t /\ Mach_Sigma newton (Some t) (Some 2) (Some (14/10)) = Some M' /\ 1 < (M' - 1) * sin (PI / (2 * (8 - 1)))).
Proof.
  pose proof (ideal_newton_branch g0 ltac:(lra)) as HN. exists (ideal_newton g0).
  destruct (ma_max_eval (ideal_newton g0) 6 HN ltac:(lra)) as (M & E & HM & SM). exists M. split; [exact HN|]. split; [exact E|].
  pose proof PI_RGT_0 as P0. pose proof PI_4 as P4. set (x := PI / (2 * (8 - 1))). assert (Hx : 0 < x <= 2 / 7) by (unfold x; lra).
  assert (Hs : 0 < sin x < x) by (split; [apply sin_gt_0; unfold x; lra|apply sin_lt_x; lra]).
  assert (M < 4). { destruct (Rlt_le_dec M 4) as [|G]; [assumption|]. pose proof sig_4_gt. destruct (Req_dec M 4) as [Q|]; [rewrite Q in SM; lra|]. pose proof (sig_incr g0 4 M ltac:(lra) ltac:(lra)); lra. }
  split; [nra|]. split; [intros i; apply (no_station 200 i 199); [reflexivity|lia|intros k; lia]|].
  split; [intros i; apply (no_station 400 i 399); [reflexivity|lia|intros k; lia]|].
  split; [unfold station; rewrite !INR_IZR_INZ; change (Z.of_nat 25) with 25%Z; change (Z.of_nat (201 - 1)) with 200%Z; lra|].
  set (M' := 1 + 2 / sin x). assert (HM' : 1 < M') by (unfold M'; assert (0 < 2 / sin x) by (apply Rdiv_lt_0_compat; lra); lra).
  exists (sig g0 M'), M'. assert (Ht : 1 < sig g0 M') by (apply sig_gt_1; lra). split; [exact Ht|].
  destruct (ma_max_eval (ideal_newton g0) _ HN Ht) as (M2 & E2 & HM2 & SM2).
  assert (M2 = M'). { destruct (Rtotal_order M2 M') as [G|[G|G]]; [|assumption|]; [pose proof (sig_incr g0 M2 M' ltac:(lra) ltac:(lra) G)|pose proof (sig_incr g0 M' M2 ltac:(lra) ltac:(lra) G)]; lra. }
  subst M2. split; [exact E2|]. unfold M'. replace ((1 + 2 / sin x - 1) * sin x) with 2 by (field; lra). lra.
Qed.

(** ** A completed run with a shock at Mach 3/2 *)
Lemma Mn_Pt_start : Mn_Pt_ratio (Some (ptr g0 (3/2))) (Some g0) = Some (3/2).
Proof.
  pose proof (ptr_lt1 g0 (3/2) ltac:(lra) ltac:(lra)) as H1. unfold Mn_Pt_ratio. rewrite ngt_false by lra. cbn [nif].
  assert (D : sdom g0 (3/2)) by (apply sdom_ge1; lra). assert (D' : sdom g0 (3/2 * (999/1000))) by (apply sdom_ge1; lra).
  assert (N : ptr g0 (3/2) < ptr g0 (3/2 * (999/1000))).
  { rewrite !ptr_dS by (try assumption; lra). apply exp_increasing. pose proof (dS_incr g0 (3/2 * (999/1000)) (3/2) ltac:(lra)) as I.
    assert (dS g0 (3/2 * (999/1000)) < dS g0 (3/2)) by (apply I; try assumption; lra). lra. }
  apply (secant_exact_step _ _ (3/2) (3/2) (ptr g0 (3/2)) (ptr g0 (3/2 * (999/1000)))); [rewrite Rabs_pos_eq by lra; lra|now apply Pt_eval_14|now apply Pt_eval_14|lra| |now apply Pt_eval_14].
  field. lra.
Qed.
(** at area ratio sig 2 some pressure ratio between the first two limits puts the shock at Mach 3/2 *)
Lemma shock_at_3_2 newton : branch_solver g0 newton -> exists pos npr Ms, 0 <= pos <= 1 /\ 0 < npr /\
  nb_NPR newton (Some (sig g0 2)) (Some pos) = Some npr /\
  shocked_exit_Mach (Some g0) (Some (sig g0 2)) (Some npr) = Some Ms /\ 0 < Ms < 1 /\ pp g0 Ms / npr = ptr g0 (3/2) /\
  exists m0, MachSub_Sigma newton (Some (sig g0 2)) dgamma = Some m0 /\ MachSup_Sigma newton (Some (sig g0 2)) dgamma = Some 2 /\ pp g0 m0 < npr < pp g0 (sqrt (md2 g0 2)) / ptr g0 2.
Proof.
  intros HN. set (t := sig g0 2). assert (Ht : 1 < t) by (apply sig_gt_1; lra).
  destruct (lims newton t HN Ht) as (m0 & M0 & E1 & E2 & Hm0 & HM0 & S1 & S2 & L).
  assert (M0 = 2). { unfold t in S2. destruct (Rtotal_order M0 2) as [G|[G|G]]; [|assumption|]; [pose proof (sig_incr g0 M0 2 ltac:(lra) ltac:(lra) G)|pose proof (sig_incr g0 2 M0 ltac:(lra) ltac:(lra) G)]; lra. }
  subst M0.
  set (loss := ptr g0 (3/2)). pose proof (ptr_lt1 g0 (3/2) ltac:(lra) ltac:(lra)) as Hl. fold loss in Hl.
  pose proof (sig_md g0 (3/2) ltac:(lra) ltac:(lra) ltac:(apply sdom_ge1; lra)) as SD. fold loss in SD.
  pose proof (md_lt1 g0 (3/2) ltac:(lra) ltac:(lra)) as Hd. pose proof (sig_gt_1 g0 _ ltac:(lra) (proj1 Hd) ltac:(lra)) as G1. rewrite SD in G1.
  pose proof (sig_incr g0 (3/2) 2 ltac:(lra) ltac:(lra) ltac:(lra)) as G2. fold t in G2. assert (G3 : 1 < t * loss) by nra.
  destruct (sub_root_spec g0 (t * loss) ltac:(lra) G3) as [HMs SMs]. set (Ms := sub_root g0 (t * loss)) in *.
  pose proof (pp_pos g0 Ms) as Pp. set (npr := pp g0 Ms / loss).
  assert (Hnpr : 0 < npr) by (apply Rdiv_lt_0_compat; lra).
  pose proof (sig_md g0 2 ltac:(lra) ltac:(lra) ltac:(apply sdom_ge1; lra)) as SD2. pose proof (md_lt1 g0 2 ltac:(lra) ltac:(lra)) as Hd2.
  pose proof (ptr_lt1 g0 2 ltac:(lra) ltac:(lra)) as Hl2.
  assert (LL : ptr g0 2 < loss).
  { unfold loss. rewrite !ptr_dS by (try lra; apply sdom_ge1; lra). apply exp_increasing.
    assert (dS g0 (3/2) < dS g0 2) by (apply dS_incr; try lra; apply sdom_ge1; lra). lra. }
  fold t in SD2. set (md := sqrt (md2 g0 2)) in *.
  assert (Em : Ms * sqrt (tt g0 Ms) = npr / t / Rpower ((g0 + 1) / 2) (sexp g0)).
  { rewrite mst_sig by lra. rewrite SMs. unfold npr. pose proof (Rpower_pos ((g0 + 1) / 2) (sexp g0)). field. repeat split; lra. }
  assert (O1 : m0 < Ms). { destruct (Rlt_le_dec m0 Ms) as [|G]; [assumption|]. exfalso. destruct (Req_dec Ms m0) as [Q|]; [rewrite <- Q in S1; rewrite SMs in S1; nra|]. pose proof (sig_decr g0 Ms m0 ltac:(lra) ltac:(lra) ltac:(lra) ltac:(lra)). nra. }
  assert (O2 : Ms < md). { destruct (Rlt_le_dec Ms md) as [|G]; [assumption|]. exfalso. destruct (Req_dec Ms md) as [Q|]; [rewrite Q in SMs; nra|]. pose proof (sig_decr g0 md Ms ltac:(lra) ltac:(lra) ltac:(lra) ltac:(lra)). nra. }
  pose proof (Rpower_pos ((g0 + 1) / 2) (sexp g0)) as Kp. set (k := Rpower ((g0 + 1) / 2) (sexp g0)) in *.
  assert (B : forall a b, a / t / k < b / t / k -> a < b).
  { intros a b H. replace a with (a / t / k * (k * t)) by (field; lra). replace b with (b / t / k * (k * t)) by (field; lra). apply Rmult_lt_compat_r; [nra|exact H]. }
  assert (N0 : pp g0 m0 < npr).
  { apply B. rewrite <- Em. pose proof (mst_incr g0 m0 Ms ltac:(lra) ltac:(lra) O1) as I. rewrite (mst_sig g0 m0) in I by lra. fold k in I. now rewrite S1 in I. }
  assert (N1 : npr < pp g0 md / ptr g0 2).
  { apply B. rewrite <- Em. pose proof (mst_incr g0 Ms md ltac:(lra) ltac:(lra) O2) as I. rewrite (mst_sig g0 md) in I by lra. fold k in I. rewrite SD2 in I.
    replace (pp g0 md / ptr g0 2 / t / k) with (pp g0 md / (t * ptr g0 2) / k) by (field; lra). exact I. }
  set (nsw := pp g0 md / ptr g0 2) in *. set (n0 := pp g0 m0) in *.
  exists ((npr - n0) / (nsw - n0)), npr, Ms. split.
  { split; [left; apply Rdiv_lt_0_compat; lra|]. apply (Rmult_le_reg_r (nsw - n0)); [lra|]. unfold Rdiv. rewrite Rmult_assoc, Rinv_l by lra. lra. }
  split; [exact Hnpr|]. split.
  { unfold nb_NPR, nb_NPR0, nb_NPRsw, nb_Msh, nb_Msub, nb_Msup. rewrite E1, E2. unfold dgamma, Pi_ratio. rewrite (Md_eval 2 g0) by (try lra; apply sdom_ge1; lra).
    fold md. rewrite !PtPs_eval by lra. replace (Pt_ratio (Some 2) (Some g0)) with (Some (ptr g0 2) : num) by (symmetry; apply (Pt_eval_14 2), sdom_ge1; lra). rewrite ndiv_Some by lra. ncbn. f_equal. fold (pp g0 m0) (pp g0 md). fold n0 nsw. field. lra. }
  split.
  { destruct (shocked_eval g0 t npr ltac:(lra) ltac:(lra) Hnpr) as (Ms' & E & P & Q). rewrite E. f_equal. fold k in Q. rewrite <- Em in Q. apply (mst_inj g0); [lra|lra|lra|exact Q]. }
  split; [exact HMs|]. split; [unfold npr; field; lra|]. exists m0. repeat split; assumption.
Qed.
(*@E C101_shocked_example: a completed run with a shock in the diffuser: for the area ratio of Mach 2, length 8 and any number of stations from 2, some position parameter makes the cell complete, with a shock at Mach 3/2. *)
Lemma nozzle_nb_shocked_example : exists newton t pos npr loss, branch_solver (14/10) newton /\ 1 < t /\ 0 <= pos <= 1 /\
  Mach_Sigma newton (Some t) (Some 2) (Some (14/10)) = Some 2 /\ (2 - 1) * sin (PI / (2 * (8 - 1))) < 1 /\
  nb_NPR newton (Some t) (Some pos) = Some npr /\ Pt_ratio (Some (3/2)) (Some (14/10)) = Some loss /\ Mn_Pt_ratio (Some loss) (Some (14/10)) = Some (3/2) /\
  forall n, (2 <= n)%nat -> exists Ma Pt Ps, nb_shocked newton (Some (14/10)) (Some t) (Some npr) (nb_grid (Some 8) n) (nb_area newton (Some t) (Some 8) n) = Some (Ma, Pt, Ps).
Proof.
  pose proof (ideal_newton_branch g0 ltac:(lra)) as HN. set (newton := ideal_newton g0) in *. exists newton, (sig g0 2).
  assert (Ht : 1 < sig g0 2) by (apply sig_gt_1; lra).
  destruct (shock_at_3_2 newton HN) as (pos & npr & Ms & Hpos & Hnpr & EN & ES & HMs & EL & _). exists pos, npr, (ptr g0 (3/2)).
  destruct (ma_max_eval newton _ HN Ht) as (M & E & HM & SM).
  assert (M = 2). { destruct (Rtotal_order M 2) as [G|[G|G]]; [|assumption|]; [pose proof (sig_incr g0 M 2 ltac:(lra) ltac:(lra) G)|pose proof (sig_incr g0 2 M ltac:(lra) ltac:(lra) G)]; lra. }
  subst M. pose proof PI_RGT_0 as P0. pose proof PI_4 as P4.
  assert (Hs : (2 - 1) * sin (PI / (2 * (8 - 1))) < 1) by (pose proof (sin_lt_x (PI / (2 * (8 - 1))) ltac:(lra)); lra).
  split; [exact HN|]. split; [exact Ht|]. split; [exact Hpos|]. split; [exact E|]. split; [exact Hs|]. split; [exact EN|].
  split; [apply Pt_eval_14, sdom_ge1; lra|]. split; [exact Mn_Pt_start|]. intros n Hn.
  rewrite shocked_form_eq. unfold shocked_form. rewrite (choked_eval newton (sig g0 2) 8 2 n) by (try assumption; lra).
  rewrite ES. unfold dgamma. rewrite PtPs_eval by lra. rewrite ndiv_Some by lra. fold (pp g0 Ms). rewrite EL. unfold Mn_Pi_ratio. rewrite Mn_Pt_start.
  unfold mas. rewrite map_map.
  replace (map (fun x => nabs (nsub (Some (rma 2 8 (rx 8 n x))) (Some (3/2)))) (seq 0 n)) with (map (@Some R) (map (fun i => Rabs (rma 2 8 (rx 8 n i) - 3/2)) (seq 0 n))) by (rewrite map_map; reflexivity).
  assert (NN : map (fun i => Rabs (rma 2 8 (rx 8 n i) - 3/2)) (seq 0 n) <> nil) by (destruct n as [|n]; [lia|cbn; discriminate]).
  assert (K : exists k, argmin (map (@Some R) (map (fun i => Rabs (rma 2 8 (rx 8 n i) - 3/2)) (seq 0 n))) = Some k /\ (k < n)%nat).
  { unfold argmin. rewrite all_some_map. destruct (argmin_R_spec _ NN) as (i & b & EI & Hi & _). rewrite EI. exists i. split; [reflexivity|]. now rewrite map_length, seq_length in Hi. }
  destruct K as (k & EK & Hk). rewrite EK.
  pose proof (area_length newton (sig g0 2) 8 2 n HN Ht ltac:(lra) Hn E Hs) as LA.
  set (sl := map _ (skipn k _)). assert (LS : (0 < length sl)%nat) by (unfold sl; rewrite map_length, skipn_length, LA; lia).
  destruct (MachSub_array newton sl (Some g0)) as [M3|] eqn:E3; [do 3 eexists; reflexivity|].
  exfalso. unfold MachSub_array in E3. destruct sl as [|a0 [|b l]]; cbn [length] in LS; [lia|discriminate|discriminate].
Qed.

(*@E C43_shocked_example: a completed set_NPR with a shock in the diffuser: for every section law whose exit-to-throat ratio is the area ratio of Mach 2 and every state of the default gas with gamma 1.4, some pressure ratio between the two limits gives a nozzle with a flow. *)
Lemma nozzle_shocked_completes : exists newton s2 n n0 nsw, branch_solver (14/10) newton /\ Sigma_Mach (Some 2) (Some (14/10)) = Some s2 /\
  NPR_choked_subsonic newton (Some s2) = Some n0 /\ NPR_shock_at_exit newton (Some s2) = Some nsw /\ n0 <= n < nsw /\
  forall st sec c, (forall a, In a sec -> 0 < a) -> In c sec -> (forall a, In a sec -> c <= a) -> last sec 0 / c = s2 -> dg_gamma st = Some (14/10) ->
  exists st' nz M Pt Ps, nozzle_init newton st (map (@Some R) sec) None (Some (14/10)) (Some (Some n)) = (st', Some nz) /\ nz_flow nz = Some (M, Pt, Ps).
Proof.
  pose proof (ideal_newton_branch g0 ltac:(lra)) as HN. set (newton := ideal_newton g0) in *. exists newton, (sig g0 2).
  assert (Ht : 1 < sig g0 2) by (apply sig_gt_1; lra).
  destruct (shock_at_3_2 newton HN) as (pos & n & Ms & Hpos & Hn & EN & ES & HMs & EL & m0 & Em0 & EM2 & Hb).
  destruct (Ms_regimes newton _ n HN Ht Hn) as (m & M & nsw & E1 & E2 & Hm & HM & S1 & S2 & Ensw & F0 & Fsw & F1 & L & O & HRg).
  rewrite Em0 in E1. apply SomeI in E1. subst m. rewrite EM2 in E2. apply SomeI in E2. subst M. rewrite <- Ensw in Hb.
  exists n, (pp g0 m0), nsw. split; [exact HN|]. split; [apply Sigma_eval; lra|]. split; [exact F0|]. split; [exact Fsw|]. split; [lra|].
  intros st sec c Hs Hc Hmin Hr Hst. assert (Hne : sec <> nil) by (intros ->; destruct Hc).
  destruct (init_eval newton st sec (Some g0) (Some (Some n)) Hne Hs) as (it & Hit & Hthr & Hc0 & _ & HI).
  rewrite (amin_unique sec c Hne Hc Hmin) in *. specialize (HI None eq_refl). rewrite Hr in HI.
  assert (HT : truthy (Some (Some n)) = true) by (cbn; destruct (Req_EM_T n 0); [lra|reflexivity]).
  rewrite HT in HI. cbv zeta in HI. rewrite HI.
  assert (Hlast : c < last sec 0) by (apply (Rmult_lt_reg_r (/ c)); [now apply Rinv_0_lt_compat|]; rewrite Rinv_r by lra; unfold Rdiv in Hr; lra).
  unfold set_NPR, flow_at. cbn [nz_AxoAc nz_gamma nz_lim nz_AsoAc nz_ithroat dg_gamma]. rewrite L. cbn [NPR0 NPRsw].
  rewrite (nlt_false n) by lra. rewrite (nlt_true n) by lra. cbn [nif].
  destruct (choked_arrays newton sec c it g0 HN ltac:(lra) Hs Hmin Hc0 Hit Hthr Hlast) as (HS & M1 & M2 & EA & EB & _ & LL & HM').
  rewrite EA, EB. destruct (HRg (dg_gamma st)) as (_ & R2 & _). rewrite R2 by lra. rewrite Hst, ES. unfold dgamma. rewrite PtPs_eval by lra.
  fold (pp g0 Ms). rewrite ndiv_Some by lra. rewrite EL. unfold Mn_Pi_ratio. rewrite Mn_Pt_start.
  assert (F : exists f, M1 ++ M2 = map (@Some R) f).
  { assert (G : forall l : list num, (forall i, (i < length l)%nat -> exists m, nth_error l i = Some (Some m)) -> exists f, l = map (@Some R) f).
    { clear. induction l as [|x l IH]; intros H; [exists nil; reflexivity|]. destruct (H 0%nat ltac:(cbn; lia)) as (m & E). cbn in E. injection E as ->.
      destruct IH as (f & ->); [intros i Hi; apply (H (S i)); cbn; lia|]. now exists (m :: f). }
    apply G. intros i Hi. rewrite LL in Hi. destruct (HM' i Hi) as (m & E & _). eauto. }
  destruct F as (f & F). rewrite F. rewrite map_map.
  assert (LF : length f = length sec) by (rewrite <- LL, F; now rewrite map_length).
  replace (map (fun x => nabs (nsub (Some x) (Some (3/2)))) f) with (map (@Some R) (map (fun x => Rabs (x - 3/2)) f)) by (rewrite map_map; reflexivity).
  assert (NN : map (fun x => Rabs (x - 3/2)) f <> nil) by (destruct f; [cbn in LF; lia|discriminate]).
  assert (K : exists k, argmin (map (@Some R) (map (fun x => Rabs (x - 3/2)) f)) = Some k /\ (k < length sec)%nat).
  { unfold argmin. rewrite all_some_map. destruct (argmin_R_spec _ NN) as (i & b & EI & Hi & _). rewrite EI. exists i. split; [reflexivity|]. now rewrite map_length, LF in Hi. }
  destruct K as (k & EK & Hk). rewrite EK.
  set (sl := map _ (skipn k _)). assert (LS : (0 < length sl)%nat) by (unfold sl; rewrite map_length, skipn_length, map_length; lia).
  destruct (MachSub_array newton sl (Some g0)) as [M3|] eqn:E3; [do 5 eexists; split; reflexivity|].
  exfalso. unfold MachSub_array in E3. destruct sl as [|a0 [|b l]]; cbn [length] in LS; [lia|discriminate|discriminate].
Qed.
