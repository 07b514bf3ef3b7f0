From Verif Require Import L_Num Spec NumSpec M_Degree M_IterSolve M_MassFlow M_Isentropic M_Supersonic M_Fan FanSpec L_Isentropic L_Degree L_Supersonic L_Fan L_Fan3 L_Fan4.
Open Scope R_scope.

Lemma mids_straight A al x y ds k : (forall s, (exists t, 0 <= t <= INR k /\ s = t * ds) -> A (x + s * cos (rd al)) (y + s * sin (rd al)) = al) ->
  mids A ds k (x, y) = (x + INR k * ds * cos (rd al), y + INR k * ds * sin (rd al)).
Proof.
  revert x y. induction k as [|k IH]; intros x y H.
  - cbn [mids INR]. f_equal; ring.
  - cbn [mids]. rewrite IH. 2:{ intros s [t [Ht ->]]. apply H. exists t. rewrite S_INR. split; [lra|reflexivity]. }
    pose proof (pos_INR k). unfold mid. cbn [fst snd].
    rewrite (H (INR k * ds)). 2:{ exists (INR k). rewrite S_INR. split; [lra|reflexivity]. }
    replace (x + INR k * ds * cos (rd al) + ds / 2 * cos (rd al)) with (x + ((INR k + 1 / 2) * ds) * cos (rd al)) by field.
    replace (y + INR k * ds * sin (rd al) + ds / 2 * sin (rd al)) with (y + ((INR k + 1 / 2) * ds) * sin (rd al)) by field.
    rewrite H. 2:{ exists (INR k + 1 / 2). rewrite S_INR. split; [lra|reflexivity]. }
    rewrite S_INR. f_equal; ring.
Qed.
(** arc length of point i *)
Definition arc (nb nf : nat) (smin smax : R) (i : nat) : R :=
  if Nat.leb nb i then smax * INR (i - nb) / INR nf else smin * INR (nb - i) / INR nb.
Lemma straight_line angle A al x y smin smax npts : (forall x y, angle (Some x) (Some y) = Some (A x y)) ->
  smin <= 0 -> 0 <= smax -> smin < smax ->
  (forall s, smin <= s <= smax -> A (x + s * cos (rd al)) (y + s * sin (rd al)) = al) ->
  let nf := nfw npts smin smax in let nb := (npts - nf)%nat in
  integ angle (Some x) (Some y) (Some smin) (Some smax) npts =
  Some (map (fun i => (Some (x + arc nb nf smin smax i * cos (rd al)), Some (y + arc nb nf smin smax i * sin (rd al)))) (seq 0 (npts + 1))).
Proof.
  intros HA H1 H2 H3 HS nf nb. destruct (nfw_eval npts smin smax H1 H2 H3) as [_ [_ Hle]]. fold nf in Hle.
  rewrite integ_eval by assumption. fold nf. fold nb. f_equal. apply map_ext_in. intros i Hi. apply in_seq in Hi.
  assert (Hnb : (nb + nf = npts)%nat) by (unfold nb; lia). unfold arc.
  assert (Frac : forall n k : nat, (0 < n)%nat -> (k <= n)%nat -> forall t, 0 <= t <= INR k -> 0 <= t / INR n <= 1).
  { intros n k Hn Hk t Ht. assert (0 < INR n) by now apply lt_0_INR. apply le_INR in Hk. split; [apply Rmult_le_pos; [lra|left; pos]|]. apply Rle_div_l; lra. }
  destruct (Nat.leb_spec nb i) as [L|L].
  - destruct (Nat.eq_dec i nb) as [->|Ne].
    { rewrite Nat.sub_diag. cbn [it INR]. unfold Rdiv. rewrite Rmult_0_r, !Rmult_0_l, !Rplus_0_r. reflexivity. }
    assert (Hf : 0 < INR nf) by (apply lt_0_INR; lia). unfold nat_num. rewrite ndiv_Some by lra.
    etransitivity; [exact (it_mids angle A HA (smax / INR nf) (i - nb) (x, y))|]. rewrite (mids_straight A al).
    + unfold up. cbn [fst snd]. replace (INR (i - nb) * (smax / INR nf)) with (smax * INR (i - nb) / INR nf) by (field; lra). reflexivity.
    + intros s [t [Ht ->]]. apply HS. pose proof (Frac nf (i - nb)%nat ltac:(lia) ltac:(lia) t Ht).
      replace (t * (smax / INR nf)) with (smax * (t / INR nf)) by (field; lra). nra.
  - assert (Hf : 0 < INR nb) by (apply lt_0_INR; lia). unfold nat_num. rewrite ndiv_Some by lra.
    etransitivity; [exact (it_mids angle A HA (smin / INR nb) (nb - i) (x, y))|]. rewrite (mids_straight A al).
    + unfold up. cbn [fst snd]. replace (INR (nb - i) * (smin / INR nb)) with (smin * INR (nb - i) / INR nb) by (field; lra). reflexivity.
    + intros s [t [Ht ->]]. apply HS. pose proof (Frac nb (nb - i)%nat ltac:(lia) ltac:(lia) t Ht).
      replace (t * (smin / INR nb)) with (smin * (t / INR nb)) by (field; lra). nra.
Qed.
Lemma rd_bounds phi : -180 < phi <= 180 -> - PI < rad phi <= PI.
Proof.
  intros H. pose proof (rad_lt (-180) phi). pose proof (rad_le phi 180). rewrite rad_180 in *.
  replace (rad (-180)) with (- PI) in * by (rewrite <- rad_180, <- rad_opp; f_equal; lra). lra.
Qed.
(*@P C89_rays: A characteristic C+ drawn by the notebook through any point of the fan (polar angle phi, distance r from the corner), backwards by less than r, is exactly the ray from the corner: its npts + 1 points are at the distances r + s(i) with that polar angle, s being 0 at the given point, growing strictly, equally spaced on each side, down to smin and - when there is at least one forward step - up to smax. *)
Lemma fan_rays : forall newton g m0 a m1 c mu0 mu1, solves 0 newton -> 1 < g -> 1 <= m0 -> a < 0 ->
  c = init_case newton (Some g) (Some m0) (Some a) -> M1 c = Some m1 -> 0 < m1 ->
  is_mach_angle m0 mu0 -> is_mach_angle m1 mu1 ->
  forall x y r phi smin smax npts, polar x y r phi -> a + mu1 <= phi <= mu0 -> - r < smin -> smin <= 0 -> 0 <= smax -> smin < smax ->
  exists nback (s : nat -> R), (nback <= npts)%nat /\ INR (npts - nback) <= INR npts * smax / (smax - smin) < INR (npts - nback) + 1 /\
    trajectory (Some g) c Cplus (Some x) (Some y) (Some smin) (Some smax) npts =
      Some (map (fun i => (Some ((r + s i) * cos (rd phi)), Some ((r + s i) * sin (rd phi)))) (seq 0 (npts + 1))) /\
    (forall i, (nback <= i <= npts)%nat -> s i * INR (npts - nback) = smax * INR (i - nback)) /\
    (forall i, (i <= nback)%nat -> s i * INR nback = smin * INR (nback - i)) /\ s nback = 0.
Proof.
  intros newton g m0 a m1 c mu0 mu1 HN Hg Hm0 Ha Hc HM1 Hm1 Hmu0 Hmu1 x y r phi smin smax npts Hp Hphi Hr H1 H2 H3.
  destruct (case_m1 _ _ _ _ _ _ HN Hg Hm0 Ha Hc HM1 Hm1) as [L1 EM1].
  apply mua_uniq in Hmu0; [|assumption]. apply mua_uniq in Hmu1; [|assumption]. subst mu0 mu1.
  destruct (nfw_eval npts smin smax H1 H2 H3) as [_ [HF Hle]]. set (nf := nfw npts smin smax) in *. set (nb := (npts - nf)%nat).
  assert (Hnb : (npts - nb = nf)%nat) by (unfold nb; lia).
  exists nb, (arc nb nf smin smax). split; [unfold nb; lia|]. rewrite Hnb. split; [exact HF|]. split.
  { unfold trajectory. rewrite (straight_line _ (fun x y => dirf g m0 m1 (deg (Ratan2 y x)) + mua (machf g m0 m1 (deg (Ratan2 y x)))) phi); try assumption.
    - fold nf. fold nb. destruct Hp as [_ [_ [-> ->]]]. f_equal. apply map_ext. intros i. f_equal; f_equal; ring.
    - intros x' y'. rewrite (flow_prop_eval newton g m0 a m1 c) by assumption. reflexivity.
    - intros s Hs. destruct Hp as [Hr0 [Hp [-> ->]]]. 
      replace (r * cos (rd phi) + s * cos (rd phi)) with ((r + s) * cos (rd phi)) by ring.
      replace (r * sin (rd phi) + s * sin (rd phi)) with ((r + s) * sin (rd phi)) by ring.
      rewrite rd_rad, atan2_polar; [|lra|now apply rd_bounds]. rewrite deg_rad. now apply (machf_in newton g m0 a m1 c). }
  assert (Pf : forall n, (0 < n)%nat -> 0 < INR n) by (intros; now apply lt_0_INR).
  split; [|split].
  - intros i Hi. unfold arc. destruct (Nat.leb_spec nb i); [|lia]. destruct (Nat.eq_dec nf 0) as [->|Ne].
    + replace (i - nb)%nat with 0%nat by lia. cbn [INR]. ring.
    + pose proof (Pf nf ltac:(lia)). field. lra.
  - intros i Hi. unfold arc. destruct (Nat.leb_spec nb i).
    + replace i with nb by lia. rewrite Nat.sub_diag. cbn [INR]. unfold Rdiv. rewrite Rmult_0_r. ring.
    + pose proof (Pf nb ltac:(lia)). field. lra.
  - unfold arc. rewrite Nat.leb_refl, Nat.sub_diag. cbn [INR]. unfold Rdiv. rewrite Rmult_0_r. ring.
Qed.
(*@P C89_forward_refuted: The forward part of a line can be lost: with smax > 0 but npts smax < smax - smin, for any direction field, the last point of the line is its starting point - nothing is drawn ahead of it, although the length smax was asked for. *)
Lemma integ_forward : forall angle x y smin smax npts, smin < 0 -> 0 < smax -> INR npts * smax < smax - smin ->
  exists l, integ angle (Some x) (Some y) (Some smin) (Some smax) npts = Some l /\ length l = (npts + 1)%nat /\ nth npts l (None, None) = (Some x, Some y).
Proof.
  intros angle x y smin smax npts H1 H2 H3. destruct (nfw_eval npts smin smax ltac:(lra) ltac:(lra) ltac:(lra)) as [_ [HF Hle]].
  assert (Q : INR npts * smax / (smax - smin) < 1) by (apply Rlt_div_l; lra).
  assert (N0 : nfw npts smin smax = 0%nat). { destruct (nfw npts smin smax) as [|k]; [reflexivity|]. rewrite S_INR in HF. pose proof (pos_INR k). lra. }
  eexists. split; [apply integ_eval; lra|]. rewrite N0, Nat.sub_0_r. split; [now rewrite map_length, seq_length|].
  match goal with |- nth _ (map ?G _) _ = _ => set (H := G) end.
  rewrite (nth_indep _ _ (H 0%nat)) by (rewrite map_length, seq_length; lia). rewrite map_nth, seq_nth by lia. unfold H.
  cbn [Nat.add]. rewrite Nat.leb_refl, Nat.sub_diag. reflexivity.
Qed.

(** ** examples *)
Fixpoint cand_newton (l : list R) (f : num -> num) (x0 : num) : num :=
  match l with
  | [] => None
  | r :: l => match f (Some r) with Some e => if Req_EM_T e 0 then Some r else cand_newton l f x0 | None => cand_newton l f x0 end
  end.
Lemma cand_solves l : solves 0 (cand_newton l).
Proof.
  intros f x0 r. induction l as [|q l IH]; [discriminate|]. cbn [cand_newton]. destruct (f (Some q)) as [e|] eqn:E; [|exact IH].
  destruct (Req_EM_T e 0) as [->|]; [|exact IH]. intros H. injection H as <-. exists 0. rewrite Rabs_R0. split; [assumption|lra].
Qed.
Lemma cand_pm g l m w : 1 < g -> 1 <= m -> w = pm g m -> In m l -> (forall r, In r l -> 1 <= r) -> Mach_PrandtlMeyer (cand_newton l) (Some w) (Some g) = Some m.
Proof.
  intros Hg Hm -> HI HL. unfold Mach_PrandtlMeyer. ncbn. induction l as [|q l IH]; [contradiction|]. cbn [cand_newton].
  assert (Hq : 1 <= q) by (apply HL; now left). rewrite PM_eval by (try assumption; rewrite Rabs_pos_eq; lra). ncbn.
  destruct (Req_EM_T (pm g q - pm g m) 0) as [E|E].
  - f_equal. apply (pm_inj g); lra || assumption.
  - apply IH; [destruct HI as [->|]; [lra|assumption]|]. intros r Hr. apply HL. now right.
Qed.
(*@E C89_example: gamma = 7/5, from Mach 3/2: there are a turning angle a < 0 and an exact root finder with which the case is set up and p1p0 has a value - the second turn of p1p0 ends at Mach 3; and a point of the fan, on the first Mach line, through which lines can be drawn. *)
Lemma C89_example_lemma : exists newton a m1 q mu0, solves 0 newton /\ a < 0 /\ sqrt 2 <= 3 / 2 /\
  let c := init_case newton (Some (7/5)) (Some (3/2)) (Some a) in
  M1 c = Some m1 /\ 3 / 2 < m1 < 3 /\ p1p0 c = Some q /\ is_mach_angle (3 / 2) mu0 /\ exists x y, polar x y 1 mu0 /\
  exists l, trajectory (Some (7/5)) c Cplus (Some x) (Some y) (Some (- (1/2))) (Some 1) 100 = Some l /\ length l = 101%nat.
Proof.
  assert (Hg : 1 < 7 / 5) by lra. set (g := 7 / 5) in *.
  pose proof (pm_incr g (3/2) 3 Hg ltac:(lra) ltac:(lra)) as I3. pose proof (pm_incr g 1 (3/2) Hg ltac:(lra) ltac:(lra)) as I1. rewrite pm_1 in I1 by assumption.
  set (w := (pm g (3/2) + pm g 3) / 2).
  assert (Hmax : pm g 3 < 90 * (sqrt ((g + 1) / (g - 1)) - 1)).
  { destruct (proj2 (pm_range g (pm g 3) Hg)) as [_ H]; [|exact H]. exists 3. split; [lra|]. rewrite PM_eval by (try assumption; rewrite Rabs_pos_eq; lra).
    split; [reflexivity|]. intros M' HM' E. rewrite PM_eval in E by (try assumption; rewrite Rabs_pos_eq; lra). injection E as E. apply (pm_inj g); lra || assumption. }
  destruct (proj1 (pm_range g w Hg)) as [m1 [L1 [E1 _]]]; [unfold w; lra|].
  rewrite PM_eval in E1 by (try assumption; rewrite Rabs_pos_eq; lra). injection E1 as E1.
  assert (B1 : 3 / 2 < m1). { destruct (Rlt_le_dec (3/2) m1) as [|[L|L]]; [assumption|pose proof (pm_incr g m1 (3/2) Hg L1 L); unfold w in E1; lra|rewrite L in E1; unfold w in E1; lra]. }
  assert (B2 : m1 < 3). { destruct (Rlt_le_dec m1 3) as [|[L|L]]; [assumption|pose proof (pm_incr g 3 m1 Hg ltac:(lra) L); unfold w in E1; lra|rewrite <- L in E1; unfold w in E1; lra]. }
  set (l := m1 :: 3 :: nil). assert (Hl : forall r, In r l -> 1 <= r) by (intros r [<-|[<-|[]]]; lra).
  set (a := pm g (3/2) - w). assert (Ha : a < 0) by (unfold a, w; lra).
  set (c := init_case (cand_newton l) (Some g) (Some (3/2)) (Some a)).
  assert (EM : M1 c = Some m1).
  { unfold c. cbn [init_case M1]. rewrite PM_eval by (try assumption; rewrite Rabs_pos_eq; lra). ncbn.
    apply cand_pm; [assumption|assumption|rewrite E1; unfold a; ring|now left|assumption]. }
  assert (EP : exists q, p1p0 c = Some q).
  { replace (p1p0 c) with (IsentropicPsratio_Mach_deflection (cand_newton l) (M1 c) (Some (a - 0)) (Some g)) by reflexivity. rewrite EM.
    unfold IsentropicPsratio_Mach_deflection. rewrite PM_eval by (try assumption; rewrite Rabs_pos_eq; lra). ncbn.
    rewrite (cand_pm g l 3); [|assumption|lra|rewrite E1; unfold a, w; field|right; now left|assumption].
    rewrite !PtPs_lnpt by assumption. rewrite ndiv_Some by (pose proof (exp_pos (lnpt g 3)); lra). eauto. }
  destruct EP as [q EP].
  exists (cand_newton l), a, m1, q, (mua (3/2)). split; [apply cand_solves|]. split; [exact Ha|]. split.
  { rewrite <- (sqrt_sq (3/2)) by lra. apply sqrt_le_1_alt. lra. }
  cbv zeta. fold c. split; [exact EM|]. split; [lra|]. split; [exact EP|]. split; [apply mua_spec; lra|].
  exists (1 * cos (rd (mua (3/2)))), (1 * sin (rd (mua (3/2)))).
  assert (HM : is_mach_angle (3/2) (mua (3/2))) by (apply mua_spec; lra). assert (HM1 : is_mach_angle m1 (mua m1)) by now apply mua_spec.
  assert (HP : polar (1 * cos (rd (mua (3/2)))) (1 * sin (rd (mua (3/2)))) 1 (mua (3/2))) by (destruct HM; repeat split; lra).
  split; [exact HP|].
  pose proof (edges_ord (cand_newton l) g (3/2) a m1 c (cand_solves l) Hg ltac:(lra) Ha eq_refl EM ltac:(lra)) as EO.
  destruct (fan_rays (cand_newton l) g (3/2) a m1 c _ _ (cand_solves l) Hg ltac:(lra) Ha eq_refl EM ltac:(lra) HM HM1 _ _ 1 _ (- (1/2)) 1 100 HP ltac:(lra) ltac:(lra) ltac:(lra) ltac:(lra) ltac:(lra)) as [nb [s [_ [_ [E _]]]]].
  rewrite E. eexists. split; [reflexivity|]. now rewrite map_length, seq_length.
Qed.
