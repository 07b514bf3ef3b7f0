(** * C57: the adaptive integrator RKF45 *)
From Coq Require Import Sorted.
From Verif Require Import Num M_Ode OdeSpec L_Ode.
Open Scope R_scope.

Lemma e_nonneg n F x y h : 0 <= rkf45_e n F x y h.
Proof. apply sqrt_pos. Qed.
Lemma pow02_pos b : 0 < b -> 0 < pow02 b.
Proof. intros H. unfold pow02. destruct (Req_EM_T b 0); [lra|]. apply exp_pos. Qed.

(*@P C57_accepted: Whatever F, x, xStop, h and tol: RKF45 returns as many states as abscissae, starting with x and y, and each consecutive pair is one _rkf45 step whose error estimate is at most tol. *)
Lemma rkf45_accepted : forall passes n F x y xStop h tol b X Y, RKF45_n passes n F x y xStop h tol = (b, X, Y) ->
  length Y = length X /\ nth 0 X 0 = x /\ nth 0 Y (fun _ => 0) = y /\
  forall k, (S k < length X)%nat -> exists hk, nth (S k) X 0 = nth k X 0 + hk /\
    rkf45_e n F (nth k X 0) (nth k Y (fun _ => 0)) hk <= tol /\
    forall i, nth (S k) Y (fun _ => 0) i = nth k Y (fun _ => 0) i + rkf45_dy F (nth k X 0) (nth k Y (fun _ => 0)) hk i.
Proof.
  intros passes n F x y xStop h tol b X Y E. unfold RKF45_n in E.
  destruct (rkf45_loop n F xStop tol passes x y h false) as [[b' X'] Y'] eqn:EL. injection E as <- <- <-.
  cut (length Y' = length X' /\ forall k, (S k < length (x :: X'))%nat -> exists hk, nth (S k) (x :: X') 0 = nth k (x :: X') 0 + hk /\
    rkf45_e n F (nth k (x :: X') 0) (nth k (y :: Y') (fun _ => 0)) hk <= tol /\
    forall i, nth (S k) (y :: Y') (fun _ => 0) i = nth k (y :: Y') (fun _ => 0) i + rkf45_dy F (nth k (x :: X') 0) (nth k (y :: Y') (fun _ => 0)) hk i).
  { intros [G1 G2]. cbn [length nth]. split; [lia|]. split; [reflexivity|]. split; [reflexivity|]. exact G2. }
  revert x y h EL. generalize false. revert b' X' Y'. induction passes as [|p IH]; intros b' X' Y' st x y h EL; cbn [rkf45_loop] in EL.
  - injection EL as <- <- <-. split; [reflexivity|]. intros k Hk. cbn in Hk. lia.
  - destruct (Rle_dec (rkf45_e n F x y h) tol) as [He|He].
    + cbv zeta in EL. set (y' := fun i => y i + rkf45_dy F x y h i) in *.
      assert (First : forall X0 Y0, exists hk, nth 1 (x :: x + h :: X0) 0 = nth 0 (x :: x + h :: X0) 0 + hk /\
         rkf45_e n F (nth 0 (x :: x + h :: X0) 0) (nth 0 (y :: y' :: Y0) (fun _ => 0)) hk <= tol /\
         forall i, nth 1 (y :: y' :: Y0) (fun _ => 0) i = nth 0 (y :: y' :: Y0) (fun _ => 0) i + rkf45_dy F (nth 0 (x :: x + h :: X0) 0) (nth 0 (y :: y' :: Y0) (fun _ => 0)) hk i).
      { intros X0 Y0. exists h. cbn [nth]. split; [reflexivity|]. split; [exact He|]. reflexivity. }
      destruct st.
      * injection EL as <- <- <-. split; [reflexivity|]. intros [|k] Hk; [apply (First nil nil)|cbn in Hk; lia].
      * destruct (rkf45_next xStop tol (x + h) h (rkf45_e n F x y h) false) as [h' s'].
        destruct (rkf45_loop n F xStop tol p (x + h) y' h' s') as [[b2 X2] Y2] eqn:E2. injection EL as <- <- <-.
        destruct (IH _ _ _ _ _ _ _ E2) as [G1 G2]. split; [cbn [length]; lia|]. intros [|k] Hk; [apply (First X2 Y2)|].
        apply (G2 k). cbn [length] in *. lia.
    + destruct (rkf45_next xStop tol x h (rkf45_e n F x y h) st) as [h' s'].
      destruct (IH _ _ _ _ _ _ _ EL) as [G1 G2]. split; [exact G1|]. exact G2.
Qed.

(*@P C57_monotone: With tol > 0 and a first step 0 < h < xStop - x, the abscissae returned are strictly increasing and never exceed xStop, whatever F. *)
Lemma rkf45_monotone : forall passes n F x y xStop h tol b X Y, 0 < tol -> 0 < h < xStop - x ->
  RKF45_n passes n F x y xStop h tol = (b, X, Y) -> StronglySorted Rlt X /\ forall t, In t X -> x <= t <= xStop.
Proof.
  intros passes n F x y xStop h tol b X Y Ht Hh E. unfold RKF45_n in E.
  destruct (rkf45_loop n F xStop tol passes x y h false) as [[b' X'] Y'] eqn:EL. injection E as <- <- <-.
  assert (N : forall z h e st, 0 <= e -> 0 < h -> z < xStop -> forall h' s', rkf45_next xStop tol z h e st = (h', s') ->
     0 < h' /\ z + h' <= xStop /\ (negb s' = true -> z + h' < xStop)).
  { clear - Ht. intros z h e st He Hh Hz h' s'. unfold rkf45_next.
    set (hn := if Req_EM_T e 0 then h else 9 / 10 * h * pow02 (tol / e)).
    assert (Hn : 0 < hn).
    { unfold hn. destruct (Req_EM_T e 0); [exact Hh|]. apply Rmult_lt_0_compat; [lra|]. apply pow02_pos. apply Rdiv_lt_0_compat; lra. }
    destruct (Rlt_dec 0 h); [|lra]. destruct (Rle_dec xStop (z + hn)) as [D|D]; cbn [Bool.eqb]; intros E; injection E as <- <-.
    - split; [lra|]. split; [lra|discriminate].
    - split; [exact Hn|]. split; [lra|intros; lra]. }
  cut (StronglySorted Rlt X' /\ forall t, In t X' -> x < t <= xStop).
  { intros [G1 G2]. split.
    - constructor; [exact G1|]. apply Forall_forall. intros t Htt. apply G2. exact Htt.
    - intros t [<-|Hi]; [lra|]. specialize (G2 t Hi). lra. }
  assert (Inv : 0 < h /\ x < xStop /\ x + h <= xStop /\ (negb false = true -> x + h < xStop)) by (repeat split; intros; lra).
  clear Hh. revert x y h EL Inv. generalize false. revert b' X' Y'. induction passes as [|p IH]; intros b' X' Y' st x y h EL (I1 & I2 & I3 & I4); cbn [rkf45_loop] in EL.
  - injection EL as <- <- <-. split; [constructor|intros t []].
  - destruct (Rle_dec (rkf45_e n F x y h) tol) as [He|He].
    + cbv zeta in EL. set (y' := fun i => y i + rkf45_dy F x y h i) in *. destruct st.
      * injection EL as <- <- <-. split; [repeat constructor|]. intros t [<-|[]]. lra.
      * destruct (rkf45_next xStop tol (x + h) h (rkf45_e n F x y h) false) as [h' s'] eqn:EN.
        specialize (I4 eq_refl). destruct (N (x + h) h _ _ (e_nonneg n F x y h) I1 I4 _ _ EN) as (J1 & J2 & J3).
        destruct (rkf45_loop n F xStop tol p (x + h) y' h' s') as [[b2 X2] Y2] eqn:E2. injection EL as <- <- <-.
        destruct (IH _ _ _ _ _ _ _ E2) as [G1 G2]; [repeat split; assumption|]. split.
        -- constructor; [exact G1|]. apply Forall_forall. intros t Htt. apply G2. exact Htt.
        -- intros t [<-|Hi]; [lra|]. specialize (G2 t Hi). lra.
    + destruct (rkf45_next xStop tol x h (rkf45_e n F x y h) st) as [h' s'] eqn:EN.
      destruct (N x h _ _ (e_nonneg n F x y h) I1 I2 _ _ EN) as (J1 & J2 & J3).
      apply (IH _ _ _ _ _ _ _ EL). repeat split; assumption.
Qed.

(*@P C57_reaches_partial: The property for integrations whose last step is accepted at the first attempt: if every step that would end at xStop has an error estimate within tol, then, unless the cap on the number of passes is hit, the last abscissa is xStop. Missing: the cases where such a step is rejected, which C57_refuted shows to be wrong in the code. *)
Lemma rkf45_reaches : forall passes n F x y xStop h tol X Y,
  (forall x' y' h', x' + h' = xStop -> rkf45_e n F x' y' h' <= tol) ->
  RKF45_n passes n F x y xStop h tol = (true, X, Y) -> last X 0 = xStop.
Proof.
  intros passes n F x y xStop h tol X Y Hacc E. unfold RKF45_n in E.
  destruct (rkf45_loop n F xStop tol passes x y h false) as [[b' X'] Y'] eqn:EL. injection E as -> <- <-.
  cut (forall d, last X' d = xStop /\ X' <> nil).
  { intros G. destruct (G 0) as [G1 G2]. destruct X'; [congruence|exact G1]. }
  intros d. assert (Inv : false = true -> x + h = xStop) by discriminate.
  revert x y h EL Inv. generalize false. revert X' Y'. induction passes as [|p IH]; intros X' Y' st x y h EL Inv; cbn [rkf45_loop] in EL; [discriminate|].
  assert (Nx : forall z h e, forall h' s', rkf45_next xStop tol z h e false = (h', s') -> s' = true -> z + h' = xStop).
  { clear. intros z h e h' s'. unfold rkf45_next. destruct (Bool.eqb _ _); intros E; injection E as <- <-; [intros _; ring|discriminate]. }
  destruct (Rle_dec (rkf45_e n F x y h) tol) as [He|He].
  - cbv zeta in EL. set (y' := fun i => y i + rkf45_dy F x y h i) in *. destruct st.
    + injection EL as <- <-. split; [cbn; now apply Inv|discriminate].
    + destruct (rkf45_next xStop tol (x + h) h (rkf45_e n F x y h) false) as [h' s'] eqn:EN.
      destruct (rkf45_loop n F xStop tol p (x + h) y' h' s') as [[b2 X2] Y2] eqn:E2. injection EL as -> <- <-.
      destruct (IH _ _ _ _ _ _ E2 (Nx _ _ _ _ _ EN)) as [G1 G2]. split; [|discriminate]. destruct X2; [congruence|exact G1].
  - destruct st; [elim He; apply Hacc; now apply Inv|].
    destruct (rkf45_next xStop tol x h (rkf45_e n F x y h) false) as [h' s'] eqn:EN.
    exact (IH _ _ _ _ _ _ EL (Nx _ _ _ _ _ EN)).
Qed.

(** ** counterexamples *)
Lemma e_one F x y h : rkf45_e 1 F x y h = Rabs (rkf45_E F x y h 0%nat).
Proof.
  unfold rkf45_e. cbn [rsum_state INR]. replace ((0 + rkf45_E F x y h 0%nat * rkf45_E F x y h 0%nat) / 1) with (Rsqr (rkf45_E F x y h 0%nat)) by (unfold Rsqr; field).
  apply sqrt_Rsqr_abs.
Qed.
Definition ramp (c : R) : rhs := fun t _ _ => c * Rmax 0 (t - 19 / 10).
Lemma ramp_0 c t y i : t <= 19 / 10 -> ramp c t y i = 0.
Proof. intros H. unfold ramp. rewrite Rmax_left by lra. ring. Qed.
Lemma ramp_1 c t y i : 19 / 10 <= t -> ramp c t y i = c * (t - 19 / 10).
Proof. intros H. unfold ramp. rewrite Rmax_right by lra. ring. Qed.
Lemma ramp_e0 c x y h : 0 <= h -> x + h <= 19 / 10 -> rkf45_e 1 (ramp c) x y h = 0.
Proof.
  intros H1 H2. rewrite e_one. unfold rkf45_E, rkf45_K. cbv zeta. cbn [rsum_state]. rewrite !ramp_0 by lra. transitivity (Rabs 0); [f_equal; ring|apply Rabs_R0].
Qed.
Lemma ramp_e2 c y : 0 < c -> rkf45_e 1 (ramp c) 1 y 1 = c / 10 * (277 / 14336).
Proof.
  intros Hc. rewrite e_one. unfold rkf45_E, rkf45_K. cbv zeta. cbn [rsum_state].
  rewrite !(ramp_0 c 1), !(ramp_0 c (1 + 1/5 * 1)), !(ramp_0 c (1 + 3/10 * 1)), !(ramp_0 c (1 + 3/5 * 1)), !(ramp_0 c (1 + 7/8 * 1)), !(ramp_1 c (1 + 1)) by lra.
  unfold rkf45_C, rkf45_D. match goal with |- Rabs ?a = _ => replace a with (- (c / 10 * (277 / 14336))) by field end.
  rewrite Rabs_Ropp. apply Rabs_right. lra.
Qed.
Lemma pow02_32 : pow02 (1 / 32) = 1 / 2.
Proof.
  unfold pow02. destruct (Req_EM_T (1 / 32) 0); [lra|]. replace (1 / 32) with (Rpower (1 / 2) 5).
  - rewrite Rpower_mult. replace (5 * (2 / 10)) with 1 by lra. rewrite Rpower_1; lra.
  - replace 5 with (INR 5) by (simpl; ring). rewrite Rpower_pow by lra. field.
Qed.
(*@P C57_refuted: RKF45 can stop before xStop without a word: for every tolerance there is a continuous right-hand side (zero up to x = 1.9, then a ramp) whose integration from 0 to 2 with first step 1 returns the abscissae 0, 1, 1.45 - the first attempt at the last step is rejected, and the shorter step that follows is taken for the last one. *)
Lemma rkf45_refuted : forall passes tol y, 0 < tol -> (3 <= passes)%nat ->
  exists F Y, (forall y i, continuity (fun t => F t y i)) /\
  RKF45_n passes 1 F 0 y 2 1 tol = (true, 0 :: 1 :: 145 / 100 :: nil, Y).
Proof.
  intros passes tol y Ht Hp. set (c := 320 * tol * (14336 / 277)). assert (Hc : 0 < c) by (unfold c; apply Rmult_lt_0_compat; lra).
  exists (ramp c). destruct passes as [|[|[|p]]]; try lia. unfold RKF45_n. cbn [rkf45_loop].
  rewrite (ramp_e0 c 0 y 1) by lra. destruct (Rle_dec 0 tol) as [_|]; [|lra]. cbv zeta.
  set (y1 := fun i => y i + rkf45_dy (ramp c) 0 y 1 i).
  assert (N1 : rkf45_next 2 tol (0 + 1) 1 0 false = (1, true)).
  { unfold rkf45_next. destruct (Req_EM_T 0 0); [|lra]. destruct (Rlt_dec 0 1); [|lra]. destruct (Rle_dec 2 (0 + 1 + 1)); [|lra]. cbn [Bool.eqb]. f_equal. lra. }
  rewrite N1. replace (0 + 1) with 1 by ring.
  assert (E2 : rkf45_e 1 (ramp c) 1 y1 1 = 32 * tol) by (rewrite ramp_e2 by exact Hc; unfold c; field).
  rewrite E2. destruct (Rle_dec (32 * tol) tol) as [|_]; [lra|].
  assert (N2 : rkf45_next 2 tol 1 1 (32 * tol) true = (45 / 100, true)).
  { unfold rkf45_next. destruct (Req_EM_T (32 * tol) 0); [lra|]. replace (tol / (32 * tol)) with (1 / 32) by (field; lra). rewrite pow02_32.
    destruct (Rlt_dec 0 1); [|lra]. destruct (Rle_dec 2 (1 + 9 / 10 * 1 * (1 / 2))); [lra|]. cbn [Bool.eqb]. f_equal. lra. }
  rewrite N2. rewrite (ramp_e0 c 1 y1 (45 / 100)) by lra. destruct (Rle_dec 0 tol) as [_|]; [|lra].
  eexists. split; [|replace (1 + 45 / 100) with (145 / 100) by lra; reflexivity].
  intros y0 i. unfold ramp. intros t. apply continuity_pt_mult; [apply continuity_pt_const; intros a b; reflexivity|].
  assert (EqM : forall t, Rmax 0 (t - 19 / 10) = (Rabs (t - 19 / 10) + (t - 19 / 10)) / 2).
  { intros u. unfold Rmax, Rabs. destruct (Rle_dec 0 (u - 19 / 10)), (Rcase_abs (u - 19 / 10)); lra. }
  apply (continuity_pt_locally_ext (fun t => (Rabs (t - 19 / 10) + (t - 19 / 10)) / 2) _ 1); [lra|intros u _; now rewrite EqM|].
  reg.
Qed.
(*@P C57_default_refuted: The same failure through the interface, with its cap of 10000 passes, at the default tolerance 1e-6. *)
Lemma rkf45_default_refuted : forall y, exists F Y, (forall y i, continuity (fun t => F t y i)) /\
  RKF45 1 F 0 y 2 1 (1 / 1000000) = (0 :: 1 :: 145 / 100 :: nil, Y).
Proof.
  intros y. destruct (rkf45_refuted (100 * 100) (1 / 1000000) y ltac:(lra) ltac:(lia)) as (F & Y & H1 & H2).
  exists F, Y. split; [exact H1|]. unfold RKF45. rewrite H2. reflexivity.
Qed.
Definition poly3 (a : nat -> nat -> R) : rhs := fun t _ i => cubic a i t.
Lemma cubic_e a n x y h : rkf45_e n (poly3 a) x y h = 0.
Proof.
  unfold rkf45_e. replace (rsum_state n _) with 0; [unfold Rdiv; rewrite Rmult_0_l; apply sqrt_0|].
  assert (Z : forall i, rkf45_E (poly3 a) x y h i = 0).
  { intros i. unfold rkf45_E, rkf45_K, poly3. cbv zeta. cbn [rsum_state]. unfold rkf45_C, rkf45_D, cubic. field. }
  induction n as [|m IH]; cbn [rsum_state]; [reflexivity|]. rewrite <- IH, Z. ring.
Qed.
(*@P C57_overshoot_refuted: The first step is not limited: with h > xStop - x > 0 and a right-hand side it integrates exactly, RKF45 steps past xStop and comes back: the abscissae are x, x + h, xStop, not increasing, and F is evaluated outside of [x, xStop]. *)
Lemma rkf45_overshoot : forall passes n a x y xStop h tol, 0 <= tol -> 0 < xStop - x < h -> (2 <= passes)%nat ->
  exists Y, RKF45_n passes n (fun t _ i => cubic a i t) x y xStop h tol = (true, x :: x + h :: xStop :: nil, Y).
Proof.
  intros passes n a x y xStop h tol Ht Hh Hp. change (fun t _ i => cubic a i t) with (poly3 a). destruct passes as [|[|p]]; try lia. unfold RKF45_n. cbn [rkf45_loop].
  rewrite cubic_e. destruct (Rle_dec 0 tol) as [_|]; [|lra]. cbv zeta. set (y' := fun i => y i + _).
  assert (N : rkf45_next xStop tol (x + h) h 0 false = (xStop - (x + h), true)).
  { unfold rkf45_next. destruct (Req_EM_T 0 0); [|lra]. destruct (Rlt_dec 0 h); [|lra]. destruct (Rle_dec xStop (x + h + h)); [|lra]. reflexivity. }
  rewrite N, cubic_e. destruct (Rle_dec 0 tol) as [_|]; [|lra]. eexists. replace (x + h + (xStop - (x + h))) with xStop by ring. reflexivity.
Qed.
(*@P C57_cap_refuted: The cap on the number of passes is silent: an integration that needs more steps ends early, at x + passes h, without an error. *)
Lemma rkf45_cap : forall passes n a x y xStop h tol, 0 <= tol -> 0 < h -> x + (INR passes + 1) * h < xStop ->
  exists X Y, RKF45_n passes n (fun t _ i => cubic a i t) x y xStop h tol = (false, X, Y) /\
  last X 0 = x + INR passes * h /\ last X 0 < xStop.
Proof.
  intros passes n a x y xStop h tol Ht Hh Hx. change (fun t _ i => cubic a i t) with (poly3 a). unfold RKF45_n.
  assert (G : exists X Y, rkf45_loop n (poly3 a) xStop tol passes x y h false = (false, X, Y) /\ last (x :: X) 0 = x + INR passes * h).
  { revert x y Hx. induction passes as [|p IH]; intros x y Hx.
    - exists nil, nil. split; [reflexivity|]. cbn. ring.
    - rewrite S_INR in *. cbn [rkf45_loop]. rewrite cubic_e. destruct (Rle_dec 0 tol) as [_|]; [|lra]. cbv zeta. set (y' := fun i => y i + _).
      assert (Q : 0 <= INR p * h) by (apply Rmult_le_pos; [apply pos_INR|lra]).
      assert (N : rkf45_next xStop tol (x + h) h 0 false = (h, false)).
      { unfold rkf45_next. destruct (Req_EM_T 0 0); [|lra]. destruct (Rlt_dec 0 h); [|lra]. destruct (Rle_dec xStop (x + h + h)); [lra|]. reflexivity. }
      rewrite N. destruct (IH (x + h) y' ltac:(lra)) as (X & Y & E & L). rewrite E. eexists _, _. split; [reflexivity|].
      change (last (x + h :: X) 0 = x + (INR p + 1) * h). rewrite L. ring. }
  destruct G as (X & Y & E & L). rewrite E. exists (x :: X), (y :: Y). split; [reflexivity|]. split; [exact L|]. rewrite L.
  lra.
Qed.
(*@E C57_example: for right-hand sides cubic in x every step is accepted, so C57_reaches_partial applies: here from 0 to 1 with first step 0.4 *)
Lemma C57_ex : forall n a y tol, 0 <= tol -> (forall x' y' h', rkf45_e n (fun t _ i => cubic a i t) x' y' h' <= tol) /\
  exists X Y, RKF45_n 3 n (fun t _ i => cubic a i t) 0 y 1 (4 / 10) tol = (true, X, Y) /\ length X = 4%nat /\ last X 0 = 1.
Proof.
  intros n a y tol Ht. change (fun t _ i => cubic a i t) with (poly3 a). split; [intros; rewrite cubic_e; exact Ht|].
  unfold RKF45_n. cbn [rkf45_loop]. rewrite cubic_e. destruct (Rle_dec 0 tol) as [_|]; [|lra]. cbv zeta. set (y' := fun i => y i + _).
  assert (N1 : rkf45_next 1 tol (0 + 4 / 10) (4 / 10) 0 false = (4 / 10, false)).
  { unfold rkf45_next. destruct (Req_EM_T 0 0); [|lra]. destruct (Rlt_dec 0 (4 / 10)); [|lra]. destruct (Rle_dec 1 (0 + 4 / 10 + 4 / 10)); [lra|]. reflexivity. }
  rewrite N1. rewrite cubic_e. destruct (Rle_dec 0 tol) as [_|]; [|lra].
  assert (N2 : rkf45_next 1 tol (0 + 4 / 10 + 4 / 10) (4 / 10) 0 false = (1 - (0 + 4 / 10 + 4 / 10), true)).
  { unfold rkf45_next. destruct (Req_EM_T 0 0); [|lra]. destruct (Rlt_dec 0 (4 / 10)); [|lra]. destruct (Rle_dec 1 (0 + 4 / 10 + 4 / 10 + 4 / 10)); [|lra]. reflexivity. }
  rewrite N2. rewrite cubic_e. destruct (Rle_dec 0 tol) as [_|]; [|lra]. eexists _, _. split; [reflexivity|]. split; [reflexivity|]. cbn [last]. ring.
Qed.
