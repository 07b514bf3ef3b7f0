(** * C55, C56: Runge-Kutta steps and the RK4 integrator *)
From Coq Require Import FunctionalExtensionality.
From Coq Require Import QArith Qreals.
From Verif Require Import Num M_Ode OdeSpec.
Open Scope R_scope.

Lemma pair_inj {A B} (a c : A) (b d : B) : (a, b) = (c, d) -> a = c /\ b = d.
Proof. intros H. now injection H. Qed.
Lemma rk4_loop_spec F xStop : forall N fuel x y h, 0 < h -> xStop - x <= INR N * h ->
  (N <> O -> (INR N - 1) * h < xStop - x) -> (N <= fuel)%nat ->
  exists X Y, rk4_loop fuel F x y xStop h = Some (X, Y) /\ length X = N /\ length Y = N /\
  (forall k, (k < N)%nat -> nth k (x :: X) 0 = x + INR k * h) /\ (N <> O -> nth N (x :: X) 0 = xStop) /\
  forall k, (k < N)%nat -> nth (S k) (y :: Y) (fun _ => 0) = fun i => nth k (y :: Y) (fun _ => 0) i +
    run_kut4 F (nth k (x :: X) 0) (nth k (y :: Y) (fun _ => 0)) (nth (S k) (x :: X) 0 - nth k (x :: X) 0) i.
Proof.
  induction N as [|N IH]; intros fuel x y h Hh H1 H2 Hf.
  - exists nil, nil. cbn [INR] in H1. replace (rk4_loop fuel F x y xStop h) with (Some (@nil R, @nil state)).
    + repeat split; try (intros; lia).
    + destruct fuel; cbn [rk4_loop]; destruct (Rlt_dec x xStop); try reflexivity; lra.
  - specialize (H2 ltac:(discriminate)). rewrite S_INR in H1, H2.
    assert (P := pos_INR N). assert (Q : 0 <= INR N * h) by (apply Rmult_le_pos; lra).
    destruct fuel as [|fuel]; [lia|]. cbn [rk4_loop]. destruct (Rlt_dec x xStop) as [_|Hx]; [|exfalso; lra].
    cbv zeta. destruct (Nat.eq_dec N 0) as [EN|NN].
    + subst N. cbn [INR] in *. set (h' := if Rlt_dec (xStop - x) h then xStop - x else h).
      assert (E : h' = xStop - x) by (unfold h'; destruct (Rlt_dec (xStop - x) h); lra).
      set (y' := fun i => y i + run_kut4 F x y h' i).
      destruct (IH fuel (x + h') y' h' ltac:(lra) ltac:(rewrite E; lra) ltac:(congruence) ltac:(lia)) as (X & Y & EL & L1 & L2 & _).
      unfold state in *. rewrite EL. exists ((x + h') :: X), (y' :: Y). split; [reflexivity|]. cbn [length]. split; [lia|]. split; [lia|].
      destruct X; [|discriminate]. destruct Y; [|discriminate]. split; [|split].
      * intros k Hk. replace k with O by lia. cbn. ring.
      * intros _. cbn [nth]. lra.
      * intros k Hk. replace k with O by lia. cbn [nth]. replace (x + h' - x) with h' by ring. reflexivity.
    + assert (1 <= INR N) by (apply (le_INR 1); lia). assert (h <= INR N * h) by nra.
      destruct (Rlt_dec (xStop - x) h) as [D|_]; [exfalso; lra|].
      set (y' := fun i => y i + run_kut4 F x y h i).
      destruct (IH fuel (x + h) y' h Hh ltac:(lra) ltac:(intros _; lra) ltac:(lia)) as (X & Y & EL & L1 & L2 & A1 & A2 & A3).
      unfold state in *. rewrite EL. exists ((x + h) :: X), (y' :: Y). split; [reflexivity|]. cbn [length]. split; [lia|]. split; [lia|]. split; [|split].
      * intros [|k] Hk; [cbn; ring|]. cbn [nth]. rewrite S_INR. change (nth k ((x + h) :: X) 0 = x + (INR k + 1) * h). rewrite A1 by lia. ring.
      * intros _. cbn [nth]. apply A2. exact NN.
      * intros [|k] Hk; [cbn [nth]; replace (x + h - x) with h by ring; reflexivity|]. apply (A3 k). lia.
Qed.
Lemma steps_exist L h : 0 < h -> 0 < L -> exists N, (1 <= N)%nat /\ (INR N - 1) * h < L <= INR N * h.
Proof.
  intros Hh HL. pose proof (archimed (L / h)) as [U1 U2].
  assert (Q : 0 < L / h) by now apply Rdiv_lt_0_compat.
  destruct (Req_EM_T (IZR (up (L / h)) - L / h) 1) as [E|E].
  - exists (Z.to_nat (up (L / h) - 1)). assert (Z0 : (1 <= up (L / h) - 1)%Z).
    { assert (1 < up (L / h))%Z by (apply lt_IZR; lra). lia. }
    split; [lia|]. rewrite INR_IZR_INZ, Z2Nat.id, minus_IZR by lia.
    replace (IZR (up (L / h)) - 1) with (L / h) by lra. split; [|right; field; lra].
    replace L with (L / h * h) at 2 by (field; lra). nra.
  - exists (Z.to_nat (up (L / h))). assert (Z0 : (1 <= up (L / h))%Z) by (assert (0 < up (L / h))%Z by (apply lt_IZR; lra); lia).
    split; [lia|]. rewrite INR_IZR_INZ, Z2Nat.id by lia. replace L with (L / h * h) at 2 3 by (field; lra). split; nra.
Qed.
Lemma kut4_stages F x y h : exists K, is_stages 4 rk4_a rk4_c F x y h K /\
  forall i, run_kut4 F x y h i = Sum_to 4 (fun s => rk4_b s * K s i).
Proof.
  pose (K0 := fun i => h * F x y i).
  pose (K1 := fun i => h * F (x + h / 2) (fun i => y i + K0 i / 2) i).
  pose (K2 := fun i => h * F (x + h / 2) (fun i => y i + K1 i / 2) i).
  pose (K3 := fun i => h * F (x + h) (fun i => y i + K2 i) i).
  exists (fun s => match s with 0%nat => K0 | 1%nat => K1 | 2%nat => K2 | _ => K3 end). split.
  - intros [|[|[|[|k]]]] i Hk; [| | | |lia]; cbn [Sum_to rk4_a rk4_c].
    + unfold K0. f_equal. f_equal; [ring|]. extensionality m. ring.
    + unfold K1. f_equal. f_equal; [field|]. extensionality m. field.
    + unfold K2. f_equal. f_equal; [field|]. extensionality m. field.
    + unfold K3. f_equal. f_equal; [ring|]. extensionality m. ring.
  - intros i. change (run_kut4 F x y h i) with ((K0 i + 2 * K1 i + 2 * K2 i + K3 i) / 6). cbn [Sum_to rk4_b]. field.
Qed.

(*@P C55_grid: For every right-hand side F, start x < xStop and step h > 0 the loop of RK4 ends: with N the number of steps, (N-1)h < xStop - x <= N h, the abscissae returned are x, x+h, ..., x+(N-1)h and exactly xStop; as many states as abscissae are returned, the first is y, and each follows from the previous one by a step of the classical four stage method from one abscissa to the next. *)
Lemma rk4_grid : forall F x y xStop h, 0 < h -> x < xStop ->
  exists N, (1 <= N)%nat /\ (INR N - 1) * h < xStop - x <= INR N * h /\
  forall fuel, (N <= fuel)%nat -> exists X Y, RK4 fuel F x y xStop h = Some (X, Y) /\
  length X = S N /\ length Y = S N /\ nth 0 Y (fun _ => 0) = y /\
  (forall k, (k < N)%nat -> nth k X 0 = x + INR k * h) /\ nth N X 0 = xStop /\
  (forall k, (k < N)%nat -> exists K, let hk := nth (S k) X 0 - nth k X 0 in
     is_stages 4 rk4_a rk4_c F (nth k X 0) (nth k Y (fun _ => 0)) hk K /\
     forall i, nth (S k) Y (fun _ => 0) i = nth k Y (fun _ => 0) i + Sum_to 4 (fun s => rk4_b s * K s i)).
Proof.
  intros F x y xStop h Hh Hx. destruct (steps_exist (xStop - x) h Hh ltac:(lra)) as (N & HN & HL).
  exists N. split; [exact HN|]. split; [exact HL|]. intros fuel Hf.
  destruct (rk4_loop_spec F xStop N fuel x y h Hh ltac:(lra) ltac:(intros; lra) Hf) as (X & Y & E & L1 & L2 & A1 & A2 & A3).
  exists (x :: X), (y :: Y). unfold RK4. rewrite E. split; [reflexivity|]. cbn [length]. split; [lia|]. split; [lia|]. split; [reflexivity|].
  split; [exact A1|]. split; [apply A2; lia|]. intros k Hk.
  destruct (kut4_stages F (nth k (x :: X) 0) (nth k (y :: Y) (fun _ => 0)) (nth (S k) (x :: X) 0 - nth k (x :: X) 0)) as (K & S1 & S2).
  exists K. split; [exact S1|]. intros i. rewrite <- S2. now rewrite (A3 k Hk).
Qed.
(*@P C55_empty: Started at or after xStop RK4 returns the start only. *)
Lemma rk4_empty : forall fuel F x y xStop h, xStop <= x -> RK4 fuel F x y xStop h = Some (x :: nil, y :: nil).
Proof.
  intros fuel F x y xStop h H. unfold RK4. destruct fuel; cbn [rk4_loop]; (destruct (Rlt_dec x xStop); [lra|reflexivity]).
Qed.
(*@P C55_nonterminating: With h <= 0 and x < xStop the loop never ends, whatever F. *)
Lemma rk4_diverges : forall fuel F x y xStop h, h <= 0 -> x < xStop -> RK4 fuel F x y xStop h = None.
Proof.
  intros fuel F x y xStop h Hh Hx. unfold RK4. replace (rk4_loop fuel F x y xStop h) with (@None (list R * list state)); [reflexivity|].
  revert x y Hx. induction fuel as [|k IH]; intros x y Hx; cbn [rk4_loop]; (destruct (Rlt_dec x xStop); [|lra]); [reflexivity|].
  destruct (Rlt_dec (xStop - x) h); [lra|]. cbv zeta. rewrite <- IH by lra. reflexivity.
Qed.
(*@P C55_cubic: RK4 integrates exactly every right-hand side that is a polynomial of degree at most 3 in x, with any coefficients in each component. *)
Lemma rk4_cubic : forall a fuel x y xStop h X Y, 0 < h -> x < xStop ->
  RK4 fuel (fun t _ i => cubic a i t) x y xStop h = Some (X, Y) ->
  forall k i, (k < length X)%nat -> nth k Y (fun _ => 0) i = y i + (prim_cubic a i (nth k X 0) - prim_cubic a i x).
Proof.
  intros a fuel x y xStop h X Y Hh Hx E.
  assert (G : forall fuel x y X Y h, rk4_loop fuel (fun t _ i => cubic a i t) x y xStop h = Some (X, Y) ->
    forall k i, (k <= length X)%nat -> nth k (y :: Y) (fun _ => 0) i = y i + (prim_cubic a i (nth k (x :: X) 0) - prim_cubic a i x)).
  { clear. induction fuel as [|f IH]; intros x y X Y h; cbn [rk4_loop]; (destruct (Rlt_dec x xStop) as [H|H]); try discriminate.
    - intros E; injection E as <- <-. intros k i Hk. cbn [length] in Hk. replace k with O by lia. cbn [nth]. ring.
    - cbv zeta. set (h' := if Rlt_dec (xStop - x) h then xStop - x else h). clearbody h'.
      set (y' := fun i => y i + _). set (x' := x + h').
      destruct (rk4_loop f _ x' y' xStop h') as [[X' Y']|] eqn:E; [|discriminate]. intros Q. injection Q as <- <-.
      intros [|k] i Hk; [cbn [nth]; ring|]. change (nth k (y' :: Y') (fun _ => 0) i = y i + (prim_cubic a i (nth k (x' :: X') 0) - prim_cubic a i x)).
      cbn [length] in Hk. etransitivity; [exact (IH x' y' X' Y' h' E k i ltac:(lia))|].
      assert (S1 : y' i = y i + (prim_cubic a i x' - prim_cubic a i x)).
      { unfold y', run_kut4, x', prim_cubic, cubic. field. }
      rewrite S1. ring.
    - intros E; injection E as <- <-. intros k i Hk. cbn [length] in Hk. replace k with O by lia. cbn [nth]. ring. }
  unfold RK4 in E. destruct (rk4_loop fuel _ x y xStop h) as [[X' Y']|] eqn:EL; [|discriminate]. injection E as <- <-.
  intros k i Hk. cbn [length] in Hk. apply (G fuel x y X' Y' h EL). lia.
Qed.

(** ** order conditions *)
Lemma order_pos t : (1 <= order t)%nat.
Proof. destruct t. cbn [order]. lia. Qed.
Ltac trees H :=
  repeat match goal with
  | l : list tree |- _ => let u := fresh "u" in let r := fresh "r" in destruct l as [|u r];
      [|pose proof (order_pos u); cbn [order fold_right] in H; try (exfalso; lia)]
  | t : tree |- _ => let l := fresh "l" in destruct t as [l]; cbn [order fold_right] in H
  end.
(** the same sums in rational arithmetic *)
Fixpoint SumQ (n : nat) (f : nat -> Q) : Q := match n with O => 0%Q | S k => Qred (SumQ k f + f k) end.
Fixpoint weightQ (s : nat) (a : nat -> nat -> Q) (t : tree) (i : nat) : Q :=
  match t with Node l => fold_right (fun u p => Qred (SumQ s (fun j => a i j * weightQ s a u j)%Q * p)) 1%Q l end.
Fixpoint densityQ (t : tree) : Q :=
  match t with Node l => (inject_Z (Z.of_nat (order t)) * fold_right (fun u p => densityQ u * p) 1 l)%Q end.
Lemma Q2R_red q : Q2R (Qred q) = Q2R q.
Proof. apply Qeq_eqR, Qred_correct. Qed.
Lemma SumQ_R n f g : (forall i, (i < n)%nat -> Q2R (f i) = g i) -> Q2R (SumQ n f) = Sum_to n g.
Proof.
  induction n; intros H; cbn [SumQ Sum_to]; [apply RMicromega.Q2R_0|]. rewrite Q2R_red, Q2R_plus, IHn, H by (intros; try apply H; lia). reflexivity.
Qed.
Lemma tree_ind2 (P : tree -> Prop) : (forall l, (forall u, In u l -> P u) -> P (Node l)) -> forall t, P t.
Proof.
  intros H. fix IH 1. intros [l]. apply H. induction l as [|u r IHr]; [intros u []|].
  intros v [<-|Hv]; [apply IH|now apply IHr].
Qed.
Lemma weightQ_R s aq a : (forall i j, (j < s)%nat -> Q2R (aq i j) = a i j) -> forall t i, Q2R (weightQ s aq t i) = weight s a t i.
Proof.
  intros Ha. induction t as [l IH] using tree_ind2. intros i. cbn [weightQ weight].
  induction l as [|u r IHr]; cbn [fold_right]; [apply RMicromega.Q2R_1|]. rewrite Q2R_red, Q2R_mult, IHr by (intros; apply IH; now right).
  f_equal. apply SumQ_R. intros j Hj. rewrite Q2R_mult, Ha by assumption. f_equal. apply IH. now left.
Qed.
Lemma Q2R_Z z : Q2R (inject_Z z) = IZR z.
Proof. unfold Q2R, inject_Z. cbn. field. Qed.
Lemma densityQ_R t : Q2R (densityQ t) = density t.
Proof.
  induction t as [l IH] using tree_ind2. cbn [densityQ density]. rewrite Q2R_mult, Q2R_Z, <- INR_IZR_INZ. f_equal.
  clear -IH. induction l as [|u r IHr]; cbn [fold_right]; [apply RMicromega.Q2R_1|]. rewrite Q2R_mult, IHr by (intros; apply IH; now right). f_equal. apply IH. now left.
Qed.
Lemma order_by_Q p s aq bq a b : (forall i j, (j < s)%nat -> Q2R (aq i j) = a i j) -> (forall i, (i < s)%nat -> Q2R (bq i) = b i) ->
  (forall t, (order t <= p)%nat -> Qeq_bool (SumQ s (fun i => bq i * weightQ s aq t i)%Q * densityQ t) 1 = true) -> has_order p s a b.
Proof.
  intros Ha Hb H t Ht. specialize (H t Ht). apply Qeq_bool_eq, Qeq_eqR in H. rewrite Q2R_mult, densityQ_R in H.
  rewrite (SumQ_R s _ (fun i => b i * weight s a t i)) in H.
  - rewrite RMicromega.Q2R_1 in H. assert (D : density t <> 0) by (intros D; rewrite D in H; lra).
    apply (Rmult_eq_reg_r (density t)); [|exact D]. rewrite H. field. exact D.
  - intros i Hi. now rewrite Q2R_mult, (weightQ_R s aq a Ha), Hb.
Qed.
Definition rowQ (l : list Q) (j : nat) : Q := nth j l 0%Q.
Definition rk4_aq (i : nat) : nat -> Q := rowQ (match i with 1%nat => [Qmake 1 2] | 2%nat => [0;Qmake 1 2] | 3%nat => [0;0;1] | _ => nil end)%Q.
Definition rk4_bq : nat -> Q := rowQ [Qmake 1 6; Qmake 1 3; Qmake 1 3; Qmake 1 6]%Q.
Definition ck_aq (i : nat) : nat -> Q :=
  rowQ (match i with
  | 1%nat => [Qmake 1 5]
  | 2%nat => [Qmake 3 40; Qmake 9 40]
  | 3%nat => [Qmake 3 10; Qmake (-9) 10; Qmake 6 5]
  | 4%nat => [Qmake (-11) 54; Qmake 5 2; Qmake (-70) 27; Qmake 35 27]
  | 5%nat => [Qmake 1631 55296; Qmake 175 512; Qmake 575 13824; Qmake 44275 110592; Qmake 253 4096]
  | _ => [] end)%Q.
Definition ck_b5q : nat -> Q := rowQ [Qmake 37 378; 0; Qmake 250 621; Qmake 125 594; 0; Qmake 512 1771]%Q.
Definition ck_b4q : nat -> Q := rowQ [Qmake 2825 27648; 0; Qmake 18575 48384; Qmake 13525 55296; Qmake 277 14336; Qmake 1 4]%Q.
Ltac q2r := unfold Q2R; cbn [Qnum Qden]; field.
Lemma rk4_order : has_order 4 4 rk4_a rk4_b.
Proof.
  apply (order_by_Q 4 4 rk4_aq rk4_bq).
  - intros [|[|[|[|i]]]] [|[|[|[|j]]]] Hj; try lia; cbn [rk4_aq rk4_a rowQ nth]; q2r.
  - intros [|[|[|[|i]]]] Hi; try lia; cbn [rk4_bq rk4_b rowQ nth]; q2r.
  - intros t H. trees H; vm_compute; reflexivity.
Qed.
Lemma ck_order5 : has_order 5 6 ck_a ck_b5.
Proof.
  apply (order_by_Q 5 6 ck_aq ck_b5q).
  - intros [|[|[|[|[|[|i]]]]]] [|[|[|[|[|[|j]]]]]] Hj; try lia; unfold ck_aq, ck_a, rowQ, row; cbn [nth]; q2r.
  - intros [|[|[|[|[|[|i]]]]]] Hi; try lia; unfold ck_b5q, ck_b5, rowQ, row; cbn [nth]; q2r.
  - intros t H. trees H; vm_compute; reflexivity.
Qed.
Lemma ck_order4 : has_order 4 6 ck_a ck_b4.
Proof.
  apply (order_by_Q 4 6 ck_aq ck_b4q).
  - intros [|[|[|[|[|[|i]]]]]] [|[|[|[|[|[|j]]]]]] Hj; try lia; unfold ck_aq, ck_a, rowQ, row; cbn [nth]; q2r.
  - intros [|[|[|[|[|[|i]]]]]] Hi; try lia; unfold ck_b4q, ck_b4, rowQ, row; cbn [nth]; q2r.
  - intros t H. trees H; vm_compute; reflexivity.
Qed.
(*@P C55_order: The coefficients of the step of RK4 satisfy the order condition of every rooted tree with at most four nodes: the method has order 4. The step uses exactly these coefficients (C55_grid), and each abscissa coefficient is the sum of its row. *)
Lemma rk4_has_order : has_order 4 4 rk4_a rk4_b /\ (forall i, (i < 4)%nat -> Sum_to 4 (rk4_a i) = rk4_c i).
Proof.
  split; [exact rk4_order|]. intros [|[|[|[|i]]]] H; try lia; cbn [Sum_to rk4_a rk4_c]; field.
Qed.
Fixpoint it (L : (nat -> R) -> nat -> R) (y : nat -> R) (k : nat) : nat -> R := match k with O => y | S k => L (it L y k) end.
Lemma lin_it L y : linear L -> forall c m w, (forall i, w i = Sum_to m (fun k => c k * it L y k i)) ->
  forall i, L w i = Sum_to m (fun k => c k * it L y (S k) i).
Proof.
  intros HL c. induction m as [|m IH]; intros w Hw i; cbn [Sum_to] in *.
  - rewrite (HL 0 0 w w w) by (intros; rewrite Hw; ring). ring.
  - rewrite (HL 1 (c m) (fun i => Sum_to m (fun k => c k * it L y k i)) (it L y m) w) by (intros; rewrite Hw; ring).
    rewrite (IH (fun i => Sum_to m (fun k => c k * it L y k i))) by reflexivity. cbn [it]. ring.
Qed.
(*@P C55_linear: For every linear system y' = L y the step of RK4 is the exponential series through order 4. *)
Lemma rk4_linear : forall L x y h i, linear L ->
  run_kut4 (fun _ => L) x y h i =
  h * L y i + h ^ 2 / 2 * L (L y) i + h ^ 3 / 6 * L (L (L y)) i + h ^ 4 / 24 * L (L (L (L y))) i.
Proof.
  intros L x y h i HL. unfold run_kut4.
  assert (S1 : forall i, L (fun i => y i + h * L y i / 2) i = L y i + h / 2 * L (L y) i).
  { intros m. rewrite (lin_it L y HL (row [1; h / 2]) 2 (fun i => y i + h * L y i / 2)); [unfold row; cbn [Sum_to it nth]; ring|].
    intros k. unfold row. cbn [Sum_to it nth]. field. }
  assert (S2 : forall i, L (fun i => y i + h * L (fun i => y i + h * L y i / 2) i / 2) i = L y i + h / 2 * L (L y) i + h ^ 2 / 4 * L (L (L y)) i).
  { intros m. rewrite (lin_it L y HL (row [1; h / 2; h ^ 2 / 4]) 3 (fun i => y i + h * L (fun i => y i + h * L y i / 2) i / 2)); [unfold row; cbn [Sum_to it nth]; ring|].
    intros k. rewrite S1. unfold row. cbn [Sum_to it nth]. field. }
  rewrite S1, S2. match goal with |- context [h * L ?w i] => match w with y => fail 1 | _ =>
    rewrite (lin_it L y HL (row [1; h; h ^ 2 / 2; h ^ 3 / 4]) 4 w) end end.
  - unfold row. cbn [Sum_to it nth]. field.
  - intros k. rewrite S2. unfold row. cbn [Sum_to it nth]. field.
Qed.

(** ** C56 *)
(*@P C56_step: One step of _rkf45 is a step of the six stage method of Cash and Karp: the increment uses its fifth order weights, the error estimate is the root mean square of the difference with its fourth order weights. *)
Lemma rkf45_step : forall n F x y h, exists K, is_stages 6 ck_a ck_c F x y h K /\
  (forall i, rkf45_dy F x y h i = Sum_to 6 (fun s => ck_b5 s * K s i)) /\
  rkf45_e n F x y h = sqrt (Sum_to n (fun i => (Sum_to 6 (fun s => ck_b5 s * K s i) - Sum_to 6 (fun s => ck_b4 s * K s i)) ^ 2) / INR n).
Proof.
  intros n F x y h. exists (rkf45_K F x y h). split; [|split].
  - set (K := rkf45_K F x y h).
    assert (HF : forall a b y1 y2 i, a = b -> (forall m, y1 m = y2 m) -> h * F a y1 i = h * F b y2 i).
    { intros a b y1 y2 i -> H. f_equal. f_equal. extensionality m. apply H. }
    intros [|[|[|[|[|[|k]]]]]] i Hk; [| | | | | |lia].
    + change (K 0%nat i) with (h * F x y i). apply HF; unfold ck_c, ck_a, row; cbn [Sum_to nth]; intros; ring.
    + change (K 1%nat i) with (h * F (x + 1 / 5 * h) (fun i => y i + 1 / 5 * K 0%nat i) i). apply HF; unfold ck_c, ck_a, row; cbn [Sum_to nth]; intros; ring.
    + change (K 2%nat i) with (h * F (x + 3 / 10 * h) (fun i => y i + 3 / 40 * K 0%nat i + 9 / 40 * K 1%nat i) i). apply HF; unfold ck_c, ck_a, row; cbn [Sum_to nth]; intros; ring.
    + change (K 3%nat i) with (h * F (x + 3 / 5 * h) (fun i => y i + 3 / 10 * K 0%nat i - 9 / 10 * K 1%nat i + 6 / 5 * K 2%nat i) i). apply HF; unfold ck_c, ck_a, row; cbn [Sum_to nth]; intros; field.
    + change (K 4%nat i) with (h * F (x + h) (fun i => y i - 11 / 54 * K 0%nat i + 5 / 2 * K 1%nat i - 70 / 27 * K 2%nat i + 35 / 27 * K 3%nat i) i). apply HF; unfold ck_c, ck_a, row; cbn [Sum_to nth]; intros; field.
    + change (K 5%nat i) with (h * F (x + 7 / 8 * h) (fun i => y i + 1631 / 55296 * K 0%nat i + 175 / 512 * K 1%nat i + 575 / 13824 * K 2%nat i
        + 44275 / 110592 * K 3%nat i + 253 / 4096 * K 4%nat i) i). apply HF; unfold ck_c, ck_a, row; cbn [Sum_to nth]; intros; field.
  - intros i. unfold rkf45_dy. cbv zeta. cbn [rsum_state Sum_to]. unfold rkf45_C, ck_b5, row. cbn [nth]. ring.
  - unfold rkf45_e. f_equal. f_equal. change rsum_state with Sum_to.
    assert (G : forall f g, (forall i, f i = g i) -> Sum_to n f = Sum_to n g) by (intros f g H; induction n as [|m IH]; cbn [Sum_to]; congruence).
    apply G. intros i. unfold rkf45_E. cbv zeta. change rsum_state with Sum_to. cbn [Sum_to]. unfold rkf45_C, rkf45_D, ck_b5, ck_b4, row. cbn [nth]. ring.
Qed.
(*@P C56_order: These weights satisfy every order condition (rooted trees) up to order 5, respectively 4, and each abscissa coefficient is the sum of its row. *)
Lemma rkf45_order : has_order 5 6 ck_a ck_b5 /\ has_order 4 6 ck_a ck_b4 /\ (forall i, (i < 6)%nat -> Sum_to 6 (ck_a i) = ck_c i).
Proof.
  split; [exact ck_order5|]. split; [exact ck_order4|].
  intros [|[|[|[|[|[|i]]]]]] H; try lia; unfold ck_a, ck_c, row; cbn [Sum_to nth]; field.
Qed.
(*@P C56_polynomial: The increment is exact for every right-hand side polynomial in x of degree at most 4, and the error estimate is zero for degree at most 3, whatever the coefficients in each component. *)
Lemma rkf45_poly : forall a n x y h,
  (forall i, rkf45_dy (fun t _ i => quartic a i t) x y h i = prim_quartic a i (x + h) - prim_quartic a i x) /\
  ((forall i, a i 4%nat = 0) -> rkf45_e n (fun t _ i => quartic a i t) x y h = 0).
Proof.
  intros a n x y h. split.
  - intros i. unfold rkf45_dy, rkf45_K. cbv zeta. cbn [rsum_state]. unfold rkf45_C, quartic, prim_quartic, cubic, prim_cubic. field.
  - intros H. unfold rkf45_e. replace (rsum_state n _) with 0; [unfold Rdiv; rewrite Rmult_0_l; apply sqrt_0|].
    assert (Z : forall i, rkf45_E (fun t _ i => quartic a i t) x y h i = 0).
    { intros i. unfold rkf45_E, rkf45_K. cbv zeta. cbn [rsum_state]. unfold rkf45_C, rkf45_D, quartic, cubic. rewrite H. field. }
    induction n as [|m IH]; cbn [rsum_state]; [reflexivity|]. rewrite <- IH, Z. ring.
Qed.
(*@P C56_linear: For every linear system y' = L y the increment is the exponential series through order 5, plus h^6/800 L^6 y. *)
Lemma rkf45_linear : forall L x y h i, linear L ->
  rkf45_dy (fun _ => L) x y h i =
  h * L y i + h ^ 2 / 2 * L (L y) i + h ^ 3 / 6 * L (L (L y)) i + h ^ 4 / 24 * L (L (L (L y))) i +
  h ^ 5 / 120 * L (L (L (L (L y)))) i + h ^ 6 / 800 * L (L (L (L (L (L y))))) i.
Proof.
  intros L x y h i HL. unfold rkf45_dy. cbv zeta. cbn [rsum_state]. 
  set (K := rkf45_K (fun _ => L) x y h).
  assert (E0 : forall m, K 0%nat m = h * L y m) by reflexivity.
  assert (E1 : forall m, K 1%nat m = h * L y m + h ^ 2 / 5 * L (L y) m).
  { intros m. change (K 1%nat m) with (h * L (fun i => y i + 1 / 5 * K 0%nat i) m).
    rewrite (lin_it L y HL (row [1; h / 5]) 2); [unfold row; cbn [Sum_to it nth]; field|].
    intros k. rewrite E0. unfold row; cbn [Sum_to it nth]; field. }
  assert (E2 : forall m, K 2%nat m = h * L y m + 3 / 10 * h ^ 2 * L (L y) m + 9 / 200 * h ^ 3 * L (L (L y)) m).
  { intros m. change (K 2%nat m) with (h * L (fun i => y i + 3 / 40 * K 0%nat i + 9 / 40 * K 1%nat i) m).
    rewrite (lin_it L y HL (row [1; 3 / 10 * h; 9 / 200 * h ^ 2]) 3); [unfold row; cbn [Sum_to it nth]; field|].
    intros k. rewrite E0, E1. unfold row; cbn [Sum_to it nth]; field. }
  assert (E3 : forall m, K 3%nat m = h * L y m + 3 / 5 * h ^ 2 * L (L y) m + (- 9 / 50 + 18 / 50) * h ^ 3 * L (L (L y)) m + 54 / 1000 * h ^ 4 * L (L (L (L y))) m).
  { intros m. change (K 3%nat m) with (h * L (fun i => y i + 3 / 10 * K 0%nat i - 9 / 10 * K 1%nat i + 6 / 5 * K 2%nat i) m).
    rewrite (lin_it L y HL (row [1; 3 / 5 * h; (- 9 / 50 + 18 / 50) * h ^ 2; 54 / 1000 * h ^ 3]) 4); [unfold row; cbn [Sum_to it nth]; field|].
    intros k. rewrite E0, E1, E2. unfold row; cbn [Sum_to it nth]; field. }
  set (c3 := 1 / 2 - 70 / 27 * (3 / 10) + 35 / 27 * (3 / 5)).
  set (c4 := - 70 / 27 * (9 / 200) + 35 / 27 * (9 / 50)).
  set (c5 := 35 / 27 * (54 / 1000)).
  assert (E4 : forall m, K 4%nat m = h * L y m + h ^ 2 * L (L y) m + c3 * h ^ 3 * L (L (L y)) m + c4 * h ^ 4 * L (L (L (L y))) m + c5 * h ^ 5 * L (L (L (L (L y)))) m).
  { intros m. change (K 4%nat m) with (h * L (fun i => y i - 11 / 54 * K 0%nat i + 5 / 2 * K 1%nat i - 70 / 27 * K 2%nat i + 35 / 27 * K 3%nat i) m).
    rewrite (lin_it L y HL (row [1; h; c3 * h ^ 2; c4 * h ^ 3; c5 * h ^ 4]) 5); [unfold row; cbn [Sum_to it nth]; field|].
    intros k. rewrite E0, E1, E2, E3. unfold row, c3, c4, c5; cbn [Sum_to it nth]; field. }
  set (d3 := 175 / 512 * (1 / 5) + 575 / 13824 * (3 / 10) + 44275 / 110592 * (3 / 5) + 253 / 4096).
  set (d4 := 575 / 13824 * (9 / 200) + 44275 / 110592 * (9 / 50) + 253 / 4096 * c3).
  set (d5 := 44275 / 110592 * (54 / 1000) + 253 / 4096 * c4).
  set (d6 := 253 / 4096 * c5).
  assert (E5 : forall m, K 5%nat m = h * L y m + 7 / 8 * h ^ 2 * L (L y) m + d3 * h ^ 3 * L (L (L y)) m + d4 * h ^ 4 * L (L (L (L y))) m
     + d5 * h ^ 5 * L (L (L (L (L y)))) m + d6 * h ^ 6 * L (L (L (L (L (L y))))) m).
  { intros m. change (K 5%nat m) with (h * L (fun i => y i + 1631 / 55296 * K 0%nat i + 175 / 512 * K 1%nat i + 575 / 13824 * K 2%nat i + 44275 / 110592 * K 3%nat i + 253 / 4096 * K 4%nat i) m).
    rewrite (lin_it L y HL (row [1; 7 / 8 * h; d3 * h ^ 2; d4 * h ^ 3; d5 * h ^ 4; d6 * h ^ 5]) 6); [unfold row; cbn [Sum_to it nth]; field|].
    intros k. rewrite E0, E1, E2, E3, E4. unfold row, d3, d4, d5, d6; cbn [Sum_to it nth]; field. }
  rewrite E0, E1, E2, E3, E4, E5. unfold rkf45_C, d3, d4, d5, d6, c3, c4, c5. field.
Qed.
(*@E C56_example: a linear system (a rotation) and a step *)
Lemma C56_ex : let L := fun (y : nat -> R) (i : nat) => match i with 0%nat => y 1%nat | 1%nat => - y 0%nat | _ => 0 end in
  linear L /\ rkf45_dy (fun _ => L) 0 (fun i => match i with 0%nat => 1 | _ => 0 end) 1 0%nat = - 1 / 2 + 1 / 24 - 1 / 800.
Proof.
  cbv zeta. assert (HL : linear (fun (y : nat -> R) (i : nat) => match i with 0%nat => y 1%nat | 1%nat => - y 0%nat | _ => 0 end)).
  { intros p q u v w H [|[|i]]; rewrite ?H; ring. }
  split; [exact HL|]. rewrite rkf45_linear by exact HL. field.
Qed.
(*@E C55_example: x from 0 to 1 by steps of 0.3 of y' = 3x^2: four steps, ending at 1 *)
Lemma C55_ex : exists X Y, RK4 4 (fun t _ i => cubic (fun _ => row [0; 0; 3]) i t) 0 (fun _ => 0) 1 (3 / 10) = Some (X, Y) /\
  length X = 5%nat /\ nth 4 X 0 = 1 /\ nth 4 Y (fun _ => 0) 0%nat = 1.
Proof.
  destruct (rk4_loop_spec (fun t _ i => cubic (fun _ => row [0; 0; 3]) i t) 1 4 4 0 (fun _ => 0) (3 / 10)) as (X & Y & E & L1 & L2 & A1 & A2 & A3);
    [lra|cbn [INR]; lra|intros _; cbn [INR]; lra|lia|].
  assert (E' : RK4 4 (fun t _ i => cubic (fun _ => row [0; 0; 3]) i t) 0 (fun _ => 0) 1 (3 / 10) = Some (0 :: X, (fun _ => 0) :: Y)) by (unfold RK4; now rewrite E).
  exists (0 :: X), ((fun _ => 0) :: Y). split; [exact E'|]. split; [cbn; lia|]. split; [apply A2; discriminate|].
  rewrite (rk4_cubic (fun _ => row [0; 0; 3]) 4 0 (fun _ => 0) 1 (3 / 10) _ _ ltac:(lra) ltac:(lra) E') by (cbn; lia). rewrite A2 by discriminate. unfold prim_cubic, row. cbn [nth]. field.
Qed.
