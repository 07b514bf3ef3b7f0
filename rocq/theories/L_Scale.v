(** * C120: the numerical tools do not depend on the scales *)
From Coq Require Import FunctionalExtensionality List Lra Lia.
From Verif Require Import Num L_Num M_Ode M_Spectral L_Ode ScaleSpec.
Import ListNotations.
Open Scope R_scope.

(** one stage of an explicit method *)
Definition stg (F : rhs) (x : R) (y : state) (h t : R) (d : state) : state := fun i => h * F (x + t * h) (fun j => y j + d j) i.
Definition k4_0 F x y h : state := stg F x y h 0 (fun _ => 0).
Definition k4_1 F x y h : state := stg F x y h (1 / 2) (fun i => k4_0 F x y h i / 2).
Definition k4_2 F x y h : state := stg F x y h (1 / 2) (fun i => k4_1 F x y h i / 2).
Definition k4_3 F x y h : state := stg F x y h 1 (fun i => k4_2 F x y h i).
Lemma stg_eq F x y h t d x' y' i : x' = x + t * h -> y' = (fun j => y j + d j) -> h * F x' y' i = stg F x y h t d i.
Proof. intros -> ->. reflexivity. Qed.
Ltac stg_solve := extensionality i; apply stg_eq; [field || ring|try (extensionality j; ring); try reflexivity].
Lemma kut4_unfold F x y h m K0 K1 K2 K3 :
  K0 = (fun i => h * F x y i) -> K1 = (fun i => h * F (x + h / 2) (fun j => y j + K0 j / 2) i) ->
  K2 = (fun i => h * F (x + h / 2) (fun j => y j + K1 j / 2) i) -> K3 = (fun i => h * F (x + h) (fun j => y j + K2 j) i) ->
  run_kut4 F x y h m = (K0 m + 2 * K1 m + 2 * K2 m + K3 m) / 6.
Proof. intros -> -> -> ->. reflexivity. Qed.
Lemma kut4_stages F x y h m :
  run_kut4 F x y h m = (k4_0 F x y h m + 2 * k4_1 F x y h m + 2 * k4_2 F x y h m + k4_3 F x y h m) / 6.
Proof.
  apply kut4_unfold; extensionality i; symmetry; apply stg_eq; try field; try reflexivity. extensionality j; ring.
Qed.
Definition k6_0 F x y h : state := stg F x y h 0 (fun _ => 0).
Definition k6_1 F x y h : state := stg F x y h (1 / 5) (fun i => 1 / 5 * k6_0 F x y h i).
Definition k6_2 F x y h : state := stg F x y h (3 / 10) (fun i => 3 / 40 * k6_0 F x y h i + 9 / 40 * k6_1 F x y h i).
Definition k6_3 F x y h : state := stg F x y h (3 / 5) (fun i => 3 / 10 * k6_0 F x y h i - 9 / 10 * k6_1 F x y h i + 6 / 5 * k6_2 F x y h i).
Definition k6_4 F x y h : state := stg F x y h 1 (fun i => - 11 / 54 * k6_0 F x y h i + 5 / 2 * k6_1 F x y h i - 70 / 27 * k6_2 F x y h i + 35 / 27 * k6_3 F x y h i).
Definition k6_5 F x y h : state := stg F x y h (7 / 8) (fun i => 1631 / 55296 * k6_0 F x y h i + 175 / 512 * k6_1 F x y h i + 575 / 13824 * k6_2 F x y h i
     + 44275 / 110592 * k6_3 F x y h i + 253 / 4096 * k6_4 F x y h i).
Lemma rkf45_stages F x y h n : rkf45_K F x y h n =
  match n with 0%nat => k6_0 F x y h | 1%nat => k6_1 F x y h | 2%nat => k6_2 F x y h | 3%nat => k6_3 F x y h | 4%nat => k6_4 F x y h | _ => k6_5 F x y h end.
Proof.
  assert (H : forall m, rkf45_K F x y h m = match m with 0%nat => rkf45_K F x y h 0 | 1%nat => rkf45_K F x y h 1 | 2%nat => rkf45_K F x y h 2
    | 3%nat => rkf45_K F x y h 3 | 4%nat => rkf45_K F x y h 4 | _ => rkf45_K F x y h 5 end) by (intro m; do 6 (destruct m as [|m]; [reflexivity|]); reflexivity).
  assert (E0 : rkf45_K F x y h 0 = k6_0 F x y h).
  { extensionality i. change (h * F x y i = k6_0 F x y h i). apply stg_eq; [ring|extensionality j; ring]. }
  assert (E1 : rkf45_K F x y h 1 = k6_1 F x y h).
  { extensionality i. change (h * F (x + 1 / 5 * h) (fun j => y j + 1 / 5 * rkf45_K F x y h 0 j) i = k6_1 F x y h i). rewrite E0. reflexivity. }
  assert (E2 : rkf45_K F x y h 2 = k6_2 F x y h).
  { extensionality i. change (h * F (x + 3 / 10 * h) (fun j => y j + 3 / 40 * rkf45_K F x y h 0 j + 9 / 40 * rkf45_K F x y h 1 j) i = k6_2 F x y h i).
    rewrite E0, E1. apply stg_eq; [ring|extensionality j; ring]. }
  assert (E3 : rkf45_K F x y h 3 = k6_3 F x y h).
  { extensionality i. change (h * F (x + 3 / 5 * h) (fun j => y j + 3 / 10 * rkf45_K F x y h 0 j - 9 / 10 * rkf45_K F x y h 1 j + 6 / 5 * rkf45_K F x y h 2 j) i = k6_3 F x y h i).
    rewrite E0, E1, E2. apply stg_eq; [ring|extensionality j; ring]. }
  assert (E4 : rkf45_K F x y h 4 = k6_4 F x y h).
  { extensionality i. change (h * F (x + h) (fun j => y j - 11 / 54 * rkf45_K F x y h 0 j + 5 / 2 * rkf45_K F x y h 1 j - 70 / 27 * rkf45_K F x y h 2 j + 35 / 27 * rkf45_K F x y h 3 j) i = k6_4 F x y h i).
    rewrite E0, E1, E2, E3. apply stg_eq; [ring|extensionality j; field]. }
  assert (E5 : rkf45_K F x y h 5 = k6_5 F x y h).
  { extensionality i. change (h * F (x + 7 / 8 * h) (fun j => y j + 1631 / 55296 * rkf45_K F x y h 0 j + 175 / 512 * rkf45_K F x y h 1 j + 575 / 13824 * rkf45_K F x y h 2 j + 44275 / 110592 * rkf45_K F x y h 3 j + 253 / 4096 * rkf45_K F x y h 4 j) i = k6_5 F x y h i).
    rewrite E0, E1, E2, E3, E4. apply stg_eq; [ring|extensionality j; field]. }
  rewrite H, E0, E1, E2, E3, E4, E5. reflexivity.
Qed.

Section ODE.
Variables (a b : R) (s c : nat -> R) (F F' : rhs).
Hypothesis Ha : 0 < a.
Hypothesis HF : same_equation a b s c F F'.
Let X := abscissa a b.
Let U := unknowns s c.
Lemma stg_scale x y h t d d' : (forall i, d' i = s i * d i) -> forall i, stg F' (X x) (U y) (a * h) t d' i = s i * stg F x y h t d i.
Proof using Ha HF.
  intros E i. unfold stg.
  replace (X x + t * (a * h)) with (abscissa a b (x + t * h)) by (unfold X, abscissa; ring).
  replace (fun j => U y j + d' j) with (unknowns s c (fun j => y j + d j)) by (extensionality j; unfold U, unknowns; rewrite E; ring).
  rewrite HF. field. lra.
Qed.
Lemma kut4_scale x y h i : run_kut4 F' (X x) (U y) (a * h) i = s i * run_kut4 F x y h i.
Proof using Ha HF.
  rewrite !kut4_stages.
  assert (E0 : forall i, k4_0 F' (X x) (U y) (a * h) i = s i * k4_0 F x y h i) by (apply stg_scale; intro; ring).
  assert (E1 : forall i, k4_1 F' (X x) (U y) (a * h) i = s i * k4_1 F x y h i) by (apply stg_scale; intro; rewrite E0; field).
  assert (E2 : forall i, k4_2 F' (X x) (U y) (a * h) i = s i * k4_2 F x y h i) by (apply stg_scale; intro; rewrite E1; field).
  assert (E3 : forall i, k4_3 F' (X x) (U y) (a * h) i = s i * k4_3 F x y h i) by (apply stg_scale; intro; rewrite E2; field).
  rewrite E0, E1, E2, E3. field.
Qed.
Lemma rkf45_K_scale x y h n i : rkf45_K F' (X x) (U y) (a * h) n i = s i * rkf45_K F x y h n i.
Proof using Ha HF.
  rewrite !rkf45_stages.
  assert (E0 : forall i, k6_0 F' (X x) (U y) (a * h) i = s i * k6_0 F x y h i) by (apply stg_scale; intro; ring).
  assert (E1 : forall i, k6_1 F' (X x) (U y) (a * h) i = s i * k6_1 F x y h i) by (apply stg_scale; intro; rewrite E0; field).
  assert (E2 : forall i, k6_2 F' (X x) (U y) (a * h) i = s i * k6_2 F x y h i) by (apply stg_scale; intro; rewrite E0, E1; field).
  assert (E3 : forall i, k6_3 F' (X x) (U y) (a * h) i = s i * k6_3 F x y h i) by (apply stg_scale; intro; rewrite E0, E1, E2; field).
  assert (E4 : forall i, k6_4 F' (X x) (U y) (a * h) i = s i * k6_4 F x y h i) by (apply stg_scale; intro; rewrite E0, E1, E2, E3; field).
  assert (E5 : forall i, k6_5 F' (X x) (U y) (a * h) i = s i * k6_5 F x y h i) by (apply stg_scale; intro; rewrite E0, E1, E2, E3, E4; field).
  do 6 (destruct n as [|n]; [auto|]). auto.
Qed.
Lemma X_lt x x' : (X x < X x' <-> x < x').
Proof using Ha. unfold X, abscissa. split; intro H; [|nra]. apply Rmult_lt_reg_l with a; lra. Qed.
Lemma X_le x x' : (X x <= X x' <-> x <= x').
Proof using Ha. unfold X, abscissa. split; intro H; [|nra]. apply Rmult_le_reg_l with a; lra. Qed.
Lemma X_add x h : X x + a * h = X (x + h).
Proof using. unfold X, abscissa. ring. Qed.
Lemma X_sub x x' : X x - X x' = a * (x - x').
Proof using. unfold X, abscissa. ring. Qed.
Lemma a_lt x x' : (a * x < a * x' <-> x < x').
Proof using Ha. split; intro H; [|nra]. apply Rmult_lt_reg_l with a; lra. Qed.
Lemma rk4_loop_scale fuel : forall x y xs h, rk4_loop fuel F' (X x) (U y) (X xs) (a * h) =
  option_map (fun r => (map X (fst r), map U (snd r))) (rk4_loop fuel F x y xs h).
Proof using Ha HF.
  induction fuel as [|fuel IH]; intros; cbn [rk4_loop].
  - destruct (Rlt_dec (X x) (X xs)) as [A|A], (Rlt_dec x xs) as [B|B]; try reflexivity; exfalso; rewrite X_lt in A; contradiction.
  - destruct (Rlt_dec (X x) (X xs)) as [A|A], (Rlt_dec x xs) as [B|B]; try (exfalso; rewrite X_lt in A; contradiction); [|reflexivity].
    cbv zeta.
    assert (E : (if Rlt_dec (X xs - X x) (a * h) then X xs - X x else a * h) = a * (if Rlt_dec (xs - x) h then xs - x else h)).
    { rewrite X_sub. destruct (Rlt_dec (a * (xs - x)) (a * h)) as [C|C], (Rlt_dec (xs - x) h) as [D|D]; try reflexivity; exfalso; rewrite a_lt in C; contradiction. }
    rewrite E. set (k := if Rlt_dec (xs - x) h then xs - x else h). rewrite X_add.
    replace (fun i => U y i + run_kut4 F' (X x) (U y) (a * k) i) with (U (fun i => y i + run_kut4 F x y k i))
      by (extensionality i; rewrite kut4_scale; unfold U, unknowns; ring).
    rewrite IH. destruct (rk4_loop fuel F _ _ xs k) as [[P Q]|]; reflexivity.
Qed.
End ODE.

(*@P C120_rk4: RK4 does not depend on the units: with the abscissa in any other unit and from any other origin, every component of the unknown in its own unit (of any sign) and from its own origin, the step converted like the abscissa and the same differential equation written in these variables, the abscissae and the states returned are the old ones converted; a loop that does not end does not end. *)
Lemma rk4_scale : forall a b s c F F' fuel x y xStop h, 0 < a -> same_equation a b s c F F' ->
  RK4 fuel F' (abscissa a b x) (unknowns s c y) (abscissa a b xStop) (a * h) =
  option_map (fun r => (map (abscissa a b) (fst r), map (unknowns s c) (snd r))) (RK4 fuel F x y xStop h).
Proof.
  intros a b s c F F' fuel x y xs h Ha HF. unfold RK4. rewrite (rk4_loop_scale a b s c F F' Ha HF).
  destruct (rk4_loop fuel F x y xs h) as [[P Q]|]; reflexivity.
Qed.

Section RKF.
Variables (a b s : R) (c : nat -> R) (F F' : rhs).
Hypothesis Ha : 0 < a.
Hypothesis Hs : s <> 0.
Hypothesis HF : same_equation a b (fun _ => s) c F F'.
Let X := abscissa a b.
Let U := unknowns (fun _ => s) c.
Lemma rsum_state_ext n f g : (forall i, f i = g i) -> rsum_state n f = rsum_state n g.
Proof using. intro E. induction n as [|n IH]; cbn; [reflexivity|now rewrite IH, E]. Qed.
Lemma rsum_state_mul n k f : rsum_state n (fun i => k * f i) = k * rsum_state n f.
Proof using. induction n as [|n IH]; cbn; [ring|rewrite IH; ring]. Qed.
Lemma rkf45_dy_scale x y h i : rkf45_dy F' (X x) (U y) (a * h) i = s * rkf45_dy F x y h i.
Proof using Ha HF.
  unfold rkf45_dy. cbv zeta. rewrite <- rsum_state_mul. apply rsum_state_ext. intro n.
  unfold X, U. rewrite (rkf45_K_scale a b (fun _ => s) c F F' Ha HF). ring.
Qed.
Lemma rkf45_E_scale x y h i : rkf45_E F' (X x) (U y) (a * h) i = s * rkf45_E F x y h i.
Proof using Ha HF.
  unfold rkf45_E. cbv zeta. rewrite <- rsum_state_mul. apply rsum_state_ext. intro n.
  unfold X, U. rewrite (rkf45_K_scale a b (fun _ => s) c F F' Ha HF). ring.
Qed.
Lemma rkf45_e_scale n x y h : rkf45_e n F' (X x) (U y) (a * h) = Rabs s * rkf45_e n F x y h.
Proof using Ha HF.
  unfold rkf45_e. rewrite (rsum_state_ext n _ (fun i => (s * s) * (rkf45_E F x y h i * rkf45_E F x y h i))) by (intro i; rewrite rkf45_E_scale; ring).
  rewrite rsum_state_mul. unfold Rdiv. rewrite Rmult_assoc. rewrite sqrt_mult_alt by nra. f_equal. change (s * s) with (Rsqr s). apply sqrt_Rsqr_abs.
Qed.
Lemma rkf45_next_scale xs tol x h e st : rkf45_next (X xs) (Rabs s * tol) (X x) (a * h) (Rabs s * e) st =
  (a * fst (rkf45_next xs tol x h e st), snd (rkf45_next xs tol x h e st)).
Proof using Ha Hs.
  assert (S := Rabs_pos_lt s Hs). unfold rkf45_next.
  assert (E : (if Req_EM_T (Rabs s * e) 0 then a * h else 9 / 10 * (a * h) * pow02 (Rabs s * tol / (Rabs s * e))) = a * (if Req_EM_T e 0 then h else 9 / 10 * h * pow02 (tol / e))).
  { destruct (Req_EM_T (Rabs s * e) 0) as [Z|Z], (Req_EM_T e 0) as [W|W]; try reflexivity.
    - exfalso. apply Rmult_integral in Z. lra.
    - exfalso. apply Z. rewrite W. ring.
    - replace (Rabs s * tol / (Rabs s * e)) with (tol / e) by (field; lra). ring. }
  cbv zeta. rewrite E. set (k := if Req_EM_T e 0 then h else _). unfold X. rewrite X_add, X_sub.
  assert (E1 : (if Rlt_dec 0 (a * h) then true else false) = (if Rlt_dec 0 h then true else false)).
  { destruct (Rlt_dec 0 (a * h)) as [A|A], (Rlt_dec 0 h) as [B|B]; try reflexivity; exfalso; [|apply A; nra]. apply B. apply Rmult_lt_reg_l with a; lra. }
  assert (E2 : (if Rle_dec (abscissa a b xs) (abscissa a b (x + k)) then true else false) = (if Rle_dec xs (x + k) then true else false)).
  { destruct (Rle_dec (abscissa a b xs) (abscissa a b (x + k))) as [A|A], (Rle_dec xs (x + k)) as [B|B]; try reflexivity; exfalso; rewrite (X_le a b Ha) in A; contradiction. }
  rewrite E1, E2. destruct (Bool.eqb _ _); reflexivity.
Qed.
Lemma rkf45_loop_scale n tol xs passes : forall x y h st, rkf45_loop n F' (X xs) (Rabs s * tol) passes (X x) (U y) (a * h) st =
  (let '(bo, P, Q) := rkf45_loop n F xs tol passes x y h st in (bo, map X P, map U Q)).
Proof using Ha Hs HF.
  induction passes as [|k IH]; intros; [reflexivity|]. cbn [rkf45_loop]. cbv zeta. rewrite rkf45_e_scale. assert (S := Rabs_pos_lt s Hs).
  set (e := rkf45_e n F x y h).
  rewrite rkf45_next_scale. destruct (rkf45_next xs tol x h e st) as [h' s'] eqn:EN. cbn [fst snd].
  destruct (Rle_dec (Rabs s * e) (Rabs s * tol)) as [A|A], (Rle_dec e tol) as [B|B].
  - assert (EY : (fun i => U y i + rkf45_dy F' (X x) (U y) (a * h) i) = U (fun i => y i + rkf45_dy F x y h i))
      by (extensionality i; rewrite rkf45_dy_scale; unfold U, unknowns; ring).
    rewrite EY. unfold X. rewrite X_add. fold X. destruct st; [reflexivity|].
    assert (EN' : rkf45_next (X xs) (Rabs s * tol) (abscissa a b (x + h)) (a * h) (Rabs s * e) false = 
      (a * fst (rkf45_next xs tol (x + h) h e false), snd (rkf45_next xs tol (x + h) h e false))) by apply rkf45_next_scale.
    unfold X in EN' |- *. rewrite EN'. destruct (rkf45_next xs tol (x + h) h e false) as [h2 s2]. cbn [fst snd]. fold X. rewrite (IH (x + h) _ h2 s2).
    destruct (rkf45_loop n F xs tol k _ _ _ _) as [[bo P] Q]. reflexivity.
  - exfalso. apply B. apply Rmult_le_reg_l with (Rabs s); lra.
  - exfalso. apply A. apply Rmult_le_compat_l; lra.
  - apply IH.
Qed.
End RKF.

(*@P C120_rkf45: Neither does RKF45: with one unit (of any sign) common to all the components and to the tolerance, and an origin for each, the abscissae chosen by the step control and the states are the old ones converted, over the whole run with its rejected steps, including when it ends before xStop or at the cap on the number of passes. *)
Lemma rkf45_scale : forall a b s c F F' n x y xStop h tol, 0 < a -> s <> 0 -> same_equation a b (fun _ => s) c F F' ->
  RKF45 n F' (abscissa a b x) (unknowns (fun _ => s) c y) (abscissa a b xStop) (a * h) (Rabs s * tol) =
  (map (abscissa a b) (fst (RKF45 n F x y xStop h tol)), map (unknowns (fun _ => s) c) (snd (RKF45 n F x y xStop h tol))).
Proof.
  intros a b s c F F' n x y xs h tol Ha Hs HF. unfold RKF45, RKF45_n. rewrite (rkf45_loop_scale a b s c F F' Ha Hs HF).
  destruct (rkf45_loop n F xs tol (100 * 100) x y h false) as [[bo P] Q]. reflexivity.
Qed.

(** ** Superposition *)
Lemma F_equal_l (F : rhs) x y y' i : y = y' -> F x y i = F x y' i.
Proof. now intros ->. Qed.
Section LIN.
Variables (F : rhs) (al be : R).
Hypothesis HL : linear_rhs F.
Lemma stg_lin x y z h t dy dz i : stg F x (combine_states al be y z) h t (combine_states al be dy dz) i = al * stg F x y h t dy i + be * stg F x z h t dz i.
Proof using HL.
  unfold stg. rewrite (F_equal_l F (x + t * h) (fun j => combine_states al be y z j + combine_states al be dy dz j) (fun j => al * (y j + dy j) + be * (z j + dz j))) by (extensionality j; unfold combine_states; ring).
  rewrite HL. ring.
Qed.
Lemma kut4_lin x y z h i : run_kut4 F x (combine_states al be y z) h i = al * run_kut4 F x y h i + be * run_kut4 F x z h i.
Proof using HL.
  rewrite !kut4_stages.
  assert (G : forall t d dy dz, (forall i, d i = al * dy i + be * dz i) -> forall i, stg F x (combine_states al be y z) h t d i = al * stg F x y h t dy i + be * stg F x z h t dz i).
  { intros t d dy dz E l. rewrite <- stg_lin. f_equal. extensionality j. apply E. }
  assert (E0 : forall i, k4_0 F x (combine_states al be y z) h i = al * k4_0 F x y h i + be * k4_0 F x z h i) by (apply G; intro; ring).
  assert (E1 : forall i, k4_1 F x (combine_states al be y z) h i = al * k4_1 F x y h i + be * k4_1 F x z h i) by (apply G; intro; rewrite E0; field).
  assert (E2 : forall i, k4_2 F x (combine_states al be y z) h i = al * k4_2 F x y h i + be * k4_2 F x z h i) by (apply G; intro; rewrite E1; field).
  assert (E3 : forall i, k4_3 F x (combine_states al be y z) h i = al * k4_3 F x y h i + be * k4_3 F x z h i) by (apply G; intro; rewrite E2; field).
  rewrite E0, E1, E2, E3. field.
Qed.
Lemma rk4_loop_lin xs fuel : forall x y z h P Y Q Z, rk4_loop fuel F x y xs h = Some (P, Y) -> rk4_loop fuel F x z xs h = Some (Q, Z) ->
  P = Q /\ length Y = length P /\ length Z = length P /\
  exists W, rk4_loop fuel F x (combine_states al be y z) xs h = Some (P, W) /\ length W = length P /\
  forall k, (k < length P)%nat -> nth k W (fun _ => 0) = combine_states al be (nth k Y (fun _ => 0)) (nth k Z (fun _ => 0)).
Proof using HL.
  induction fuel as [|fuel IH]; intros x y z h P Y Q Z HP HQ; cbn [rk4_loop] in *.
  - destruct (Rlt_dec x xs); [discriminate|]. injection HP as <- <-. injection HQ as <- <-.
    repeat split; trivial. exists nil. repeat split; trivial. intros k L. cbn in L. lia.
  - destruct (Rlt_dec x xs).
    2: { injection HP as <- <-. injection HQ as <- <-. repeat split; trivial. exists nil. repeat split; trivial. intros k L. cbn in L. lia. }
    cbv zeta in *. set (g := if Rlt_dec (xs - x) h then xs - x else h) in *.
    destruct (rk4_loop fuel F (x + g) (fun i => y i + run_kut4 F x y g i) xs g) as [[P' Y']|] eqn:EY; [|discriminate].
    destruct (rk4_loop fuel F (x + g) (fun i => z i + run_kut4 F x z g i) xs g) as [[Q' Z']|] eqn:EZ; [|discriminate].
    injection HP as <- <-. injection HQ as <- <-. destruct (IH _ _ _ _ _ _ _ _ EY EZ) as (-> & L1 & L2 & W & EW & L3 & N).
    assert (E : (fun i => combine_states al be y z i + run_kut4 F x (combine_states al be y z) g i) =
      combine_states al be (fun i => y i + run_kut4 F x y g i) (fun i => z i + run_kut4 F x z g i))
      by (extensionality i; rewrite kut4_lin; unfold combine_states; ring).
    rewrite E, EW. cbn [length]. repeat split; try congruence. exists (combine_states al be (fun i => y i + run_kut4 F x y g i) (fun i => z i + run_kut4 F x z g i) :: W).
    repeat split; [cbn; congruence|]. intros [|k] L; cbn [nth]; [reflexivity|]. apply N. lia.
Qed.
End LIN.
(*@P C120_superposition: For a linear system, with coefficients depending on x, the states RK4 returns from a combination of two starting points are the same combination of the states returned from each, at the same abscissae. *)
Lemma rk4_superposition : forall F al be fuel x y z xStop h P Y Q Z, linear_rhs F ->
  RK4 fuel F x y xStop h = Some (P, Y) -> RK4 fuel F x z xStop h = Some (Q, Z) ->
  P = Q /\ exists W, RK4 fuel F x (combine_states al be y z) xStop h = Some (P, W) /\ length W = length P /\
  forall k, (k < length P)%nat -> nth k W (fun _ => 0) = combine_states al be (nth k Y (fun _ => 0)) (nth k Z (fun _ => 0)).
Proof.
  intros F al be fuel x y z xs h P Y Q Z HL HP HQ. unfold RK4 in *.
  destruct (rk4_loop fuel F x y xs h) as [[P' Y']|] eqn:EY; [|discriminate]. destruct (rk4_loop fuel F x z xs h) as [[Q' Z']|] eqn:EZ; [|discriminate].
  injection HP as <- <-. injection HQ as <- <-. destruct (rk4_loop_lin F al be HL xs fuel _ _ _ _ _ _ _ _ EY EZ) as (-> & L1 & L2 & W & EW & L3 & N).
  split; [reflexivity|]. rewrite EW. exists (combine_states al be y z :: W). split; [reflexivity|]. split; [cbn; congruence|].
  intros [|k] L; cbn [nth length] in *; [reflexivity|]. apply N. lia.
Qed.

(** ** Collocation on another interval *)
Lemma npowi_mul n k x : npowi (nmul (Some k) x) n = nmul (Some (k ^ n)) (npowi x n).
Proof. destruct x as [x|]; [|reflexivity]. cbn. f_equal. apply Rpow_mult_distr. Qed.
Lemma npowi_len a b l r n : a <> 0 ->
  npowi (ndiv (Some (-2)) (nsub (Some (a * r + b)) (Some (a * l + b)))) n = nmul (Some ((/ a) ^ n)) (npowi (ndiv (Some (-2)) (nsub (Some r) (Some l))) n).
Proof.
  intro A. rewrite <- npowi_mul. f_equal. cbn [nsub ndiv nmul]. replace (a * r + b - (a * l + b)) with (a * (r - l)) by ring.
  destruct (Req_EM_T (a * (r - l)) 0) as [Z|Z], (Req_EM_T (r - l) 0) as [W|W]; try reflexivity.
  - exfalso. apply Rmult_integral in Z. lra.
  - exfalso. apply Z. rewrite W. ring.
  - cbn [nmul]. apply (f_equal (@Some R)). field. split; lra.
Qed.
Definition rescale_mat (a : R) (k : nat) (A : mat) : mat := fun i j => nmul (Some ((/ a) ^ k)) (A i j).
Lemma D_scaled_scale a b l r ell D : a <> 0 ->
  D_scaled (Some (a * l + b)) (Some (a * r + b)) ell D = rescale_mat a (S ell) (D_scaled (Some l) (Some r) ell D).
Proof.
  intro A. extensionality i. extensionality j. unfold D_scaled, rescale_mat.
  rewrite npowi_len by trivial.
  destruct (D i j) as [d|], (npowi (ndiv (Some (-2)) (nsub (Some r) (Some l))) (S ell)) as [p|]; try reflexivity. cbn [nmul]. apply (f_equal (@Some R)). ring.
Qed.
Lemma D_loop_scale a b n l r : a <> 0 -> forall todo ell D k,
  nth_error (D_loop n (Some (a * l + b)) (Some (a * r + b)) todo ell D) k =
  option_map (rescale_mat a (S (ell + k))) (nth_error (D_loop n (Some l) (Some r) todo ell D) k).
Proof.
  intros A todo. induction todo as [|t IH]; intros ell D k; cbn [D_loop].
  - destruct k; reflexivity.
  - cbv zeta. destruct k as [|k]; cbn [nth_error].
    + rewrite D_scaled_scale by trivial. rewrite Nat.add_0_r. reflexivity.
    + rewrite IH. do 2 f_equal. lia.
Qed.
Definition same_but (a b : R) (c c' : cheb) : Prop :=
  cb_npts c' = cb_npts c /\ cb_max c' = cb_max c /\
  exists l r, cb_xmin c = Some l /\ cb_xmax c = Some r /\ cb_xmin c' = Some (a * l + b) /\ cb_xmax c' = Some (a * r + b) /\
  match cb_matder c, cb_matder c' with
  | None, None => True
  | Some DM, Some DM' => forall k, nth_error DM' k = option_map (rescale_mat a (S k)) (nth_error DM k)
  | _, _ => False end.
Lemma matder_scale a b c c' k : a <> 0 -> same_but a b c c' ->
  fst (matder k c') = rescaled_matrix a k (fst (matder k c)) /\ same_but a b (snd (matder k c)) (snd (matder k c')).
Proof.
  intros A (E1 & E2 & l & r & E3 & E4 & E5 & E6 & M). unfold matder. destruct (Nat.ltb k 1) eqn:K.
  - cbn [fst snd]. split; [reflexivity|]. split; [trivial|]. split; [trivial|]. exists l, r. auto.
  - apply Nat.ltb_ge in K. rewrite E2. 
    assert (S' : same_but a b (if Nat.ltb (cb_max c) k then compute_matder k c else c) (if Nat.ltb (cb_max c) k then compute_matder k c' else c')).
    { destruct (Nat.ltb (cb_max c) k).
      - split; [exact E1|]. split; [reflexivity|]. exists l, r. cbn [compute_matder cb_xmin cb_xmax cb_matder]. repeat (split; [trivial|]).
        rewrite E1, E3, E4, E5, E6. intro m. rewrite D_loop_scale by trivial. reflexivity.
      - split; [trivial|]. split; [trivial|]. exists l, r. auto. }
    set (d := if Nat.ltb (cb_max c) k then compute_matder k c else c) in *. set (d' := if Nat.ltb (cb_max c) k then compute_matder k c' else c') in *. clearbody d d'.
    cbv zeta. destruct S' as (F1 & F2 & l' & r' & F3 & F4 & F5 & F6 & N).
    destruct (cb_matder d) as [DM|] eqn:M1, (cb_matder d') as [DM'|] eqn:M2; try contradiction; cbn [fst snd].
    + split.
      * rewrite N. destruct (nth_error DM (k - 1)); cbn [option_map rescaled_matrix]; [|reflexivity]. f_equal.
        unfold rescale_mat. replace (S (k - 1)) with k by lia. reflexivity.
      * split; [trivial|]. split; [trivial|]. exists l', r'. rewrite M1, M2. auto 10.
    + split; [reflexivity|]. split; [trivial|]. split; [trivial|]. exists l', r'. rewrite M1, M2. auto 10.
Qed.
Lemma on_interval_scale a b n l r past : a <> 0 -> same_but a b (on_interval n l r past) (on_interval n (a * l + b) (a * r + b) past).
Proof.
  intro A. unfold on_interval.
  assert (G : forall past c c', same_but a b c c' -> same_but a b (matder_run past c) (matder_run past c')).
  { clear past. induction past as [|k t IH]; intros c c' H; cbn [matder_run]; [trivial|]. apply IH. apply matder_scale; trivial. }
  apply G. split; [reflexivity|]. split; [reflexivity|]. exists l, r. cbn. auto.
Qed.
(*@P C120_matder: On another interval (in another unit, from another origin, even reversed) the derivative matrix of order k is the old one divided by the k-th power of the unit, after any requests before; orders below 1 are refused alike. *)
Lemma matder_units : forall n l r a b past k, a <> 0 ->
  fst (matder k (on_interval n (abscissa a b l) (abscissa a b r) past)) = rescaled_matrix a k (fst (matder k (on_interval n l r past))).
Proof. intros n l r a b past k A. apply matder_scale with b; trivial. now apply on_interval_scale. Qed.

Lemma to_xi_scale a b l r x : a <> 0 -> x_to_xi (Some (a * l + b)) (Some (a * r + b)) (Some (a * x + b)) = x_to_xi (Some l) (Some r) (Some x).
Proof.
  intro A. unfold x_to_xi. cbn [nsub nmul ndiv nadd nopp]. replace (a * r + b - (a * l + b)) with (a * (r - l)) by ring. replace (a * x + b - (a * l + b)) with (a * (x - l)) by ring.
  destruct (Req_EM_T (a * (r - l)) 0) as [Z|Z], (Req_EM_T (r - l) 0) as [W|W]; try reflexivity.
  - exfalso. apply Rmult_integral in Z. lra.
  - exfalso. apply Z. rewrite W. ring.
  - cbn [nsub]. apply (f_equal (@Some R)). field. split; lra.
Qed.
Lemma cheb_x_ok n l r i v : cheb_x n (Some l) (Some r) i = Some v -> forall a b, cheb_x n (Some (a * l + b)) (Some (a * r + b)) i = Some (a * v + b).
Proof.
  unfold cheb_x, xi_to_x. destruct (cheb_xi n i) as [x|]; [|discriminate]. cbn [nsub ndiv nmul nadd]. destruct (Req_EM_T (-2) 0) as [Z|Z]; [exfalso; lra|].
  cbn [nmul nadd]. intros [= <-] a b. apply (f_equal (@Some R)). field.
Qed.
(*@P C120_nodes: The collocation points are converted like the interval, and converted abscissae have the same position in [-1, 1]. *)
Lemma nodes_units : forall n l r a b i v x, a <> 0 ->
  (cheb_x n (Some l) (Some r) i = Some v -> cheb_x n (Some (abscissa a b l)) (Some (abscissa a b r)) i = Some (abscissa a b v)) /\
  x_to_xi (Some (abscissa a b l)) (Some (abscissa a b r)) (Some (abscissa a b x)) = x_to_xi (Some l) (Some r) (Some x).
Proof. intros n l r a b i v x A. split; [intro E; exact (cheb_x_ok _ _ _ _ _ E a b)|now apply to_xi_scale]. Qed.
(*@P C120_interpolation: extrapol at a converted abscissa, and fit_to_gauss of samples at converted abscissae, return exactly what they return before conversion, with any linear solver and least squares routine, after any requests. *)
Lemma interpolation_units : forall solve lstsq n l r a b past fk x m (xs : nat -> R) f, a <> 0 ->
  extrapol solve (on_interval n (abscissa a b l) (abscissa a b r) past) fk (Some (abscissa a b x)) = extrapol solve (on_interval n l r past) fk (Some x) /\
  fit_to_gauss lstsq (on_interval n (abscissa a b l) (abscissa a b r) past) m (fun i => Some (abscissa a b (xs i))) f =
  fit_to_gauss lstsq (on_interval n l r past) m (fun i => Some (xs i)) f.
Proof.
  intros solve lstsq n l r a b past fk x m xs f A.
  assert (S' := on_interval_scale a b n l r past A). unfold abscissa. set (c := on_interval n l r past) in *. set (c' := on_interval n (a * l + b) (a * r + b) past) in *.
  clearbody c c'. destruct S' as (E1 & _ & l' & r' & E3 & E4 & E5 & E6 & _). split.
  - unfold extrapol. rewrite E1, E3, E4, E5, E6. destruct (solve _ _ _); [|reflexivity]. now rewrite to_xi_scale.
  - unfold fit_to_gauss. rewrite E1, E3, E4, E5, E6.
    replace (fun i => x_to_xi (Some (a * l' + b)) (Some (a * r' + b)) (Some (a * xs i + b))) with (fun i => x_to_xi (Some l') (Some r') (Some (xs i)))
      by (extensionality i; now rewrite to_xi_scale). reflexivity.
Qed.

(*@E C120_example: a growth rate per hour and per second, an unknown in degrees Celsius and Fahrenheit; a linear system; three points on an interval in metres and millimetres *)
Lemma scale_ex : same_equation 3600 0 (fun _ => 9 / 5) (fun _ => 32) (fun _ y i => - y i) (fun _ y i => - (y i - 32) / 3600) /\
  same_equation 1 0 (fun i => match i with O => 2 | _ => -1 end) (fun _ => 0)
    (fun x y i => match i with O => y 1%nat | _ => x * y 0%nat end) (fun x y i => match i with O => -2 * y 1%nat | _ => - (x * y 0%nat) / 2 end) /\
  linear_rhs (fun x y i => match i with O => y 1%nat | _ => x * y 0%nat end) /\
  (exists fuel P Y, RK4 fuel (fun x y i => match i with O => y 1%nat | _ => x * y 0%nat end) 0 (fun _ => 1) 1 (1 / 2) = Some (P, Y)) /\
  fst (matder 1 (on_interval 3 0 2000 nil)) = rescaled_matrix 1000 1 (fst (matder 1 (on_interval 3 0 2 nil))) /\
  (exists A, fst (matder 1 (on_interval 3 0 2 nil)) = Matrix A).
Proof.
  split; [|split; [|split; [|split; [|split]]]].
  - intros x y i. unfold abscissa, unknowns. field.
  - intros x y [|i]; unfold abscissa, unknowns; field.
  - intros x al be y z [|i]; ring.
  - match goal with |- exists _ _ _, RK4 _ ?F ?x ?y ?xs ?h = _ => destruct (rk4_grid F x y xs h) as (N & _ & _ & G); [lra|lra|] end.
    destruct (G N (le_n N)) as (P & Y & E & _). now exists N, P, Y.
  - replace 2000 with (abscissa 1000 0 2) by (unfold abscissa; ring). replace 0 with (abscissa 1000 0 0) at 1 by (unfold abscissa; ring).
    apply matder_units. lra.
  - eexists. reflexivity.
Qed.
