(** * The Orr-Sommerfeld operator (C52, C50 wall rows, C51) *)
From Coq Require Import String.
From Verif Require Import Num L_Num M_Spectral M_Euler M_OrrSommerfeld PolySpec EulerSpec OrrSommerfeldSpec L_Poly L_Spectral L_Spectral2 L_Spectral3 L_Euler1 L_Euler2 L_Euler4 L_Model1D.
From Coquelicot Require Import Complex.
Open Scope R_scope.

Fixpoint Csum (n : nat) (f : nat -> C) : C := match n with O => RtoC 0 | S k => Cplus (Csum k f) (f k) end.
Lemma csum_Some n f g : (forall j, (j < n)%nat -> f j = Some (g j)) -> csum n f = Some (Csum n g).
Proof. induction n; intros H; cbn; [reflexivity|]. rewrite IHn, H by (intros; try apply H; lia). reflexivity. Qed.
Lemma Csum_ext n f g : (forall j, (j < n)%nat -> f j = g j) -> Csum n f = Csum n g.
Proof. induction n; intros H; cbn; [reflexivity|]. rewrite IHn, H by (intros; try apply H; lia). reflexivity. Qed.
Lemma Csum_plus n f g : Csum n (fun j => Cplus (f j) (g j)) = Cplus (Csum n f) (Csum n g).
Proof. induction n; cbn; [ring|]. rewrite IHn. ring. Qed.
Lemma Csum_scal n c f : Csum n (fun j => Cmult c (f j)) = Cmult c (Csum n f).
Proof. induction n; cbn; [ring|]. rewrite IHn. ring. Qed.
Lemma Csum_real n (d : nat -> R) (v : nat -> C) :
  Csum n (fun j => Cmult (RtoC (d j)) (v j)) = (rsum n (fun j => d j * fst (v j)), rsum n (fun j => d j * snd (v j))).
Proof.
  induction n; [reflexivity|]. cbn [Csum rsum]. rewrite IHn. unfold Cplus, Cmult, RtoC; cbn [fst snd]. f_equal; ring.
Qed.
Lemma Csum_delta n i v : (i < n)%nat -> Csum n (fun j => Cmult (RtoC (delta i j)) (v j)) = v i.
Proof.
  intros H. rewrite Csum_real, (rsum_delta n i (fun j => fst (v j))), (rsum_delta n i (fun j => snd (v j))) by assumption. now destruct (v i).
Qed.
Lemma eye_delta i j : eye i j = Some (delta i j).
Proof. unfold eye, delta. destruct (Nat.eqb i j); reflexivity. Qed.
Lemma RtoC_inj_nz x : x <> 0 -> RtoC x <> RtoC 0.
Proof. intros H E. apply H. injection E. auto. Qed.
(** complex discrete derivative *)
Definition cddx n (d : nat -> nat -> R) (v : nat -> C) i : C := Csum n (fun j => Cmult (RtoC (d i j)) (v j)).
Lemma cddx_poly n x k d vr vi i : differentiates n x k d -> (length vr <= n)%nat -> (length vi <= n)%nat -> (i < n)%nat ->
  cddx n d (fun j => cpoly vr vi (x j)) i = dcpoly k vr vi (x i).
Proof.
  intros Hd H1 H2 Hi. unfold cddx, cpoly. rewrite Csum_real. cbn [fst snd]. unfold dcpoly. f_equal.
  - apply (Hd vr i H1 Hi). - apply (Hd vi i H2 Hi).
Qed.

Section OS.
Context (n : nat) (D2 D4 : mat) (d2 d4 : nat -> nat -> R) (X : vec) (x : nat -> R) (b : osbase) (al : C) (Re : R) (u : nat -> R).
Hypothesis H2 : forall i j, (i < n)%nat -> (j < n)%nat -> D2 i j = Some (d2 i j).
Hypothesis H4 : forall i j, (i < n)%nat -> (j < n)%nat -> D4 i j = Some (d4 i j).
Hypothesis Ha : ob_alpha b = Some al.
Hypothesis HR : ob_Re b = Some Re.
Hypothesis HR0 : Re <> 0.
Hypothesis Hu : forall i, (i < n)%nat -> ob_u b (X i) = Some (u i).

Lemma At_row v i : (i < n)%nat ->
  cmatvec n (os_At D2 (ob_alpha b)) (fun j => Some (v j)) i = Some (Cminus (cddx n d2 v i) (Cmult (Cmult al al) (v i))).
Proof.
  intros Hi. unfold cmatvec. rewrite (csum_Some n _ (fun j => Cplus (Cmult (RtoC (d2 i j)) (v j)) (Cmult (Copp (Cmult al al)) (Cmult (RtoC (delta i j)) (v j))))).
  - rewrite Csum_plus, Csum_scal, Csum_delta by assumption. f_equal. unfold cddx. ring.
  - intros j Hj. unfold os_At. rewrite Ha, H2, eye_delta by assumption. cbn. f_equal. ring.
Qed.
Lemma B_row v i : (i < n)%nat ->
  cmatvec n (os_B n D2 D4 X b) (fun j => Some (v j)) i =
  Some (- Ci * al * RtoC (u i) * (cddx n d2 v i - al * al * v i) + Ci * al * RtoC (ddx n d2 u i) * v i
        + (cddx n d4 v i - RtoC 2 * (al * al) * cddx n d2 v i + al * al * (al * al) * v i) / RtoC Re)%C.
Proof.
  intros Hi.
  assert (Eu : matvec n D2 (fun k => ob_u b (X k)) i = Some (ddx n d2 u i)) by (apply (matvec_dx n D2 d2 H2 _ u i Hu Hi)).
  unfold cmatvec. rewrite (csum_Some n _ (fun j =>
    Cplus (Cplus (Cmult (- Ci * al * RtoC (u i) - RtoC 2 * (al * al) / RtoC Re)%C (Cmult (RtoC (d2 i j)) (v j)))
                 (Cmult (/ RtoC Re)%C (Cmult (RtoC (d4 i j)) (v j))))
          (Cmult (Ci * al * RtoC (u i) * (al * al) + Ci * al * RtoC (ddx n d2 u i) + al * al * (al * al) / RtoC Re)%C (Cmult (RtoC (delta i j)) (v j))))).
  - rewrite !Csum_plus, !Csum_scal, Csum_delta by assumption. fold (cddx n d2 v i) (cddx n d4 v i). f_equal. unfold Cdiv. ring.
  - intros j Hj. unfold os_B, os_At. cbv zeta. rewrite Eu, Ha, HR, H2, H4, Hu, eye_delta by assumption.
    cbn [cofn option_map cadd csub cmul]. unfold cdivn. rewrite ndiv_Some by assumption. cbn [cofn option_map cmul].
    replace (RtoC (1 / Re)) with (/ RtoC Re)%C by (rewrite <- RtoC_inv by assumption; unfold Rdiv; now rewrite Rmult_1_l).
    unfold delta. destruct (Nat.eqb_spec i j) as [->|Hij]; cbn [cadd cmul].
    + f_equal. unfold Cdiv. ring.
    + f_equal. unfold Cdiv. ring.
Qed.
End OS.

Lemma crow_change n A A' w i : (forall j, (j < n)%nat -> A i j = A' i j) -> cmatvec n A w i = cmatvec n A' w i.
Proof.
  intros H. unfold cmatvec. assert (G : forall m, (m <= n)%nat -> csum m (fun j => cmul (A i j) (w j)) = csum m (fun j => cmul (A' i j) (w j))).
  { induction m; intros Hm; cbn [csum]; [reflexivity|]. rewrite IHm, H by lia. reflexivity. }
  apply G; lia.
Qed.
Lemma crow_0 n A (w : nat -> C) i : (forall j, (j < n)%nat -> A i j = Some (RtoC 0)) -> cmatvec n A (fun j => Some (w j)) i = Some (RtoC 0).
Proof.
  intros H. unfold cmatvec. rewrite (csum_Some n _ (fun j => Cmult (RtoC (0 * 0)) (w j))).
  - f_equal. rewrite (Csum_real n (fun _ => 0 * 0)). unfold RtoC. f_equal; apply rsum_zero; intros; ring.
  - intros j Hj. rewrite H by assumption. cbn. do 3 f_equal. ring.
Qed.
(*@P C50_wall: Whatever the size, matrices and vector of finite values: the wall condition for node s written at rows i0, i0+1 replaces exactly these two rows by v(s) and v'(s), with zero rows in the time matrix, and leaves the other rows of both matrices unchanged. *)
Lemma wall_rows : forall n D d o s i0 w, (s < n)%nat -> (i0 + 1 < n)%nat ->
  (forall i j, (i < n)%nat -> (j < n)%nat -> D i j = Some (d i j)) ->
  let o' := setBC_wall n D s i0 o in
  let Bw := cmatvec n (co_B o') (fun j => Some (w j)) in let Aw := cmatvec n (co_At o') (fun j => Some (w j)) in
  Bw i0 = Some (w s) /\
  Bw (i0 + 1)%nat = Some (ddx n d (fun j => fst (w j)) s, ddx n d (fun j => snd (w j)) s) /\
  Aw i0 = Some (RtoC 0) /\ Aw (i0 + 1)%nat = Some (RtoC 0) /\
  forall i j, i <> i0 -> i <> (i0 + 1)%nat -> co_B o' i j = co_B o i j /\ co_At o' i j = co_At o i j.
Proof.
  intros n D d o s i0 w Hs Hi0 HD o' Bw Aw.
  split; [|split; [|split; [|split]]].
  - unfold Bw, cmatvec. rewrite (csum_Some n _ (fun j => Cmult (RtoC (delta s j)) (w j))); [now rewrite Csum_delta|].
    intros j Hj. unfold o', setBC_wall; cbn [co_B]. unfold czero_row, delta. clear - Hs Hi0. rngE; cbn [cmul]; reflexivity.
  - unfold Bw, cmatvec. rewrite (csum_Some n _ (fun j => Cmult (RtoC (d s j)) (w j))); [now rewrite Csum_real|].
    intros j Hj. unfold o', setBC_wall; cbn [co_B]. rngE. rewrite HD by assumption. reflexivity.
  - unfold Aw. apply crow_0. intros j Hj. unfold o', setBC_wall; cbn [co_At]. unfold czero_row. rngE; reflexivity.
  - unfold Aw. apply crow_0. intros j Hj. unfold o', setBC_wall; cbn [co_At]. unfold czero_row. rngE; reflexivity.
  - intros i j H1 H2. unfold o', setBC_wall; cbn [co_At co_B]. unfold czero_row. clear - H1 H2 Hi0. split; rngE; reflexivity.
Qed.

(** an object with its settings, before any request: the operators it will return *)
Lemma os_first_get n a b base : (2 <= n)%nat -> a < b ->
  let e := mk_os (cheb_init n (Some (Some a)) (Some (Some b))) (Some base) (Some ("wall"%string, "wall"%string)) None in
  exists D1 D2 D4 d1 d2 d4 x e',
  (forall i j, (i < n)%nat -> (j < n)%nat -> D1 i j = Some (d1 i j)) /\
  (forall i j, (i < n)%nat -> (j < n)%nat -> D2 i j = Some (d2 i j)) /\
  (forall i j, (i < n)%nat -> (j < n)%nat -> D4 i j = Some (d4 i j)) /\
  (forall i, (i < n)%nat -> cheb_x n (Some a) (Some b) i = Some (x i)) /\
  differentiates n x 1 d1 /\ differentiates n x 2 d2 /\ differentiates n x 4 d4 /\
  os_get e = (inr (setBC_wall n D1 (n - 1) (n - 2) (setBC_wall n D1 0 0
     (mk_cops (os_At D2 (ob_alpha base)) (os_B n D2 D4 (cheb_x n (Some a) (Some b)) base)))), e').
Proof.
  intros Hn Hab e.
  destruct (cheb_real n a b nil 4 Hn Hab ltac:(lia)) as (D4 & d4 & x4 & c4 & E4 & _ & Hd4 & Hx4 & Df4).
  destruct (cheb_real n a b (4 :: nil)%nat 2 Hn Hab ltac:(lia)) as (D2 & d2 & x2 & c2 & E2 & Hc2 & Hd2 & Hx2 & Df2).
  destruct (cheb_real n a b (4 :: 2 :: nil)%nat 1 Hn Hab ltac:(lia)) as (D1 & d1 & x1 & c1 & E1 & _ & Hd1 & Hx1 & Df1).
  cbn [matder_run] in E4, E2, E1. rewrite E4 in E2, E1. cbn [snd] in E2, E1. rewrite E2 in E1. cbn [snd] in E1.
  assert (X2 : forall i, (i < n)%nat -> x2 i = x4 i) by (intros i Hi; apply Some_inj; rewrite <- Hx2, <- Hx4 by assumption; reflexivity).
  assert (X1 : forall i, (i < n)%nat -> x1 i = x4 i) by (intros i Hi; apply Some_inj; rewrite <- Hx1, <- Hx4 by assumption; reflexivity).
  assert (T : forall k d y, (forall i, (i < n)%nat -> y i = x4 i) -> differentiates n y k d -> differentiates n x4 k d).
  { intros k d y Hy H p i Hp Hi. rewrite <- Hy by assumption. rewrite <- (H p i Hp Hi). apply ddx_ext. intros l Hl. now rewrite Hy. }
  exists D1, D2, D4, d1, d2, d4, x4. eexists. do 4 (split; [assumption|]).
  split; [now apply (T 1%nat d1 x1)|]. split; [now apply (T 2%nat d2 x2)|]. split; [exact Df4|].
  unfold os_get, os_compute, e. cbn [om_ops om_base om_cheb om_BC]. rewrite E4, E2. destruct Hc2 as (-> & -> & -> & _). rewrite E1.
  cbn [om_ops]. reflexivity.
Qed.

(*@P C52_exact: For every n >= 4, interval, complex alpha, Reynolds <> 0, polynomial profile U and complex polynomial v of degree < n, a new model with this base state and wall conditions returns matrices with: at interior rows 2..n-3, B v = the Orr-Sommerfeld right-hand side and At v = v'' - alpha^2 v, exactly; rows 0, 1, n-2, n-1 are v and v' at the two walls, with zero time rows. *)
Lemma os_exact : forall n a b al Re uf pu vr vi, (4 <= n)%nat -> a < b -> Re <> 0 ->
  (forall y, uf (Some y) = Some (peval pu y)) ->
  (length pu <= n)%nat -> (length vr <= n)%nat -> (length vi <= n)%nat ->
  exists e e1, os_init n (Some (Some a)) (Some (Some b)) (Some (mk_osdict (Some (Some al)) (Some (Some Re)) (Some uf))) = inr e /\
  os_set_BC "wall" "wall" e = (None, e1) /\
  exists o x, fst (os_get e1) = inr o /\ (forall i, (i < n)%nat -> cheb_x n (Some a) (Some b) i = Some (x i)) /\
  let Bv := cmatvec n (co_B o) (fun j => Some (cpoly vr vi (x j))) in
  let Av := cmatvec n (co_At o) (fun j => Some (cpoly vr vi (x j))) in
  (forall i, (2 <= i)%nat -> (i <= n - 3)%nat ->
     Bv i = Some (os_rhs al Re (peval pu) vr vi (x i)) /\ Av i = Some (os_lhs al vr vi (x i))) /\
  (Bv 0%nat = Some (cpoly vr vi (x 0%nat)) /\ Bv 1%nat = Some (dcpoly 1 vr vi (x 0%nat)) /\
   Bv (n - 2)%nat = Some (cpoly vr vi (x (n - 1)%nat)) /\ Bv (n - 1)%nat = Some (dcpoly 1 vr vi (x (n - 1)%nat))) /\
  (Av 0%nat = Some (RtoC 0) /\ Av 1%nat = Some (RtoC 0) /\ Av (n - 2)%nat = Some (RtoC 0) /\ Av (n - 1)%nat = Some (RtoC 0)).
Proof.
  intros n a b al Re uf pu vr vi Hn Hab HR Hu Lu Lr Li.
  set (base := mk_osbase (Some al) (Some Re) uf).
  eexists _, _. split; [reflexivity|]. split; [reflexivity|]. lazy beta iota delta [om_cheb om_base om_BC om_ops]. fold base.
  destruct (os_first_get n a b base ltac:(lia) Hab) as (D1 & D2 & D4 & d1 & d2 & d4 & x & e' & H1 & H2 & H4 & Hx & F1 & F2 & F4 & G).
  eexists _, x. split; [rewrite G; reflexivity|]. split; [exact Hx|]. intros Bv Av.
  set (o0 := mk_cops (os_At D2 (ob_alpha base)) (os_B n D2 D4 (cheb_x n (Some a) (Some b)) base)) in *.
  set (v := fun j => cpoly vr vi (x j)) in *.
  destruct (wall_rows n D1 d1 o0 0 0 v ltac:(lia) ltac:(lia) H1) as (W0 & W1 & Z0 & Z1 & U).
  set (o1 := setBC_wall n D1 0 0 o0) in *.
  destruct (wall_rows n D1 d1 o1 (n - 1) (n - 2) v ltac:(lia) ltac:(lia) H1) as (W2 & W3 & Z2 & Z3 & U').
  set (o2 := setBC_wall n D1 (n - 1) (n - 2) o1) in *.
  replace (n - 2 + 1)%nat with (n - 1)%nat in * by lia. cbn [Nat.add] in W1, Z1, U.
  assert (Hu' : forall i, (i < n)%nat -> ob_u base (cheb_x n (Some a) (Some b) i) = Some (peval pu (x i))).
  { intros i Hi. rewrite Hx by assumption. apply Hu. }
  split; [|split].
  - intros i L U1.
    assert (V : forall j, (j < n)%nat -> co_B o2 i j = co_B o0 i j /\ co_At o2 i j = co_At o0 i j).
    { intros j _. destruct (U' i j) as [-> ->]; [lia..|]. apply U; lia. }
    pose proof (B_row n D2 D4 d2 d4 (cheb_x n (Some a) (Some b)) base al Re (fun i => peval pu (x i)) H2 H4 eq_refl eq_refl HR Hu' v i ltac:(lia)) as RB.
    pose proof (At_row n D2 d2 base al H2 eq_refl v i ltac:(lia)) as RA.
    unfold v in RA, RB. rewrite !(cddx_poly n x 2 d2) in RA, RB by (assumption || lia). rewrite !(cddx_poly n x 4 d4) in RB by (assumption || lia).
    rewrite (F2 pu i Lu ltac:(lia)) in RB. split.
    + etransitivity; [apply (crow_change n (co_B o2) (co_B o0)); intros; apply V; assumption|]. exact RB.
    + etransitivity; [apply (crow_change n (co_At o2) (co_At o0)); intros; apply V; assumption|]. exact RA.
  - assert (V : forall i, (i = 0 \/ i = 1)%nat -> Bv i = cmatvec n (co_B o1) (fun j => Some (v j)) i).
    { intros i Hi. apply crow_change. intros j _. apply U'; lia. }
    rewrite !V by auto. change Bv with (cmatvec n (co_B o2) (fun j => Some (v j))). rewrite W0, W1, W2, W3. split; [reflexivity|].
    split; [|split; [reflexivity|]]; f_equal; unfold dcpoly, v, cpoly; cbn [fst snd]; f_equal; apply F1; assumption || lia.
  - assert (V : forall i, (i = 0 \/ i = 1)%nat -> Av i = cmatvec n (co_At o1) (fun j => Some (v j)) i).
    { intros i Hi. apply crow_change. intros j _. apply U'; lia. }
    rewrite !V by auto. change Av with (cmatvec n (co_At o2) (fun j => Some (v j))). rewrite Z0, Z1, Z2, Z3. auto.
Qed.

(*@P C52_operator: For arbitrary (not necessarily polynomial) profile values u and complex vectors v, the rows before boundary conditions are the discrete Orr-Sommerfeld expressions, whatever the two differentiation matrices. *)
Lemma os_operator : forall n D2 D4 d2 d4 X b al Re u v i,
  (forall i j, (i < n)%nat -> (j < n)%nat -> D2 i j = Some (d2 i j)) ->
  (forall i j, (i < n)%nat -> (j < n)%nat -> D4 i j = Some (d4 i j)) ->
  ob_alpha b = Some al -> ob_Re b = Some Re -> Re <> 0 ->
  (forall i, (i < n)%nat -> ob_u b (X i) = Some (u i)) -> (i < n)%nat ->
  let dv d := (ddx n d (fun j => fst (v j)) i, ddx n d (fun j => snd (v j)) i) in
  cmatvec n (os_At D2 (ob_alpha b)) (fun j => Some (v j)) i = Some (dv d2 - al * al * v i)%C /\
  cmatvec n (os_B n D2 D4 X b) (fun j => Some (v j)) i =
  Some (- Ci * al * RtoC (u i) * (dv d2 - al * al * v i) + Ci * al * RtoC (ddx n d2 u i) * v i
        + (dv d4 - RtoC 2 * (al * al) * dv d2 + al * al * (al * al) * v i) / RtoC Re)%C.
Proof.
  intros n D2 D4 d2 d4 X b al Re u v i H2 H4 Ha HR HR0 Hu Hi dv.
  assert (E : forall d, dv d = cddx n d v i) by (intros d; unfold cddx; now rewrite Csum_real).
  rewrite !E. split; [now apply At_row|now apply B_row].
Qed.

(*@P C52_missing_keys: A base state lacking any of the keys alpha, Reynolds, uprofile is refused, by the constructor and by set_basestate, which leaves the object unchanged; a complete one is accepted. *)
Lemma missing_keys : forall n xmin xmax s e,
  ((os_alpha s = None \/ os_Re s = None \/ os_u s = None) ->
     os_set_basestate s e = (Some OsDictKey, e) /\ os_init n xmin xmax (Some s) = inl OsDictKey) /\
  (forall a r u, os_alpha s = Some a -> os_Re s = Some r -> os_u s = Some u ->
     exists e', os_set_basestate s e = (None, e') /\ om_base e' = Some (mk_osbase a r u)).
Proof.
  intros n xmin xmax [[a|] [r|] [u|]] e; cbn [os_alpha os_Re os_u]; split; unfold os_init, os_set_basestate; cbn [os_alpha os_Re os_u];
  try (intros; split; reflexivity); try (intros [H|[H|H]]; discriminate); try (intros; discriminate).
  intros a' r' u' E1 E2 E3. injection E1 as <-. injection E2 as <-. injection E3 as <-. eexists. split; reflexivity.
Qed.

(*@P C52_poiseuille: Poiseuille(n, alpha, Reynolds) is the model on [-1, 1] with the profile 1 - y^2 and wall conditions: for n >= 4 and every complex polynomial v of degree < n its operators are exact as above. *)
Lemma poiseuille : forall n al Re vr vi, (4 <= n)%nat -> Re <> 0 -> (length vr <= n)%nat -> (length vi <= n)%nat ->
  exists e, Poiseuille n (Some al) (Some Re) = inr e /\
  exists o x, fst (os_get e) = inr o /\ (forall i, (i < n)%nat -> cheb_x n (Some (-1)) (Some 1) i = Some (x i)) /\
  let Bv := cmatvec n (co_B o) (fun j => Some (cpoly vr vi (x j))) in
  let Av := cmatvec n (co_At o) (fun j => Some (cpoly vr vi (x j))) in
  (forall i, (2 <= i)%nat -> (i <= n - 3)%nat ->
     Bv i = Some (os_rhs al Re (fun y => 1 - y ^ 2) vr vi (x i)) /\ Av i = Some (os_lhs al vr vi (x i))) /\
  (Bv 0%nat = Some (cpoly vr vi (-1)) /\ Bv 1%nat = Some (dcpoly 1 vr vi (-1)) /\
   Bv (n - 2)%nat = Some (cpoly vr vi 1) /\ Bv (n - 1)%nat = Some (dcpoly 1 vr vi 1)) /\
  (Av 0%nat = Some (RtoC 0) /\ Av 1%nat = Some (RtoC 0) /\ Av (n - 2)%nat = Some (RtoC 0) /\ Av (n - 1)%nat = Some (RtoC 0)).
Proof.
  intros n al Re vr vi Hn HR Lr Li.
  assert (EU : peval (1 :: 0 :: -1 :: nil) = fun y => 1 - y ^ 2) by (apply FunctionalExtensionality.functional_extensionality; intros y; cbn; ring).
  destruct (os_exact n (-1) 1 al Re (fun x => nsub (Some 1) (npowi x 2)) (1 :: 0 :: -1 :: nil) vr vi Hn ltac:(lra) HR)
    as (e & e1 & E1 & E2 & o & x & G & Hx & Rest); [|cbn; lia|assumption|assumption|].
  { intros y. rewrite EU. reflexivity. }
  exists e1. split.
  - apply (f_equal (fun z => match z with inr e => os_set_BC "wall" "wall" e | inl _ => (Some OsType, e) end)) in E1. cbv beta iota in E1.
    rewrite E2 in E1.
    change (Poiseuille n (Some al) (Some Re)) with
      (match os_set_BC "wall" "wall" (mk_os (cheb_init n (Some (Some (-1))) (Some (Some 1)))
          (Some (mk_osbase (Some al) (Some Re) (fun x => nsub (Some 1) (npowi x 2)))) None None) with
       (Some x, _) => inl x | (None, e2) => inr e2 end).
    assert (E3 : os_set_BC "wall" "wall" (mk_os (cheb_init n (Some (Some (-1))) (Some (Some 1)))
          (Some (mk_osbase (Some al) (Some Re) (fun x => nsub (Some 1) (npowi x 2)))) None None) = (None, e1)) by exact E1.
    rewrite E3. reflexivity.
  - exists o, x. split; [exact G|]. split; [exact Hx|]. rewrite EU in Rest.
    destruct (x_nodes n (-1) 1 ltac:(lia) ltac:(lra)) as (X0 & X1 & _). cbn [cheb_init cb_xmin cb_xmax] in X0, X1.
    rewrite Hx in X0, X1 by lia. apply Some_inj in X0. apply Some_inj in X1. rewrite X0, X1 in Rest. exact Rest.
Qed.

(** ** caching *)
Lemma os_cached e o : om_ops e = Some o -> os_get e = (inr o, e).
Proof. intros E. unfold os_get. rewrite E. reflexivity. Qed.
Lemma os_run_keeps l e o : om_ops e = Some o -> om_ops (osrun l e) = Some o.
Proof.
  revert e; induction l as [|op l IH]; intros e E; cbn [osrun]; [exact E|]. apply IH. destruct op as [s|l' r|]; cbn [osstep].
  - unfold os_set_basestate. destruct (os_alpha s), (os_Re s), (os_u s); exact E.
  - unfold os_set_BC. destruct (andb _ _); exact E.
  - rewrite (os_cached e o E). exact E.
Qed.
(*@P C51_os_stale_refuted: Orr-Sommerfeld: after one successful request, later requests return the same matrices whatever base states (alpha, Reynolds, profile) are set. *)
Lemma os_stale : forall e o e1 l, os_get e = (inr o, e1) -> fst (os_get (osrun l e1)) = inr o.
Proof.
  intros e o e1 l H. assert (E : om_ops e1 = Some o).
  { unfold os_get in H. destruct (om_ops e) eqn:E; [injection H as <- <-; exact E|].
    destruct (os_compute e) as [[x|] e']; [discriminate|]. destruct (om_ops e') eqn:E'; [|discriminate]. injection H as <- <-. exact E'. }
  rewrite (os_cached _ o (os_run_keeps l e1 o E)). reflexivity.
Qed.
(*@P C51_os_failed_request_refuted: Orr-Sommerfeld without boundary conditions: the first request raises TypeError and the second one silently returns matrices without boundary conditions. *)
Lemma os_failed_request : forall n a b s, (2 <= n)%nat -> a < b -> os_alpha s <> None -> os_Re s <> None -> os_u s <> None ->
  exists e e1 o D2 D4 base, os_init n (Some (Some a)) (Some (Some b)) (Some s) = inr e /\
  os_get e = (inl OsType, e1) /\ os_get e1 = (inr o, e1) /\
  o = mk_cops (os_At D2 (ob_alpha base)) (os_B n D2 D4 (cheb_x n (Some a) (Some b)) base) /\ om_base e = Some base.
Proof.
  intros n a b [[al|] [Re|] [u|]] Hn Hab H1 H2 H3; cbn [os_alpha os_Re os_u] in *; try congruence.
  destruct (cheb_real n a b nil 4 Hn Hab ltac:(lia)) as (D4 & d4 & x4 & c4 & E4 & _).
  destruct (cheb_real n a b (4 :: nil)%nat 2 Hn Hab ltac:(lia)) as (D2 & d2 & x2 & c2 & E2 & Hc2 & _).
  cbn [matder_run] in E4, E2. rewrite E4 in E2. cbn [snd] in E2.
  eexists _, _, _, D2, D4, _. split; [reflexivity|]. split.
  - unfold os_get, os_compute. cbn [om_ops om_base om_cheb om_BC]. rewrite E4, E2. destruct Hc2 as (-> & -> & -> & _). reflexivity.
  - split; [apply os_cached; reflexivity|]. split; reflexivity.
Qed.
(*@P C51_os_before_request: Before any request the last accepted base state is used: setting s1 then s2 then the walls gives the same operators as s2 alone. *)
Lemma os_before : forall n xmin xmax s1 s2 e,
  os_init n xmin xmax (Some s1) = inr e -> os_alpha s2 <> None -> os_Re s2 <> None -> os_u s2 <> None ->
  exists e2, os_init n xmin xmax (Some s2) = inr e2 /\
  os_get (osrun (OsBase s2 :: OsBC "wall" "wall" :: nil) e) = os_get (osrun (OsBC "wall" "wall" :: nil) e2).
Proof.
  intros n xmin xmax [[a|] [r|] [u|]] [[a2|] [r2|] [u2|]] e E H1 H2 H3; cbn in E, H1, H2, H3; try discriminate; try congruence.
  injection E as <-. eexists. split; reflexivity.
Qed.
(*@E C52_example: plane Poiseuille flow, alpha = 1, Re = 10000, n = 8, v = (1 - y^2)^2 *)
Lemma C52_ex : let v := 1 :: 0 :: -2 :: 0 :: 1 :: nil in (4 <= 8)%nat /\ 10000 <> 0 /\ (length v <= 8)%nat /\
  os_rhs (RtoC 1) 10000 (fun y => 1 - y ^ 2) v nil 0 = (33/10000, 3).
Proof.
  cbv zeta.
  split; [lia|]. split; [lra|]. split; [cbn; lia|].
  unfold os_rhs, dcpoly, cpoly. rewrite !Derive_n_peval.
  assert (E : Derive_n (fun y => 1 - y ^ 2) 2 0 = -2).
  { replace (fun y => 1 - y ^ 2) with (peval (1 :: 0 :: -1 :: nil)) by (apply FunctionalExtensionality.functional_extensionality; intros y; cbn; ring).
    rewrite Derive_n_peval. unfold pjet; cbn. ring. }
  rewrite E. unfold pjet; cbn -[Cplus Cmult Cdiv Copp Cminus Ci RtoC].
  unfold Cdiv. rewrite <- RtoC_inv by lra. unfold Cminus, Cplus, Cmult, Copp, Ci, RtoC; cbn [fst snd].
  f_equal; field.
Qed.
