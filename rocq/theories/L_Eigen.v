(** * C53, C70: eigenvalue selection and refinement *)
From Coq Require Import String Permutation Sorted.
From Verif Require Import Num L_Num M_Spectral M_Euler M_OrrSommerfeld M_Eigen EigenSpec L_Poly L_Spectral3 L_OrrSommerfeld L_Model1D.
From Coquelicot Require Import Complex.
Open Scope R_scope.

Lemma SS_map_S l : StronglySorted lt l -> StronglySorted lt (map S l).
Proof.
  induction 1 as [|a l H IH F]; cbn; constructor; [exact IH|]. rewrite Forall_forall in *. intros x Hx.
  apply in_map_iff in Hx. destruct Hx as (y & <- & Hy). specialize (F y Hy). lia.
Qed.
Lemma compress_idx (c : list bool) : exists idx, StronglySorted lt idx /\
  (forall i, In i idx <-> nth_error c i = Some true) /\
  forall A (l : list A), List.length l = List.length c -> map Some (compress c l) = map (nth_error l) idx.
Proof.
  induction c as [|b c (idx & S1 & S2 & S3)].
  - exists nil. split; [constructor|]. split; [intros [|i]; cbn; split; [tauto|discriminate|tauto|discriminate]|]. intros A [|]; cbn; [reflexivity|discriminate].
  - exists (if b then 0%nat :: map S idx else map S idx).
    assert (I : forall i, In i (map S idx) <-> exists k, i = S k /\ nth_error c k = Some true).
    { intros i. rewrite in_map_iff. split.
      - intros (k & <- & Hk). exists k. split; [reflexivity|]. now apply S2.
      - intros (k & -> & Hk). exists k. split; [reflexivity|]. now apply S2. }
    split; [|split].
    + destruct b; [|now apply SS_map_S]. constructor; [now apply SS_map_S|]. rewrite Forall_forall. intros x Hx. apply I in Hx. destruct Hx as (k & -> & _). lia.
    + intros i. destruct b; cbn [In]; rewrite I.
      * destruct i as [|i]; cbn [nth_error]; split; try (intros; reflexivity); auto.
        -- intros [H|(k & E & H)]; [discriminate|]. injection E as <-. exact H.
        -- intros H. right. exists i. auto.
      * destruct i as [|i]; cbn [nth_error]; split.
        -- intros (k & E & _); discriminate. -- discriminate.
        -- intros (k & E & H). injection E as <-. exact H.
        -- intros H. exists i. auto.
    + intros A [|x l] Hl; [discriminate|]. injection Hl as Hl. specialize (S3 A l Hl).
      assert (M : map (nth_error (x :: l)) (map S idx) = map (nth_error l) idx) by (rewrite map_map; reflexivity).
      destruct b; cbn [compress map]; rewrite ?M, <- S3; reflexivity.
Qed.
Lemma in_window_spec r0 r1 i0 i1 z : in_window r0 r1 i0 i1 z = true <->
  exists w, z = Some w /\ r0 <= fst w < r1 /\ i0 < snd w < i1.
Proof.
  destruct z as [w|]; cbn [in_window]; [|split; [discriminate|intros (w & H & _); discriminate]].
  destruct (Rlt_dec (fst w) r1), (Rle_dec r0 (fst w)), (Rlt_dec i0 (snd w)), (Rlt_dec (snd w) i1); cbn [andb];
  (split; [intros H; try discriminate; exists w; repeat split; (reflexivity || lra)
          |intros (w' & E & H1 & H2); injection E as <-; try reflexivity; exfalso; lra]).
Qed.

(*@P C53_selection: For every spectrum (finite or not finite eigenvalues), matching list of eigenvectors, window and sort key 'real' or 'imag', with an argsort that sorts: the result holds exactly the eigenvalues with realmin <= re < realmax and imagmin < im < imagmax, in their original order, with their own eigenvectors, and an order that sorts them by increasing real part, or by decreasing imaginary part. *)
Lemma selection : forall (col : Type) argsort vals vects (r0 r1 i0 i1 : R) sort,
  List.length vects = List.length vals -> (forall l, is_argsort l (argsort l)) ->
  (sort = "real"%string \/ sort = "imag"%string) ->
  exists idx vals' vects' order,
  select_and_sort (col := col) argsort (Some (vals, vects)) r0 r1 i0 i1 sort = inr (vals', vects', order) /\
  StronglySorted lt idx /\
  (forall i, In i idx <-> exists w, nth_error vals i = Some (Some w) /\ r0 <= fst w < r1 /\ i0 < snd w < i1) /\
  map Some vals' = map (nth_error vals) idx /\ map Some vects' = map (nth_error vects) idx /\
  is_argsort (map (fun z => match z with Some w => if String.eqb sort "real" then fst w else - snd w | None => 0 end) vals') order.
Proof.
  intros col argsort vals vects r0 r1 i0 i1 sort Hl Ha Hs.
  destruct (compress_idx (map (in_window r0 r1 i0 i1) vals)) as (idx & S1 & S2 & S3).
  exists idx, (compress (map (in_window r0 r1 i0 i1) vals) vals), (compress (map (in_window r0 r1 i0 i1) vals) vects), (argsort (map (if String.eqb sort "real" then re_key else neg_im_key) (compress (map (in_window r0 r1 i0 i1) vals) vals))). split.
  - unfold select_and_sort, sortmethod. destruct Hs as [Hs|Hs]; subst sort; cbn [String.eqb Ascii.eqb Bool.eqb]; reflexivity.
  - split; [exact S1|]. split; [|split; [|split]].
    + intros i. rewrite S2, nth_error_map. destruct (nth_error vals i) as [z|]; cbn [option_map].
      * split.
        -- intros E. injection E as E. apply in_window_spec in E. destruct E as (w & -> & H). exists w. auto.
        -- intros (w & E & H). injection E as ->. f_equal. apply in_window_spec. exists w. auto.
      * split; [discriminate|intros (w & E & _); discriminate].
    + apply S3. now rewrite map_length.
    + apply S3. now rewrite map_length.
    + destruct Hs; subst sort; cbn [String.eqb Ascii.eqb Bool.eqb]; apply Ha.
Qed.
(*@P C53_unknown_key: Any other sort key is an error (KeyError), as is a selection before solve_eig. *)
Lemma unknown_key : forall (col : Type) argsort vals vects (r0 r1 i0 i1 : R) sort,
  (sort <> "real"%string -> sort <> "imag"%string ->
   select_and_sort (col := col) argsort (Some (vals, vects)) r0 r1 i0 i1 sort = inl EigKey) /\
  select_and_sort (col := col) argsort None r0 r1 i0 i1 sort = inl EigAttribute.
Proof.
  intros col argsort vals vects r0 r1 i0 i1 sort. split; [|reflexivity]. intros H1 H2. unfold select_and_sort, sortmethod.
  rewrite (proj2 (String.eqb_neq _ _) H1), (proj2 (String.eqb_neq _ _) H2). reflexivity.
Qed.

(** an argsort, to show the hypothesis can be met: insertion sort of the indices *)
Fixpoint ins (l : list R) (i : nat) (o : list nat) : list nat :=
  match o with nil => i :: nil | j :: t => if Rle_dec (nth i l 0) (nth j l 0) then i :: o else j :: ins l i t end.
Definition isort (l : list R) (o : list nat) : list nat := fold_right (ins l) nil o.
Lemma ins_perm l i o : Permutation (ins l i o) (i :: o).
Proof. induction o as [|j o IH]; cbn; [reflexivity|]. destruct (Rle_dec _ _); [reflexivity|]. rewrite IH. apply perm_swap. Qed.
Lemma ins_sorted l i o : StronglySorted Rle (map (fun i => nth i l 0) o) -> StronglySorted Rle (map (fun i => nth i l 0) (ins l i o)).
Proof.
  induction o as [|j o IH]; cbn; intros H; [repeat constructor|]. inversion H as [|a b H1 H2]; subst.
  destruct (Rle_dec (nth i l 0) (nth j l 0)); cbn [map].
  - constructor; [exact H|]. constructor; [assumption|]. rewrite Forall_forall in *. intros x Hx. specialize (H2 x Hx). lra.
  - constructor; [now apply IH|]. rewrite Forall_forall in *. intros x Hx. apply in_map_iff in Hx. destruct Hx as (k & <- & Hk).
    apply (Permutation_in _ (ins_perm l i o)) in Hk. destruct Hk as [<-|Hk]; [lra|]. apply H2. apply in_map_iff. exists k; auto.
Qed.
(*@E C53_example: an argsort exists, and a spectrum with an infinite eigenvalue *)
Lemma C53_ex : (exists argsort, forall l, is_argsort l (argsort l)) /\
  let vals := Some (2, -1) :: None :: Some (1, 3) :: Some (-1, 0) :: nil in
  compress (map (in_window 0 10 (-5) 5) vals) vals = Some (2, -1) :: Some (1, 3) :: nil.
Proof.
  split.
  - exists (fun l => isort l (seq 0 (List.length l))). intros l. split.
    + generalize (seq 0 (List.length l)). intros o. induction o as [|i o IH]; cbn; [reflexivity|].
      rewrite ins_perm. now constructor.
    + generalize (seq 0 (List.length l)). intros o. induction o as [|i o IH]; cbn; [constructor|]. now apply ins_sorted.
  - assert (T : forall x y, 0 <= x < 10 -> -5 < y < 5 -> in_window 0 10 (-5) 5 (Some (x, y)) = true).
    { intros x y H1 H2. apply in_window_spec. exists (x, y). auto. }
    assert (F : in_window 0 10 (-5) 5 (Some (-1, 0)) = false).
    { apply Bool.not_true_iff_false. intros H. apply in_window_spec in H. destruct H as (w & E & H & _). injection E as <-. cbn [fst] in H. lra. }
    cbv zeta. cbn [map]. rewrite F, !T by lra. reflexivity.
Qed.
