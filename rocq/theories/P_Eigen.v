(** Property theorems of L_Eigen.v. Generated by tools/gen.py; statements only, proofs are in L_Eigen.v. *)
From Coq Require Import String Permutation Sorted.
From Verif Require Import Num L_Num M_Spectral M_Euler M_OrrSommerfeld M_Eigen EigenSpec L_Poly L_Spectral3 L_OrrSommerfeld L_Model1D.
From Coquelicot Require Import Complex.
From Verif Require Import L_Eigen.
Open Scope R_scope.

(** For every spectrum (finite or not finite eigenvalues), matching list of eigenvectors, window and sort key 'real' or 'imag', with an argsort that sorts: the result holds exactly the eigenvalues with realmin <= re < realmax and imagmin < im < imagmax, in their original order, with their own eigenvectors, and an order that sorts them by increasing real part, or by decreasing imaginary part. *)
Theorem C53_selection : forall (col : Type) argsort vals vects (r0 r1 i0 i1 : R) sort,
  List.length vects = List.length vals -> (forall l, is_argsort l (argsort l)) ->
  (sort = "real"%string \/ sort = "imag"%string) ->
  exists idx vals' vects' order,
  select_and_sort (col := col) argsort (Some (vals, vects)) r0 r1 i0 i1 sort = inr (vals', vects', order) /\
  StronglySorted lt idx /\
  (forall i, In i idx <-> exists w, nth_error vals i = Some (Some w) /\ r0 <= fst w < r1 /\ i0 < snd w < i1) /\
  map Some vals' = map (nth_error vals) idx /\ map Some vects' = map (nth_error vects) idx /\
  is_argsort (map (fun z => match z with Some w => if String.eqb sort "real" then fst w else - snd w | None => 0 end) vals') order.
Proof. exact selection. Qed.
Print Assumptions C53_selection.

(** Any other sort key is an error (KeyError), as is a selection before solve_eig. *)
Theorem C53_unknown_key : forall (col : Type) argsort vals vects (r0 r1 i0 i1 : R) sort,
  (sort <> "real"%string -> sort <> "imag"%string ->
   select_and_sort (col := col) argsort (Some (vals, vects)) r0 r1 i0 i1 sort = inl EigKey) /\
  select_and_sort (col := col) argsort None r0 r1 i0 i1 sort = inl EigAttribute.
Proof. exact unknown_key. Qed.
Print Assumptions C53_unknown_key.

(** an argsort exists, and a spectrum with an infinite eigenvalue *)
Example C53_example : (exists argsort, forall l, is_argsort l (argsort l)) /\
  let vals := Some (2, -1) :: None :: Some (1, 3) :: Some (-1, 0) :: nil in
  compress (map (in_window 0 10 (-5) 5) vals) vals = Some (2, -1) :: Some (1, 3) :: nil.
Proof. exact C53_ex. Qed.
