(** Property theorems of L_Spectral.v. Generated by tools/gen.py; statements only, proofs are in L_Spectral.v. *)
From Verif Require Import Num L_Num PolySpec L_Poly M_Spectral.
From Verif Require Import L_Spectral.
Open Scope R_scope.

(** For every npts >= 2, xi has its first value 1, its last value -1, and decreases strictly. *)
Theorem C45_xi_nodes : forall npts, (2 <= npts)%nat ->
  cheb_xi npts 0%nat = Some 1 /\ cheb_xi npts (npts - 1)%nat = Some (-1) /\
  forall i j, (i < j)%nat -> (j < npts)%nat ->
  exists a b, cheb_xi npts i = Some a /\ cheb_xi npts j = Some b /\ -1 <= b < a /\ a <= 1.
Proof. exact xi_nodes. Qed.
Print Assumptions C45_xi_nodes.

(** For every npts >= 2 and xmin < xmax, x starts exactly at xmin, ends exactly at xmax and increases strictly. *)
Theorem C45_x_nodes : forall npts xmin xmax, (2 <= npts)%nat -> xmin < xmax ->
  let c := cheb_init npts (Some (Some xmin)) (Some (Some xmax)) in
  let x := cheb_x npts (cb_xmin c) (cb_xmax c) in
  x 0%nat = Some xmin /\ x (npts - 1)%nat = Some xmax /\
  forall i j, (i < j)%nat -> (j < npts)%nat ->
  exists a b, x i = Some a /\ x j = Some b /\ xmin <= a < b /\ b <= xmax.
Proof. exact x_nodes. Qed.
Print Assumptions C45_x_nodes.

(** Without xmin and xmax the interval is [-1, 1], and x is xi with the sign changed. *)
Theorem C45_default_interval : forall npts, (2 <= npts)%nat ->
  let c := cheb_init npts None None in
  forall i, cheb_x npts (cb_xmin c) (cb_xmax c) i = nopp (cheb_xi npts i).
Proof. exact default_interval. Qed.
Print Assumptions C45_default_interval.

(** _x_to_xi and _xi_to_x are inverse to each other everywhere, not only at the nodes. *)
Theorem C45_maps_inverse : forall xmin xmax x, xmin < xmax ->
  x_to_xi (Some xmin) (Some xmax) (xi_to_x (Some xmin) (Some xmax) (Some x)) = Some x /\
  xi_to_x (Some xmin) (Some xmax) (x_to_xi (Some xmin) (Some xmax) (Some x)) = Some x.
Proof. exact maps_inverse. Qed.
Print Assumptions C45_maps_inverse.

(** With a single point the node is not a number (division by npts-1 = 0). *)
Theorem C45_single_point : forall xmin xmax, cheb_xi 1%nat 0%nat = None /\ cheb_x 1%nat xmin xmax 0%nat = None.
Proof. exact single_point. Qed.
Print Assumptions C45_single_point.

(** After any sequence of matder requests (valid or refused), matder(k) returns exactly what it returns on a fresh object, and a request with order 0 is refused without changing the object. *)
Theorem C46_history_independent : forall npts xmin xmax history k,
  let c0 := cheb_init npts xmin xmax in
  let c := matder_run history c0 in
  fst (matder k c) = fst (matder k c0) /\
  ((1 <= k)%nat -> exists A, fst (matder k c) = Matrix A) /\
  (k = 0%nat -> matder k c = (AssertionError, c)).
Proof. exact history_independent. Qed.
Print Assumptions C46_history_independent.

(** A request whose order does not exceed one already served leaves the object unchanged (the matrices are not recomputed), and a larger request enlarges the stored family, keeping the matrices already computed. *)
Theorem C46_computed_once : forall npts xmin xmax history k,
  let c := matder_run history (cheb_init npts xmin xmax) in
  (Exists (fun j => (k <= j)%nat) history -> snd (matder k c) = c) /\
  forall j, (1 <= j <= cb_max c)%nat -> fst (matder j (snd (matder k c))) = fst (matder j c).
Proof. exact computed_once. Qed.
Print Assumptions C46_computed_once.

(** a history mixing refused, small and large requests. *)
Example C46_example : fst (matder 2%nat (matder_run (3 :: 0 :: 1 :: 5 :: 2 :: nil)%nat (cheb_init 8%nat None None)))
  = fst (matder 2%nat (cheb_init 8%nat None None)).
Proof. exact history_ex. Qed.

(** three nodes on [0,2] are 0, 1, 2, and the maps send 1 to 0. *)
Example C45_example : cheb_x 3%nat (Some 0) (Some 2) 0%nat = Some 0 /\ cheb_x 3%nat (Some 0) (Some 2) 1%nat = Some 1 /\
  cheb_x 3%nat (Some 0) (Some 2) 2%nat = Some 2 /\ x_to_xi (Some 0) (Some 2) (Some 1) = Some 0 /\ (2 <= 3)%nat /\ 0 < 2.
Proof. exact C45_example_lemma. Qed.
