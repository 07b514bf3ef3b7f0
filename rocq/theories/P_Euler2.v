(** Property theorems of L_Euler2.v. Generated by tools/gen.py; statements only, proofs are in L_Euler2.v. *)
From Verif Require Import Num L_Num M_Spectral M_Euler EulerSpec L_Poly L_Spectral L_Spectral2 L_Spectral3 L_Euler1.
From Verif Require Import L_Euler2.
Open Scope R_scope.

(** Whatever the size, differentiation matrix and current matrices (of size 3n, or 3n+1 after a shock condition): the symmetry condition at node s written at row i0 replaces rows i0, n+i0 and 2n+i0 by rho_x(s), u(s) and p_x(s) with a zero time row, and leaves every other row of both matrices unchanged. *)
Theorem C50_sym : forall n D d o s i0 w,
  (s < n)%nat -> (i0 < n)%nat -> (o_size o = 3 * n \/ o_size o = 3 * n + 1)%nat ->
  (forall i j, (i < n)%nat -> (j < n)%nat -> D i j = Some (d i j)) ->
  let o' := setBC_sym n D s i0 o in
  let Bw := matvec (o_size o') (o_B o') (fun j => Some (w j)) in
  o_size o' = o_size o /\
  Bw i0 = Some (ddx n d w s) /\ Bw (n + i0)%nat = Some (w (n + s)%nat) /\
  Bw (2 * n + i0)%nat = Some (ddx n d (fun l => w (2 * n + l)%nat) s) /\
  (forall j, o_At o' i0 j = Some 0 /\ o_At o' (n + i0)%nat j = Some 0 /\ o_At o' (2 * n + i0)%nat j = Some 0) /\
  forall i j, i <> i0 -> i <> (n + i0)%nat -> i <> (2 * n + i0)%nat ->
    o_B o' i j = o_B o i j /\ o_At o' i j = o_At o i j.
Proof. exact sym_rows. Qed.
Print Assumptions C50_sym.

(** The periodic condition (n >= 2) replaces, for each of rho, u, p, the first row by q(0) - q(n-1) and the last row by q_x(0) - q_x(n-1), with zero time rows, and leaves every other row of both matrices unchanged. *)
Theorem C50_per : forall n D d o w,
  (2 <= n)%nat -> (o_size o = 3 * n)%nat ->
  (forall i j, (i < n)%nat -> (j < n)%nat -> D i j = Some (d i j)) ->
  let o' := setBC_per n D o in
  let Bw := matvec (o_size o') (o_B o') (fun j => Some (w j)) in
  o_size o' = o_size o /\
  (forall a, (a < 3)%nat -> let wa := fun l => w (a * n + l)%nat in
     Bw (a * n)%nat = Some (wa 0%nat - wa (n - 1)%nat) /\
     Bw (a * n + (n - 1))%nat = Some (ddx n d wa 0%nat - ddx n d wa (n - 1)%nat) /\
     forall j, o_At o' (a * n)%nat j = Some 0 /\ o_At o' (a * n + (n - 1))%nat j = Some 0) /\
  forall i j, (forall a, (a < 3)%nat -> i <> a * n /\ i <> a * n + (n - 1))%nat ->
    o_B o' i j = o_B o i j /\ o_At o' i j = o_At o i j.
Proof. exact per_rows. Qed.
Print Assumptions C50_per.
