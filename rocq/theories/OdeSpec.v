(** * Specifications for Runge-Kutta methods *)
From Coq Require Import Reals List Lia Lra.
Import ListNotations.
Open Scope R_scope.

(** rooted trees, their order, density and elementary weights (J.C. Butcher): a method with
    coefficients a, b, c has order p iff  sum_i b_i phi_i(t) = 1/gamma(t)  for every tree t of
    order at most p *)
Inductive tree := Node (l : list tree).
Fixpoint order (t : tree) : nat := match t with Node l => S (fold_right (fun u s => (order u + s)%nat) O l) end.
Fixpoint density (t : tree) : R :=
  match t with Node l => INR (order t) * fold_right (fun u p => density u * p) 1 l end.
Fixpoint Sum_to (n : nat) (f : nat -> R) : R := match n with O => 0 | S k => Sum_to k f + f k end.
(** phi_i(t) for [s] stages: the product over the sons u of  sum_j a_ij phi_j(u) *)
Fixpoint weight (s : nat) (a : nat -> nat -> R) (t : tree) (i : nat) : R :=
  match t with Node l => fold_right (fun u p => Sum_to s (fun j => a i j * weight s a u j) * p) 1 l end.
Definition has_order (p s : nat) (a : nat -> nat -> R) (b : nat -> R) : Prop :=
  forall t, (order t <= p)%nat -> Sum_to s (fun i => b i * weight s a t i) = 1 / density t.

(** stages of the explicit method with coefficients a, c: K s = h F(x + c_s h, y + sum_{j<s} a_sj K_j) *)
Definition is_stages (s : nat) (a : nat -> nat -> R) (c : nat -> R) (F : R -> (nat -> R) -> nat -> R)
    (x : R) (y : nat -> R) (h : R) (K : nat -> nat -> R) : Prop :=
  forall k i, (k < s)%nat -> K k i = h * F (x + c k * h) (fun m => y m + Sum_to k (fun j => a k j * K j m)) i.

(** a linear right-hand side *)
Definition linear (L : (nat -> R) -> nat -> R) : Prop :=
  forall (p q : R) (u v w : nat -> R), (forall i, w i = p * u i + q * v i) -> forall i, L w i = p * L u i + q * L v i.
(** p(t) and its antiderivative *)
Definition cubic (a : nat -> nat -> R) (i : nat) (t : R) : R := a i 0%nat + a i 1%nat * t + a i 2%nat * t ^ 2 + a i 3%nat * t ^ 3.
Definition quartic (a : nat -> nat -> R) (i : nat) (t : R) : R := cubic a i t + a i 4%nat * t ^ 4.
Definition prim_cubic (a : nat -> nat -> R) (i : nat) (t : R) : R :=
  a i 0%nat * t + a i 1%nat * t ^ 2 / 2 + a i 2%nat * t ^ 3 / 3 + a i 3%nat * t ^ 4 / 4.
Definition prim_quartic (a : nat -> nat -> R) (i : nat) (t : R) : R := prim_cubic a i t + a i 4%nat * t ^ 5 / 5.

(** the classical method of order four, the method of Cash and Karp *)
Definition rk4_a (i j : nat) : R := match i, j with 1%nat, 0%nat => 1/2 | 2%nat, 1%nat => 1/2 | 3%nat, 2%nat => 1 | _, _ => 0 end.
Definition rk4_b (i : nat) : R := match i with 0%nat => 1/6 | 1%nat => 1/3 | 2%nat => 1/3 | 3%nat => 1/6 | _ => 0 end.
Definition rk4_c (i : nat) : R := match i with 0%nat => 0 | 1%nat => 1/2 | 2%nat => 1/2 | 3%nat => 1 | _ => 0 end.
Definition row (l : list R) (j : nat) : R := nth j l 0.
Definition ck_a (i : nat) : nat -> R :=
  row (match i with
  | 1%nat => [1/5]
  | 2%nat => [3/40; 9/40]
  | 3%nat => [3/10; -9/10; 6/5]
  | 4%nat => [-11/54; 5/2; -70/27; 35/27]
  | 5%nat => [1631/55296; 175/512; 575/13824; 44275/110592; 253/4096]
  | _ => [] end).
Definition ck_c : nat -> R := row [0; 1/5; 3/10; 3/5; 1; 7/8].
Definition ck_b5 : nat -> R := row [37/378; 0; 250/621; 125/594; 0; 512/1771].
Definition ck_b4 : nat -> R := row [2825/27648; 0; 18575/48384; 13525/55296; 277/14336; 1/4].
