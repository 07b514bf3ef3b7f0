(** * The discretised one-dimensional Euler equations in primitive variables
    Independent of the model of the code. *)
From Coq Require Import Reals List.
From Coquelicot Require Import Coquelicot.
From Verif Require Import PolySpec.
Open Scope R_scope.

Fixpoint Sum (n : nat) (t : nat -> R) : R :=
  match n with O => 0 | S k => Sum k t + t k end.
(** the discrete derivative of nodal values [f] at node [i] *)
Definition ddx (n : nat) (d : nat -> nat -> R) (f : nat -> R) (i : nat) : R :=
  Sum n (fun j => d i j * f j).

(** time derivatives at node [i]:
    rho_t = -(u rho_x + rho u_x),  u_t = -(u u_x + p_x / rho),  p_t = -(u p_x + g p u_x) *)
Definition rho_t n d (rho u : nat -> R) (i : nat) : R :=
  - (u i * ddx n d rho i + rho i * ddx n d u i).
Definition u_t n d (rho u p : nat -> R) (i : nat) : R :=
  - (u i * ddx n d u i + ddx n d p i / rho i).
Definition p_t n d g (u p : nat -> R) (i : nat) : R :=
  - (u i * ddx n d p i + g * p i * ddx n d u i).

(** the perturbed fields: [w] stacks the perturbations of rho, u and p *)
Definition pert (f : nat -> R) (eps : R) (w : nat -> R) (off : nat) : nat -> R :=
  fun i => f i + eps * w (off + i)%nat.

(** ** Jump relations across a normal shock moving at speed [s]
    (0: upstream, 1: downstream, [M]: upstream Mach number relative to the shock).  The
    Rankine-Hugoniot relations are equivalent to the vanishing of these three residuals. *)
Definition jump_rho (g rho0 rho1 M : R) : R := rho1 / rho0 - (g + 1) * M ^ 2 / (2 + (g - 1) * M ^ 2).
Definition jump_mass (rho0 u0 rho1 u1 s : R) : R := rho1 * (u1 - s) - rho0 * (u0 - s).
Definition jump_p (g p0 p1 M : R) : R := p1 / p0 - (1 + 2 * g / (g + 1) * (M ^ 2 - 1)).

(** [d] gives the exact [k]-th derivative at the nodes [x 0 .. x (n-1)] of every polynomial
    with at most [n] coefficients *)
Definition differentiates (n : nat) (x : nat -> R) (k : nat) (d : nat -> nat -> R) : Prop :=
  forall p i, (length p <= n)%nat -> (i < n)%nat ->
  ddx n d (fun j => peval p (x j)) i = Derive_n (peval p) k (x i).

(** [Bw] and [Aw] are the results of the two operators on the perturbation [w] (None: not a
    finite number).  At node [k], [Bw] holds the derivatives along [w] of the three discretised
    equations, and [Aw] the perturbation itself: the rows state  w_t = (linearised equations) w. *)
Definition linearised_rows n d (r u p : nat -> R) g (w : nat -> R) (Bw Aw : nat -> option R) (k : nat) : Prop :=
  exists b0 b1 b2, Bw k = Some b0 /\ Bw (n + k)%nat = Some b1 /\ Bw (2 * n + k)%nat = Some b2 /\
  is_derive (fun eps => rho_t n d (pert r eps w 0) (pert u eps w n) k) 0 b0 /\
  is_derive (fun eps => u_t n d (pert r eps w 0) (pert u eps w n) (pert p eps w (2 * n)) k) 0 b1 /\
  is_derive (fun eps => p_t n d g (pert u eps w n) (pert p eps w (2 * n)) k) 0 b2 /\
  Aw k = Some (w k) /\ Aw (n + k)%nat = Some (w (n + k)%nat) /\ Aw (2 * n + k)%nat = Some (w (2 * n + k)%nat).
(** slip wall: rho_x = 0, u = 0, p_x = 0 at node [k], without time derivative *)
Definition symmetry_rows n d (w : nat -> R) (Bw Aw : nat -> option R) (k : nat) : Prop :=
  Bw k = Some (ddx n d w k) /\ Bw (n + k)%nat = Some (w (n + k)%nat) /\
  Bw (2 * n + k)%nat = Some (ddx n d (fun l => w (2 * n + l)%nat) k) /\
  Aw k = Some 0 /\ Aw (n + k)%nat = Some 0 /\ Aw (2 * n + k)%nat = Some 0.
(** periodicity of rho, u, p and of their derivatives *)
Definition periodic_rows n d (w : nat -> R) (Bw Aw : nat -> option R) : Prop :=
  forall a, (a < 3)%nat -> let wa := fun l => w (a * n + l)%nat in
  Bw (a * n)%nat = Some (wa 0%nat - wa (n - 1)%nat) /\
  Bw (a * n + (n - 1))%nat = Some (ddx n d wa 0%nat - ddx n d wa (n - 1)%nat) /\
  Aw (a * n)%nat = Some 0 /\ Aw (a * n + (n - 1))%nat = Some 0.
