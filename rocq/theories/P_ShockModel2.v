(** Property theorems of L_ShockModel2.v. Generated by tools/gen.py; statements only, proofs are in L_ShockModel2.v. *)
From Coq Require Import String.
From Verif Require Import Num L_Num Spec M_Isentropic M_ShockWave M_Model1D M_Spectral M_Euler M_ShockModel PolySpec EulerSpec L_Isentropic L_Shock L_Poly L_Spectral L_Spectral2 L_Spectral3 L_Euler1 L_Euler2 L_Euler3 L_Euler4 L_Model1D L_ShockModel.
From Verif Require Import L_ShockModel2.
Open Scope R_scope.

(** For every number of nodes n >= 2, length, supersonic M0, upstream gradient dM0dx, perturbation w and its time derivative v: the first request of the operators succeeds and returns matrices of size 3n+1 (the extra unknown being the position of the shock) in which, the differentiation matrix being exact on polynomials: at the interior nodes stand the linearised Euler equations about the base flow; at the shock, the linearised velocity equation and, in rows 0, 3n and 2n, the derivatives of the density, mass and pressure jump relations across the shock displaced by eps X and moving at eps S (upstream gradients being the difference quotients used by the code); at the wall rho_x = 0, u = 0, p_x = 0. *)
Theorem C93_operators : forall n L M0 dM h w v, (2 <= n)%nat -> 0 < L -> 1 <= M0 ->
  exists e h' o x d r u p q0 q0p dx,
  new_shock_model n (Some L) None (Some (Some M0)) (Some (Some dM)) h = (inr e, h') /\
  fst (fst (get_RHS_time_matrices h' e)) = inr o /\ o_size o = (3 * n + 1)%nat /\
  (forall i, (i < n)%nat -> cheb_x n (Some 0) (Some L) i = Some (x i)) /\ differentiates n x 1 d /\
  (exists b, eu_base e = Some b /\ finite_base n b r u p (14/10)) /\
  let q1 := mkflow (r 0%nat) (u 0%nat) (p 0%nat) in
  rankine_hugoniot (14/10) 0 q1 q0 /\ positive_state q0 /\ f_u q0 = M0 * flow_sound (14/10) q0 /\
  dx = x 1%nat - x 0%nat /\ state_isentropic_Mach (obj (14/10) q0) (Some (M0 + dM * dx)) = obj (14/10) q0p /\
  let Bw := matvec (3 * n + 1) (o_B o) (fun j => Some (w j)) in
  let Aw := matvec (3 * n + 1) (o_At o) (fun j => Some (w j)) in
  let Av := matvec (3 * n + 1) (o_At o) (fun j => Some (v j)) in
  (forall k, (0 < k < n - 1)%nat -> linearised_rows n d r u p (14/10) w Bw Aw k) /\
  (exists b, Bw n = Some b /\ Aw n = Some (w n) /\
     is_derive (fun eps => u_t n d (pert r eps w 0) (pert u eps w n) (pert p eps w (2 * n)) 0) 0 b) /\
  symmetry_rows n d w Bw Aw (n - 1) /\
  (let X := w (3 * n)%nat in let S := v (3 * n)%nat in
   let rho0 eps := f_rho q0 + eps * ((f_rho q0p - f_rho q0) / dx * X) in
   let u0 eps := f_u q0 + eps * ((f_u q0p - f_u q0) / dx * X) in
   let p0 eps := f_p q0 + eps * ((f_p q0p - f_p q0) / dx * X) in
   let rho1 eps := r 0%nat + eps * (w 0%nat + ddx n d r 0 * X) in
   let u1 eps := u 0%nat + eps * (w n + ddx n d u 0 * X) in
   let p1 eps := p 0%nat + eps * (w (2 * n)%nat + ddx n d p 0 * X) in
   let M eps := M0 + eps * (dM * X - S / flow_sound (14/10) q0) in
   exists b0 b1 b2, nsub (Bw 0%nat) (Av 0%nat) = Some b0 /\ nsub (Bw (3 * n)%nat) (Av (3 * n)%nat) = Some b1 /\
     nsub (Bw (2 * n)%nat) (Av (2 * n)%nat) = Some b2 /\
     is_derive (fun eps => jump_rho (14/10) (rho0 eps) (rho1 eps) (M eps)) 0 b0 /\
     is_derive (fun eps => jump_mass (rho0 eps) (u0 eps) (rho1 eps) (u1 eps) (eps * S) / f_rho q0) 0 b1 /\
     is_derive (fun eps => jump_p (14/10) (p0 eps) (p1 eps) (M eps)) 0 b2).
Proof. exact shock_operators. Qed.
Print Assumptions C93_operators.

(** Without M1 nor M0 the construction raises AssertionError and nothing is allocated; when M1 is given, M0 is ignored. *)
Theorem C93_arguments : forall n L dM h,
  new_shock_model n L None None dM h = (inl AssertionErr, h) /\
  forall m M0, new_shock_model n L (Some m) M0 dM h = new_shock_model n L (Some m) None dM h.
Proof. exact shock_arguments. Qed.
Print Assumptions C93_arguments.

(** The upstream gradient has a default value (None), with which the model is built without complaint but can never be solved: the first request of the operators raises ValueError, and the second one silently returns matrices of size 3n+1 whose last row is zero in both matrices, without any condition at the shock nor at the wall. *)
Theorem C93_default_gradient_refuted : forall n L M1 M0 h m, (2 <= n)%nat -> 0 < L -> shock_M1 M1 M0 = Some (Some m) ->
  exists e h1 h2 e2 o, new_shock_model n (Some L) M1 M0 None h = (inr e, h1) /\
  get_RHS_time_matrices h1 e = (inl ValueError, h2, e2) /\ fst (fst (get_RHS_time_matrices h2 e2)) = inr o /\
  o_size o = (3 * n + 1)%nat /\ (forall j, o_B o (3 * n)%nat j = Some 0 /\ o_At o (3 * n)%nat j = Some 0) /\
  forall i j, (i < 3 * n)%nat -> (j < 3 * n)%nat -> o_At o i j = eye i j.
Proof. exact shock_default_gradient. Qed.
Print Assumptions C93_default_gradient_refuted.

(** The base flow is not a steady solution of the equations the operators are linearised from: its mass flow is positive at the shock and zero at the wall, whatever the parameters. *)
Theorem C93_not_steady_refuted : forall n L M0 dM h, (2 <= n)%nat -> 0 < L -> 0 < M0 -> 1/7 < M0 ^ 2 ->
  exists e h' b r0 u0 r1 u1, new_shock_model n (Some L) None (Some (Some M0)) dM h = (inr e, h') /\ eu_base e = Some b /\
  e_rho b 0%nat = Some r0 /\ e_u b 0%nat = Some u0 /\ e_rho b (n - 1)%nat = Some r1 /\ e_u b (n - 1)%nat = Some u1 /\
  0 < r0 * u0 /\ r1 * u1 = 0.
Proof. exact shock_not_steady. Qed.
Print Assumptions C93_not_steady_refuted.

(** the case run by the script: 201 nodes, length 2.28e-3, M0 = 2.495 *)
Example C93_example : (2 <= 201)%nat /\ 0 < 228/100000 /\ 1 <= 2495/1000 /\ 1/7 < (2495/1000) ^ 2 /\
  exists m, shock_M1 None (Some (Some (2495/1000))) = Some (Some m) /\ m < 1.
Proof. exact C93_ex. Qed.
