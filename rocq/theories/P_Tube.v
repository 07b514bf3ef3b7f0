(** Property theorems of L_Tube.v. Generated by tools/gen.py; statements only, proofs are in L_Tube.v. *)
From Coq Require Import String.
From Verif Require Import Num L_Num Spec M_Isentropic M_Model1D M_Spectral M_Euler M_Tube PolySpec EulerSpec EigenSpec TubeSpec L_Isentropic L_Poly L_Spectral L_Spectral2 L_Spectral3 L_Spectral4 L_Euler1 L_Euler2 L_Euler4 L_Model1D L_OrrSommerfeld L_Eigen2.
From Coquelicot Require Import Complex.
From Verif Require Import L_Tube.
Open Scope R_scope.

(** For every number of nodes, interval, and uniform base flow (positive density, pressure and gamma, any velocity), with periodic ends: the operators requested from a new Euler1D object are finite, and a complex number omega is an eigenvalue of the problem solved by solve_eig (B V = omega (-i At) V, V not zero) if and only if it is an eigenvalue of the advection at speed u, at speed u + a or at speed u - a on the same nodes, with a exact differentiation matrix; a is the sound speed. *)
Theorem C97_three_advections : forall n x0 x1 h rho u p g, (2 <= n)%nat -> x0 < x1 -> 0 < rho -> 0 < p -> 0 < g ->
  let q := mk_estate (fun _ => Some rho) (fun _ => Some u) (fun _ => Some p) (Some g) in
  let s := erun (OpBase q :: OpBC (ArgStr "per") (ArgStr "per") :: nil) (h, euler_init n (Some (Some x0)) (Some (Some x1)) None) in
  exists o x d B A, fst (fst (get_RHS_time_matrices (fst s) (snd s))) = inr o /\ o_size o = (3 * n)%nat /\
  (forall i j, (i < 3 * n)%nat -> (j < 3 * n)%nat -> o_B o i j = Some (B i j) /\ o_At o i j = Some (A i j)) /\
  (forall i, (i < n)%nat -> cheb_x n (Some x0) (Some x1) i = Some (x i)) /\ differentiates n x 1 d /\
  let a := sqrt (g * p / rho) in
  forall omega, pair_spectrum (3 * n) B A omega <->
    advection_spectrum n d u omega \/ advection_spectrum n d (u + a) omega \/ advection_spectrum n d (u - a) omega.
Proof. exact three_advections. Qed.
Print Assumptions C97_three_advections.

(** On any nodes and for any speed c other than 0: omega is an eigenvalue of the advection at speed c exactly when omega / c is one of the advection at unit speed, so that the eigenvalues of the flow come in three families in the exact ratios u : u + a : u - a; and the eigenvalues come in pairs omega, -conj(omega), so that those of negative real part, dropped by the script, carry no more information. *)
Theorem C97_families : forall n d c omega, 
  (c <> 0 -> (advection_spectrum n d c omega <-> advection_spectrum n d 1 (omega / RtoC c)%C)) /\
  (advection_spectrum n d c omega <-> advection_spectrum n d c (- Cconj omega)%C).
Proof. exact families. Qed.
Print Assumptions C97_families.

(** The Tube object of the script, for every number of nodes and every Mach number M other than 0, 1 and -1: its sound speed is 100 and its Mach number M at every node, the boundary conditions are accepted, and omega is an eigenvalue exactly when omega/(100 M), omega/(100 (M+1)) or omega/(100 (M-1)) is an eigenvalue of the unit advection on the nodes of [0,1]. *)
Theorem C97_tube : forall n M h, (2 <= n)%nat -> M <> 0 -> M <> 1 -> M <> -1 ->
  (forall i, asound (tube_state (Some M) i) = Some 100 /\ M_Model1D.Mach (tube_state (Some M) i) = Some M) /\
  exists h' e o x d B A, new_tube n (Some M) h = (None, h', e) /\ fst (fst (get_RHS_time_matrices h' e)) = inr o /\ o_size o = (3 * n)%nat /\
  (forall i j, (i < 3 * n)%nat -> (j < 3 * n)%nat -> o_B o i j = Some (B i j) /\ o_At o i j = Some (A i j)) /\
  (forall i, (i < n)%nat -> cheb_x n (Some 0) (Some 1) i = Some (x i)) /\ differentiates n x 1 d /\
  forall omega, pair_spectrum (3 * n) B A omega <->
    advection_spectrum n d 1 (omega / RtoC (100 * M))%C \/ advection_spectrum n d 1 (omega / RtoC (100 * (M + 1)))%C \/ advection_spectrum n d 1 (omega / RtoC (100 * (M - 1)))%C.
Proof. exact tube_spectrum. Qed.
Print Assumptions C97_tube.

(** For every number of nodes and Mach number M between 0 and 1, the three printed theoretical pulsations are 200 pi (1 - M), 200 pi M and 200 pi (1 + M), and each is the generator of the exact pulsations of the corresponding wave on the tube of unit length: omega is a pulsation of the advection at speed a - u (resp. u, u + a) exactly when it is an integer multiple of the printed value. *)
Theorem C97_theory : forall n M, (2 <= n)%nat -> 0 < M < 1 ->
  exists w1 w2 w3, tube_theory n (Some M) = Some w1 :: Some w2 :: Some w3 :: nil /\
  w1 = 200 * PI * (1 - M) /\ w2 = 200 * PI * M /\ w3 = 200 * PI * (1 + M) /\
  forall omega, (periodic_pulsation (100 - 100 * M) 1 omega <-> exists m : Z, omega = RtoC (w1 * IZR m)) /\
    (periodic_pulsation (100 * M) 1 omega <-> exists m : Z, omega = RtoC (w2 * IZR m)) /\
    (periodic_pulsation (100 * M + 100) 1 omega <-> exists m : Z, omega = RtoC (w3 * IZR m)).
Proof. exact theory_printed. Qed.
Print Assumptions C97_theory.

(** a number of nodes and Mach number of the theorems (those of the script), and an eigenvalue of the flow: 0, the uniform perturbation. *)
Example C97_example : (2 <= 101)%nat /\ 0 < 55/100 < 1 /\
  forall n x d c, (1 <= n)%nat -> differentiates n x 1 d -> advection_spectrum n d c (RtoC 0).
Proof. exact tube_ex. Qed.
