(** Property theorems of L_Euler3.v. Generated by tools/gen.py; statements only, proofs are in L_Euler3.v. *)
From Coq Require Import String.
From Verif Require Import Num L_Num Spec M_Isentropic M_ShockWave M_Model1D M_Spectral M_Euler EulerSpec L_Isentropic L_Shock L_Model1D L_Poly L_Spectral L_Spectral2 L_Spectral3 L_Euler1 L_Euler2.
From Verif Require Import L_Euler3.
Open Scope R_scope.

(** At the left end, for a base flow of air whose state at the first node can be downstream of a steady shock: with the upstream state q0 given by the Rankine-Hugoniot relations (the three jump relations hold between q0 and the first node), its Mach number M0 (the conjugate of the Mach number of the first node) and the upstream gradient used by the code (difference quotient between q0 and the state returned by state_isentropic_Mach), rows 0, 3n and 2n of (B w - At v) are the derivatives of the density, mass and pressure jump relations across a shock displaced by eps X and moving at eps S, X and S being the extra unknowns; all other rows are the given ones bordered by a zero column. *)
Theorem C50_RH_partial : forall n D d x q r u p dM o w v dx,
  let g := 14/10 in let q1 := mkflow (r 0%nat) (u 0%nat) (p 0%nat) in
  (1 <= n)%nat -> (o_size o = 3 * n)%nat ->
  (forall i j, (i < n)%nat -> (j < n)%nat -> D i j = Some (d i j)) ->
  (forall i, (i < n)%nat -> e_rho q i = Some (r i) /\ e_u q i = Some (u i) /\ e_p q i = Some (p i)) ->
  positive_state q1 -> 0 < f_u q1 -> (g - 1) / (2 * g) < f_u q1 ^ 2 / (g * f_p q1 / f_rho q1) ->
  nsub (x 1%nat) (x 0%nat) = Some dx -> dx <> 0 ->
  exists q0 M0 q0p o',
    rankine_hugoniot g 0 q1 q0 /\ positive_state q0 /\ M0 = f_u q0 / flow_sound g q0 /\
    downstream_Mn (Some (f_u q1 / flow_sound g q1)) (Some g) = Some M0 /\
    jump_rho g (f_rho q0) (f_rho q1) M0 = 0 /\ jump_mass (f_rho q0) (f_u q0) (f_rho q1) (f_u q1) 0 = 0 /\ jump_p g (f_p q0) (f_p q1) M0 = 0 /\
    state_isentropic_Mach (obj g q0) (Some (M0 + dM * dx)) = obj g q0p /\
    setBC_RH n D x q 0 0 (("dM0dx"%string, BNum (Some dM)) :: nil) o = (None, o') /\ (o_size o' = 3 * n + 1)%nat /\
    (let X := w (3 * n)%nat in let S := v (3 * n)%nat in
     let rho0 e := f_rho q0 + e * ((f_rho q0p - f_rho q0) / dx * X) in
     let u0 e := f_u q0 + e * ((f_u q0p - f_u q0) / dx * X) in
     let p0 e := f_p q0 + e * ((f_p q0p - f_p q0) / dx * X) in
     let rho1 e := r 0%nat + e * (w 0%nat + ddx n d r 0 * X) in
     let u1 e := u 0%nat + e * (w n + ddx n d u 0 * X) in
     let p1 e := p 0%nat + e * (w (2 * n)%nat + ddx n d p 0 * X) in
     let M e := M0 + e * (dM * X - S / flow_sound g q0) in
     let Bw := matvec (3 * n + 1) (o_B o') (fun j => Some (w j)) in
     let Av := matvec (3 * n + 1) (o_At o') (fun j => Some (v j)) in
     exists b0 b1 b2, nsub (Bw 0%nat) (Av 0%nat) = Some b0 /\ nsub (Bw (3 * n)%nat) (Av (3 * n)%nat) = Some b1 /\
       nsub (Bw (2 * n)%nat) (Av (2 * n)%nat) = Some b2 /\
       is_derive (fun e => jump_rho g (rho0 e) (rho1 e) (M e)) 0 b0 /\
       is_derive (fun e => jump_mass (rho0 e) (u0 e) (rho1 e) (u1 e) (e * S) / f_rho q0) 0 b1 /\
       is_derive (fun e => jump_p g (p0 e) (p1 e) (M e)) 0 b2) /\
    forall i j, i <> 0%nat -> i <> (2 * n)%nat -> i <> (3 * n)%nat -> (i < 3 * n)%nat ->
      o_B o' i j = (if Nat.ltb j (3 * n) then o_B o i j else Some 0) /\
      o_At o' i j = (if Nat.ltb j (3 * n) then o_At o i j else Some 0).
Proof. exact RH_left. Qed.
Print Assumptions C50_RH_partial.
