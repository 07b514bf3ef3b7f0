(** Property theorems of L_Oblique.v. Generated by tools/gen.py; statements only, proofs are in L_Oblique.v. *)
From Verif Require Import L_Num Spec NumSpec M_Isentropic M_Degree M_ShockWave L_Isentropic L_Degree L_Shock.
From Verif Require Import L_Oblique.
Open Scope R_scope.

(** The deflection is the angle by which the velocity turns when its component normal to the shock is divided by Rho_ratio and its tangential component is kept. The upstream velocity (V,0) is V cos(s) along the shock line (cos s, sin s) plus V sin(s) along the normal (sin s, -cos s). *)
Theorem C15_turning : forall g M V sigma, 1 < g -> 0 < M -> 0 < V -> 0 < sigma < 90 ->
  let s := sigma * (PI / 180) in
  exists th R, deflection_Mach_sigma (Some M) (Some sigma) (Some g) = Some th /\
    Rho_ratio (Some (M * sin s)) (Some g) = Some R /\ -90 < th < 90 /\
    let vt := V * cos s in let vn := V * sin s / R in
    exists W, 0 < W /\ vt * cos s + vn * sin s = W * cos (th * (PI / 180)) /\
                       vt * sin s - vn * cos s = W * sin (th * (PI / 180)).
Proof. exact deflection_turning. Qed.
Print Assumptions C15_turning.

(** tan(theta) = 2 cot(sigma) (M^2 sin^2 sigma - 1)/(M^2 (gamma + cos 2 sigma) + 2), the denominator being positive. *)
Theorem C15_theta_beta_M : forall g M sigma, 1 < g -> 0 < M -> 0 < sigma < 90 ->
  let s := sigma * (PI / 180) in
  0 < M ^ 2 * (g + cos (2 * s)) + 2 /\
  exists th, deflection_Mach_sigma (Some M) (Some sigma) (Some g) = Some th /\
    tan (th * (PI / 180)) = 2 * (cos s / sin s) * (M ^ 2 * sin s ^ 2 - 1) / (M ^ 2 * (g + cos (2 * s)) + 2).
Proof. exact deflection_theta_beta_M. Qed.
Print Assumptions C15_theta_beta_M.

(** The deflection is positive between the Mach angle asin(1/M) and 90 degrees, zero exactly at the Mach angle, negative below it. *)
Theorem C15_sign : forall g M sigma, 1 < g -> 1 < M -> 0 < sigma < 90 ->
  exists mu th, dasin (ndiv (Some 1) (Some M)) = Some mu /\
    deflection_Mach_sigma (Some M) (Some sigma) (Some g) = Some th /\
    (mu < sigma <-> 0 < th) /\ (mu = sigma <-> th = 0) /\ (sigma < mu <-> th < 0).
Proof. exact deflection_sign. Qed.
Print Assumptions C15_sign.

(** The deflection tends to zero as sigma tends to 90 degrees. *)
Theorem C15_limit_90 : forall g M eps, 1 < g -> 1 < M -> 0 < eps ->
  exists d, 0 < d < 90 /\ forall sigma, 90 - d < sigma < 90 ->
  exists th, deflection_Mach_sigma (Some M) (Some sigma) (Some g) = Some th /\ Rabs th < eps.
Proof. exact deflection_limit. Qed.
Print Assumptions C15_limit_90.

(** M = 2, gamma = 1.4, sigma = 30 degrees is the Mach angle: no deflection *)
Example C15_example : deflection_Mach_sigma (Some 2) (Some 30) dgamma = Some 0.
Proof. exact C15_example_lemma. Qed.
