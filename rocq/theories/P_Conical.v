(** Property theorems of L_Conical.v. Generated by tools/gen.py; statements only, proofs are in L_Conical.v. *)
From Verif Require Import Num L_Num M_Degree M_IterSolve M_ShockWave M_Ode M_Conical ConicalSpec L_Ode L_Secant.
From Coquelicot Require Import Coquelicot.
From Verif Require Import L_Conical.
Open Scope R_scope.

(** Whatever M, gamma, shock angle |sigma| >= tol and tolerance: when conical_deflection_Mach_sigma returns d, then from the state just behind the shock (ray sigma, flow angle of the plane oblique shock, Mach number whose component normal to the shock is the downstream normal Mach number) a chain of accepted steps - error estimate at most tol - of the conical equations leads to a ray phi where the flow angle theta is within tol of phi, and d is midway, within tol/2 of both. *)
Theorem C58_wall : forall fuel Mach sigma gamma tol d, tol <= Rabs sigma ->
  conical_deflection_Mach_sigma fuel Mach (Some sigma) gamma tol = Some d ->
  let step (phi : R) (y : R * R) (h : R) := match rkf45_2 (conical_rhs gamma) (Some phi) (Some (fst y), Some (snd y)) (Some h) with
      | (Some dth, Some dma, Some err) => Some (dth, dma, err) | _ => None end in
  exists th0 mn ma0 phi th ma, deflection_Mach_sigma Mach (Some sigma) gamma = Some th0 /\
  downstream_Mn (nmul Mach (dsin (Some sigma))) gamma = Some mn /\ ma0 * sin ((sigma - th0) * (PI / 180)) = mn /\
  marches step tol (sigma, th0, ma0) (phi, th, ma) /\
  Rabs (th - phi) < tol /\ Rabs (d - th) < tol / 2 /\ Rabs (d - phi) < tol / 2.
Proof. exact conical_wall. Qed.
Print Assumptions C58_wall.

(** The converse functions: conical_sigma_Mach_walldeflection and conical_Mach_walldeflection_sigma are the root finder of C27 applied to the function above; a shock angle not above the deflection is an AssertionError; and when the search ends without a warning, in a region where the wall deflection is L-Lipschitz, the result reproduces the deflection within 2 L max(tol, tol*|result|) with tol = 1e-5. *)
Theorem C58_shock_angle : forall fuel, 
  (forall deflection sigma gamma, sigma <= deflection -> conical_Mach_walldeflection_sigma fuel (Some deflection) (Some sigma) gamma = None) /\
  (forall Mach deflection gamma s0 (D : R -> Prop) L r,
    let f := fun sig => conical_deflection_Mach_sigma fuel Mach sig gamma (1 / 1000000) in
    nadd (dasin (ndiv (Some 1) Mach)) (Some deflection) = Some s0 -> 0 <= L ->
    let run := secant_run_of f (Some deflection) (Some s0) (Some (1 / 100000)) in
    (forall a b u v, D a -> D b -> f (Some a) = Some u -> f (Some b) = Some v -> Rabs (u - v) <= L * Rabs (a - b)) ->
    (forall a, In (Some a) (s_evals run) -> D a) -> s_warned run = false -> (2 <= length (s_evals run))%nat ->
    conical_sigma_Mach_walldeflection fuel Mach (Some deflection) gamma = Some r ->
    forall w, D r -> f (Some r) = Some w -> Rabs (w - deflection) <= 2 * L * Rmax (1 / 100000) (1 / 100000 * Rabs r)) /\
  (forall deflection sigma gamma s0 (D : R -> Prop) L r, deflection < sigma ->
    let f := fun mach => conical_deflection_Mach_sigma fuel mach (Some sigma) gamma (1 / 1000000) in
    ndiv (Some 1) (dsin (Some (sigma - 1 / 2 * deflection))) = Some s0 -> 0 <= L ->
    let run := secant_run_of f (Some deflection) (Some s0) (Some (1 / 100000)) in
    (forall a b u v, D a -> D b -> f (Some a) = Some u -> f (Some b) = Some v -> Rabs (u - v) <= L * Rabs (a - b)) ->
    (forall a, In (Some a) (s_evals run) -> D a) -> s_warned run = false -> (2 <= length (s_evals run))%nat ->
    conical_Mach_walldeflection_sigma fuel (Some deflection) (Some sigma) gamma = Some (Some r) ->
    forall w, D r -> f (Some r) = Some w -> Rabs (w - deflection) <= 2 * L * Rmax (1 / 100000) (1 / 100000 * Rabs r)).
Proof. exact conical_inverse. Qed.
Print Assumptions C58_shock_angle.

(** For right-hand sides with two finite components, the step used here is the _rkf45 of the integrators (C56). *)
Theorem C58_same_rule : forall (F : rhs) x y h,
  rkf45_2 (fun t u => match t, u with
                      | Some t, (Some a, Some b) => let f := F t (fun i => match i with O => a | _ => b end) in (Some (f 0%nat), Some (f 1%nat))
                      | _, _ => (None, None) end) (Some x) (Some (y 0%nat), Some (y 1%nat)) (Some h) =
  let F' : rhs := fun t u => F t (fun i => match i with O => u 0%nat | _ => u 1%nat end) in
  (Some (rkf45_dy F' x y h 0%nat), Some (rkf45_dy F' x y h 1%nat), Some (rkf45_e 2 F' x y h)).
Proof. exact same_rule. Qed.
Print Assumptions C58_same_rule.

(** For every gamma > 1 and flow angle and Mach number fields theta(phi), M(phi) whose derivatives at phi are the right-hand side of the code, the velocity components along and normal to the ray, in units of the limit velocity, satisfy the Taylor-Maccoll equations at phi. *)
Theorem C58_taylor_maccoll : forall g th ma phi F0 F1, 1 < g -> 0 < ma phi ->
  conical_rhs (Some g) (Some phi) (Some (th phi), Some (ma phi)) = (Some F0, Some F1) ->
  is_derive th phi F0 -> is_derive ma phi F1 ->
  let deg w := w * (180 / PI) in
  let beta w := w - th (deg w) * (PI / 180) in
  let vr w := speed g (ma (deg w)) * cos (beta w) in
  let vw w := - speed g (ma (deg w)) * sin (beta w) in
  let w := phi * (PI / 180) in
  exists dvr dvw, is_derive vr w dvr /\ is_derive vw w dvw /\ taylor_maccoll g w (vr w) (vw w) dvr dvw.
Proof. exact solves_taylor_maccoll. Qed.
Print Assumptions C58_taylor_maccoll.
