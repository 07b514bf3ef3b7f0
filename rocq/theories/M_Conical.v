(** * Model of the conical shock functions of aerokit/aero/ShockWave.py:327-429 *)
From Verif Require Import Num M_Degree M_IterSolve M_ShockWave M_Ode.
Open Scope num_scope.

(** ** aerokit/common/_ode.py:30-64 (_rkf45) for two unknowns, in arithmetic that tracks undefined
    values (F may divide by zero); result: increments of the two unknowns and error estimate *)
Definition ode2 := num -> num * num -> num * num.
Definition lc2 (y : num * num) (l : list (num * (num * num))) : num * num :=
  fold_left (fun a ck => (fst a + fst ck * fst (snd ck), snd a + fst ck * snd (snd ck))) l y.
Definition scal2 (h : num) (f : num * num) : num * num := (h * fst f, h * snd f).
Definition rkf45_2 (F : ode2) (x : num) (y : num * num) (h : num) : (num * num) * num :=
  let K0 := scal2 h (F x y) in
  let K1 := scal2 h (F (x + #(1/5) * h) (lc2 y [(#(1/5), K0)])) in
  let K2 := scal2 h (F (x + #(3/10) * h) (lc2 y [(#(3/40), K0); (#(9/40), K1)])) in
  let K3 := scal2 h (F (x + #(3/5) * h) (lc2 y [(#(3/10), K0); (#(-9/10), K1); (#(6/5), K2)])) in
  let K4 := scal2 h (F (x + h) (lc2 y [(#(-11/54), K0); (#(5/2), K1); (#(-70/27), K2); (#(35/27), K3)])) in
  let K5 := scal2 h (F (x + #(7/8) * h) (lc2 y [(#(1631/55296), K0); (#(175/512), K1); (#(575/13824), K2);
                                               (#(44275/110592), K3); (#(253/4096), K4)])) in
  let K := [K0; K1; K2; K3; K4; K5] in
  let C := map (fun s => Some (rkf45_C s)) (seq 0 6) in
  let CD := map (fun s => Some (rkf45_C s - rkf45_D s)%R) (seq 0 6) in
  let dy := lc2 (#0, #0) (combine C K) in
  let E := lc2 (#0, #0) (combine CD K) in
  (dy, nsqrt ((fst E ^ 2 + snd E ^ 2) / #2)).

(** ** ShockWave.py:340-364 *)
Definition conical_rhs (gamma : num) : ode2 := fun phi data =>
  let '(th, ma) := data in
  let k := #1 - (ma * dsin (phi - th)) ^ 2 in
  (- dsin th * dcos (phi - th) / dsin phi / k,
   npi / #180 * dsin th * dsin (phi - th) / dsin phi / k * ma * (#1 + #(1/2) * (gamma - #1) * ma * ma)).

(** ** ShockWave.py:371-389: the loop, for any step function.  [None]: the loop has not ended within
    [fuel] passes, or a step had no finite result (h then becomes nan and the loop never ends; the
    one exception - an infinite error estimate while theta = phi exactly - is not represented) *)
Definition cstep := R -> R * R -> R -> option (R * R * R).
Fixpoint conical_loop (fuel : nat) (step : cstep) (tol : R) (phi th ma h conv : R) : option (R * R * R) :=
  if Rle_dec tol (Rabs conv) then
    match fuel with
    | O => None
    | S k =>
      match step phi (th, ma) h with
      | None => None
      | Some (dth, dma, err) =>
        if Rle_dec err tol then
          let conv := (th - phi)%R in
          let advance := conical_loop k step tol (phi + h)%R (th + dth)%R (ma + dma)%R h conv in
          if Req_EM_T (h - dth) 0 then
            (* conv / 0: +inf or nan are not < 1; -inf is, and h is then infinite or nan *)
            if Rlt_dec conv 0 then (if Rle_dec tol (Rabs conv) then None else Some (phi, th, ma)) else advance
          else if Rlt_dec (conv / (h - dth)) 1
          then conical_loop k step tol phi th ma (h * conv / (h - dth))%R conv
          else advance
        else conical_loop k step tol phi th ma (9 / 10 * h * pow02 (tol / err))%R conv
      end
    end
  else Some (phi, th, ma).
Definition conical_step (gamma : num) : cstep := fun phi y h =>
  match rkf45_2 (conical_rhs gamma) (Some phi) (Some (fst y), Some (snd y)) (Some h) with
  | (Some dth, Some dma, Some err) => Some (dth, dma, err)
  | _ => None
  end.
(** ShockWave.py:367-370 the state behind the shock *)
Definition conical_start (Mach sigma gamma : num) : num * num :=
  let th := deflection_Mach_sigma Mach sigma gamma in
  (th, downstream_Mn (Mach * dsin sigma) gamma / dsin (sigma - th)).
Definition conical_deflection_Mach_sigma (fuel : nat) (Mach sigma gamma : num) (tol : R) : num :=
  match conical_start Mach sigma gamma, sigma with
  | (Some th, Some ma), Some s =>
    match conical_loop fuel (conical_step gamma) tol s th ma (- s / 10)%R s with
    | Some (phi, th, _) => Some (1 / 2 * (th + phi))%R
    | None => None
    end
  | _, _ => None
  end.
Definition conical_tol : R := (1 / 1000000)%R.
(** ** ShockWave.py:392-408, 411-429; the outer [None] is the AssertionError *)
Definition conical_sigma_Mach_walldeflection (fuel : nat) (Mach deflection gamma : num) : num :=
  secant_solve (fun sig => conical_deflection_Mach_sigma fuel Mach sig gamma conical_tol) deflection
    (dasin (#1 / Mach) + deflection).
Definition conical_Mach_walldeflection_sigma (fuel : nat) (deflection sigma gamma : num) : option num :=
  match sigma >? deflection with
  | Some true => Some (secant_solve (fun mach => conical_deflection_Mach_sigma fuel mach sigma gamma conical_tol) deflection
                         (#1 / dsin (sigma - #(1/2) * deflection)))
  | _ => None
  end.
