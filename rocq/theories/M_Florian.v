(** * Model of notebooks/unsteady_inflow_Florian.ipynb (cell 0; lines are counted in the source of that cell)
    A second Riemann solver, written without the library (gamma = 1.4 and r = 287.1 hard-coded), and a search over
    left states. [fsolve] returns an array of length 1, here a number. *)
From Verif Require Import Num M_MassFlow.
Import ListNotations.
Open Scope num_scope.

(** lines 77-89 *)
Definition fl_asound (T : num) : num := (#(14/10) * #(2871/10) * T) ** #(1/2).
Definition fl_Mach (u a : num) : num := u / a.
Definition fl_Pi (p M : num) : num := p * (#1 + #(1/2) * (#(14/10) - #1) * M ^ 2) ** (#(14/10) / (#(14/10) - #1)).
Definition fl_Ti (T M : num) : num := T * (#1 + #(1/2) * (#(14/10) - #1) * M ^ 2).

(** the attributes of the function objects qR and qL *)
Record fl_state := mk_fl { fl_u : num; fl_rho : num; fl_p : num; fl_t : num; fl_a : num; fl_M : num; fl_pi : num; fl_ti : num }.
(** lines 18-22 and 29-33 *)
Definition fl_init (u rho p : num) : fl_state :=
  let t := p / (rho * #(2871/10)) in
  let a := fl_asound t in
  let M := fl_Mach u a in
  mk_fl u rho p t a M (fl_Pi p M) (fl_Ti t M).
(** lines 14-22 *)
Definition fl_qR : fl_state := fl_init #(13899118042 / 100000000) #(428102874756 / 100000000000) #(35690884375 / 100000).
(** lines 25-33 *)
Definition fl_qL (i j k : nat) : fl_state :=
  fl_init (#65 + #(1/10) * Some (INR i)) (#(1/100) * Some (INR j) + #(25/10)) (#200000 + #10 * Some (INR k)).

(** lines 36-43 (q is qL) and 46-53 (q is qR) *)
Definition fl_delta (q : fl_state) (p : num) : num :=
  let A := #2 / ((#(14/10) + #1) * fl_rho q) in
  let B := (#(14/10) - #1) / (#(14/10) + #1) * fl_p q in
  nif (p >? fl_p q)
    ((p - fl_p q) * (A / (p + B)) ** #(1/2))
    (#2 * fl_a q / (#(14/10) - #1) * ((p / fl_p q) ** ((#(14/10) - #1) / (#2 * #(14/10))) - #1)).
(** lines 56-62 *)
Definition fl_isentropic (q : fl_state) (pstar : num) : num := fl_rho q * (pstar / fl_p q) ** (#1 / #(14/10)).
(** lines 64-74 *)
Definition fl_shock (q : fl_state) (pstar : num) : num :=
  let pratio := pstar / fl_p q in
  let gmusgpu := (#(14/10) - #1) / (#(14/10) + #1) in
  fl_rho q * (pratio + gmusgpu) / (#1 + gmusgpu * pratio).
(** lines 91-92 *)
Definition fl_Ustar (qL qR : fl_state) (p : num) : num := #(1/2) * (fl_u qR + fl_u qL + fl_delta qR p - fl_delta qL p).
(** lines 94-95 *)
Definition fl_estimation (qL qR : fl_state) : num :=
  ((fl_a qL + fl_a qR - #(1/2) * (#(14/10) - #1) * (fl_u qR - fl_u qL))
   / (fl_a qL / fl_p qL ** ((#(14/10) - #1) / (#2 * #(14/10))) + fl_a qR / fl_p qR ** ((#(14/10) - #1) / (#2 * #(14/10)))))
  ** (#2 * #(14/10) / (#(14/10) - #1)).
(** lines 98-100 *)
Definition fl_function (qL qR : fl_state) (p : num) : num := fl_delta qL p + fl_delta qR p + fl_u qR - fl_u qL.
Definition fl_solve (fsolve : solver) (qL qR : fl_state) : num := fsolve (fl_function qL qR) (fl_estimation qL qR).

(** lines 113-121 (left) and 124-130, 138-144 (right): density, temperature, Mach number, total pressure and temperature *)
Record fl_star := mk_flstar { fs_rho : num; fs_T : num; fs_M : num; fs_Pi : num; fs_Ti : num }.
Definition fl_starstate (q : fl_state) (pstar ustar : num) : fl_star :=
  let rho := nif (pstar >? fl_p q) (fl_shock q pstar) (fl_isentropic q pstar) in
  let T := pstar / (#(2871/10) * rho) in
  let a := fl_asound T in
  let M := fl_Mach ustar a in
  mk_flstar rho T M (fl_Pi pstar M) (fl_Ti T M).
(** lines 131-136 and 145-150: what is printed; [fr_shock]: "Choc a droite" is printed, and not "Detente a droite" *)
Record fl_report := mk_flreport { fr_shock : bool; fr_right : fl_star; fr_left : fl_star; fr_p : num; fr_u : num;
  fr_debit_choc : num; fr_debit_swave : num; fr_debit_0 : num }.
(** [if c:], where a comparison with a nan is false *)
Definition holds (c : option bool) : bool := match c with Some b => b | None => false end.
(** lines 109-151: the body of the loop over k; [None]: nothing is printed and the loop goes on *)
Definition fl_try (fsolve : solver) (Ti Pi Tol1 Tol2 : num) (qL qR : fl_state) : option fl_report :=
  let pstar := fl_solve fsolve qL qR in
  let ustar := fl_Ustar qL qR pstar in
  let sL := fl_starstate qL pstar ustar in
  if holds (nabs (fs_Ti sL - Ti) <? Tol1) then
    if holds (nabs (fs_Pi sL - Pi) <? Tol2) then
      let sR := fl_starstate qR pstar ustar in
      Some (mk_flreport (holds (pstar >? fl_p qR)) sR sL pstar ustar (fs_rho sR * ustar) (fs_rho sL * ustar) (fl_rho qR * fl_u qR))
    else None
  else None.
(** [for k in ...: ... break] *)
Fixpoint fl_loop {A} (body : nat -> option A) (ks : list nat) : list A :=
  match ks with [] => [] | k :: ks => match body k with Some r => [r] | None => fl_loop body ks end end.
(** lines 103-151: the reports in the order they are printed *)
Definition fl_f (fsolve : solver) (Ti Pi Tol1 Tol2 : num) (qR : fl_state) : list fl_report :=
  flat_map (fun i => flat_map (fun j => fl_loop (fun k => fl_try fsolve Ti Pi Tol1 Tol2 (fl_qL i j k) qR) (seq 0 100)) (seq 0 100)) (seq 0 100).
(** lines 156-164: the script *)
Definition fl_main (fsolve : solver) : list fl_report := fl_f fsolve #300 #300000 #10 #100 fl_qR.
