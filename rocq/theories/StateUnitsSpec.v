(** * States and Riemann problems expressed in other units of pressure and velocity *)
From Verif Require Import Num M_Model1D M_Riemann M_Inflow UnitsSpec.
Import ListNotations.

(** density is pressure over velocity squared, a mass flux is pressure over velocity; the products p/rho (gas
    constant times temperature) are [energy] *)
Definition density : dim := Dim 0 1 0 (-2).
Definition mass_flux : dim := Dim 0 1 0 (-1).
Definition state_in (u : units) (q : state) : state :=
  mk_state (st_g q) (convert u density (st_rho q)) (convert u velocity (st_u q)) (convert u pressure (st_p q)).
Definition riemann_in (u : units) (S : riemann) : riemann :=
  mk_riemann (state_in u (r_qL S)) (state_in u (r_qR S)) (convert u pressure (r_pstar S)) (convert u velocity (r_ustar S))
    (state_in u (r_qsL S)) (state_in u (r_qsR S))
    (convert u velocity (r_w0 S)) (convert u velocity (r_w1 S)) (convert u velocity (r_w2 S)) (convert u velocity (r_w3 S)) (convert u velocity (r_w4 S)).
Definition inflow_in (u : units) (o : inflow) : inflow :=
  mk_inflow (state_in u (in_qR o)) (option_map (convert u pressure) (in_pstar o)) (option_map (convert u velocity) (in_ustar o))
    (option_map (state_in u) (in_qsL o)) (option_map (state_in u) (in_qsR o)) (option_map (map (convert u velocity)) (in_waves o)).
(** the answer a solver gives to the converted problem is the converted answer *)
Definition same_answer (u : units) (solve solve' : (num -> num) -> num -> num) (f f' : num -> num) (x x' : num) : Prop :=
  solve' f' x' = convert u pressure (solve f x).

(** a solver that does not look at the units: functions of a pressure with values of dimension [d] *)
Definition unit_free (u : units) (d : dim) (solve solve' : (num -> num) -> num -> num) : Prop :=
  forall f f' x, (forall p, f' (convert u pressure p) = convert u d (f p)) -> same_answer u solve solve' f f' x (convert u pressure x).
(** requests to an inflow: total pressure and r times total temperature *)
Definition request_in (u : units) (r : num * num) : num * num := (convert u pressure (fst r), convert u energy (snd r)).
(** example of a solver: one secant step from the starting point and its double *)
Definition secant (f : num -> num) (x : num) : num :=
  let y := nmul (Some 2%R) x in nsub y (ndiv (nmul (f y) (nsub y x)) (nsub (f y) (f x))).
