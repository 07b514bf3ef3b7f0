(** * Model of notebooks/aero/Riemann-Shocktube.ipynb and docs/examples/instance.riemann.ipynb (same code)
    Code cells are counted as in docs/examples/instance.riemann.ipynb; printing is left out except the
    two printed shock Mach numbers. *)
From Verif Require Import Num M_Isentropic M_MassFlow M_Model1D M_Unsteady1D M_Riemann.
Import ListNotations.
Open Scope num_scope.

(** what the cells 1 to 4 compute *)
Record shocktube := mk_tube {
  t_q20 : state; t_q10 : state; t_pb1 : riemann; t_q00 : state; t_pb2 : riemann; t_pbw : riemann; t_pb3 : riemann }.
(** qstarL(), qstarR() : riemann.py:142-146 *)
Definition t_q21 (S : shocktube) := r_qsL (t_pb1 S).
Definition t_q11 (S : shocktube) := r_qsR (t_pb1 S).
Definition t_q12 (S : shocktube) := r_qsL (t_pb2 S).
Definition t_q01 (S : shocktube) := r_qsR (t_pb2 S).
Definition t_q02 (S : shocktube) := r_qsL (t_pbw S).
Definition t_q13 (S : shocktube) := r_qsL (t_pb3 S).
Definition t_q03 (S : shocktube) := r_qsR (t_pb3 S).
(** cell 1 (Pinit, Pratio, Tisoth, r_air, gam_air), cell 2 (r_He, gam_He), cell 3 (ghost state at the wall), cell 4;
    [None]: one of the problems met a nan *)
Definition shocktube_cells (newton : solver) (Pinit Pratio Tisoth r1 r2 gam1 gam2 : num) : option shocktube :=
  let q20 := state_init (Pinit * Pratio / (r1 * Tisoth)) #0 (Pinit * Pratio) (Some gam1) in
  let q10 := state_init (Pinit / (r1 * Tisoth)) #0 Pinit (Some gam1) in
  match riemann_pb newton q20 q10 with None => None | Some pb1 =>
  let q11 := r_qsR pb1 in
  let q00 := state_init (Pinit / (r2 * Tisoth)) #0 Pinit (Some gam2) in
  match riemann_pb newton q11 q00 with None => None | Some pb2 =>
  let q12 := r_qsL pb2 in
  let q01 := r_qsR pb2 in
  match riemann_pb newton q01 (copysymmetric q01) with None => None | Some pbw =>
  let q02 := r_qsL pbw in
  match riemann_pb newton q12 q02 with None => None | Some pb3 =>
  Some (mk_tube q20 q10 pb1 q00 pb2 pbw pb3) end end end end.
(** cells 1 and 3: the printed shock Mach numbers *)
Definition printed_mach1 (S : shocktube) : num := right_fastest (t_pb1 S) / asound (t_q10 S).
Definition printed_machw (S : shocktube) : num := left_fastest (t_pbw S) / asound (t_q01 S).

(** cell 5 *)
Definition xt_intersect (x1 t1 u1 x2 t2 u2 : num) : num * num :=
  let ti := (- x2 + x1 + t2 * u2 - t1 * u1) / (u2 - u1) in (x1 + u1 * (ti - t1), ti).
Definition t_shock_int (S : shocktube) (x_int : num) : num := x_int / right_fastest (t_pb1 S).
Definition t_shock_wall (S : shocktube) (x_int x_Rwall : num) : num :=
  (x_Rwall - x_int) / right_fastest (t_pb2 S) + t_shock_int S x_int.
Definition reshock (S : shocktube) (x_int x_Rwall : num) : num * num :=
  xt_intersect x_int (t_shock_int S x_int) (st_u (t_q12 S))
    x_Rwall (t_shock_wall S x_int x_Rwall) (left_fastest (t_pbw S)).
Definition t_max (S : shocktube) (x_int x_Rwall : num) : num := #(12/10) * snd (reshock S x_int x_Rwall).
(** cell 6: the drawn lines, as points (x, t) *)
Definition drawn_shocks (S : shocktube) (x_int x_Rwall : num) : list (num * num) :=
  let re := reshock S x_int x_Rwall in
  [(#0, #0); (x_int, t_shock_int S x_int); (x_Rwall, t_shock_wall S x_int x_Rwall); re;
   (fst re + left_fastest (t_pb3 S) * (t_max S x_int x_Rwall - snd re), t_max S x_int x_Rwall)].
Definition drawn_interface (S : shocktube) (x_int x_Rwall : num) : list (num * num) :=
  let re := reshock S x_int x_Rwall in
  [(x_int, #0); (x_int, t_shock_int S x_int); re;
   (fst re + st_u (t_q13 S) * (t_max S x_int x_Rwall - snd re), t_max S x_int x_Rwall)].
Definition drawn_head (S : shocktube) (x_Lwall : num) : list (num * num) :=
  [(#0, #0); (x_Lwall, x_Lwall / left_acoustic (t_q20 S))].
Definition drawn_tail (S : shocktube) (x_Lwall : num) : list (num * num) :=
  [(#0, #0); (x_Lwall, x_Lwall / left_acoustic (t_q21 S))].
