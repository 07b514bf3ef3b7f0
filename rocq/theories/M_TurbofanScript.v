(** * Model of examples/turbofan.py *)
From Coq Require Import String ZArith.
From Verif Require Import Num M_Isentropic M_Obj M_Engine.
Open Scope R_scope.
Open Scope list_scope.

(** [np.arange(start, stop, step)] for a positive step: start + i step for i = 0 .. ceil((stop - start)/step) - 1 *)
Definition ceil (x : R) : Z := (1 - up (- x))%Z.
Definition arange (a b s : R) : list R := map (fun i => a + INR i * s) (seq 0 (Z.to_nat (ceil ((b - a) / s)))).
(** the script calls it with finite bounds only *)
Definition narange (a b s : num) : list num :=
  match a, b, s with Some a, Some b, Some s => map Some (arange a b s) | _, _, _ => nil end.

(** examples/turbofan.py:8-13 *)
Definition s_M0 : num := Some (1 / 2).
Definition s_T0 : num := Some 200.
Definition s_P0 : num := Some 20000.
Definition s_Ttmax : num := Some 1600.
Definition s_Tt0 : num := nmul s_T0 (TtTs_Mach s_M0 dgamma).
(** examples/turbofan.py:14, 15, 16 *)
Definition s_Tt3 : list num := narange (nmul (Some (12 / 10)) s_Tt0) (nmul (Some (5 / 10)) s_Ttmax) (Some 50).
Definition opr_of (tt3 : num) : num := npow (ndiv tt3 s_Tt0) (Some (32 / 10)).
Definition s_Opr : list num := map opr_of s_Tt3.
Definition s_Bpr : list num := narange (Some (2 / 10)) (Some 10) (Some (2 / 10)).
(** examples/turbofan.py:17-21: the object is built with arrays (meshgrid); every operation acts element by element, so the arrays
    hold at each point of the grid the values of this object (turbofan.py:47-48 gives the defaults) *)
Definition s_model (opr bpr : num) : prog :=
  tf_init_body {| a_core := gg_default opr s_Ttmax; a_bpr := bpr; a_fanpower_ratio := ndiv bpr (nadd (Some 2) bpr);
                  a_etapolTBP := Some 1; a_etapolfan := Some 1 |} ++
  flight_conditions s_T0 s_P0 s_M0 ++ tf_update.
(** examples/turbofan.py:23, 27: abscissa, ordinate and level of the contour plot at a point of the grid *)
Definition s_point (opr bpr : num) : option (num * num * num) :=
  match run (s_model opr bpr) empty_obj with
  | Some o => match eval o tf_spec_thrust, eval o (thermoprop_efficiency tf_norm_thrust) with
    | Some f, Some e => Some (opr, f, e) | _, _ => None end
  | None => None end.
