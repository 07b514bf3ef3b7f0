(** * Model of docs/examples/common.numspectral.ipynb (the worked example of the spectral operators)
    Plots are left out. *)
From Verif Require Import Num M_Spectral.
Open Scope num_scope.

(** cell 0 *)
Definition nb_f (x : num) : num := nexp (- ((x - #(1 / 10)) ^ 2)).
Definition nb_df (x : num) : num := - #2 * (x - #(1 / 10)) * nb_f x.
Definition nb_df2 (x : num) : num := - #2 * (#1 - #2 * (x - #(1 / 10)) ^ 2) * nb_f x.
(** cell 1, the body of the loop over the mesh sizes: err[i] *)
Definition nb_err (n : nat) : num :=
  let SpOp := cheb_init n None None in
  let x := cheb_x n (cb_xmin SpOp) (cb_xmax SpOp) in
  let df_th := fun i => nb_df (x i) in
  match fst (matder 1 SpOp) with
  | Matrix A => let df_num := matvec n A (fun i => nb_f (x i)) in
                nsqrt (nsum n (fun i => (df_th i - df_num i) ^ 2) / nofnat n)
  | _ => None
  end.
