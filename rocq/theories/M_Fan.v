(** * Model of notebooks/aero/Caract-01-expansion.ipynb: centred expansion on a corner

    The cells are cited by their rank among the code cells (0 = imports).  The globals set by [init_case] are the fields
    of a record; plotting is not modelled.  [gamma] is the default of the Supersonic functions, bound when the module is
    imported (1.4); [newton] is scipy's root finder, as in M_Supersonic. *)
From Verif Require Import Num M_Degree M_Supersonic M_IterSolve M_MassFlow.
Open Scope num_scope.

(** cell 1, the globals of init_case *)
Record fan_case := { M0 : num; wang : num; wang0 : num; wang1 : num; om0 : num; om1 : num; M1 : num; p1p0 : num; mu0 : num; mu1 : num }.
Definition init_case (newton : solver) (gamma m ang : num) : fan_case :=
  let M0 := m in
  let wang := ang in
  let wang0 := #0 in
  let wang1 := wang in
  let wdev := wang1 - wang0 in
  let om0 := PrandtlMeyer_Mach M0 gamma in
  let om1 := om0 - wdev in
  let M1 := Mach_PrandtlMeyer newton om1 gamma in
  let p1p0 := IsentropicPsratio_Mach_deflection newton M1 wdev gamma in
  let mu0 := dasin (#1 / M0) in
  let mu1 := dasin (#1 / M1) in
  {| M0 := M0; wang := wang; wang0 := wang0; wang1 := wang1; om0 := om0; om1 := om1; M1 := M1; p1p0 := p1p0; mu0 := mu0; mu1 := mu1 |}.

(** cell 3, flow_prop: the dictionary with the keys 'ang', 'C+', 'C-'.  A nan polar angle fails both tests and
    gives nan in the last branch; here [nif] gives no result. *)
Inductive ctype := Ang | Cplus | Cminus.
Record prop := { p_ang : num; p_plus : num; p_minus : num }.
Definition flow_prop (gamma : num) (c : fan_case) (x y : num) : option prop :=
  let oang := datan2 y x in
  nif (oang >? wang0 c + mu0 c)
    (Some {| p_ang := wang0 c; p_plus := wang0 c + mu0 c; p_minus := wang0 c - mu0 c |})
    (nif (oang <? wang1 c + mu1 c)
      (Some {| p_ang := wang1 c; p_plus := wang1 c + mu1 c; p_minus := wang1 c - mu1 c |})
      (let M := Mach_PMFmmu (wang0 c + om0 c - oang) gamma in
       let mu := dasin (#1 / M) in
       Some {| p_ang := oang - mu; p_plus := oang; p_minus := oang - #2 * mu |})).
(** prop[ctype] *)
Definition key (k : ctype) (p : option prop) : num :=
  match p with
  | Some p => match k with Ang => p_ang p | Cplus => p_plus p | Cminus => p_minus p end
  | None => None
  end.

(** cell 3, integ (the same code in Caract-02-smooth wall.ipynb, cell 3): [angle x y] is flow_prop(x, y)[ctype] *)
Definition point := (num * num)%type.
Definition step (x0 y0 ds ang : num) : point := (x0 + ds * dcos ang, y0 + ds * dsin ang).
(** one turn of the loops: predictor at half the step, then the full step *)
Definition rk2 (angle : num -> num -> num) (ds : num) (s : point) : point :=
  let '(sx, sy) := s in
  let '(px, py) := step sx sy (#(1/2) * ds) (angle sx sy) in
  step sx sy ds (angle px py).
(** trajx[i], trajy[i] = ...; an assignment beyond the end would raise an IndexError: no result *)
Fixpoint put (i : nat) (v : point) (l : list point) : option (list point) :=
  match l, i with
  | [], _ => None
  | _ :: l, O => Some (v :: l)
  | a :: l, S i => match put i v l with Some l => Some (a :: l) | None => None end
  end.
(** the loops: [n] turns remain, turn [i] writes at [where_ i] *)
Fixpoint march (angle : num -> num -> num) (ds : num) (where_ : nat -> nat) (n i : nat) (s : point) (traj : list point)
  : option (list point) :=
  match n with
  | O => Some traj
  | S n => let s := rk2 angle ds s in
           match put (where_ i) s traj with Some traj => march angle ds where_ n (S i) s traj | None => None end
  end.
(** int(npts * smax/(smax-smin)); int of a number without finite value raises.  Only results from 0 to npts are covered:
    beyond (0 < smin or smax < 0) nback or nforw is negative, and the array indices wrap around - not modelled (no result). *)
Definition nforw_of (npts : nat) (smin smax : num) : option nat :=
  match #(INR npts) * smax / (smax - smin) with
  | Some q => if Rle_dec 0 q then if Rle_dec q (INR npts) then Some (Z.to_nat (Int_part q)) else None else None
  | None => None
  end.
Definition nat_num (n : nat) : num := Some (INR n).
Definition integ (angle : num -> num -> num) (x y smin smax : num) (npts : nat) : option (list point) :=
  match nforw_of npts smin smax with
  | None => None
  | Some nforw =>
      let nback := (npts - nforw)%nat in
      let traj := repeat (#0, #0) (npts + 1) in
      match put nback (x, y) traj with
      | None => None
      | Some traj =>
          let back := if Nat.ltb 0 nback
                      then march angle (smin / nat_num nback) (fun i => (nback - i - 1)%nat) nback 0 (x, y) traj
                      else Some traj in
          match back with
          | None => None
          | Some traj =>
              if Nat.ltb 0 nforw
              then march angle (smax / nat_num nforw) (fun i => (nback + i + 1)%nat) nforw 0 (x, y) traj
              else Some traj
          end
      end
  end.
(** the trajectories drawn in cells 4 and 5 *)
Definition trajectory (gamma : num) (c : fan_case) (k : ctype) (x y smin smax : num) (npts : nat) : option (list point) :=
  integ (fun x y => key k (flow_prop gamma c x y)) x y smin smax npts.
