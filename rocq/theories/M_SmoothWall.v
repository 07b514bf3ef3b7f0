(** * Model of notebooks/aero/Caract-02-smooth wall.ipynb: simple waves over a curved wall

    Cells are cited by their rank among the code cells (0 = imports).  The globals M0 and ywall, which the notebook
    redefines for each case, are parameters; om0 (cell 2) is computed once, for M0 = 2 in all cases.  [newton] and
    [fsolve] are scipy's root finders, as oracles.  Plotting, the integration of lines (cell 3, the same code as in
    Caract-01-expansion.ipynb, see M_Fan.integ) and the unfinished wall of cell 8 are not modelled here. *)
From Verif Require Import Num M_Degree M_Supersonic M_IterSolve M_MassFlow M_Fan.
Open Scope num_scope.

(** cell 1 *)
Definition ywall_bump (x : num) : num := #(1/10) * nexp (- ((x / #(1/2)) ^ 2)).
(** cells 5 (ang = -20) and 6 (ang = 15); np.where evaluates both branches, all of them finite *)
Definition ywall_ramp (ang : num) (x : num) : num :=
  let slope := dtan ang in
  nif (x <? #0) #0 (nif (x <? #1) (x ^ 2 * slope / #2) (slope * (x - #(1/2)))).
(** cell 1 *)
Definition wall_eps : num := #(1/10000).
Definition wall_angle (ywall : num -> num) (x : num) : num :=
  datan ((ywall (x + wall_eps) - ywall (x - wall_eps)) / (#2 * wall_eps)).

(** cell 2 *)
Definition wall_om0 (gamma M0 : num) : num := PrandtlMeyer_Mach M0 gamma.
Definition mach_wall (newton : solver) (gamma om0 : num) (ywall : num -> num) (x : num) : num :=
  Mach_PrandtlMeyer newton (om0 - wall_angle ywall x) gamma.
(** cell 2, mach: the tests of the while loop, and one turn; the result of a turn is (m, mw) and the foot *)
Definition mach_turn (newton fsolve : solver) (gamma om0 : num) (ywall : num -> num) (x y m : num) : num * num * num :=
  let th := om0 - PrandtlMeyer_Mach m gamma in
  let thpmu := th + dasin (#1 / m) in
  let slope := dtan thpmu in
  let xwall := fsolve (fun xw => y - ywall xw + slope * (xw - x)) (x - y / slope) in
  let mw := mach_wall newton gamma om0 ywall xwall in
  (#(1/2) * (m + mw), mw, xwall).
(** the loop with at most [fuel] turns; [None]: still running, or a test without value *)
Fixpoint mach_loop (fuel : nat) (newton fsolve : solver) (gamma om0 : num) (ywall : num -> num) (x y m mw : num) : num :=
  match nabs (m - mw) >? #(1/1000000) with
  | Some false => m
  | Some true =>
      match fuel with
      | O => None
      | S fuel => let '(m, mw, _) := mach_turn newton fsolve gamma om0 ywall x y m in mach_loop fuel newton fsolve gamma om0 ywall x y m mw
      end
  | None => None
  end.
Definition mach_at (fuel : nat) (newton fsolve : solver) (gamma M0 om0 : num) (ywall : num -> num) (x y : num) : num :=
  mach_loop fuel newton fsolve gamma om0 ywall x y M0 #0.
(** cell 3; [m] is mach(x, y) *)
Definition wall_flow_prop (gamma om0 m : num) : prop :=
  let th := om0 - PrandtlMeyer_Mach m gamma in
  let mu := dasin (#1 / m) in
  {| p_ang := th; p_plus := th + mu; p_minus := th - mu |}.

(** cell 7 *)
Definition xy_intersect_rate (x1 y1 r1 x2 y2 r2 : num) : num * num :=
  let xi := (- y2 + y1 + x2 * r2 - x1 * r1) / (r2 - r1) in
  (xi, y1 + r1 * (xi - x1)).
(** cell 7, plot_CP_focus: the segment drawn from the wall point xw, up to the neighbouring characteristic or to xmax *)
Definition cp_slope (newton : solver) (gamma om0 : num) (ywall : num -> num) (xw : num) : num :=
  dtan (wall_angle ywall xw + dasin (#1 / mach_wall newton gamma om0 ywall xw)).
Definition focus_segment (newton : solver) (gamma om0 : num) (ywall : num -> num) (xmax eps xw : num) : option (list point) :=
  let xw2 := xw + eps in
  let slope := cp_slope newton gamma om0 ywall xw in
  let slope2 := cp_slope newton gamma om0 ywall xw2 in
  let xi := nif (slope <? slope2) (fst (xy_intersect_rate xw (ywall xw) slope xw2 (ywall xw2) slope2)) xmax in
  match xi with
  | Some _ => Some [(xw, ywall xw); (xi, ywall xw + slope * (xi - xw))]
  | None => None
  end.
