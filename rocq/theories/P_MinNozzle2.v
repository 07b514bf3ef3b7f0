(** Property theorems of L_MinNozzle2.v. Generated by tools/gen.py; statements only, proofs are in L_MinNozzle2.v. *)
From Coq Require Import List Lia.
From Coquelicot Require Import Coquelicot.
From Verif Require Import L_Num MocSpec M_MinNozzle L_MinNozzle.
From Verif Require Import L_MinNozzle2.
Open Scope R_scope.

(** Whenever Minimum_length_nozzle returns, for every design Mach number above 1, throat area and number n of characteristics: the points it has built form the net of characteristics of a planar flow with gamma = 1.27. The n+1 descending characteristics leave the corner of the throat in an expansion fan from the first small angle to half the Prandtl-Meyer angle of the design Mach number; every inner point keeps th + nu along its C- and th - nu along its C+ and lies where the two straight segments of mean inclination meet; the characteristics number 1..n end on the axis with an axial flow; and each wall point has the flow direction of the C+ arriving there and lies on it, the wall being a chain of segments of mean inclination, so that no wave is reflected. Missing, because false of the code: the axis condition for the characteristic number 0 (C84_first_axis_refuted). *)
Theorem C84_net_partial : forall passes Mf area n net wall Me, 1 < Mf -> 0 < area ->
  Minimum_length_nozzle passes (Some Mf) (Some area) n = Some (net, wall, Me) ->
  let g := 127 / 100 in let tol := 1 / 100000 in let r := sqrt (area / PI) in let th0 := prandtl_meyer g Mf / 2 in
  exists x y th nu mu wx wy wth,
    (forall a b, (a <= n)%nat -> (b <= S a)%nat ->
      get net a b = mkpt (Some (x a b)) (Some (y a b)) (Some (th a b)) (Some (nu a b)) /\ mach_angle_of g tol (nu a b) (mu a b)) /\
    length wall = (n + 2)%nat /\
    (forall k, (k <= n + 1)%nat -> exists w, nth k wall nopoint = mkpt (Some (wx k)) (Some (wy k)) (Some (wth k)) (Some w)) /\
    corner_fan n r th0 x y th nu /\ compatible n th nu /\ intersections n x y th mu /\
    (forall a, (1 <= a <= n)%nat -> on_axis a x y th nu mu) /\
    cancelling_wall n r th0 x y th mu wx wy wth.
Proof. exact nozzle_net. Qed.
Print Assumptions C84_net_partial.

(** Whenever Minimum_length_nozzle returns: the wall starts at half the Prandtl-Meyer angle of the design Mach number, turns back towards the axis from point to point (its direction never increases and stays positive up to the last point), and its last point has the axial direction exactly; the exit Mach number returned has the Prandtl-Meyer angle of the design Mach number within 1e-5 radian, and is at least 1. *)
Theorem C84_exit : forall passes Mf area n net wall Me, 1 < Mf -> 0 < area ->
  Minimum_length_nozzle passes (Some Mf) (Some area) n = Some (net, wall, Me) ->
  let g := 127 / 100 in
  (exists dir, (forall k, (k <= n + 1)%nat -> ptheta (nth k wall nopoint) = Some (dir k)) /\
     dir 0%nat = prandtl_meyer g Mf / 2 /\ dir (n + 1)%nat = 0 /\
     forall k, (k <= n)%nat -> 0 < dir k /\ dir (S k) <= dir k) /\
  1 <= Me /\ Rabs (prandtl_meyer g Me - prandtl_meyer g Mf) <= 1 / 100000.
Proof. exact nozzle_exit. Qed.
Print Assumptions C84_exit.

(** Whenever Minimum_length_nozzle returns, the point where its first characteristic meets the axis (y = 0) does not satisfy the axis condition: its flow direction is the initial turning angle, th0 / (100 n), not 0. *)
Theorem C84_first_axis_refuted : forall passes Mf area n net wall Me, 1 < Mf -> 0 < area ->
  Minimum_length_nozzle passes (Some Mf) (Some area) n = Some (net, wall, Me) ->
  let th0 := prandtl_meyer (127 / 100) Mf / 2 in
  py (get net 0 1) = Some 0 /\ ptheta (get net 0 1) = Some (th0 / (100 * INR n)) /\ th0 / (100 * INR n) <> 0.
Proof. exact nozzle_first_axis. Qed.
Print Assumptions C84_first_axis_refuted.
