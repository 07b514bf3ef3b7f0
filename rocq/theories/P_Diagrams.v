(** Property theorems of L_Diagrams.v. Generated by tools/gen.py; statements only, proofs are in L_Diagrams.v. *)
From Coq Require Import List Lia.
From Coquelicot Require Import Coquelicot.
From Verif Require Import L_Num Spec NumSpec RamjetSpec DiagramSpec M_Isentropic M_MassFlow M_Fanno M_Rayleigh M_Polar M_Ramjet M_Diagrams L_Isentropic L_MassFlow L_Fanno L_Rayleigh L_Polar L_Ramjet.
From Verif Require Import L_Diagrams.
Open Scope R_scope.

(** For every Mach number M0 > 0 and every number n >= 1 of intervals, the curve that rayleigh-heating.py draws for M0 (gamma = 1.4) has n + 1 finite points (Ti, M), at equally spaced total temperature ratios from 1 to Tmax. At each of them mass and impulse conservation in a constant-area duct lead from M0 to M when the total temperature is multiplied by Ti, M is between M0 and 1, and it is the only such Mach number on that side of 1. The first point is (1, M0) and the last one (Tmax, 1); Tmax is the thermal choking limit: no Mach number is reached by a larger ratio. *)
Theorem C103_curve : forall M0 n, 0 < M0 -> (1 <= n)%nat ->
  exists Tmax, 1 <= Tmax /\
  points_of (heating_curve n (Some air) (Some M0)) n (fun i T M =>
    T = sample 1 Tmax n i /\ heats air T M0 M /\ (M0 <= M <= 1 \/ 1 <= M <= M0) /\
    (forall M', 0 < M' -> (M0 < 1 -> M' <= 1) -> (1 < M0 -> 1 <= M') -> heats air T M0 M' -> M' = M)) /\
  on_curve (heating_curve n (Some air) (Some M0)) 0 1 M0 /\ on_curve (heating_curve n (Some air) (Some M0)) n Tmax 1 /\
  (forall T M, Tmax < T -> 0 < M -> ~ heats air T M0 M).
Proof. exact heating_curve_points. Qed.
Print Assumptions C103_curve.

(** Along every drawn heating curve the Mach number strictly increases with the heating when the flow starts subsonic, and strictly decreases when it starts supersonic. *)
Theorem C103_monotone : forall M0 n i j T M T' M', 0 < M0 -> M0 <> 1 -> (1 <= n)%nat -> (i < j <= n)%nat ->
  on_curve (heating_curve n (Some air) (Some M0)) i T M -> on_curve (heating_curve n (Some air) (Some M0)) j T' M' ->
  T < T' /\ (M0 < 1 -> M < M') /\ (1 < M0 -> M' < M).
Proof. exact heating_monotone. Qed.
Print Assumptions C103_monotone.

(** Heating in stages: if (T1, M1) is on the curve of M0, (T2, M2) on the curve drawn for M1, and (T3, M3) on the curve of M0 with T3 = T1 T2, then M3 = M2, whatever the numbers of points. *)
Theorem C103_stages : forall M0 n m k i j l T1 M1 T2 M2 T3 M3, 0 < M0 -> M0 <> 1 -> (1 <= n)%nat -> (1 <= m)%nat -> (1 <= k)%nat -> (i <= n)%nat -> (j <= m)%nat -> (l <= k)%nat ->
  on_curve (heating_curve n (Some air) (Some M0)) i T1 M1 -> on_curve (heating_curve m (Some air) (Some M1)) j T2 M2 ->
  on_curve (heating_curve k (Some air) (Some M0)) l T3 M3 -> T3 = T1 * T2 -> M3 = M2.
Proof. exact heating_stages. Qed.
Print Assumptions C103_stages.

(** The script draws one curve per starting Mach number, 0.1 to 0.9 and 1.2 to 20, each the heating curve above with 101 points. *)
Theorem C103_figure : List.length heating_figure = 17%nat /\
  forall k d, nth_error heating_figure k = Some d -> exists M0, nth_error heating_starts k = Some (Some M0) /\ 0 < M0 /\ M0 <> 1 /\ d = heating_curve 100 (Some air) (Some M0).
Proof. exact heating_figure_is. Qed.
Print Assumptions C103_figure.

(** The script does not survive a change of its constant gam: for every gamma > 1 other than 1.4, every M0 > 0 other than 1 and every number of points, the curve does not start at (1, M0) - the choking limit is always computed for 1.4. *)
Theorem C103_gamma_refuted : forall g M0 n, 1 < g -> g <> 14 / 10 -> 0 < M0 -> M0 <> 1 -> (1 <= n)%nat ->
  ~ on_curve (heating_curve n (Some g) (Some M0)) 0 1 M0.
Proof. exact heating_gamma. Qed.
Print Assumptions C103_gamma_refuted.

(** From Mach 1/2 the choking ratio is 81/56, and the curve drawn with 4 intervals ends at (81/56, 1). *)
Example C103_example : on_curve (heating_curve 4 (Some air) (Some (1/2))) 4 (81/56) 1 /\ on_curve (heating_curve 4 (Some air) (Some (1/2))) 0 1 (1/2) /\
  In (Some (5/10)) heating_starts.
Proof. exact heating_example. Qed.
