(** Property theorems of L_Diagrams2.v. Generated by tools/gen.py; statements only, proofs are in L_Diagrams2.v. *)
From Coq Require Import List Lia.
From Coquelicot Require Import Coquelicot.
From Verif Require Import L_Num Spec NumSpec RamjetSpec DiagramSpec M_Isentropic M_MassFlow M_Fanno M_Rayleigh M_Polar M_Ramjet M_Diagrams L_Isentropic L_MassFlow L_Fanno L_Rayleigh L_Polar L_Ramjet L_Diagrams.
From Verif Require Import L_Diagrams2.
Open Scope R_scope.

(** For every gamma > 1, Mach range 0 < a <= b and number n >= 1 of intervals, the two figures of rayleigh-diag.py have n + 1 finite points per curve, and at the i-th Mach number M (equally spaced from a to b) the five plotted ratios and the entropy describe one flow: multiplying the total temperature by 1/Ti leads, by mass and impulse conservation, from Mach M and total pressure Pi to the sonic state of total pressure 1; Ps, Ts and V are the static pressure, static temperature and velocity of that flow over the sonic ones; S = ln Ts - (gamma-1)/gamma ln Ps; and the T/S curve shows the same Ts against S. *)
Theorem C104_rayleigh : forall g a b n, 1 < g -> 0 < a -> a <= b -> (1 <= n)%nat ->
  exists cTi cTs cPi cPs cV, rayleigh_ratios n (Some g) (Some a) (Some b) = cTi :: cTs :: cPi :: cPs :: cV :: nil /\
  (forall d, In d (rayleigh_TS n (Some g) (Some a) (Some b) :: rayleigh_ratios n (Some g) (Some a) (Some b)) -> points_of d n (fun _ _ _ => True)) /\
  forall i, (i <= n)%nat -> let M := sample a b n i in exists Ti Ts Pi Ps V S,
    on_curve cTi i M Ti /\ on_curve cTs i M Ts /\ on_curve cPi i M Pi /\ on_curve cPs i M Ps /\ on_curve cV i M V /\
    on_curve (rayleigh_TS n (Some g) (Some a) (Some b)) i S Ts /\
    0 < Ti /\ 0 < Pi /\ duct_flow g (1 / Ti) M Pi 1 1 /\
    Ps = static_p g M Pi / static_p g 1 1 /\ Ts = Ti * (tfun g 1 / tfun g M) /\ V = M * sqrt Ts /\ S = ln Ts - (g - 1) / g * ln Ps.
Proof. exact rayleigh_figures. Qed.
Print Assumptions C104_rayleigh.

(** On the Rayleigh T/S curve, for every gamma > 1, Mach range and number of points: the entropy strictly increases from point to point up to Mach 1 and strictly decreases beyond, it is negative everywhere but at Mach 1; no temperature exceeds (gamma+1)^2/(4 gamma), which is reached exactly at M^2 = 1/gamma, so that in between heating cools the gas; and the two branches do not cross: of two points of equal entropy the one of smaller Mach number is the hotter. *)
Theorem C104_rayleigh_TS : forall g a b n, 1 < g -> 0 < a -> a < b -> (1 <= n)%nat ->
  forall i j S T S' T', (i <= n)%nat -> (j <= n)%nat -> let M := sample a b n i in let M' := sample a b n j in
  on_curve (rayleigh_TS n (Some g) (Some a) (Some b)) i S T -> on_curve (rayleigh_TS n (Some g) (Some a) (Some b)) j S' T' ->
  (M < M' <= 1 -> S < S') /\ (1 <= M < M' -> S' < S) /\ (M <> 1 -> S < 0) /\ (M = 1 -> S = 0 /\ T = 1) /\
  T <= (g + 1) ^ 2 / (4 * g) /\ (T = (g + 1) ^ 2 / (4 * g) <-> M ^ 2 = 1 / g) /\ (M < M' -> 1 / g <= M ^ 2 -> T' < T) /\
  (S = S' -> M < M' -> T' < T).
Proof. exact rayleigh_TS_shape. Qed.
Print Assumptions C104_rayleigh_TS.

(** For every gamma > 1, Mach range 0 < a <= b and number n >= 1 of intervals, the figures of fanno-diag.py have n + 1 finite points per curve, and at the i-th Mach number M the plotted values describe one flow: mass conservation at constant total temperature leads from Mach M and total pressure Pi to the sonic state of total pressure 1; Ps, Ts and V are its static pressure, static temperature and velocity over the sonic ones, S = ln Ts - (gamma-1)/gamma ln Ps; friction takes impulse away on the way to Mach 1; the Fanno parameter F is positive except at Mach 1, where it is 0, decreases on the subsonic and increases on the supersonic side. *)
Theorem C104_fanno : forall g a b n, 1 < g -> 0 < a -> a <= b -> (1 <= n)%nat ->
  exists cF cTs cPs cPi cV, fanno_ratios n (Some g) (Some a) (Some b) = cF :: cTs :: cPs :: cPi :: cV :: nil /\
  (forall d, In d (fanno_TS n (Some g) (Some a) (Some b) :: fanno_ratios n (Some g) (Some a) (Some b)) -> points_of d n (fun _ _ _ => True)) /\
  (forall i, (i <= n)%nat -> let M := sample a b n i in exists F Ts Pi Ps V S,
    on_curve cF i M F /\ on_curve cTs i M Ts /\ on_curve cPi i M Pi /\ on_curve cPs i M Ps /\ on_curve cV i M V /\
    on_curve (fanno_TS n (Some g) (Some a) (Some b)) i S Ts /\
    0 < Pi /\ adiabatic_duct g M Pi 1 1 /\ impulse g 1 1 <= impulse g M Pi /\ (impulse g 1 1 = impulse g M Pi <-> M = 1) /\
    Ps = static_p g M Pi / static_p g 1 1 /\ Ts = tfun g 1 / tfun g M /\ V = M * sqrt Ts /\ S = ln Ts - (g - 1) / g * ln Ps /\ 0 <= F /\ (F = 0 <-> M = 1)) /\
  (forall i j M F M' F', (i <= n)%nat -> (j <= n)%nat -> on_curve cF i M F -> on_curve cF j M' F' -> (M < M' <= 1 -> F' < F) /\ (1 <= M < M' -> F < F')).
Proof. exact fanno_figures. Qed.
Print Assumptions C104_fanno.

(** On the Fanno T/S curve, for every gamma > 1, Mach range and number of points: the temperature strictly decreases from point to point, the entropy strictly increases up to Mach 1 and strictly decreases beyond, and it is negative everywhere but at Mach 1. *)
Theorem C104_fanno_TS : forall g a b n, 1 < g -> 0 < a -> a < b -> (1 <= n)%nat ->
  forall i j S T S' T', (i <= n)%nat -> (j <= n)%nat -> let M := sample a b n i in let M' := sample a b n j in
  on_curve (fanno_TS n (Some g) (Some a) (Some b)) i S T -> on_curve (fanno_TS n (Some g) (Some a) (Some b)) j S' T' ->
  ((i < j)%nat -> M < M' /\ T' < T) /\ (M < M' <= 1 -> S < S') /\ (1 <= M < M' -> S' < S) /\ (M <> 1 -> S < 0) /\ (M = 1 -> S = 0 /\ T = 1).
Proof. exact fanno_TS_shape. Qed.
Print Assumptions C104_fanno_TS.

(** The two curves of massflow-diag.py (gamma = 1.4), for every Mach range 0 < a <= b and number n >= 1 of intervals, are finite at all n + 1 Mach numbers M: the mass flow of unit total pressure through a unit area (in units of Pt / sqrt(r Tt)), and the ratio of its value at Mach 1 to it. Their product is the same at all points; the first is largest, the second smallest, and equal to 1, exactly at Mach 1. *)
Theorem C104_massflow : forall a b n, 0 < a -> a <= b -> (1 <= n)%nat ->
  exists cW cS, massflow_curves n (Some air) (Some a) (Some b) = cW :: cS :: nil /\
  points_of cW n (fun i M W => M = sample a b n i /\ W = sqrt air * RamjetSpec.mass_flux air M 1 /\ (M <> 1 -> W < sqrt air * RamjetSpec.mass_flux air 1 1)) /\
  points_of cS n (fun i M s => M = sample a b n i /\ s * (sqrt air * RamjetSpec.mass_flux air M 1) = sqrt air * RamjetSpec.mass_flux air 1 1 /\ 1 <= s /\ (s = 1 <-> M = 1)).
Proof. exact massflow_figures. Qed.
Print Assumptions C104_massflow.

(** The mass flow curve of massflow-diag.py does not depend on its constant gam (the second argument of WeightMassFlow is r, and is unused): with gam = 3, at Mach 1 it is not the mass flow of that gas; the Sigma curve, which uses gam, is then not the ratio of the plotted mass flows either. *)
Theorem C104_gamma_refuted : (forall g g' a b n, nth_error (massflow_curves n g a b) 0 = nth_error (massflow_curves n g' a b) 0) /\
  exists cW cS W W2 s2, massflow_curves 1 (Some 3) (Some 1) (Some 2) = cW :: cS :: nil /\
  on_curve cW 0 1 W /\ W < sqrt 3 * RamjetSpec.mass_flux 3 1 1 /\ on_curve cW 1 2 W2 /\ on_curve cS 1 2 s2 /\ s2 * W2 <> W.
Proof. exact massflow_gamma. Qed.
Print Assumptions C104_gamma_refuted.

(** With the scripts' own settings (Mach 0.1 to 4, 200 or 100 intervals, gamma = 1.4) no plotted point is at Mach 1: every point of both T/S curves has negative entropy and every point of the Sigma curve is above 1, so no drawn curve reaches its sonic value 1 or its entropy maximum 0. *)
Theorem C104_sonic_missed : forall i, (i <= 200)%nat -> sample (1/10) 4 200 i <> 1 /\ ((i <= 100)%nat -> sample (1/10) 4 100 i <> 1) /\
  (forall S T, on_curve (rayleigh_TS 200 (Some air) (Some (1/10)) (Some 4)) i S T -> S < 0) /\
  (forall S T, (i <= 100)%nat -> on_curve (fanno_TS 100 (Some air) (Some (1/10)) (Some 4)) i S T -> S < 0) /\
  (forall M s, (i <= 100)%nat -> on_curve (nth 1 (massflow_curves 100 (Some air) (Some (1/10)) (Some 4)) (curve nil nil)) i M s -> 1 < s).
Proof. exact sonic_missed. Qed.
Print Assumptions C104_sonic_missed.

(** Three Mach numbers 1/2, 1, 3/2 with gamma = 3: the middle point of the Rayleigh T/S curve is (0, 1), and that of the Fanno curve too. *)
Example C104_example : on_curve (rayleigh_TS 2 (Some 3) (Some (1/2)) (Some (3/2))) 1 0 1 /\ on_curve (fanno_TS 2 (Some 3) (Some (1/2)) (Some (3/2))) 1 0 1.
Proof. exact diagrams_example. Qed.
