(** Property theorems of L_SigmaApprox.v. Generated by tools/gen.py; statements only, proofs are in L_SigmaApprox.v. *)
From Verif Require Import Num L_Num Spec M_MassFlow M_SigmaApprox L_Isentropic L_MassFlow.
From Verif Require Import L_SigmaApprox.
Open Scope R_scope.

(** For every gas and Mach number, the small-Mach approximation of the example and that of the notebook are the same number; it is below Sigma, and Sigma is at most exp((g+1) M^2 / 4) times it: the relative error is of order M^2. *)
Theorem C94_low : forall g M, 1 < g -> 0 < M -> exists s a,
  Sigma_Mach (Some M) (Some g) = Some s /\ sig1 (Some M) (Some g) = Some a /\ nb_low (Some M) (Some g) = Some a /\
  0 < a < s /\ s <= a * exp ((g + 1) / 4 * M ^ 2).
Proof. exact approx_low. Qed.
Print Assumptions C94_low.

(** For every gas and Mach number, with r = (g+1)/(g-1): the large-Mach approximation of the example is below that of the notebook, which is below Sigma; Sigma is at most exp(r(r-1)/(2 M^2)) times the first and exp(r(r-1)/(4 M^4)) times the second: the notebook's one is better by two orders. *)
Theorem C94_high : forall g M, 1 < g -> 0 < M -> let r := (g + 1) / (g - 1) in exists s a b,
  Sigma_Mach (Some M) (Some g) = Some s /\ sig3 (Some M) (Some g) = Some a /\ nb_high (Some M) (Some g) = Some b /\
  0 < a < b /\ b < s /\ s <= a * exp (r * (r - 1) / (2 * M ^ 2)) /\ s <= b * exp (r * (r - 1) / (4 * M ^ 4)).
Proof. exact approx_high. Qed.
Print Assumptions C94_high.

(** For every gas, near Mach 1: (Sigma - 1)/(M - 1)^2 tends to 2/(g+1). *)
Theorem C94_throat : forall g, 1 < g -> forall eps, 0 < eps -> exists delta, 0 < delta < 1 /\
  forall M, 0 < Rabs (M - 1) < delta -> exists s, Sigma_Mach (Some M) (Some g) = Some s /\
    Rabs ((s - 1) / (M - 1) ^ 2 - 2 / (g + 1)) < eps.
Proof. exact throat_limit. Qed.
Print Assumptions C94_throat.

(** The expansion drawn by the example near the throat, 1 + (3-g)/(4(g-1)) (M-1)^2, is not the one of Sigma, except for the gas with g^2 + 6 g = 11: for every other gas, (Sigma - expansion)/(M-1)^2 tends to a number different from zero (-1/6 for air). *)
Theorem C94_throat_refuted : forall g, 1 < g -> g ^ 2 + 6 * g <> 11 ->
  exists k, k <> 0 /\ (g = 14/10 -> k = -1/6) /\ forall eps, 0 < eps -> exists delta, 0 < delta < 1 /\
  forall M, 0 < Rabs (M - 1) < delta -> exists s a, Sigma_Mach (Some M) (Some g) = Some s /\ sig2 (Some M) (Some g) = Some a /\
    Rabs ((s - a) / (M - 1) ^ 2 - k) < eps.
Proof. exact throat_wrong. Qed.
Print Assumptions C94_throat_refuted.

(** The starting points used to invert Sigma come from that expansion and are therefore not asymptotically exact near the throat: for air, on each side of Mach 1 there is a range of Mach numbers M such that the starting point computed from Sigma(M) misses M by more than one twentieth of its distance to 1. *)
Theorem C94_guess_refuted : exists delta, 0 < delta < 1 /\ forall M, 0 < Rabs (M - 1) < delta -> exists s a b,
  Sigma_Mach (Some M) (Some (14/10)) = Some s /\ MachSup_guess (Some s) (Some (14/10)) = Some a /\ MachSub_guess (Some s) (Some (14/10)) = Some b /\
  (1 < M -> a < M - (M - 1) / 20) /\ (M < 1 -> M + (1 - M) / 20 < b).
Proof. exact guess_wrong. Qed.
Print Assumptions C94_guess_refuted.

(** with g = 3 (r = 2) at Mach 2: Sigma = 5/4, the small-Mach approximation is 1/4, the large-Mach one 1, and the notebook's one sqrt(6)/2 = 1.2247. *)
Example C94_example : Sigma_Mach (Some 2) (Some 3) = Some (5/4) /\ sig1 (Some 2) (Some 3) = Some (1/4) /\ sig3 (Some 2) (Some 3) = Some 1 /\
  nb_high (Some 2) (Some 3) = Some (sqrt 6 / 2) /\ 3 ^ 2 + 6 * 3 <> 11 /\ 1 < 3.
Proof. exact C94_ex. Qed.
