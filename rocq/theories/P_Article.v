(** Property theorems of L_Article.v. Generated by tools/gen.py; statements only, proofs are in L_Article.v. *)
From Verif Require Import Num L_Num Spec NumSpec ShockDynSpec M_Isentropic M_MassFlow M_ShockWave M_Polar M_Article L_Isentropic L_MassFlow L_Shock L_Polar.
From Verif Require Import L_Article.
Open Scope R_scope.

(** For every gamma > 1 and every Mach number M > 1, mu is the Mach number behind the shock given by ShockWave.downstream_Mn, between 0 and 1. *)
Theorem C111_mu : forall gamma M, 1 < gamma -> 1 < M ->
  exists m, art_mu (Some gamma) (Some M) = Some m /\ downstream_Mn (Some M) (Some gamma) = Some m /\ 0 < m < 1.
Proof. exact mu_downstream. Qed.
Print Assumptions C111_mu.

(** The curve "steady" is the slope of ln A against ln M of a steady isentropic duct: for every gamma > 1, with A(M) the area ratio computed by MassFlow.Sigma_Mach, steady(M) = M A'(M) / A(M) at every M > 0, and steady2(M) the same quantity at the Mach number behind the shock. For M > 1, 0 < steady < 2/(gamma-1) and -1 < steady2 < 0. *)
Theorem C111_steady : forall gamma, 1 < gamma -> exists A : R -> R,
  (forall M, 0 < M -> Sigma_Mach (Some M) (Some gamma) = Some (A M) /\ 0 < A M) /\
  (forall M, 0 < M -> exists dA, is_derive A M dA /\ art_steady (Some gamma) (Some M) = Some (M * dA / A M)) /\
  (forall M, 1 < M -> exists m dA, downstream_Mn (Some M) (Some gamma) = Some m /\ is_derive A m dA /\ art_steady2 (Some gamma) (Some M) = Some (m * dA / A m)) /\
  (forall M, 1 < M -> exists s s2, art_steady (Some gamma) (Some M) = Some s /\ art_steady2 (Some gamma) (Some M) = Some s2 /\ 0 < s < 2 / (gamma - 1) /\ -1 < s2 < 0).
Proof. exact steady_slope. Qed.
Print Assumptions C111_steady.

(** The curve "unsteady" is Whitham's area rule for a shock running into a gas at rest: whatever gamma > 1, the gas at rest and the function giving the state behind the shock at every Mach number (any solution of the Rankine-Hugoniot relations), the relation that holds along the u + c characteristics is satisfied right behind the shock of Mach number M > 1 by the area variation d ln A / dM = M unsteady(M), and by no other. *)
Theorem C111_unsteady : forall gamma rho1 p1 Q, 1 < gamma -> 0 < rho1 -> 0 < p1 -> (forall M, 1 < M -> shock_into_rest gamma rho1 p1 M (Q M)) ->
  forall M, 1 < M -> exists L, art_unsteady (Some gamma) (Some M) = Some L /\ forall dlnA, characteristic_rule gamma Q M dlnA <-> dlnA = M * L.
Proof. exact unsteady_rule. Qed.
Print Assumptions C111_unsteady.

(** Such states exist at every Mach number: the hypothesis of C111_unsteady is met. *)
Theorem C111_exists : forall gamma rho1 p1, 1 < gamma -> 0 < rho1 -> 0 < p1 -> exists Q, forall M, 1 < M -> shock_into_rest gamma rho1 p1 M (Q M).
Proof. exact states_exist. Qed.
Print Assumptions C111_exists.

(** For gamma = 1.4 (the value of the notebook), the coefficient lam increases strictly with the Mach number of the shock, from 4 (weak shocks) to a strong shock value below 5.08: the area rule stays close to the one of an acoustic pulse whatever the strength of the shock, and unsteady(M) < 0 < steady(M): a shock accelerates in a converging channel. *)
Theorem C111_lambda : 
  (forall M, 1 < M -> exists l u s, art_lam dgamma (Some M) = Some l /\ 4 < l < 508 / 100 /\ art_unsteady dgamma (Some M) = Some u /\ u < 0 /\ art_steady dgamma (Some M) = Some s /\ 0 < s) /\
  (forall M M' l l', 1 < M -> M < M' -> art_lam dgamma (Some M) = Some l -> art_lam dgamma (Some M') = Some l' -> l < l') /\
  (forall eps, 0 < eps -> exists d, 0 < d /\ forall M l, 1 < M < 1 + d -> art_lam dgamma (Some M) = Some l -> Rabs (l - 4) < eps).
Proof. exact lambda_range. Qed.
Print Assumptions C111_lambda.

(** The four curves are drawn over the same 101 Mach numbers from 1.005 to 10, all greater than 1: every ordinate is a number and the properties above apply to every point. *)
Theorem C111_curves : forall d, In d (art_curves dgamma) -> d_x d = linspace (Some (1005 / 1000)) (Some 10) 100 /\ List.length (d_y d) = 101%nat /\
  (forall i, (i <= 100)%nat -> exists x y, nth_error (d_x d) i = Some (Some x) /\ 1 < x <= 10 /\ nth_error (d_y d) i = Some (Some y)).
Proof. exact curves_defined. Qed.
Print Assumptions C111_curves.

(** at Mach 2 with gamma = 1.4: mu^2 = 1/3, steady = 5/3, steady2 = -5/8. *)
Example C111_example : art_mu dgamma (Some 2) = Some (sqrt (1 / 3)) /\ art_steady dgamma (Some 2) = Some (5 / 3) /\ art_steady2 dgamma (Some 2) = Some (- (5 / 8)).
Proof. exact article_ex. Qed.
