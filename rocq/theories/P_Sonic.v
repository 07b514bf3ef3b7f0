(** Property theorems of L_Sonic.v. Generated by tools/gen.py; statements only, proofs are in L_Sonic.v. *)
From Verif Require Import L_Num Spec NumSpec PolarSpec WedgeSpec M_Isentropic M_MassFlow M_Degree M_ShockWave L_Isentropic L_Degree L_Shock L_Oblique L_Oblique2 L_WeakStrong L_Sigma2 L_Polar.
From Verif Require Import L_Sonic.
Open Scope R_scope.

(** For every gamma > 1 and M > 1, dev_Sonic is the limit for supersonic flow behind an attached shock: the sonic angle lies strictly between the Mach angle and sigma_DevMax and dev_Sonic below dev_Max; the Mach number behind the shock - downstream_Mn(M sin s)/sin(s - deflection), which is the Mach number that the conservation laws across the oblique front give - strictly decreases with the shock angle and passes 1 exactly at the sonic angle; so behind the weak shock of an attached deflection d the flow is supersonic, sonic or subsonic according to d < dev_Sonic, d = dev_Sonic or d > dev_Sonic, and behind the strong shock it is always subsonic. *)
Theorem C18_limit : forall g M, 1 < g -> 1 < M -> exists mu ss ds sm dm (th m : R -> R),
  dasin (ndiv (Some 1) (Some M)) = Some mu /\ sigma_Sonic (Some M) (Some g) = Some ss /\ dev_Sonic (Some M) (Some g) = Some ds /\
  sigma_DevMax (Some M) (Some g) = Some sm /\ dev_Max (Some M) (Some g) = Some dm /\ mu < ss < sm /\ 0 < ds < dm /\
  (forall s, mu <= s < 90 -> deflection_Mach_sigma (Some M) (Some s) (Some g) = Some (th s) /\
     ndiv (downstream_Mn (nmul (Some M) (dsin (Some s))) (Some g)) (dsin (Some (s - th s))) = Some (m s) /\
     exists P, Ps_ratio (nmul (Some M) (dsin (Some s))) (Some g) = Some P /\ shock_to g M s (th s) P (m s)) /\
  (forall a b, mu <= a -> a < b -> b < 90 -> m b < m a) /\ m ss = 1 /\
  (forall d w s, 0 < d <= dm -> weaksigma_Mach_deflection (Some M) (Some d) (Some g) = Some w -> strongsigma_Mach_deflection (Some M) (Some d) (Some g) = Some s ->
     th w = d /\ th s = d /\ mu < w < 90 /\ mu < s < 90 /\ (d < ds -> 1 < m w) /\ (d = ds -> m w = 1) /\ (ds < d -> m w < 1) /\ m s < 1).
Proof. exact sonic_limit. Qed.
Print Assumptions C18_limit.
