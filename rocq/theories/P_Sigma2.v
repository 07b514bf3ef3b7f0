(** Property theorems of L_Sigma2.v. Generated by tools/gen.py; statements only, proofs are in L_Sigma2.v. *)
From Coq Require Import List Lra Lia.
From Coquelicot Require Import Coquelicot.
From Verif Require Import L_Num Spec NumSpec M_Degree M_IterSolve M_ShockWave L_Degree L_Shock L_Oblique L_Oblique2 L_WeakStrong L_Secant L_Secant2 L_Sigma.
From Verif Require Import L_Sigma2.
Open Scope R_scope.

(** For every M > 1 the deflection is a strictly concave function of the shock angle on (0,90), increasing up to sigma_DevMax and decreasing after it. *)
Theorem C19_concave : forall g M, 1 < g -> 1 < M -> exists th sm,
  (forall s, 0 < s < 90 -> deflection_Mach_sigma (Some M) (Some s) (Some g) = Some (th s)) /\
  sigma_DevMax (Some M) (Some g) = Some sm /\
  (forall a b c, 0 < a -> a < b -> b < c -> c < 90 -> th a * (c - b) + th c * (b - a) < th b * (c - a)) /\
  (forall a b, 0 < a -> a < b -> b <= sm -> th a < th b) /\ (forall a b, sm <= a -> a < b -> b < 90 -> th b < th a).
Proof. exact deflection_concave. Qed.
Print Assumptions C19_concave.

(** For every M > 1 and attached deflection, the weak shock angle is at most sigma_DevMax and the strong one at least. *)
Theorem C17_branches : forall g M th sigma, 1 < g -> 1 < M -> 0 < th < 90 -> 0 < sigma < 90 ->
  deflection_Mach_sigma (Some M) (Some sigma) (Some g) = Some th ->
  exists mu w s sm, dasin (ndiv (Some 1) (Some M)) = Some mu /\ weaksigma_Mach_deflection (Some M) (Some th) (Some g) = Some w /\
    strongsigma_Mach_deflection (Some M) (Some th) (Some g) = Some s /\ sigma_DevMax (Some M) (Some g) = Some sm /\
    mu < w /\ w <= sm /\ sm <= s /\ s < 90.
Proof. exact weak_strong_sides. Qed.
Print Assumptions C17_branches.

(** The mirror image of C27_concave: from a start x above the root r with 0.999 x >= r, when the slope keeps one sign and gets no steeper towards the root, the answer z satisfies r <= z <= x, and no point below r is ever evaluated. *)
Theorem C27_convex : forall f F G r e x, (e = 1 \/ e = -1) -> 1/100 < x -> r <= x * (999/1000) ->
  (forall z, r <= z <= x -> f (Some z) = Some (F z) /\ is_derive F z (G z)) ->
  (forall z, r < z <= x -> 0 < e * G z) ->
  (forall a b, r <= a -> a < b -> b <= x -> e * G a <= e * G b) ->
  exists z, secant_solve f (Some (F r)) (Some x) = Some z /\ r <= z <= x /\
    List.Forall (fun p => exists a, p = Some a /\ r <= a <= x) (s_evals (secant_run_of f (Some (F r)) (Some x) secant_tol)).
Proof. exact secant_above. Qed.
Print Assumptions C27_convex.

(** For every M > 1 and attached deflection d of either sign, and every start (given or the default one) between 0.01 and the weak shock angle w of |d|: sigma_Mach_deflection returns sign(d) z with start <= z <= w, an angle of the weak branch, whose deflection is at most |d|, and misses it by at most an explicit multiple of the solver tolerance if no warning is printed. *)
Theorem C28_weak : forall g M d init sig0 w sigma, 1 < g -> 1 < M -> 0 < Rabs d < 90 -> 0 < sigma < 90 ->
  deflection_Mach_sigma (Some M) (Some sigma) (Some g) = Some (Rabs d) ->
  weaksigma_Mach_deflection (Some M) (Some (Rabs d)) (Some g) = Some w ->
  match init with Some i => i | None => nadd (dasin (ndiv (Some 1) (Some M))) (Some d) end = Some sig0 -> 1/100 < sig0 <= w ->
  exists z th, sigma_Mach_deflection (Some M) (Some d) init (Some g) = Some (z * Rsign d) /\ sig0 <= z <= w /\
    deflection_Mach_sigma (Some M) (Some z) (Some g) = Some th /\ th <= Rabs d /\
    (s_warned (secant_run_of (fun s => deflection_Mach_sigma (Some M) s (Some g)) (Some (Rabs d)) (Some sig0) secant_tol) = false ->
     Rabs d - th <= 2 * sigma_lip g M * Rmax (1/100000) (1/100000 * z)).
Proof. exact sigma_weak. Qed.
Print Assumptions C28_weak.

(** From a start above the strong shock angle s of |d| (0.999 start >= s, start < 90) the same function returns sign(d) z with s <= z <= start: the strong branch, with a deflection at most |d|, within the same bound if no warning is printed. *)
Theorem C28_strong : forall g M d sig0 s sigma, 1 < g -> 1 < M -> 0 < Rabs d < 90 -> 0 < sigma < 90 ->
  deflection_Mach_sigma (Some M) (Some sigma) (Some g) = Some (Rabs d) ->
  strongsigma_Mach_deflection (Some M) (Some (Rabs d)) (Some g) = Some s -> s <= sig0 * (999/1000) -> 1/100 < sig0 < 90 ->
  exists z th, sigma_Mach_deflection (Some M) (Some d) (Some (Some sig0)) (Some g) = Some (z * Rsign d) /\ s <= z <= sig0 /\
    deflection_Mach_sigma (Some M) (Some z) (Some g) = Some th /\ th <= Rabs d /\
    (s_warned (secant_run_of (fun s => deflection_Mach_sigma (Some M) s (Some g)) (Some (Rabs d)) (Some sig0) secant_tol) = false ->
     Rabs d - th <= 2 * sigma_lip g M * Rmax (1/100000) (1/100000 * z)).
Proof. exact sigma_strong. Qed.
Print Assumptions C28_strong.

(** The default start, Mach angle plus deflection, is on the weak side (at most the weak shock angle of |d|) for every attached negative deflection, and for every attached positive deflection when (3 - gamma) M^2 <= 4 (for gamma = 1.4, Mach numbers up to 1.58): then C28_weak applies. *)
Theorem C28_default_start : forall g M d mu w sigma, 1 < g -> 1 < M -> 0 < Rabs d < 90 -> 0 < sigma < 90 ->
  deflection_Mach_sigma (Some M) (Some sigma) (Some g) = Some (Rabs d) ->
  weaksigma_Mach_deflection (Some M) (Some (Rabs d)) (Some g) = Some w ->
  dasin (ndiv (Some 1) (Some M)) = Some mu -> (d < 0 \/ (3 - g) * M ^ 2 <= 4) -> mu + d <= w.
Proof. exact sigma_default. Qed.
Print Assumptions C28_default_start.

(** At Mach 1.5 and gamma = 1.4 the deflection of the shock at 60 degrees, with the default start, meets the hypotheses of C28_weak. *)
Example C28_weak_example : exists d mu w, 0 < d < 90 /\ deflection_Mach_sigma (Some (3/2)) (Some 60) (Some (7/5)) = Some (Rabs d) /\
  weaksigma_Mach_deflection (Some (3/2)) (Some (Rabs d)) (Some (7/5)) = Some w /\
  nadd (dasin (ndiv (Some 1) (Some (3/2)))) (Some d) = Some (mu + d) /\ 1/100 < mu + d <= w.
Proof. exact sigma_weak_ex. Qed.
