(** Property theorems of L_Isentropic2.v. Generated by tools/gen.py; statements only, proofs are in L_Isentropic2.v. *)
From Verif Require Import L_Num Spec NumSpec M_Isentropic L_Isentropic.
From Verif Require Import L_Isentropic2.
Open Scope R_scope.

Theorem C01_TtTs_energy : forall M g r Ts, 1 < g -> 0 < r -> 0 < Ts ->
  exists t, TtTs_Mach (Some M) (Some g) = Some t /\
            cp g r * (t * Ts) = cp g r * Ts + (M * sound g r Ts) ^ 2 / 2.
Proof. exact TtTs_energy. Qed.
Print Assumptions C01_TtTs_energy.

Theorem C01_TtTs_range : forall M g, 1 < g ->
  exists t, TtTs_Mach (Some M) (Some g) = Some t /\ 1 <= t /\ (t = 1 <-> M = 0) /\
            TtTs_Mach (Some (- M)) (Some g) = Some t.
Proof. exact TtTs_range. Qed.
Print Assumptions C01_TtTs_range.

Theorem C01_TtTs_increasing : forall g, 1 < g ->
  incr_on (fun M => 0 <= M) (fun M => TtTs_Mach M (Some g)).
Proof. exact TtTs_increasing. Qed.
Print Assumptions C01_TtTs_increasing.

Example C01_example : TtTs_Mach (Some 2) (Some (16/10)) = Some (22/10).
Proof. exact C01_example_lemma. Qed.

Theorem C02_Mach_of_TtTs : forall M g, 1 < g ->
  exists t, TtTs_Mach (Some M) (Some g) = Some t /\ Mach_TtTs (Some t) (Some g) = Some (Rabs M).
Proof. exact Mach_of_TtTs. Qed.
Print Assumptions C02_Mach_of_TtTs.

Theorem C02_TtTs_of_Mach : forall t g, 1 < g -> 1 <= t ->
  exists M, Mach_TtTs (Some t) (Some g) = Some M /\ 0 <= M /\ TtTs_Mach (Some M) (Some g) = Some t.
Proof. exact TtTs_of_Mach. Qed.
Print Assumptions C02_TtTs_of_Mach.

Theorem C02_domain : forall t g, 1 < g ->
  (exists M, Mach_TtTs (Some t) (Some g) = Some M) <-> 1 <= t.
Proof. exact Mach_TtTs_domain. Qed.
Print Assumptions C02_domain.

Theorem C03_isentropic : forall M g, 1 < g ->
  exists t q, TtTs_Mach (Some M) (Some g) = Some t /\ PtPs_Mach (Some M) (Some g) = Some q /\
    forall ps Ts, 0 < ps -> 0 < Ts ->
      (q * ps) / Rpower (t * Ts) (g / (g - 1)) = ps / Rpower Ts (g / (g - 1)).
Proof. exact PtPs_isentropic. Qed.
Print Assumptions C03_isentropic.

Theorem C03_Mach_of_PtPs : forall M g, 1 < g ->
  exists q, PtPs_Mach (Some M) (Some g) = Some q /\ 1 <= q /\
            Mach_PtPs (Some q) (Some g) = Some (Rabs M).
Proof. exact Mach_of_PtPs. Qed.
Print Assumptions C03_Mach_of_PtPs.

Theorem C03_PtPs_of_Mach : forall q g, 1 < g -> 1 <= q ->
  exists M, Mach_PtPs (Some q) (Some g) = Some M /\ 0 <= M /\ PtPs_Mach (Some M) (Some g) = Some q.
Proof. exact PtPs_of_Mach. Qed.
Print Assumptions C03_PtPs_of_Mach.

Theorem C03_domain : forall q g, 1 < g -> 0 < q ->
  (exists M, Mach_PtPs (Some q) (Some g) = Some M) <-> 1 <= q.
Proof. exact Mach_PtPs_domain. Qed.
Print Assumptions C03_domain.

Theorem C03_PtPs_increasing : forall g, 1 < g ->
  incr_on (fun M => 0 <= M) (fun M => PtPs_Mach M (Some g)).
Proof. exact PtPs_increasing. Qed.
Print Assumptions C03_PtPs_increasing.

Example C03_example : PtPs_Mach (Some 1) (Some 2) = Some (9/4).
Proof. exact C03_example_lemma. Qed.

Theorem C04_velocity_energy : forall M Tt r g, 1 < g -> 0 < r -> 0 < Tt ->
  exists V T t, Velocity_MachTt (Some M) (Some Tt) (Some r) (Some g) = Some V /\
    TtTs_Mach (Some M) (Some g) = Some t /\ T = Tt / t /\ 0 < T /\
    V = M * sound g r T /\ cp g r * Tt = cp g r * T + V ^ 2 / 2.
Proof. exact Velocity_energy. Qed.
Print Assumptions C04_velocity_energy.

Theorem C04_velocity_increasing : forall Tt r g, 1 < g -> 0 < r -> 0 < Tt ->
  incr_on (fun M => 0 <= M) (fun M => Velocity_MachTt M (Some Tt) (Some r) (Some g)).
Proof. exact Velocity_increasing. Qed.
Print Assumptions C04_velocity_increasing.

Theorem C04_velocity_limit : forall M Tt r g V, 1 < g -> 0 < r -> 0 < Tt ->
  Velocity_MachTt (Some M) (Some Tt) (Some r) (Some g) = Some V -> V < sqrt (2 * cp g r * Tt).
Proof. exact Velocity_limit. Qed.
Print Assumptions C04_velocity_limit.

Example C04_example : exists V, Velocity_MachTt (Some 2) (Some 300) dr dgamma = Some V /\ 0 < V.
Proof. exact C04_example_lemma. Qed.

(** gamma = 3, M = -2: Tt/Ts = 5 and back to |M| = 2; the ratio 5 satisfies the hypothesis, 1/2 has no Mach number. *)
Example C02_example : TtTs_Mach (Some (-2)) (Some 3) = Some 5 /\ Mach_TtTs (Some 5) (Some 3) = Some 2 /\ Mach_TtTs (Some (1/2)) (Some 3) = None.
Proof. exact C02_example_lemma. Qed.
