(** Property theorems of L_CycleNB.v. Generated by tools/gen.py; statements only, proofs are in L_CycleNB.v. *)
From Coq Require Import String.
From Verif Require Import Num L_Num M_Isentropic M_Obj L_Obj M_Engine M_Cycle M_CycleNB EngineSpec CycleSpec L_Isentropic L_Engine L_Engine2 L_Cycle L_Cycle2 L_Cycle3 L_Cycle4 L_Cycle5.
From Verif Require Import L_CycleNB.
Open Scope R_scope.

(** For both turbofan classes, whatever the constructor arguments (undefined numbers included), and for every finite sequence of calls of their calculation methods in any order: the class of the notebook and the class of the library both survive it (no attribute read before it exists), are in the same stage, have the same attributes, and agree on the value of every one of them except the core jet velocity V9 and what is computed from it (core thrust, thrust, specific thrust, specific consumption and the three efficiencies). *)
Theorem C100_lockstep : forall a,
  (exists c0, construct (fixe_init a) = Some c0 /\ forall h, List.Forall (fun i => (i < 11)%nat) h ->
     exists c c', history (by_number fixe_methods h) c0 = Some c /\ history (by_number nb_fixe_methods h) c0 = Some c' /\
     corps c' = corps c /\ fan c' = fan c /\ (forall x, ~ In x jet_names -> attrs c' x = attrs c x) /\ (forall x, attrs c' x = None <-> attrs c x = None)) /\
  (exists c0, construct (calc_init a) = Some c0 /\ forall h, List.Forall (fun i => (i < 12)%nat) h ->
     exists c c', history (by_number calc_methods h) c0 = Some c /\ history (by_number nb_calc_methods h) c0 = Some c' /\
     corps c' = corps c /\ fan c' = fan c /\ (forall x, ~ In x jet_names -> attrs c' x = attrs c x) /\ (forall x, attrs c' x = None <-> attrs c x = None)).
Proof. exact lockstep. Qed.
Print Assumptions C100_lockstep.

(** The core jet of the notebook classes is not that of the library: on completed objects with the same arguments, a hot gas with 1 < gamma < r (every gas in SI units), a moving core jet M9 > 0 and Tt9 > 0, the library has the isentropic velocity V9 and the notebook the one of a gas of heat ratio r; the notebook velocity is the larger one below Mach sqrt 2, the smaller one above, and equal only at M9^2 = 2; and its thrust is off by exactly the core mass flow times the difference. *)
Theorem C100_core_jet_refuted : forall l pc t4 m g gf x gam r c c' M T,
  gz_gamma gf = Some gam -> gz_r gf = Some r -> 1 < gam < r -> computed_by_both (l, pc, t4, m, g, gf, x) c c' ->
  has (attrs c) "M9" M -> has (attrs c) "Tt9" T -> 0 < M -> 0 < T ->
  has (attrs c') "M9" M /\ has (attrs c') "Tt9" T /\
  exists v v', has (attrs c) "V9" v /\ has (attrs c') "V9" v' /\
  v = M * sqrt (gam * r * T / (1 + (gam - 1) / 2 * M ^ 2)) /\ v' = M * sqrt (r * r * T / (1 + (r - 1) / 2 * M ^ 2)) /\
  (v < v' <-> M ^ 2 < 2) /\ (v' < v <-> 2 < M ^ 2) /\ (v = v' <-> M ^ 2 = 2) /\
  forall F mc, has (attrs c) "F" F -> has (attrs c) "m_c" mc -> has (attrs c') "F" (F + mc * (v' - v)).
Proof. exact core_jet_refuted. Qed.
Print Assumptions C100_core_jet_refuted.

(** Example: the engine of C74_example (hot gas gamma 1.33, r 291.6): its core jet has M9^2 > 2 and a positive total temperature, so the hypotheses of C100_core_jet_refuted hold and the notebook understates its core jet velocity. *)
Example C100_example : exists x c c' M T, computed_by_both (fixe_of ex_two_flow 0 x) c c' /\ has (attrs c) "M9" M /\ has (attrs c) "Tt9" T /\
  0 < M /\ 0 < T /\ 2 < M ^ 2 /\ exists v v', has (attrs c) "V9" v /\ has (attrs c') "V9" v' /\ v' < v.
Proof. exact C100_example_lemma. Qed.
