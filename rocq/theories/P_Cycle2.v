(** Property theorems of L_Cycle2.v. Generated by tools/gen.py; statements only, proofs are in L_Cycle2.v. *)
From Coq Require Import String.
From Verif Require Import Num L_Num M_Isentropic M_Obj L_Obj M_Engine M_Cycle EngineSpec L_Engine L_Engine2 L_Cycle.
From Verif Require Import L_Cycle2.
Open Scope R_scope.

(** For all values of by-pass ratio, compressor pressure ratio, turbine inlet temperature, mass flow and mechanical ratio - also those for which some quantity is undefined - a cycle_taux_fan_calcule with the gases of the script, once computed, and propu_be_double_corps.calculs agree on every quantity they both compute, each of them present on both sides (undefined on one side exactly when undefined on the other). *)
Theorem C62_double_corps : forall l pc t4 m x, exists c s,
  computed (init_calcule l pc t4 m gaz_default gaz_fuel x) calc_5_to_9 = Some c /\ double_corps_calculs script_globals l pc t4 m x = Some s /\
  agree (attrs c) s names_calc.
Proof. exact double_corps. Qed.
Print Assumptions C62_double_corps.

(** Likewise cycle_taux_fan_fixe and propu_be.calculs agree on every quantity for all arguments - PROVIDED the fan efficiency of the script is set to its compressor efficiency. PARTIAL: with the values in the two files this is false, see C62_propu_be_refuted. *)
Theorem C62_propu_be_partial : forall l pc t4 m x, exists c s,
  computed (init_fixe l pc t4 m gaz_default gaz_fuel x) fixe_5_to_9 = Some c /\ propu_be_calculs eta_f_as_eta_c l pc t4 x m = Some s /\
  agree (attrs c) s names_fixe.
Proof. exact propu_be. Qed.
Print Assumptions C62_propu_be_partial.

(** cycle_taux_fan_fixe and propu_be.calculs disagree for every positive fan pressure ratio other than 1, whatever the other arguments: the class compresses the fan flow with the compressor efficiency eta_c instead of eta_f, so the fan exit temperatures differ; for a pressure ratio above 1 and positive by-pass ratio and mass flow the class understates the fan power. *)
Theorem C62_propu_be_refuted : forall l pc t4 m x, 0 < x -> x <> 1 -> exists c s v w,
  computed (init_fixe l pc t4 m gaz_default gaz_fuel (Some x)) fixe_5_to_9 = Some c /\ propu_be_calculs script_globals l pc t4 (Some x) m = Some s /\
  has (attrs c) "Tt13" v /\ has s "Tt17" w /\ v <> w /\
  (forall l' m', l = Some l' -> m = Some m' -> 0 < l' -> 0 < m' -> 1 < x -> exists p q, has (attrs c) "wu_f" p /\ has s "w_uf" q /\ p < q).
Proof. exact propu_be_refuted. Qed.
Print Assumptions C62_propu_be_refuted.

(** Example: by-pass ratio 5, compressor 40, 1600 K, 200 kg/s, fan pressure ratio 3/2: all hypotheses of the refutation hold, so the class understates the fan power at this operating point. *)
Example C62_example : exists c s p q, computed (init_fixe (Some 5) (Some 40) (Some 1600) (Some 200) gaz_default gaz_fuel (Some (3/2))) fixe_5_to_9 = Some c /\
  propu_be_calculs script_globals (Some 5) (Some 40) (Some 1600) (Some (3/2)) (Some 200) = Some s /\ has (attrs c) "wu_f" p /\ has s "w_uf" q /\ p < q.
Proof. exact C62_example_lemma. Qed.
