(** Property theorems of L_Cycle3.v. Generated by tools/gen.py; statements only, proofs are in L_Cycle3.v. *)
From Coq Require Import String.
From Verif Require Import Num L_Num M_Isentropic M_Obj L_Obj M_Engine M_Cycle EngineSpec L_Engine L_Engine2 L_Cycle L_Cycle2.
From Verif Require Import L_Cycle3.
Open Scope R_scope.

(** cycle_taux_fan_calcule: take an object in any reachable stage, with any values of its attributes, and assign to its parameters those of some other arguments; InitialValues, calculs_1_to_4 and calculs_5_to_9 then give on every attribute the values of a new object built with these arguments. *)
Theorem C73_computed_fan : forall a o0 c, run (calc_init a) empty_obj = Some o0 -> In (corps c, fan c) calc_flags ->
  (forall x, In x (writes (calc_init a)) -> attrs c x = o0 x) ->
  exists c' fresh, history recompute_calc c = Some c' /\ computed (calc_init a) calc_5_to_9 = Some fresh /\
  forall x, In x (writes calc_all) -> attrs c' x = attrs fresh x /\ attrs c' x <> None.
Proof. exact recompute_calc_ok. Qed.
Print Assumptions C73_computed_fan.

(** cycle_taux_fan_fixe: build an object, make any sequence of calls, assign a new compressor pressure ratio and turbine inlet temperature, and call InitialValues, calculs_1_to_4 and calculs_5_to_9: every attribute then has the value of a new object built with them. PARTIAL: false for parameters of the fan flow, see C73_fixed_fan_refuted. *)
Theorem C73_fixed_fan_partial : forall l pc t4 m g gf x pc' t4' h, List.Forall (fun m => In m fixe_methods) h ->
  exists c0 c c1 c' fresh, construct (init_fixe l pc t4 m g gf x) = Some c0 /\ history h c0 = Some c /\
  assign [("pi_c", L pc'); ("Tt4", L t4')]%string c = Some c1 /\ history recompute_fixe c1 = Some c' /\
  computed (init_fixe l pc' t4' m g gf x) fixe_5_to_9 = Some fresh /\
  forall x, In x (writes fixe_all) -> attrs c' x = attrs fresh x /\ attrs c' x <> None.
Proof. exact recompute_fixe_ok. Qed.
Print Assumptions C73_fixed_fan_partial.

(** cycle_taux_fan_fixe keeps a stale fan: complete an object, assign another fan pressure ratio, call InitialValues, calculs_1_to_4 and calculs_5_to_9: for any two distinct positive ratios, and whatever the other arguments, the fan exit temperature is still that of the old ratio and differs from that of a new object. *)
Theorem C73_fixed_fan_refuted : forall l pc t4 m x x', 0 < x -> 0 < x' -> x <> x' ->
  exists c c1 c' fresh v w, computed (init_fixe l pc t4 m gaz_default gaz_fuel (Some x)) fixe_5_to_9 = Some c /\
  assign (("pi_f"%string, L (Some x')) :: nil) c = Some c1 /\ history recompute_fixe c1 = Some c' /\
  computed (init_fixe l pc t4 m gaz_default gaz_fuel (Some x')) fixe_5_to_9 = Some fresh /\
  has (attrs c) "Tt13" v /\ has (attrs c') "Tt13" v /\ has (attrs fresh) "Tt13" w /\ v <> w.
Proof. exact fixed_fan_refuted. Qed.
Print Assumptions C73_fixed_fan_refuted.

(** Without InitialValues nothing is recomputed by cycle_taux_fan_fixe: on a completed object, after assigning any values to parameters, calculs_1_to_4 and calculs_5_to_9 leave every attribute but the six of the performance, and the total thrust is still the sum of the two old thrusts. *)
Theorem C73_no_reset : forall a c p c1 c', computed (fixe_init a) fixe_5_to_9 = Some c -> subset (writes p) fixe_params = true ->
  assign p c = Some c1 -> history [calculs_1_to_4; fixe_5_to_9] c1 = Some c' ->
  (forall x, ~ In x (writes (code perfo)) -> attrs c' x = attrs c1 x) /\ attrs c' "F"%string = attrs c "F"%string.
Proof. exact no_reset. Qed.
Print Assumptions C73_no_reset.

(** Example: a history mixing single stages and complete calculations, and an assignment of parameters of the kind C73_no_reset speaks of. *)
Example C73_example : List.Forall (fun m => In m fixe_methods) (fixe_5_to_9 :: prim InitialValues :: prim fixe_stage_13 :: calculs_1_to_4 :: nil) /\
  subset (writes [("pi_c", L (Some 30)); ("Tt4", L (Some 1700))]%string) fixe_params = true /\ 0 < 3/2 /\ 0 < 7/5 /\ 3/2 <> 7/5.
Proof. exact C73_example_lemma. Qed.
