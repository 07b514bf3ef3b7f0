(** Property theorems of L_Cycle.v. Generated by tools/gen.py; statements only, proofs are in L_Cycle.v. *)
From Coq Require Import String.
From Verif Require Import Num M_Isentropic M_Obj L_Obj M_Engine M_Cycle.
From Verif Require Import L_Cycle.

(** cycle_taux_fan_fixe, whatever its arguments: the constructor succeeds, and after every finite sequence of calls of its calculation methods, in any order, no attribute was read before being assigned, and every attribute of the object has the value of the straight computation (all stages once, in order); calling calculs_1_to_4 then calculs_5_to_9 after any such sequence yields the complete performance. *)
Theorem C61_fixed_fan : forall a, exists full, run (fixe_init a ++ fixe_all) empty_obj = Some full /\
  exists c0, construct (fixe_init a) = Some c0 /\
  forall h, Forall (fun m => In m fixe_methods) h ->
  exists c, history h c0 = Some c /\ (forall x v, attrs c x = Some v -> full x = Some v) /\
  exists c', history [calculs_1_to_4; fixe_5_to_9] c = Some c' /\ forall x, In x (writes fixe_all) -> attrs c' x = full x /\ attrs c' x <> None.
Proof. exact fixe_any_order. Qed.
Print Assumptions C61_fixed_fan.

(** The same for cycle_taux_fan_calcule: no call sequence reads a missing attribute or stores anything but the values of the straight computation, and calculs_1_to_4 then calculs_5_to_9 complete it. *)
Theorem C61_computed_fan : forall a, exists full, run (calc_init a ++ calc_all) empty_obj = Some full /\
  exists c0, construct (calc_init a) = Some c0 /\
  forall h, Forall (fun m => In m calc_methods) h ->
  exists c, history h c0 = Some c /\ (forall x v, attrs c x = Some v -> full x = Some v) /\
  exists c', history [calculs_1_to_4; calc_5_to_9] c = Some c' /\ forall x, In x (writes calc_all) -> attrs c' x = full x /\ attrs c' x <> None.
Proof. exact calc_any_order. Qed.
Print Assumptions C61_computed_fan.

(** After any sequence of calls that does not include InitialValues (the head of the method lists; the constructor has already called it), calculs_5_to_9 alone ends with every attribute of the straight computation present and equal to it - in both classes. PARTIAL: with a call of InitialValues in the sequence this is false, see C61_reset_refuted. *)
Theorem C61_completion_partial : forall a,
  (exists full c0, run (fixe_init a ++ fixe_all) empty_obj = Some full /\ construct (fixe_init a) = Some c0 /\
   forall h, Forall (fun m => In m (tl fixe_methods)) h -> exists c, history (h ++ [fixe_5_to_9]) c0 = Some c /\
   forall x, In x (writes fixe_all) -> attrs c x = full x /\ attrs c x <> None) /\
  (exists full c0, run (calc_init a ++ calc_all) empty_obj = Some full /\ construct (calc_init a) = Some c0 /\
   forall h, Forall (fun m => In m (tl calc_methods)) h -> exists c, history (h ++ [calc_5_to_9]) c0 = Some c /\
   forall x, In x (writes calc_all) -> attrs c x = full x /\ attrs c x <> None).
Proof. exact completion. Qed.
Print Assumptions C61_completion_partial.

(** calculs_5_to_9 does not always complete: on a fresh object of either class, whatever the arguments, InitialValues followed by calculs_5_to_9 leaves it without thrust, and printing the performance then prints nothing; and on an object brought to the last stages by individual calls, without perfo, printing it is an AttributeError. *)
Theorem C61_reset_refuted : forall a,
  (exists c, match construct (fixe_init a) with Some c => history [prim InitialValues; fixe_5_to_9] c | None => None end = Some c /\ attrs c "F" = None /\ call show_perfo c = Some c) /\
  (exists c, match construct (calc_init a) with Some c => history [prim InitialValues; calc_5_to_9] c | None => None end = Some c /\ attrs c "F" = None /\ call show_perfo c = Some c) /\
  (exists c, match construct (fixe_init a) with Some c => history (map prim [fixe_stage_13; stage_19; fixe_stage_5; fixe_stage_9]) c | None => None end = Some c /\ call show_perfo c = None).
Proof. exact reset_refuted. Qed.
Print Assumptions C61_reset_refuted.

(** Printing the performance, from any state of an object whatsoever: unless both stage counters are at the end (9 for the core, 19 for the fan) it prints nothing and changes nothing; when both are, it succeeds exactly when the six performance values have been computed (otherwise it is an AttributeError). *)
Theorem C61_printing : forall c,
  (corps c <> 9%nat \/ fan c <> 19%nat -> call show_perfo c = Some c) /\
  (corps c = 9%nat -> fan c = 19%nat ->
    ((exists c', call show_perfo c = Some c') <-> Forall (fun x => attrs c x <> None) ["F"; "F_spe"; "mk_spe"; "eta_th"; "eta_prop"; "eta"])).
Proof. exact show_perfo_guarded. Qed.
Print Assumptions C61_printing.

(** Example: two disordered call histories of the kind quantified over, with stages before the ones they depend on and repetitions; the second one does not include InitialValues. *)
Example C61_example :
  Forall (fun m => In m fixe_methods) (map prim [fixe_stage_9; fixe_stage_13] ++ [fixe_5_to_9; prim InitialValues; calculs_1_to_4; prim fixe_stage_5; prim fixe_stage_13]) /\
  Forall (fun m => In m (tl calc_methods)) [calc_5_to_9; calculs_1_to_4; calc_5_to_9].
Proof. exact C61_example_lemma. Qed.
