(** * C73: changing parameters of a turbofan cycle object and computing again *)
From Coq Require Import String.
From Verif Require Import Num L_Num M_Isentropic M_Obj L_Obj M_Engine M_Cycle EngineSpec L_Engine L_Engine2 L_Cycle L_Cycle2.
Open Scope R_scope.

(** two runs from environments that agree on what is read agree on what is written *)
Lemma run_agree : forall p ins o1 o2, closed ins p = true -> (forall a, In a ins -> o1 a = o2 a) ->
  match run p o1, run p o2 with
  | Some a, Some b => forall x, In x (app ins (writes p)) -> a x = b x | None, None => True | _, _ => False end.
Proof.
  induction p as [|[a ex] p IH]; intros ins o1 o2; cbn [closed run writes map fst].
  - intros _ H x I. apply H. rewrite app_nil_r in I. exact I.
  - intros C H. apply andb_prop in C. destruct C as [C1 C2].
    rewrite (eval_ext o1 o2 ex). 2:{ intros b B. apply H. apply mem_in. rewrite forallb_forall in C1. now apply C1. }
    destruct (eval o2 ex) as [v|]; [|exact I].
    specialize (IH (a :: ins) (upd a v o1) (upd a v o2) C2).
    assert (W : forall b, In b (a :: ins) -> upd a v o1 b = upd a v o2 b).
    { intros b B. unfold upd. destruct (String.eqb b a) eqn:Eb; [reflexivity|]. destruct B as [B|B]; [subst b; now rewrite String.eqb_refl in Eb|now apply H]. }
    specialize (IH W). destruct (run p (upd a v o1)), (run p (upd a v o2)); try contradiction; [|exact I].
    intros x Ix. apply IH. apply in_app_or in Ix. destruct Ix as [Ix|[Ix|Ix]]; [apply in_or_app; left; now right|subst x; left; reflexivity|apply in_or_app; now right].
Qed.

(** the assignments executed by a history, as one program: it depends only on the counters *)
Fixpoint tcalls (l : list stage) (kf : nat * nat) : prog :=
  match l with [] => [] | s :: l => app (if guard s (fst kf) (snd kf) then code s else []) (tcalls l (next s kf)) end.
Fixpoint texec (m : method) (kf : nat * nat) : prog :=
  match m with [] => [] | (cond, l) :: m => if cond (fst kf) (snd kf) then app (tcalls l kf) (texec m (nexts l kf)) else texec m kf end.
Fixpoint thist (h : list method) (kf : nat * nat) : prog :=
  match h with [] => [] | m :: h => app (texec m kf) (thist h (mnext m kf)) end.
Fixpoint hnext (h : list method) (kf : nat * nat) : nat * nat := match h with [] => kf | m :: h => hnext h (mnext m kf) end.
Definition pack (o : option obj) (kf : nat * nat) : option cyc :=
  match o with Some o => Some {| attrs := o; corps := fst kf; fan := snd kf |} | None => None end.
Definition kf_of (c : cyc) : nat * nat := (corps c, fan c).
Lemma cyc_eta c : c = {| attrs := attrs c; corps := corps c; fan := fan c |}. Proof. now destruct c. Qed.
Lemma kf_pack o kf : kf_of {| attrs := o; corps := fst kf; fan := snd kf |} = kf. Proof. now destruct kf. Qed.
Lemma tcalls_ok : forall l c, calls l c = pack (run (tcalls l (kf_of c)) (attrs c)) (nexts l (kf_of c)).
Proof.
  induction l as [|s l IH]; intros c; cbn [calls tcalls nexts]; [cbn [run pack kf_of fst snd]; now destruct c|].
  unfold call. unfold next at 1 2. cbn [kf_of fst snd]. destruct (guard s (corps c) (fan c)) eqn:G.
  - rewrite run_app. destruct (run (code s) (attrs c)) as [o|]; [|reflexivity]. rewrite IH. reflexivity.
  - cbn [app]. rewrite IH. reflexivity.
Qed.
Lemma texec_ok : forall m c, exec m c = pack (run (texec m (kf_of c)) (attrs c)) (mnext m (kf_of c)).
Proof.
  induction m as [|[cond l] m IH]; intros c; cbn [exec texec mnext]; [cbn [run pack kf_of fst snd]; now destruct c|].
  cbn [kf_of fst snd]. destruct (cond (corps c) (fan c)); [|apply IH]. rewrite tcalls_ok, run_app. fold (kf_of c).
  destruct (run (tcalls l (kf_of c)) (attrs c)) as [o|]; [|reflexivity]. cbn [pack]. now rewrite IH, kf_pack.
Qed.
Lemma thist_ok : forall h c, history h c = pack (run (thist h (kf_of c)) (attrs c)) (hnext h (kf_of c)).
Proof.
  induction h as [|m h IH]; intros c; cbn [history thist hnext]; [cbn [run pack kf_of fst snd]; now destruct c|].
  rewrite texec_ok, run_app. destruct (run (texec m (kf_of c)) (attrs c)) as [o|]; [|reflexivity]. cbn [pack]. now rewrite IH, kf_pack.
Qed.

(** ** user assignments obj.a = v *)
Definition assign (p : prog) (c : cyc) : option cyc := pack (run p (attrs c)) (kf_of c).
Definition recompute_calc : list method := [prim InitialValues; calculs_1_to_4; calc_5_to_9].
Definition recompute_fixe : list method := [prim InitialValues; calculs_1_to_4; fixe_5_to_9].

Lemma prim_safe init : closed [] init = true -> exists o0, run init empty_obj = Some o0.
Proof. intros C. apply (run_total init [] empty_obj C). intros a []. Qed.
Definition calc_params : list string := "taux_meca"%string :: cyc_params.
Definition fixe_params : list string := "pi_f"%string :: cyc_params.

Lemma recompute_generic ins h kf kf0 all c o0 : thist h kf = all -> thist h kf0 = all -> closed ins all = true ->
  kf_of c = kf -> (forall x, In x ins -> attrs c x = o0 x) -> (forall x, In x ins -> attrs c x <> None) ->
  exists o1 o2, history h c = pack (Some o1) (hnext h kf) /\ history h {| attrs := o0; corps := fst kf0; fan := snd kf0 |} = pack (Some o2) (hnext h kf0) /\
    forall x, In x (app ins (writes all)) -> o1 x = o2 x.
Proof.
  intros T T0 C K A P. rewrite !thist_ok, K. unfold kf_of. cbn [attrs corps fan]. rewrite <- surjective_pairing, T, T0.
  destruct (run_total all ins (attrs c) C P) as [o1 R1]. pose proof (run_agree all ins (attrs c) o0 C A) as G. rewrite R1 in *.
  destruct (run all o0) as [o2|]; [|contradiction]. exists o1, o2. auto.
Qed.

Lemma trace_in (all : prog) (L : list stage) (ms : list method) : all = concat (map code L) -> (forall s, In s (all_stages ms) -> In s L) ->
  forall h kf, (forall m, In m h -> In m ms) -> forall ae, In ae (thist h kf) -> In ae all.
Proof.
  intros Hall HL.
  assert (Q : forall s, In s L -> forall ae, In ae (code s) -> In ae all).
  { intros s Hs b Hb. rewrite Hall. apply in_concat. exists (code s). split; [now apply in_map|exact Hb]. }
  assert (QT : forall l kf, (forall s, In s l -> In s L) -> forall ae, In ae (tcalls l kf) -> In ae all).
  { induction l as [|s l IH]; intros kf Hl b Hb; cbn [tcalls] in Hb; [destruct Hb|]. apply in_app_or in Hb. destruct Hb as [Hb|Hb].
    - destruct (guard s (fst kf) (snd kf)); [|destruct Hb]. apply (Q s); [apply Hl; now left|exact Hb].
    - apply (IH (next s kf)); [intros t Ht; apply Hl; now right|exact Hb]. }
  assert (QE : forall m kf, (forall s, In s (stages_of m) -> In s L) -> forall ae, In ae (texec m kf) -> In ae all).
  { induction m as [|[cond l] m IH]; intros kf Hl b Hb; cbn [texec] in Hb; [destruct Hb|]. unfold stages_of in Hl. cbn [map concat snd] in Hl.
    destruct (cond (fst kf) (snd kf)).
    - apply in_app_or in Hb. destruct Hb as [Hb|Hb]; [apply (QT l kf); auto; intros s Hs; apply Hl; apply in_or_app; now left|apply (IH (nexts l kf)); auto; intros s Hs; apply Hl; apply in_or_app; now right].
    - apply (IH kf); auto. intros s Hs; apply Hl; apply in_or_app; now right. }
  induction h as [|m h IH]; intros kf Hl b Hb; cbn [thist] in Hb; [destruct Hb|]. apply in_app_or in Hb. destruct Hb as [Hb|Hb].
  - apply (QE m kf); [|exact Hb]. intros s Hs. apply HL. unfold all_stages. apply in_concat. exists (stages_of m). split; [apply in_map; apply Hl; now left|exact Hs].
  - apply (IH (mnext m kf)); [intros n Hn; apply Hl; now right|exact Hb].
Qed.
Lemma fresh_from_trace full ins all p o : solves full all -> (forall ae, In ae p -> In ae all) -> closed ins p = true ->
  (forall x, In x ins -> o x = full x /\ full x <> None) ->
  exists o', run p o = Some o' /\ forall x, In x (app ins (writes p)) -> o' x = full x /\ o' x <> None.
Proof.
  intros S I C A.
  set (o1 := fun x => if mem x ins then full x else None).
  assert (A1 : forall x, In x ins -> o1 x = full x). { intros x J. unfold o1. apply mem_in in J. now rewrite J. }
  assert (Sub : sub o1 full). { intros x v. unfold o1. destruct (mem x ins); [auto|discriminate]. }
  assert (Sp : solves full p). { unfold solves in *. rewrite List.Forall_forall in *. auto. }
  destruct (run_sub full p ins o1 Sp Sub C) as (o2 & R & R1 & R2). { intros x J. rewrite A1 by exact J. now apply A. }
  pose proof (run_agree p ins o o1 C) as G. rewrite R in G. destruct (run p o) as [o'|]; [|exfalso; apply G; intros x J; rewrite (proj1 (A x J)); symmetry; now apply A1].
  exists o'. split; [reflexivity|]. intros x J. rewrite G by (try exact J; intros y Jy; rewrite (proj1 (A y Jy)); symmetry; now apply A1).
  assert (N : o2 x <> None). { apply R2. apply in_app_or in J. destruct J as [J|J]; [left; rewrite A1 by exact J; now apply A|now right]. }
  split; [|exact N]. destruct (o2 x) as [v|] eqn:E; [|contradiction]. symmetry. now apply R1.
Qed.

(** a fresh object starts the second computation with counters (4, 0) *)
Lemma trace_calc : forall kf, In kf calc_flags -> thist recompute_calc kf = thist recompute_calc (4, 0)%nat.
Proof. intros kf I. unfold calc_flags, flags in I. cbn [list_prod map app] in I. repeat (destruct I as [I|I]; [subst kf; reflexivity|]). destruct I. Qed.
Lemma closed_calc : closed calc_params (thist recompute_calc (4, 0)%nat) = true. Proof. vm_compute. reflexivity. Qed.
Lemma writes_calc : forall x, In x (writes calc_all) -> In x (writes (thist recompute_calc (4, 0)%nat)).
Proof. apply subset_in. vm_compute. reflexivity. Qed.
Lemma calc_complete a : exists full o0 fresh, run (calc_init a ++ calc_all) empty_obj = Some full /\ run (calc_init a) empty_obj = Some o0 /\ sub o0 full /\ solves full calc_all /\
  computed (calc_init a) calc_5_to_9 = Some fresh /\ (forall x, In x (writes calc_all) -> attrs fresh x = full x) /\ forall x, In x (writes (calc_init a)) -> o0 x <> None.
Proof.
  destruct (completion a) as [_ (full & c0 & Rf & C0 & H)]. destruct (H [] (List.Forall_nil _)) as (c & Hc & W). cbn [app history] in Hc.
  destruct a as [[[[[[l pc] t4] m] g] gf] x']. set (a := (l, pc, t4, m, g, gf, x')) in *.
  destruct (generic_full have_calc calc_flags (calc_init a) calc_all calc_methods calc_list eq_refl eq_refl eq_refl calc_in calc_ok) as (full' & o0 & Rf' & R0 & Sub & _ & _); [left; reflexivity|reflexivity|].
  assert (full' = full) by congruence. subst full'. exists full, o0, c. split; [exact Rf|]. split; [exact R0|]. split; [exact Sub|]. split; [apply (calc_lasting a full Rf)|].
  split. { unfold computed. rewrite C0. destruct (exec calc_5_to_9 c0); [now injection Hc as ->|discriminate]. }
  split; [intros x I; now apply W|]. intros x I. apply (run_writes _ _ _ _ R0 I).
Qed.
Lemma fixe_complete a : exists full o0 fresh, run (fixe_init a ++ fixe_all) empty_obj = Some full /\ run (fixe_init a) empty_obj = Some o0 /\ sub o0 full /\ solves full fixe_all /\
  computed (fixe_init a) fixe_5_to_9 = Some fresh /\ (forall x, In x (writes fixe_all) -> attrs fresh x = full x) /\ forall x, In x (writes (fixe_init a)) -> o0 x <> None.
Proof.
  destruct (completion a) as [(full & c0 & Rf & C0 & H) _]. destruct (H [] (List.Forall_nil _)) as (c & Hc & W). cbn [app history] in Hc.
  destruct a as [[[[[[l pc] t4] m] g] gf] x']. set (a := (l, pc, t4, m, g, gf, x')) in *.
  destruct (generic_full have_fixe fixe_flags (fixe_init a) fixe_all fixe_methods fixe_list eq_refl eq_refl eq_refl fixe_in fixe_ok) as (full' & o0 & Rf' & R0 & Sub & _ & _); [left; reflexivity|reflexivity|].
  assert (full' = full) by congruence. subst full'. exists full, o0, c. split; [exact Rf|]. split; [exact R0|]. split; [exact Sub|]. split; [apply (fixe_lasting a full Rf)|].
  split. { unfold computed. rewrite C0. destruct (exec fixe_5_to_9 c0); [now injection Hc as ->|discriminate]. }
  split; [intros x I; now apply W|]. intros x I. apply (run_writes _ _ _ _ R0 I).
Qed.
Lemma sub_eq o full x : sub o full -> o x <> None -> full x = o x.
Proof. intros S N. destruct (o x) as [v|] eqn:E; [now apply S|contradiction]. Qed.

(*@P C73_computed_fan: cycle_taux_fan_calcule: take an object in any reachable stage, with any values of its attributes, and assign to its parameters those of some other arguments; InitialValues, calculs_1_to_4 and calculs_5_to_9 then give on every attribute the values of a new object built with these arguments. *)
Lemma recompute_calc_ok : forall a o0 c, run (calc_init a) empty_obj = Some o0 -> In (corps c, fan c) calc_flags ->
  (forall x, In x (writes (calc_init a)) -> attrs c x = o0 x) ->
  exists c' fresh, history recompute_calc c = Some c' /\ computed (calc_init a) calc_5_to_9 = Some fresh /\
  forall x, In x (writes calc_all) -> attrs c' x = attrs fresh x /\ attrs c' x <> None.
Proof.
  intros a o0 c R0 K A. destruct (calc_complete a) as (full & o0' & fresh & Rf & R0' & Sub & Sv & Cf & Wf & P). assert (o0' = o0) by congruence. subst o0'.
  assert (CP : forall x, In x calc_params -> In x (writes (calc_init a))). { destruct a as [[[[[[l pc] t4] m] g] gf] x']. apply subset_in. reflexivity. }
  destruct (fresh_from_trace full calc_params calc_all (thist recompute_calc (4, 0)%nat) (attrs c) Sv) as (o' & R & W).
  { apply (trace_in calc_all calc_list calc_methods eq_refl calc_in). unfold recompute_calc, calc_methods. cbn [In]. intros m [E|[E|[E|[]]]]; subst m; tauto. }
  { exact closed_calc. }
  { intros x I. apply CP in I. rewrite A by exact I. pose proof (P x I) as N. rewrite (sub_eq o0 full x Sub N). split; [reflexivity|exact N]. }
  eexists. exists fresh. split. { rewrite thist_ok. rewrite (trace_calc (kf_of c) K), R. reflexivity. }
  split; [exact Cf|]. cbn [attrs]. intros x I. rewrite Wf by exact I. apply W. apply in_or_app. right. now apply writes_calc.
Qed.

(** ** fixed fan *)
Definition fan_have (f : nat) : list string := app fixe_params (app (when (Nat.leb 13 f) (writes (code fixe_stage_13))) (when (Nat.leb 19 f) (writes (code stage_19)))).
Lemma trace_fixe : forall kf, In kf fixe_flags -> thist recompute_fixe kf = thist recompute_fixe (4%nat, snd kf).
Proof. intros kf I. unfold fixe_flags, flags in I. cbn [list_prod map app] in I. repeat (destruct I as [I|I]; [subst kf; reflexivity|]). destruct I. Qed.
Lemma closed_fixe : forall f, In f [0; 13; 19]%nat -> closed (fan_have f) (thist recompute_fixe (4%nat, f)) = true.
Proof. intros f [I|[I|[I|[]]]]; subst f; vm_compute; reflexivity. Qed.
Lemma writes_fixe : forall f, In f [0; 13; 19]%nat -> forall x, In x (writes fixe_all) -> In x (app (fan_have f) (writes (thist recompute_fixe (4%nat, f)))).
Proof. intros f [I|[I|[I|[]]]]; subst f; apply subset_in; vm_compute; reflexivity. Qed.
Definition fan_prog : prog := app (code InitialValues) (app (code stage_2) (app (code fixe_stage_13) (code stage_19))).
(** the parameters the fan flow depends on *)
Definition fan_params : list string := ["P0"; "T0"; "M0"; "xi_e"; "eta_c"; "xi_tuy"; "lambda_"; "m"; "pi_f"; "g.gamma"; "g.r"; "g.gmusg"]%string.
Lemma closed_fan : closed fan_params fan_prog = true. Proof. reflexivity. Qed.
Lemma fixe_flags_fan k f : In (k, f) fixe_flags -> In f [0; 13; 19]%nat.
Proof. unfold fixe_flags, flags. cbn [list_prod map app]. intros I. repeat (destruct I as [I|I]; [injection I as _ I; subst f; cbn [In]; tauto|]). destruct I. Qed.

(*@P C73_fixed_fan_partial: cycle_taux_fan_fixe: build an object, make any sequence of calls, assign a new compressor pressure ratio and turbine inlet temperature, and call InitialValues, calculs_1_to_4 and calculs_5_to_9: every attribute then has the value of a new object built with them. PARTIAL: false for parameters of the fan flow, see C73_fixed_fan_refuted. *)
Lemma recompute_fixe_ok : forall l pc t4 m g gf x pc' t4' h, List.Forall (fun m => In m fixe_methods) h ->
  exists c0 c c1 c' fresh, construct (init_fixe l pc t4 m g gf x) = Some c0 /\ history h c0 = Some c /\
  assign [("pi_c", L pc'); ("Tt4", L t4')]%string c = Some c1 /\ history recompute_fixe c1 = Some c' /\
  computed (init_fixe l pc' t4' m g gf x) fixe_5_to_9 = Some fresh /\
  forall x, In x (writes fixe_all) -> attrs c' x = attrs fresh x /\ attrs c' x <> None.
Proof.
  intros l pc t4 m g gf x pc' t4' h Hh. set (a := (l, pc, t4, m, g, gf, x)). set (a' := (l, pc', t4', m, g, gf, x)).
  change (init_fixe l pc t4 m g gf x) with (fixe_init a). change (init_fixe l pc' t4' m g gf x) with (fixe_init a').
  destruct (generic_safe have_fixe fixe_flags (fixe_init a) fixe_all fixe_methods fixe_list eq_refl eq_refl eq_refl fixe_in fixe_ok) as (full & Rf & c0 & C0 & I0 & K0 & H); [left; reflexivity|reflexivity|unfold fixe_methods; cbn [In]; tauto|].
  destruct (H h Hh) as (c & Hc & Ic & Kc).
  destruct (fixe_complete a) as (full0 & o0 & fresh0 & Rf0 & R0 & Sub0 & Sv0 & Cf0 & Wf0 & P0). assert (full0 = full) by congruence. subst full0.
  destruct (fixe_complete a') as (full' & o0' & fresh & Rf' & R0' & Sub' & Sv' & Cf' & Wf' & P').
  exists c0, c. eexists. 
  set (c1 := {| attrs := upd "Tt4" t4' (upd "pi_c" pc' (attrs c)); corps := corps c; fan := fan c |}).
  assert (Sl : forall y, In y (writes (fixe_init a)) -> full y = o0 y /\ o0 y <> None).
  { intros y I. split; [apply (sub_eq o0 full); auto|auto]. }
  assert (Sl' : forall y, In y (writes (fixe_init a')) -> full' y = o0' y /\ o0' y <> None).
  { intros y I. split; [apply (sub_eq o0' full'); auto|auto]. }
  assert (Oe : forall y, y <> "pi_c"%string -> y <> "Tt4"%string -> o0 y = o0' y).
  { clear - R0 R0'. intros y N1 N2.
    cbv [fixe_init init_fixe init_1_to_4 class_attrs attrs_with app a a' gaz_init append] in R0, R0'. cbn [run eval] in R0, R0'.
    apply Some_inj in R0. apply Some_inj in R0'. subst o0 o0'. unfold upd, empty_obj.
    repeat match goal with |- context [String.eqb y ?b] => destruct (String.eqb y b) eqn:?; [reflexivity || (exfalso; match goal with E : String.eqb y _ = true |- _ => apply String.eqb_eq in E; contradiction end)|] end. reflexivity. }
  assert (FP : forall y, In y fan_params -> In y (writes (fixe_init a)) /\ In y (writes (fixe_init a')) /\ y <> "pi_c"%string /\ y <> "Tt4"%string).
  { intros y I. split; [|split]; [revert y I; apply subset_in; reflexivity|revert y I; apply subset_in; reflexivity|].
    unfold fan_params in I. cbn [In] in I. repeat (destruct I as [I|I]; [subst y; split; discriminate|]). destruct I. }
  assert (Fa : forall ae, In ae fan_prog -> In ae fixe_all).
  { intros ae. unfold fan_prog, fixe_all. rewrite !in_app_iff. tauto. }
  assert (Fn : forall y, In y (writes fan_prog) -> full y = full' y).
  { intros y I.
    destruct (fresh_from_trace full fan_params fixe_all fan_prog o0 Sv0 Fa closed_fan) as (o1 & R1 & W1).
    { intros z J. destruct (FP z J) as (J1 & _). destruct (Sl z J1) as [J3 J4]. rewrite J3. auto. }
    destruct (fresh_from_trace full' fan_params fixe_all fan_prog o0' Sv' Fa closed_fan) as (o2 & R2 & W2).
    { intros z J. destruct (FP z J) as (_ & J1 & _). destruct (Sl' z J1) as [J3 J4]. rewrite J3. auto. }
    pose proof (run_agree fan_prog fan_params o0 o0' closed_fan) as G. rewrite R1, R2 in G.
    rewrite <- (proj1 (W1 y ltac:(apply in_or_app; now right))), <- (proj1 (W2 y ltac:(apply in_or_app; now right))).
    apply G; [|apply in_or_app; now right]. intros z J. destruct (FP z J) as (_ & _ & J1 & J2). now apply Oe. }
  destruct Ic as (Ic1 & Ic2 & Ic3). pose proof (fixe_flags_fan _ _ Ic2) as Kf.
  assert (Pc : full' "pi_c"%string = Some pc' /\ full' "Tt4"%string = Some t4').
  { destruct (fixe_lasting a' full' Rf') as [A _]. unfold holds in A. rewrite List.Forall_forall in A.
    split; [apply (A ("pi_c"%string, L pc'))|apply (A ("Tt4"%string, L t4'))]; unfold fixe_init, init_fixe, init_1_to_4, a'; rewrite !in_app_iff; left; right; left; cbn [In]; tauto. }
  assert (Par : forall y, In y fixe_params -> In y (writes (fixe_init a)) /\ In y (writes (fixe_init a')) /\ In y (have_fixe (corps c) (fan c))).
  { intros y I. split; [|split]; [revert y I; apply subset_in; reflexivity|revert y I; apply subset_in; reflexivity|].
    unfold fixe_params in I. unfold have_fixe, have_1_to_4. destruct I as [I|I]; [now left|]. right. rewrite !in_app_iff. tauto. }
  assert (Hv : forall y, In y (fan_have (fan c)) -> attrs c1 y = full' y /\ full' y <> None).
  { intros y I. unfold c1. cbn [attrs]. unfold upd.
    destruct (String.eqb y "Tt4") eqn:E4; [apply String.eqb_eq in E4; subst y; rewrite (proj2 Pc); split; [reflexivity|discriminate]|].
    destruct (String.eqb y "pi_c") eqn:Ec; [apply String.eqb_eq in Ec; subst y; rewrite (proj1 Pc); split; [reflexivity|discriminate]|].
    apply String.eqb_neq in E4. apply String.eqb_neq in Ec. unfold fan_have in I. rewrite !in_app_iff in I. destruct I as [I|I].
    - destruct (Par y I) as (I1 & I2 & I3). assert (N := Ic3 y I3). rewrite <- (sub_eq (attrs c) full y Ic1 N).
      rewrite (proj1 (Sl y I1)). rewrite (proj1 (Sl' y I2)). split; [now apply Oe|now apply Sl'].
    - assert (I2 : In y (have_fixe (corps c) (fan c)) /\ In y (writes fan_prog)).
      { unfold have_fixe, fan_prog, writes. rewrite !map_app. destruct I as [I|I]; unfold when in *.
        - destruct (Nat.leb 13 (fan c)); [|destruct I]. split; [right; rewrite !in_app_iff; right; left; tauto|rewrite !in_app_iff; tauto].
        - destruct (Nat.leb 19 (fan c)); [|destruct I]. split; [right; rewrite !in_app_iff; right; right; left; exact I|rewrite !in_app_iff; tauto]. }
      destruct I2 as [I2 I3]. assert (N := Ic3 y I2). rewrite <- (Fn y I3). rewrite (sub_eq (attrs c) full y Ic1 N). auto. }
  destruct (fresh_from_trace full' (fan_have (fan c)) fixe_all (thist recompute_fixe (4%nat, fan c)) (attrs c1) Sv') as (o' & R & W).
  { apply (trace_in fixe_all fixe_list fixe_methods eq_refl fixe_in). unfold recompute_fixe, fixe_methods. cbn [In]. intros q [E|[E|[E|[]]]]; subst q; tauto. }
  { now apply closed_fixe. }
  { exact Hv. }
  eexists. exists fresh. split; [exact C0|]. split; [exact Hc|]. split; [reflexivity|]. split.
  { change (pack (Some _) _) with (Some c1). rewrite thist_ok. unfold assign. cbn [run eval pack]. cbn [attrs]. unfold kf_of. cbn [corps fan fst snd].
    rewrite (trace_fixe (corps c, fan c) Ic2). cbn [snd]. fold c1. change (upd "Tt4" t4' (upd "pi_c" pc' (attrs c))) with (attrs c1). rewrite R. reflexivity. }
  split; [exact Cf'|]. cbn [attrs]. intros y I. rewrite Wf' by exact I. apply W. now apply writes_fixe.
Qed.

(** the fan exit temperature of an object with the default gas *)
Lemma fan_exit l pc t4 m x full : 0 < x -> run (fixe_init (l, pc, t4, m, gaz_default, gaz_fuel, Some x) ++ fixe_all) empty_obj = Some full ->
  has full "Tt13" (217 * temp_ratio (14 / 10) (8 / 10) * Rpower x (4 / 10 / (14 / 10) / (90 / 100))).
Proof.
  intros X R1. destruct (fixe_lasting _ _ R1) as [A B].
  unfold fixe_init, init_fixe, init_1_to_4, class_attrs, attrs_with, gaz_init, gaz_default, gaz_fuel in A. cbn [gz_gamma gz_r gz_P_k append app] in A.
  unfold fixe_all in B. cbn [code InitialValues stage_2 stage_3 stage_4 fixe_stage_13 fixe_stage_5 fixe_stage_9 stage_19 perfo core_nozzle app] in B.
  spread A. cbn [eval] in *. spread B. set (t2 := 217 * temp_ratio (14 / 10) (8 / 10)).
  value full "Tt0"%string (Some t2) ltac:(rewrite TtTs_spec; reflexivity).
  value full "Tt2"%string (Some t2) reflexivity.
  set (y := Rpower x (4 / 10 / (14 / 10) / (90 / 100))).
  value full "Tt13"%string (Some (t2 * y)) ltac:(nconst; rewrite npow_Some by lra; cbn [nmul]; unfold y; do 3 f_equal; lra).
  assumption.
Qed.
Lemma computed_flags a fresh : computed (fixe_init a) fixe_5_to_9 = Some fresh -> kf_of fresh = (9, 19)%nat.
Proof.
  unfold computed. destruct (construct (fixe_init a)) as [c|] eqn:E; [|discriminate]. rewrite texec_ok.
  assert (K : kf_of c = (4, 0)%nat).
  { unfold construct in E. destruct (run (fixe_init a) empty_obj) as [o|]; [|discriminate]. rewrite texec_ok in E. destruct (run _ _); [|discriminate]. cbn [pack] in E. apply Some_inj in E. subst c. rewrite kf_pack. reflexivity. }
  rewrite K. destruct (run _ _); [|discriminate]. intros Q. apply Some_inj in Q. subst fresh. rewrite kf_pack. reflexivity.
Qed.

(*@P C73_fixed_fan_refuted: cycle_taux_fan_fixe keeps a stale fan: complete an object, assign another fan pressure ratio, call InitialValues, calculs_1_to_4 and calculs_5_to_9: for any two distinct positive ratios, and whatever the other arguments, the fan exit temperature is still that of the old ratio and differs from that of a new object. *)
Lemma fixed_fan_refuted : forall l pc t4 m x x', 0 < x -> 0 < x' -> x <> x' ->
  exists c c1 c' fresh v w, computed (init_fixe l pc t4 m gaz_default gaz_fuel (Some x)) fixe_5_to_9 = Some c /\
  assign (("pi_f"%string, L (Some x')) :: nil) c = Some c1 /\ history recompute_fixe c1 = Some c' /\
  computed (init_fixe l pc t4 m gaz_default gaz_fuel (Some x')) fixe_5_to_9 = Some fresh /\
  has (attrs c) "Tt13" v /\ has (attrs c') "Tt13" v /\ has (attrs fresh) "Tt13" w /\ v <> w.
Proof.
  intros l pc t4 m x x' X X' N.
  set (a := (l, pc, t4, m, gaz_default, gaz_fuel, Some x)). set (a' := (l, pc, t4, m, gaz_default, gaz_fuel, Some x')).
  change (init_fixe l pc t4 m gaz_default gaz_fuel (Some x)) with (fixe_init a). change (init_fixe l pc t4 m gaz_default gaz_fuel (Some x')) with (fixe_init a').
  destruct (fixe_complete a) as (full & o0 & c & Rf & R0 & Sub & Sv & Cf & Wf & P).
  destruct (fixe_complete a') as (full' & o0' & fresh & Rf' & R0' & Sub' & Sv' & Cf' & Wf' & P').
  pose proof (fan_exit l pc t4 m x full X Rf) as V1. pose proof (fan_exit l pc t4 m x' full' X' Rf') as V2.
  pose proof (computed_flags a c Cf) as K.
  assert (T13 : In "Tt13"%string (writes fixe_all)) by (apply names_fixe_in; vm_compute; tauto).
  assert (Pr : forall y, In y (fan_have 19) -> attrs c y <> None).
  { intros y I. destruct (mem y fixe_params) eqn:E.
    - apply mem_in in E. revert Cf. unfold computed, construct. rewrite R0, texec_ok. unfold kf_of at 1 2. cbn [attrs corps fan].
      destruct (run (texec calculs_1_to_4 (0, 0)%nat) o0) as [o1|] eqn:R1; [|discriminate]. cbn [pack]. rewrite texec_ok. cbn [attrs].
      destruct (run _ o1) as [o2|] eqn:R2; [|discriminate]. cbn [pack]. intros Q. apply Some_inj in Q. subst c. cbn [attrs].
      apply (run_keeps _ _ _ y R2). apply (run_keeps _ _ _ y R1). apply P. revert y E I. intros y E _. revert y E. apply subset_in. reflexivity.
    - assert (J : In y (writes fixe_all)).
      { unfold fan_have in I. rewrite !in_app_iff in I. destruct I as [I|I]; [apply mem_in in I; congruence|]. clear E. revert y I. cbn [when Nat.leb].
        intros y I. assert (J : In y (app (writes (code fixe_stage_13)) (writes (code stage_19)))) by (apply in_or_app; exact I). revert y I J. intros y _. revert y. apply subset_in. reflexivity. }
      rewrite Wf by exact J. destruct (fresh_from_trace full (writes (fixe_init a)) fixe_all fixe_all o0 Sv) as (o' & R & W).
      + auto.
      + reflexivity.
      + intros z Z. rewrite (sub_eq o0 full z Sub (P z Z)). split; [reflexivity|now apply P].
      + destruct (W y ltac:(apply in_or_app; now right)) as [W1 W2]. now rewrite <- W1. }
  set (c1 := {| attrs := upd "pi_f" (Some x') (attrs c); corps := corps c; fan := fan c |}).
  destruct (run_total (thist recompute_fixe (4, 19)%nat) (fan_have 19) (attrs c1)) as [o1 R1].
  { apply closed_fixe. cbn [In]. tauto. }
  { intros y I. unfold c1, upd. cbn [attrs]. destruct (String.eqb y "pi_f"); [discriminate|now apply Pr]. }
  exists c, c1. eexists. exists fresh. do 2 eexists. split; [exact Cf|]. split; [reflexivity|]. split.
  { rewrite thist_ok. replace (kf_of c1) with (9, 19)%nat by (rewrite <- K; reflexivity). rewrite (trace_fixe (9, 19)%nat) by (vm_compute; tauto). cbn [snd]. rewrite R1. reflexivity. }
  split; [exact Cf'|]. unfold has in *. cbn [attrs]. split; [rewrite Wf by exact T13; exact V1|]. split.
  { rewrite (run_frame _ _ _ "Tt13"%string R1). 2:{ rewrite <- mem_in. vm_compute. discriminate. } unfold c1, upd. cbn [attrs]. change (String.eqb "Tt13" "pi_f") with false. cbv iota. rewrite Wf by exact T13. exact V1. }
  split; [rewrite Wf' by exact T13; exact V2|].
  intros Q. apply Rmult_eq_reg_l in Q. 2:{ apply Rmult_integral_contrapositive. pose proof (temp_ratio_pos (14 / 10) (8 / 10) ltac:(lra)). split; lra. }
  apply N. assert (Z : forall u, 0 < u -> Rpower (Rpower u (4 / 10 / (14 / 10) / (90 / 100))) (63 / 20) = u). { intros u U. rewrite Rpower_mult. replace (4 / 10 / (14 / 10) / (90 / 100) * (63 / 20)) with 1 by field. now apply Rpower_1. }
  rewrite <- (Z x X), <- (Z x' X'), Q. reflexivity.
Qed.

(*@P C73_no_reset: Without InitialValues nothing is recomputed by cycle_taux_fan_fixe: on a completed object, after assigning any values to parameters, calculs_1_to_4 and calculs_5_to_9 leave every attribute but the six of the performance, and the total thrust is still the sum of the two old thrusts. *)
Lemma no_reset : forall a c p c1 c', computed (fixe_init a) fixe_5_to_9 = Some c -> subset (writes p) fixe_params = true ->
  assign p c = Some c1 -> history [calculs_1_to_4; fixe_5_to_9] c1 = Some c' ->
  (forall x, ~ In x (writes (code perfo)) -> attrs c' x = attrs c1 x) /\ attrs c' "F"%string = attrs c "F"%string.
Proof.
  intros a c p c1 c' C S A H. pose proof (computed_flags a c C) as K.
  unfold assign in A. destruct (run p (attrs c)) as [o1|] eqn:R1; [|discriminate]. cbn [pack] in A. apply Some_inj in A. subst c1.
  rewrite thist_ok, kf_pack in H. rewrite K in H. cbn [attrs] in *.
  change (thist [calculs_1_to_4; fixe_5_to_9] (9, 19)%nat) with (app (code perfo) (code perfo)) in H.
  destruct (run (code perfo ++ code perfo) o1) as [o2|] eqn:R2; [|discriminate]. cbn [pack] in H. apply Some_inj in H. subst c'. cbn [attrs].
  split.
  - intros x I. apply (run_frame _ _ _ _ R2). unfold writes. rewrite map_app, in_app_iff. tauto.
  - assert (E : forall y, In y ["F_f"; "F_c"]%string -> o2 y = attrs c y).
    { intros y I. rewrite (run_frame _ _ _ _ R2). 2:{ destruct I as [I|[I|[]]]; subst y; rewrite <- mem_in; vm_compute; discriminate. }
      apply (run_frame _ _ _ _ R1). intros J. apply (subset_in _ _ S) in J. destruct I as [I|[I|[]]]; subst y; apply mem_in in J; vm_compute in J; discriminate. }
    apply run_lasting in R2. change (lasting (code perfo ++ code perfo)) with (code perfo) in R2. cbn [code perfo] in R2. apply List.Forall_cons_iff in R2. destruct R2 as [R2 _]. cbn [fst snd eval] in R2.
    rewrite R2, !E by (cbn [In]; tauto).
    destruct (fixe_complete a) as (full & o0 & c2 & Rf & R0 & Sub & Sv & Cf & Wf & P). assert (c2 = c) by congruence. subst c2.
    rewrite !Wf by (apply names_fixe_in; vm_compute; tauto). unfold solves in Sv. rewrite List.Forall_forall in Sv. symmetry. apply (Sv ("F"%string, (V "F_f" + V "F_c")%obj)).
    unfold fixe_all. rewrite !in_app_iff. do 8 right. left. reflexivity.
Qed.
(*@E C73_example: Example: a history mixing single stages and complete calculations, and an assignment of parameters of the kind C73_no_reset speaks of. *)
Lemma C73_example_lemma : List.Forall (fun m => In m fixe_methods) (fixe_5_to_9 :: prim InitialValues :: prim fixe_stage_13 :: calculs_1_to_4 :: nil) /\
  subset (writes [("pi_c", L (Some 30)); ("Tt4", L (Some 1700))]%string) fixe_params = true /\ 0 < 3/2 /\ 0 < 7/5 /\ 3/2 <> 7/5.
Proof.
  split; [|split; [vm_compute; reflexivity|lra]]. repeat (constructor; [repeat ((left; reflexivity) || right)|]); constructor.
Qed.
