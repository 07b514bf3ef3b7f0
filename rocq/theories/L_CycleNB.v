(** * C100: the turbofan classes of the notebook and those of the library *)
From Coq Require Import String.
From Verif Require Import Num L_Num M_Isentropic M_Obj L_Obj M_Engine M_Cycle M_CycleNB EngineSpec CycleSpec L_Isentropic L_Engine L_Engine2 L_Cycle L_Cycle2 L_Cycle3 L_Cycle4 L_Cycle5.
Open Scope R_scope.

(** what depends on the core jet velocity *)
Definition jet_names : list string := ["V9"; "F_c"; "F"; "F_spe"; "mk_spe"; "eta_th"; "eta_prop"; "eta"]%string.
(** same attributes present, and the same values outside [jet_names] *)
Definition alike (o o' : obj) : Prop :=
  (forall x, ~ In x jet_names -> o' x = o x) /\ (forall x, o' x = None <-> o x = None).
Definition alike_g (o o' : obj) : Prop := alike o o' /\ o "g_fuel.gamma"%string <> None.
Lemma alike_refl o : alike o o. Proof. split; tauto. Qed.
Lemma alike_upd x v v' o o' : alike_g o o' -> In x jet_names \/ v' = v -> alike_g (upd x v o) (upd x v' o').
Proof.
  intros [[A B] G] H. split; [split|].
  - intros y N. unfold upd. destruct (String.eqb y x) eqn:E; [|now apply A]. apply String.eqb_eq in E. subst y. destruct H as [H| ->]; [contradiction|reflexivity].
  - intros y. unfold upd. destruct (String.eqb y x); [split; discriminate|apply B].
  - unfold upd. destruct (String.eqb _ x); [discriminate|exact G].
Qed.
Lemma alike_none e o o' : (forall x, o' x = None <-> o x = None) -> (eval o' e = None <-> eval o e = None).
Proof.
  intros H. induction e as [x|v|f e IH|f e1 IH1 e2 IH2|f e1 IH1 e2 IH2 e3 IH3 e4 IH4]; cbn [eval].
  - apply H.
  - split; discriminate.
  - destruct (eval o' e), (eval o e); intuition (discriminate || congruence).
  - destruct (eval o' e1), (eval o e1), (eval o' e2), (eval o e2); intuition (discriminate || congruence).
  - destruct (eval o' e1), (eval o e1), (eval o' e2), (eval o e2), (eval o' e3), (eval o e3), (eval o' e4), (eval o e4); intuition (discriminate || congruence).
Qed.
Definition clean (ae : string * expr) : bool := mem (fst ae) jet_names || disjoint (reads (snd ae)) jet_names.
Lemma disjoint_in l m x : disjoint l m = true -> In x l -> ~ In x m.
Proof. unfold disjoint. rewrite forallb_forall. intros H I J. specialize (H x I). apply mem_in in J. rewrite J in H. discriminate. Qed.
(** two runs end alike *)
Definition both (r r' : option obj) : Prop := match r, r' with Some o, Some o' => alike_g o o' | None, None => True | _, _ => False end.
Lemma assign_alike x e o o' : clean (x, e) = true -> alike_g o o' ->
  match eval o e, eval o' e with Some v, Some v' => alike_g (upd x v o) (upd x v' o') | None, None => True | _, _ => False end.
Proof.
  intros C A. pose proof (alike_none e o o' (proj2 (proj1 A))) as N. destruct (eval o e) as [v|] eqn:E, (eval o' e) as [v'|] eqn:E'; try exact I.
  - apply alike_upd; [exact A|]. unfold clean in C. cbn [fst snd] in C. apply orb_prop in C. destruct C as [C|C]; [left; now apply mem_in|right].
    rewrite (eval_ext o' o) in E'; [congruence|]. intros y Hy. apply A. now apply (disjoint_in _ _ _ C).
  - destruct N as [N _]. specialize (N eq_refl). discriminate.
  - destruct N as [_ N]. specialize (N eq_refl). discriminate.
Qed.
Lemma run_alike : forall p o o', forallb clean p = true -> alike_g o o' -> both (run p o) (run p o').
Proof.
  induction p as [|[x e] p IH]; intros o o' C A; cbn [run]; [exact A|]. cbn [forallb] in C. apply andb_prop in C. destruct C as [C1 C2].
  pose proof (assign_alike x e o o' C1 A) as H. destruct (eval o e), (eval o' e); try contradiction; [|exact I]. now apply IH.
Qed.
Lemma nozzle_alike o o' : alike_g o o' -> both (run core_nozzle o) (run nb_core_nozzle o').
Proof.
  intros A. set (p1 := firstn 4 core_nozzle).
  change core_nozzle with (app p1 (skipn 4 core_nozzle)). change nb_core_nozzle with (app p1 (skipn 4 nb_core_nozzle)). rewrite !run_app.
  pose proof (run_alike p1 o o' eq_refl A) as H1.
  destruct (run p1 o) as [q|], (run p1 o') as [q'|]; cbn [both] in H1; try contradiction; [|exact I].
  cbn [skipn core_nozzle nb_core_nozzle run].
  set (eL := F4 Velocity_MachTi (V "M9") (V "Tt9") (V "g_fuel.r") (V "g_fuel.gamma")).
  set (eN := F4 Velocity_MachTi (V "M9") (V "Tt9") (V "g_fuel.r") (V "g_fuel.r")).
  assert (N : eval q' eN = None <-> eval q eL = None).
  { destruct H1 as [[_ B] G]. pose proof (B "M9"%string). pose proof (B "Tt9"%string). pose proof (B "g_fuel.r"%string). unfold eN, eL. cbn [eval].
    destruct (q "g_fuel.gamma"%string); [|contradiction].
    destruct (q' "M9"%string), (q "M9"%string), (q' "Tt9"%string), (q "Tt9"%string), (q' "g_fuel.r"%string), (q "g_fuel.r"%string); intuition (discriminate || congruence). }
  destruct (eval q eL) as [v|], (eval q' eN) as [v'|]; [|destruct N as [N _]; now specialize (N eq_refl)|destruct N as [_ N]; now specialize (N eq_refl)|exact I].
  assert (H2 : alike_g (upd "V9" v q) (upd "V9" v' q')) by (apply alike_upd; [exact H1|left; now left]).
  apply (run_alike (cons ("F_c"%string, (V "m_c" * (V "V9" - V "V0"))%obj) nil) _ _ eq_refl H2).
Qed.

(** ** stages, methods, histories *)
Definition srel (s s' : stage) : Prop :=
  guard s = guard s' /\ new_corps s = new_corps s' /\ new_fan s = new_fan s' /\ forall o o', alike_g o o' -> both (run (code s) o) (run (code s') o').
Definition crel (c c' : cyc) : Prop := alike_g (attrs c) (attrs c') /\ corps c' = corps c /\ fan c' = fan c.
Definition cboth (r r' : option cyc) : Prop := match r, r' with Some c, Some c' => crel c c' | None, None => True | _, _ => False end.
Lemma srel_same s : forallb clean (code s) = true -> srel s s.
Proof. intros H. split; [reflexivity|]. split; [reflexivity|]. split; [reflexivity|]. intros o o' A. now apply run_alike. Qed.
Lemma call_rel s s' c c' : srel s s' -> crel c c' -> cboth (call s c) (call s' c').
Proof.
  intros (G & NC & NF & R) (A & K & F). unfold call. rewrite K, F, <- G. destruct (guard s (corps c) (fan c)); [|cbn; split; auto].
  specialize (R _ _ A). destruct (run (code s) (attrs c)), (run (code s') (attrs c')); cbn [both] in R; try contradiction; [|exact I].
  cbn [cboth]. split; [exact R|]. cbn [corps fan]. now rewrite NC, NF.
Qed.
Lemma calls_rel l l' : List.Forall2 srel l l' -> forall c c', crel c c' -> cboth (calls l c) (calls l' c').
Proof.
  induction 1 as [|s s' l l' S _ IH]; intros c c' C; cbn [calls]; [exact C|].
  pose proof (call_rel s s' c c' S C) as H. destruct (call s c), (call s' c'); cbn [cboth] in H; try contradiction; [|exact I]. now apply IH.
Qed.
Definition mrel (m m' : method) : Prop := List.Forall2 (fun b b' => fst b = fst b' /\ List.Forall2 srel (snd b) (snd b')) m m'.
Lemma exec_rel m m' : mrel m m' -> forall c c', crel c c' -> cboth (exec m c) (exec m' c').
Proof.
  induction 1 as [|[cond l] [cond' l'] m m' [E S] _ IH]; intros c c' C; cbn [exec]; [exact C|]. cbn [fst snd] in E, S. subst cond'.
  pose proof C as (_ & K & F). rewrite K, F. destruct (cond (corps c) (fan c)); [|now apply IH].
  pose proof (calls_rel l l' S c c' C) as H. destruct (calls l c), (calls l' c'); cbn [cboth] in H; try contradiction; [|exact I]. now apply IH.
Qed.
Lemma history_rel h h' : List.Forall2 mrel h h' -> forall c c', crel c c' -> cboth (history h c) (history h' c').
Proof.
  induction 1 as [|m m' h h' M _ IH]; intros c c' C; cbn [history]; [exact C|].
  pose proof (exec_rel m m' M c c' C) as H. destruct (exec m c), (exec m' c'); cbn [cboth] in H; try contradiction; [|exact I]. now apply IH.
Qed.
Lemma fixe_9_rel : srel fixe_stage_9 nb_fixe_stage_9.
Proof. do 3 (split; [reflexivity|]). apply nozzle_alike. Qed.
Lemma calc_9_rel : srel calc_stage_9 nb_calc_stage_9.
Proof. do 3 (split; [reflexivity|]). apply nozzle_alike. Qed.
Ltac relate := repeat first [exact fixe_9_rel | exact calc_9_rel | (apply srel_same; reflexivity) | apply List.Forall2_nil | apply List.Forall2_cons | split; [reflexivity|]; cbn [fst snd]].
Lemma fixe_rel : List.Forall2 mrel fixe_methods nb_fixe_methods.
Proof. unfold fixe_methods, nb_fixe_methods, mrel, prim, calculs_1_to_4, fixe_5_to_9, nb_fixe_5_to_9. relate. Qed.
Lemma fixe_59_rel : mrel fixe_5_to_9 nb_fixe_5_to_9.
Proof. unfold mrel, fixe_5_to_9, nb_fixe_5_to_9. relate. Qed.
Lemma calc_59_rel : mrel calc_5_to_9 nb_calc_5_to_9.
Proof. unfold mrel, calc_5_to_9, nb_calc_5_to_9. relate. Qed.
Lemma calc_rel : List.Forall2 mrel calc_methods nb_calc_methods.
Proof. unfold calc_methods, nb_calc_methods, mrel, prim, calculs_1_to_4, calc_5_to_9, nb_calc_5_to_9. relate. Qed.

(** ** C100 *)
(** calls of the methods numbered h of a class *)
Definition by_number (ms : list method) (h : list nat) : list method := map (fun i => nth i ms nil) h.
Lemma number_rel ms ms' h : List.Forall2 mrel ms ms' -> List.Forall2 mrel (by_number ms h) (by_number ms' h).
Proof.
  intros F. unfold by_number. induction h as [|i h IH]; cbn [map]; constructor; [|exact IH]. clear IH h.
  revert i. induction F as [|m m' ms ms' M F IH]; intros [|i]; cbn [nth]; try (constructor; fail); [exact M|apply IH].
Qed.
Lemma number_in (ms : list method) h : List.Forall (fun i => (i < List.length ms)%nat) h -> List.Forall (fun m => In m ms) (by_number ms h).
Proof. intros F. unfold by_number. induction F as [|i h I F IH]; cbn [map]; constructor; [now apply nth_In|exact IH]. Qed.
Lemma fixe_start a : exists c0, construct (fixe_init a) = Some c0 /\ attrs c0 "g_fuel.gamma"%string <> None /\
  forall h, List.Forall (fun m => In m fixe_methods) h -> exists c, history h c0 = Some c.
Proof.
  destruct a as [[[[[[l pc] t4] m] g] gf] x]. set (a := (l, pc, t4, m, g, gf, x)).
  destruct (generic_safe have_fixe fixe_flags (fixe_init a) fixe_all fixe_methods fixe_list eq_refl eq_refl eq_refl fixe_in fixe_ok) as (full & Rf & c0 & C0 & I0 & KF & H); [left; reflexivity|reflexivity|unfold fixe_methods; cbn [In]; tauto|].
  exists c0. split; [exact C0|]. split.
  - destruct I0 as (_ & _ & I0). apply I0. injection KF as K F. rewrite K, F. apply mem_in. reflexivity.
  - intros h Hh. destruct (H h Hh) as (c & Hc & _). now exists c.
Qed.
Lemma calc_start a : exists c0, construct (calc_init a) = Some c0 /\ attrs c0 "g_fuel.gamma"%string <> None /\
  forall h, List.Forall (fun m => In m calc_methods) h -> exists c, history h c0 = Some c.
Proof.
  destruct a as [[[[[[l pc] t4] m] g] gf] x]. set (a := (l, pc, t4, m, g, gf, x)).
  destruct (generic_safe have_calc calc_flags (calc_init a) calc_all calc_methods calc_list eq_refl eq_refl eq_refl calc_in calc_ok) as (full & Rf & c0 & C0 & I0 & KF & H); [left; reflexivity|reflexivity|unfold calc_methods; cbn [In]; tauto|].
  exists c0. split; [exact C0|]. split.
  - destruct I0 as (_ & _ & I0). apply I0. injection KF as K F. rewrite K, F. apply mem_in. reflexivity.
  - intros h Hh. destruct (H h Hh) as (c & Hc & _). now exists c.
Qed.
Lemma crel_refl c : attrs c "g_fuel.gamma"%string <> None -> crel c c.
Proof. intros H. split; [split; [apply alike_refl|exact H]|split; reflexivity]. Qed.
Lemma crel_out c c' : crel c c' -> corps c' = corps c /\ fan c' = fan c /\
  (forall x, ~ In x jet_names -> attrs c' x = attrs c x) /\ (forall x, attrs c' x = None <-> attrs c x = None).
Proof. intros ([[A B] _] & K & F). auto. Qed.

(*@P C100_lockstep: For both turbofan classes, whatever the constructor arguments (undefined numbers included), and for every finite sequence of calls of their calculation methods in any order: the class of the notebook and the class of the library both survive it (no attribute read before it exists), are in the same stage, have the same attributes, and agree on the value of every one of them except the core jet velocity V9 and what is computed from it (core thrust, thrust, specific thrust, specific consumption and the three efficiencies). *)
Lemma lockstep : forall a,
  (exists c0, construct (fixe_init a) = Some c0 /\ forall h, List.Forall (fun i => (i < 11)%nat) h ->
     exists c c', history (by_number fixe_methods h) c0 = Some c /\ history (by_number nb_fixe_methods h) c0 = Some c' /\
     corps c' = corps c /\ fan c' = fan c /\ (forall x, ~ In x jet_names -> attrs c' x = attrs c x) /\ (forall x, attrs c' x = None <-> attrs c x = None)) /\
  (exists c0, construct (calc_init a) = Some c0 /\ forall h, List.Forall (fun i => (i < 12)%nat) h ->
     exists c c', history (by_number calc_methods h) c0 = Some c /\ history (by_number nb_calc_methods h) c0 = Some c' /\
     corps c' = corps c /\ fan c' = fan c /\ (forall x, ~ In x jet_names -> attrs c' x = attrs c x) /\ (forall x, attrs c' x = None <-> attrs c x = None)).
Proof.
  intros a. split.
  - destruct (fixe_start a) as (c0 & C0 & G & H). exists c0. split; [exact C0|]. intros h Hh.
    destruct (H _ (number_in fixe_methods h Hh)) as (c & Hc). pose proof (history_rel _ _ (number_rel _ _ h fixe_rel) c0 c0 (crel_refl c0 G)) as R.
    rewrite Hc in R. destruct (history (by_number nb_fixe_methods h) c0) as [c'|]; [|contradiction]. exists c, c'. split; [exact Hc|]. split; [reflexivity|]. now apply crel_out.
  - destruct (calc_start a) as (c0 & C0 & G & H). exists c0. split; [exact C0|]. intros h Hh.
    destruct (H _ (number_in calc_methods h Hh)) as (c & Hc). pose proof (history_rel _ _ (number_rel _ _ h calc_rel) c0 c0 (crel_refl c0 G)) as R.
    rewrite Hc in R. destruct (history (by_number nb_calc_methods h) c0) as [c'|]; [|contradiction]. exists c, c'. split; [exact Hc|]. split; [reflexivity|]. now apply crel_out.
Qed.

(** the same object computed by the library and by the notebook *)
Definition computed_by_both (a : fixe_args) (c c' : cyc) : Prop :=
  (computed (fixe_init a) fixe_5_to_9 = Some c /\ computed (fixe_init a) nb_fixe_5_to_9 = Some c') \/
  (computed (calc_init a) calc_5_to_9 = Some c /\ computed (calc_init a) nb_calc_5_to_9 = Some c').
Definition nb_fixe_list : list stage := [InitialValues; stage_2; stage_3; stage_4; fixe_stage_13; stage_19; fixe_stage_5; nb_fixe_stage_9; perfo].
Definition nb_calc_list : list stage := [InitialValues; stage_2; stage_3; stage_4; calc_stage_4_etoile; calc_stage_5; nb_calc_stage_9; calc_stage_13; stage_19; perfo].
Definition nb_fixe_all : prog := concat (map code nb_fixe_list).
Definition nb_calc_all : prog := concat (map code nb_calc_list).
Lemma nb_fixe_in s : In s (all_stages nb_fixe_methods) -> In s nb_fixe_list.
Proof. cbn. intros H. repeat (destruct H as [H|H]; [subst; tauto|]). contradiction. Qed.
Lemma nb_calc_in s : In s (all_stages nb_calc_methods) -> In s nb_calc_list.
Proof. cbn. intros H. repeat (destruct H as [H|H]; [subst; tauto|]). contradiction. Qed.
Lemma nb_fixe_ok : forallb (fun s => forallb (stage_ok have_fixe fixe_flags s) fixe_flags) (all_stages nb_fixe_methods) = true.
Proof. vm_compute. reflexivity. Qed.
Lemma nb_calc_ok : forallb (fun s => forallb (stage_ok have_calc calc_flags s) calc_flags) (all_stages nb_calc_methods) = true.
Proof. vm_compute. reflexivity. Qed.
Lemma nb_fixe_full a : exists full c, computed (fixe_init a) nb_fixe_5_to_9 = Some c /\ (forall x, In x (writes nb_fixe_all) -> attrs c x = full x) /\
  holds (fixe_init a) full /\ holds nb_fixe_all full.
Proof.
  destruct a as [[[[[[l pc] t4] m] g] gf] x]. set (a := (l, pc, t4, m, g, gf, x)).
  destruct (generic_safe have_fixe fixe_flags (fixe_init a) nb_fixe_all nb_fixe_methods nb_fixe_list eq_refl eq_refl eq_refl nb_fixe_in nb_fixe_ok) as (full & Rf & c0 & C0 & I0 & KF & H); [left; reflexivity|reflexivity|unfold nb_fixe_methods; cbn [In]; tauto|].
  destruct (generic_complete have_fixe fixe_flags (fixe_init a) nb_fixe_all nb_fixe_methods nb_fixe_list eq_refl eq_refl eq_refl nb_fixe_in nb_fixe_ok) with (fin := nb_fixe_5_to_9)
    (pre := firstn 4 nb_fixe_5_to_9) (full := full) (c := c0) as (c2 & C2 & I2 & _ & W2); [left; reflexivity|reflexivity|unfold nb_fixe_methods; cbn [In]; tauto|reflexivity|reflexivity|exact Rf|exact I0| |].
  - rewrite KF. reflexivity.
  - exists full, c2. split; [unfold computed; now rewrite C0|]. split; [intros y Hy; now apply W2|].
    apply run_lasting in Rf. apply (holds_app (fixe_init a) nb_fixe_all). exact Rf.
Qed.
Lemma nb_calc_full a : exists full c, computed (calc_init a) nb_calc_5_to_9 = Some c /\ (forall x, In x (writes nb_calc_all) -> attrs c x = full x) /\
  holds (calc_init a) full /\ holds nb_calc_all full.
Proof.
  destruct a as [[[[[[l pc] t4] m] g] gf] x]. set (a := (l, pc, t4, m, g, gf, x)).
  destruct (generic_safe have_calc calc_flags (calc_init a) nb_calc_all nb_calc_methods nb_calc_list eq_refl eq_refl eq_refl nb_calc_in nb_calc_ok) as (full & Rf & c0 & C0 & I0 & KF & H); [left; reflexivity|reflexivity|unfold nb_calc_methods; cbn [In]; tauto|].
  destruct (generic_complete have_calc calc_flags (calc_init a) nb_calc_all nb_calc_methods nb_calc_list eq_refl eq_refl eq_refl nb_calc_in nb_calc_ok) with (fin := nb_calc_5_to_9)
    (pre := firstn 5 nb_calc_5_to_9) (full := full) (c := c0) as (c2 & C2 & I2 & _ & W2); [left; reflexivity|reflexivity|unfold nb_calc_methods; cbn [In]; tauto|reflexivity|reflexivity|exact Rf|exact I0| |].
  - rewrite KF. reflexivity.
  - exists full, c2. split; [unfold computed; now rewrite C0|]. split; [intros y Hy; now apply W2|].
    apply run_lasting in Rf. apply (holds_app (calc_init a) nb_calc_all). exact Rf.
Qed.
(** the last equations of a completed object of the library and of the notebook *)
Lemma both_equations a c c' : computed_by_both a c c' ->
  let '(_, _, _, _, _, gf, _) := a in
  exists f f', (forall x, In x ["M9"; "Tt9"; "V9"; "F_c"; "F_f"; "F"; "m_c"; "V0"]%string -> attrs c x = f x /\ attrs c' x = f' x) /\
  f "V9"%string = eval f (F4 Velocity_MachTi (V "M9") (V "Tt9") (V "g_fuel.r") (V "g_fuel.gamma")) /\
  f' "V9"%string = eval f' (F4 Velocity_MachTi (V "M9") (V "Tt9") (V "g_fuel.r") (V "g_fuel.r")) /\
  f "F_c"%string = eval f (V "m_c" * (V "V9" - V "V0"))%obj /\ f' "F_c"%string = eval f' (V "m_c" * (V "V9" - V "V0"))%obj /\
  f "F"%string = eval f (V "F_f" + V "F_c")%obj /\ f' "F"%string = eval f' (V "F_f" + V "F_c")%obj /\
  f "g_fuel.gamma"%string = Some (gz_gamma gf) /\ f "g_fuel.r"%string = Some (gz_r gf) /\ f' "g_fuel.r"%string = Some (gz_r gf) /\
  crel c c'.
Proof.
  destruct a as [[[[[[l pc] t4] m] g] gf] x]. set (a := (l, pc, t4, m, g, gf, x)). intros [[C C']|[C C']].
  - destruct (fixe_complete a) as (f & o0 & fresh & Rf & _ & _ & _ & Cf & Wf & _). assert (fresh = c) by congruence. subst fresh. destruct (fixe_lasting a f Rf) as [A B].
    destruct (nb_fixe_full a) as (f' & d & Cd & Wd & A' & B'). assert (d = c') by congruence. subst d. exists f, f'.
    split. { intros y Hy. split; [apply Wf|apply Wd]; revert y Hy; apply subset_in; reflexivity. }
    unfold holds in *. rewrite !List.Forall_forall in *.
    split; [apply (B ("V9"%string, _)); unfold fixe_all; rewrite !in_app_iff; do 7 right; left; cbn [code fixe_stage_9 core_nozzle In]; tauto|].
    split; [apply (B' ("V9"%string, _)); unfold nb_fixe_all; cbn [nb_fixe_list map concat]; rewrite !in_app_iff; do 7 right; left; cbn [code nb_fixe_stage_9 nb_core_nozzle In]; tauto|].
    split; [apply (B ("F_c"%string, _)); unfold fixe_all; rewrite !in_app_iff; do 7 right; left; cbn [code fixe_stage_9 core_nozzle In]; tauto|].
    split; [apply (B' ("F_c"%string, _)); unfold nb_fixe_all; cbn [nb_fixe_list map concat]; rewrite !in_app_iff; do 7 right; left; cbn [code nb_fixe_stage_9 nb_core_nozzle In]; tauto|].
    split; [apply (B ("F"%string, _)); unfold fixe_all; rewrite !in_app_iff; do 8 right; cbn [code perfo In]; tauto|].
    split; [apply (B' ("F"%string, _)); unfold nb_fixe_all; cbn [nb_fixe_list map concat]; rewrite !in_app_iff; do 8 right; left; cbn [code perfo In]; tauto|].
    assert (I1 : In ("g_fuel.gamma"%string, L (gz_gamma gf)) (fixe_init a)) by (unfold a, fixe_init, init_fixe, init_1_to_4; rewrite !in_app_iff; left; right; right; right; left; reflexivity).
    assert (I2 : In ("g_fuel.r"%string, L (gz_r gf)) (fixe_init a)) by (unfold a, fixe_init, init_fixe, init_1_to_4; rewrite !in_app_iff; left; right; right; right; right; left; reflexivity).
    split; [exact (A _ I1)|]. split; [exact (A _ I2)|]. split; [exact (A' _ I2)|].
    destruct (fixe_start a) as (c0 & C0 & G & _). unfold computed in C, Cd. rewrite C0 in C, Cd.
    pose proof (exec_rel _ _ fixe_59_rel c0 c0 (crel_refl c0 G)) as R. rewrite C, Cd in R. exact R.
  - destruct (calc_complete a) as (f & o0 & fresh & Rf & _ & _ & _ & Cf & Wf & _). assert (fresh = c) by congruence. subst fresh. destruct (calc_lasting a f Rf) as [A B].
    destruct (nb_calc_full a) as (f' & d & Cd & Wd & A' & B'). assert (d = c') by congruence. subst d. exists f, f'.
    split. { intros y Hy. split; [apply Wf|apply Wd]; revert y Hy; apply subset_in; reflexivity. }
    unfold holds in *. rewrite !List.Forall_forall in *.
    split; [apply (B ("V9"%string, _)); unfold calc_all; rewrite !in_app_iff; do 6 right; left; cbn [code calc_stage_9 core_nozzle In]; tauto|].
    split; [apply (B' ("V9"%string, _)); unfold nb_calc_all; cbn [nb_calc_list map concat]; rewrite !in_app_iff; do 6 right; left; cbn [code nb_calc_stage_9 nb_core_nozzle In]; tauto|].
    split; [apply (B ("F_c"%string, _)); unfold calc_all; rewrite !in_app_iff; do 6 right; left; cbn [code calc_stage_9 core_nozzle In]; tauto|].
    split; [apply (B' ("F_c"%string, _)); unfold nb_calc_all; cbn [nb_calc_list map concat]; rewrite !in_app_iff; do 6 right; left; cbn [code nb_calc_stage_9 nb_core_nozzle In]; tauto|].
    split; [apply (B ("F"%string, _)); unfold calc_all; rewrite !in_app_iff; do 9 right; cbn [code perfo In]; tauto|].
    split; [apply (B' ("F"%string, _)); unfold nb_calc_all; cbn [nb_calc_list map concat]; rewrite !in_app_iff; do 9 right; left; cbn [code perfo In]; tauto|].
    assert (I1 : In ("g_fuel.gamma"%string, L (gz_gamma gf)) (calc_init a)) by (unfold a, calc_init, init_calcule, init_1_to_4; rewrite !in_app_iff; left; right; right; right; left; reflexivity).
    assert (I2 : In ("g_fuel.r"%string, L (gz_r gf)) (calc_init a)) by (unfold a, calc_init, init_calcule, init_1_to_4; rewrite !in_app_iff; left; right; right; right; right; left; reflexivity).
    split; [exact (A _ I1)|]. split; [exact (A _ I2)|]. split; [exact (A' _ I2)|].
    destruct (calc_start a) as (c0 & C0 & G & _). unfold computed in C, Cd. rewrite C0 in C, Cd.
    pose proof (exec_rel _ _ calc_59_rel c0 c0 (crel_refl c0 G)) as R. rewrite C, Cd in R. exact R.
Qed.

Lemma gas_velocity M T r g : 1 < g -> 0 < r -> 0 < T ->
  Velocity_MachTi (Some M) (Some T) (Some r) (Some g) = Some (M * sqrt (g * r * T / (1 + (g - 1) / 2 * M ^ 2))).
Proof. intros G P Q. unfold Velocity_MachTi. rewrite Velocity_eval by assumption. unfold tt. do 4 f_equal. field. Qed.
(*@P C100_core_jet_refuted: The core jet of the notebook classes is not that of the library: on completed objects with the same arguments, a hot gas with 1 < gamma < r (every gas in SI units), a moving core jet M9 > 0 and Tt9 > 0, the library has the isentropic velocity V9 and the notebook the one of a gas of heat ratio r; the notebook velocity is the larger one below Mach sqrt 2, the smaller one above, and equal only at M9^2 = 2; and its thrust is off by exactly the core mass flow times the difference. *)
Lemma core_jet_refuted : forall l pc t4 m g gf x gam r c c' M T,
  gz_gamma gf = Some gam -> gz_r gf = Some r -> 1 < gam < r -> computed_by_both (l, pc, t4, m, g, gf, x) c c' ->
  has (attrs c) "M9" M -> has (attrs c) "Tt9" T -> 0 < M -> 0 < T ->
  has (attrs c') "M9" M /\ has (attrs c') "Tt9" T /\
  exists v v', has (attrs c) "V9" v /\ has (attrs c') "V9" v' /\
  v = M * sqrt (gam * r * T / (1 + (gam - 1) / 2 * M ^ 2)) /\ v' = M * sqrt (r * r * T / (1 + (r - 1) / 2 * M ^ 2)) /\
  (v < v' <-> M ^ 2 < 2) /\ (v' < v <-> 2 < M ^ 2) /\ (v = v' <-> M ^ 2 = 2) /\
  forall F mc, has (attrs c) "F" F -> has (attrs c) "m_c" mc -> has (attrs c') "F" (F + mc * (v' - v)).
Proof.
  intros l pc t4 m g gf x gam r c c' M T Eg Er G C HM HT PM PT.
  destruct (both_equations _ _ _ C) as (f & f' & W & E1 & E2 & E3 & E4 & E5 & E6 & G1 & G2 & G3 & R).
  rewrite Eg in G1. rewrite Er in G2, G3. destruct (crel_out _ _ R) as (_ & _ & Al & _).
  assert (N : forall y, mem y jet_names = false -> attrs c' y = attrs c y). { intros y Hy. apply Al. intros I. apply mem_in in I. congruence. }
  assert (HM' : has (attrs c') "M9" M) by (unfold has; rewrite N by reflexivity; exact HM).
  assert (HT' : has (attrs c') "Tt9" T) by (unfold has; rewrite N by reflexivity; exact HT).
  split; [exact HM'|]. split; [exact HT'|].
  assert (In8 : forall y, mem y ["M9"; "Tt9"; "V9"; "F_c"; "F_f"; "F"; "m_c"; "V0"]%string = true -> attrs c y = f y /\ attrs c' y = f' y) by (intros y Hy; apply W, mem_in, Hy).
  unfold has in *.
  assert (fM : f "M9"%string = Some (Some M)) by (rewrite <- (proj1 (In8 "M9"%string eq_refl)); exact HM).
  assert (fT : f "Tt9"%string = Some (Some T)) by (rewrite <- (proj1 (In8 "Tt9"%string eq_refl)); exact HT).
  assert (fM' : f' "M9"%string = Some (Some M)) by (rewrite <- (proj2 (In8 "M9"%string eq_refl)); exact HM').
  assert (fT' : f' "Tt9"%string = Some (Some T)) by (rewrite <- (proj2 (In8 "Tt9"%string eq_refl)); exact HT').
  cbn [eval] in E1, E2. rewrite fM, fT, G1, G2 in E1. rewrite fM', fT', G3 in E2. rewrite gas_velocity in E1 by lra. rewrite gas_velocity in E2 by lra.
  set (v := M * sqrt (gam * r * T / (1 + (gam - 1) / 2 * M ^ 2))) in *. set (v' := M * sqrt (r * r * T / (1 + (r - 1) / 2 * M ^ 2))) in *.
  exists v, v'. rewrite (proj1 (In8 "V9"%string eq_refl)), (proj2 (In8 "V9"%string eq_refl)). do 4 (split; [assumption || reflexivity|]).
  assert (D : forall k, 1 < k -> 0 < 1 + (k - 1) / 2 * M ^ 2) by (intros k Hk; assert (0 < M ^ 2) by (apply pow_lt; lra); nra).
  pose proof (D gam (proj1 G)) as D1. pose proof (D r ltac:(lra)) as D2.
  assert (A1 : 0 < gam * r * T / (1 + (gam - 1) / 2 * M ^ 2)) by (apply Rdiv_lt_0_compat; [apply Rmult_lt_0_compat; [apply Rmult_lt_0_compat|]; lra|lra]).
  assert (A2 : 0 < r * r * T / (1 + (r - 1) / 2 * M ^ 2)) by (apply Rdiv_lt_0_compat; [apply Rmult_lt_0_compat; [apply Rmult_lt_0_compat|]; lra|lra]).
  assert (Df : r * r * T / (1 + (r - 1) / 2 * M ^ 2) - gam * r * T / (1 + (gam - 1) / 2 * M ^ 2) =
    (2 - M ^ 2) * (r * T * (r - gam) / 2 / ((1 + (r - 1) / 2 * M ^ 2) * (1 + (gam - 1) / 2 * M ^ 2)))) by (field; split; lra).
  assert (K : 0 < r * T * (r - gam) / 2 / ((1 + (r - 1) / 2 * M ^ 2) * (1 + (gam - 1) / 2 * M ^ 2))).
  { apply Rdiv_lt_0_compat; [|now apply Rmult_lt_0_compat]. apply Rdiv_lt_0_compat; [|lra]. apply Rmult_lt_0_compat; [apply Rmult_lt_0_compat|]; lra. }
  set (k := r * T * (r - gam) / 2 / _) in *.
  assert (L1 : M ^ 2 < 2 -> v < v'). { intros H. unfold v, v'. apply Rmult_lt_compat_l; [exact PM|]. apply sqrt_lt_1; nra. }
  assert (L2 : 2 < M ^ 2 -> v' < v). { intros H. unfold v, v'. apply Rmult_lt_compat_l; [exact PM|]. apply sqrt_lt_1; nra. }
  assert (L3 : M ^ 2 = 2 -> v = v'). { intros H. unfold v, v'. do 2 f_equal. apply Rminus_diag_uniq_sym. rewrite Df, H. ring. }
  split; [|split; [|split]].
  - split; [|exact L1]. intros H. destruct (Rtotal_order (M ^ 2) 2) as [|[E|E]]; [assumption|specialize (L3 E); lra|specialize (L2 E); lra].
  - split; [|exact L2]. intros H. destruct (Rtotal_order (M ^ 2) 2) as [E|[E|]]; [specialize (L1 E); lra|specialize (L3 E); lra|assumption].
  - split; [|exact L3]. intros H. destruct (Rtotal_order (M ^ 2) 2) as [E|[E|E]]; [specialize (L1 E); lra|assumption|specialize (L2 E); lra].
  - intros F mc HF Hm. rewrite (proj1 (In8 "F"%string eq_refl)) in HF. rewrite (proj2 (In8 "F"%string eq_refl)).
    assert (m1 : f "m_c"%string = Some (Some mc)) by (rewrite <- (proj1 (In8 "m_c"%string eq_refl)); exact Hm).
    assert (m2 : f' "m_c"%string = Some (Some mc)) by (rewrite <- (proj2 (In8 "m_c"%string eq_refl)), N by reflexivity; exact Hm).
    assert (v0 : f' "V0"%string = f "V0"%string) by (rewrite <- (proj2 (In8 "V0"%string eq_refl)), <- (proj1 (In8 "V0"%string eq_refl)); now apply N).
    assert (ff : f' "F_f"%string = f "F_f"%string) by (rewrite <- (proj2 (In8 "F_f"%string eq_refl)), <- (proj1 (In8 "F_f"%string eq_refl)); now apply N).
    cbn [eval] in E3, E4, E5, E6. rewrite m1, E1 in E3. rewrite m2, E2, v0 in E4. rewrite HF in E5. rewrite ff in E6.
    destruct (f "V0"%string) as [[u|]|]; [| |]; cycle 1; [rewrite E3 in E5; destruct (f "F_f"%string) as [[w|]|]; cbn [nsub nmul nadd] in E5; discriminate E5|rewrite E3 in E5; destruct (f "F_f"%string) as [[w|]|]; discriminate E5|].
    rewrite E3 in E5. rewrite E4 in E6. destruct (f "F_f"%string) as [[w|]|]; [|discriminate|discriminate].
    cbn [nsub nmul nadd] in E5, E6. injection E5 as E5. rewrite E6. do 2 f_equal. rewrite E5. ring.
Qed.
(*@E C100_example: Example: the engine of C74_example (hot gas gamma 1.33, r 291.6): its core jet has M9^2 > 2 and a positive total temperature, so the hypotheses of C100_core_jet_refuted hold and the notebook understates its core jet velocity. *)
Lemma C100_example_lemma : exists x c c' M T, computed_by_both (fixe_of ex_two_flow 0 x) c c' /\ has (attrs c) "M9" M /\ has (attrs c) "Tt9" T /\
  0 < M /\ 0 < T /\ 2 < M ^ 2 /\ exists v v', has (attrs c) "V9" v /\ has (attrs c') "V9" v' /\ v' < v.
Proof.
  set (x := Rpower (11 / 10) (63 / 20)). exists x.
  assert (X3 : 1331 / 1000 < x).
  { unfold x. apply Rle_lt_trans with (Rpower (11 / 10) 3); [|apply Rpower_lt; lra]. replace 3 with (INR 3) by (cbn; lra). rewrite Rpower_pow by lra. cbn. lra. }
  assert (FT : fan_T ex_two_flow eta_compressor x = 11 / 10 * inlet_T ex_two_flow).
  { unfold fan_T, x. cbn [gA ex_two_flow]. rewrite Rpower_mult. unfold eta_compressor. replace (63 / 20 * ((14 / 10 - 1) / (14 / 10 * (90 / 100)))) with 1 by field. rewrite Rpower_1 by lra. ring. }
  assert (Fe : cA ex_two_flow * (compressed_T ex_two_flow - inlet_T ex_two_flow) + bypass ex_two_flow * cA ex_two_flow * (fan_T ex_two_flow eta_compressor x - inlet_T ex_two_flow) <
    eta_shaft * (1 + fuel_ratio ex_two_flow) * cB ex_two_flow * T_max ex_two_flow).
  { rewrite FT, ex_compressed, ex_inlet. pose proof ex_fuel as [B1 B2]. unfold cA, cB, cp_of, eta_shaft. cbn [bypass T_max gA rA gB rB ex_two_flow]. lra. }
  destruct (fixed_fan ex_two_flow 0 x ex_sensible ltac:(lra) Fe) as (o & c & T13 & P13 & C & Sh & Cy & H13 & HP13 & EP & Co & Sf & Ex & P5 & PP5 & Pa & N).
  pose proof (sensible_facts _ ex_sensible) as (f1 & f2 & f3 & f4 & f5 & f6 & f7 & f8 & f9 & f10).
  destruct Cy as (c1 & c2 & c3 & c4).
  assert (PR : 143 / 100 < pres_ratio (gA ex_two_flow) Mach_inf).
  { unfold pres_ratio, temp_ratio, Mach_inf. cbn [gA ex_two_flow]. apply Rlt_trans with (Rpower (1 + (14 / 10 - 1) / 2 * (8 / 10) ^ 2) 3); [|apply Rpower_lt; lra]. replace 3 with (INR 3) by (cbn; lra). rewrite Rpower_pow by lra. cbn [pow]. lra. }
  assert (IP : 31480 < inlet_P ex_two_flow) by (unfold inlet_P, xi_inlet_loss, P_inf; lra).
  assert (T3 : Tt3 c = 2 * inlet_T ex_two_flow).
  { unfold compression in c2. rewrite c1 in c2. replace (core_ratio ex_two_flow * inlet_P ex_two_flow / inlet_P ex_two_flow) with (core_ratio ex_two_flow) in c2 by (field; lra).
    rewrite <- ex_compressed. unfold compressed_T. apply Rmult_eq_reg_r with (/ inlet_T ex_two_flow); [|apply Rinv_neq_0_compat; lra]. fold (Tt3 c / inlet_T ex_two_flow). rewrite c2. field. lra. }
  assert (T13e : T13 = 11 / 10 * inlet_T ex_two_flow).
  { unfold compression in Co. rewrite EP in Co. replace (x * inlet_P ex_two_flow / inlet_P ex_two_flow) with x in Co by (field; lra).
    rewrite <- FT. unfold fan_T. apply Rmult_eq_reg_r with (/ inlet_T ex_two_flow); [|apply Rinv_neq_0_compat; lra]. fold (T13 / inlet_T ex_two_flow). rewrite Co. field. lra. }
  assert (AL : alpha c = fuel_ratio ex_two_flow).
  { unfold burner in c3. rewrite T3, <- ex_compressed in c3. unfold fuel_ratio.
    assert (D : eta_burning * heating ex_two_flow - cB ex_two_flow * T_max ex_two_flow <> 0). { unfold cB, cp_of, eta_burning. cbn [T_max gB rB heating ex_two_flow]. lra. }
    apply Rmult_eq_reg_r with (eta_burning * heating ex_two_flow - cB ex_two_flow * T_max ex_two_flow); [|exact D].
    unfold Rdiv. rewrite Rmult_assoc, Rinv_l by exact D. lra. }
  pose proof ex_fuel as [B1 B2]. rewrite <- AL in B1, B2.
  assert (T5b : 10880 / 10 < Tt5 c).
  { unfold shaft in Sf. rewrite T3, T13e, ex_inlet in Sf. unfold core_air, fan_air, cA, cB, cp_of, eta_shaft in Sf. cbn [bypass air T_max gA rA gB rB ex_two_flow] in Sf.
    destruct (Rlt_dec (10880 / 10) (Tt5 c)) as [|Q]; [assumption|exfalso].
    assert (G : 1028 / 1000 * 312 <= (1 + alpha c) * (1400 - Tt5 c)). { apply Rmult_le_compat; lra. }
    set (g := (1 + alpha c) * (1400 - Tt5 c)) in *. replace (98 / 100 * (180 / (1 + 5) * (1 + alpha c) * (133 / 100 * (2916 / 10) / (133 / 100 - 1)) * (1400 - Tt5 c))) with (98 / 100 * 30 * (133 / 100 * (2916 / 10) / (133 / 100 - 1)) * g) in Sf by (unfold g; field).
    lra. }
  assert (PC : 8 < core_ratio ex_two_flow).
  { cbn [core_ratio ex_two_flow]. apply Rle_lt_trans with (Rpower 2 3); [|apply Rpower_lt; lra]. replace 3 with (INR 3) by (cbn; lra). rewrite Rpower_pow by lra. cbn. lra. }
  assert (P4b : 239000 < Pt4 c). { rewrite c4, c1. unfold xi_burner_loss. assert (8 * 31480 < core_ratio ex_two_flow * inlet_P ex_two_flow) by (apply Rmult_le_0_lt_compat; lra). lra. }
  assert (P5b : 72000 < Pt5 c * xi_nozzle_loss).
  { unfold xi_nozzle_loss. destruct (Rlt_dec 72000 (Pt5 c * (97 / 100))) as [|Q]; [assumption|exfalso].
    unfold expansion in Ex. cbn [T_max gB ex_two_flow] in Ex. set (y := Pt5 c / Pt4 c) in *.
    assert (Y0 : 0 < y) by (apply Rdiv_lt_0_compat; lra).
    assert (Y1 : y < 311 / 1000). { unfold y. apply Rmult_lt_reg_r with (Pt4 c); [lra|]. unfold Rdiv at 1. rewrite Rmult_assoc, Rinv_l by lra. lra. }
    assert (Y2 : 777 / 1000 < Tt5 c / 1400) by lra.
    assert (Y3 : Rpower y ((133 / 100 - 1) * eta_turbine / (133 / 100)) < Rpower y (5 / 23)).
    { unfold Rpower. apply exp_increasing. assert (ln y < 0) by (rewrite <- ln_1; apply ln_increasing; lra). unfold eta_turbine. nra. }
    assert (Y4 : Rpower y (5 / 23) < 777 / 1000).
    { apply Rlt_le_trans with (Rpower (Rpower (777 / 1000) (23 / 5)) (5 / 23)).
      - apply Rlt_Rpower_l; [lra|]. split; [exact Y0|]. apply Rlt_trans with (311 / 1000); [exact Y1|].
        apply Rle_lt_trans with (Rpower (Rpower (311 / 1000) 5) (1 / 5)); [rewrite Rpower_mult; replace (5 * (1 / 5)) with 1 by lra; rewrite Rpower_1 by lra; lra|].
        replace (Rpower (777 / 1000) (23 / 5)) with (Rpower (Rpower (777 / 1000) 23) (1 / 5)) by (rewrite Rpower_mult; f_equal; lra).
        apply Rlt_Rpower_l; [lra|]. split; [apply Rpower_pos|]. replace 5 with (INR 5) by (cbn; lra). replace 23 with (INR 23) by (cbn; lra). rewrite !Rpower_pow by lra. cbn [pow]. lra.
      - rewrite Rpower_mult. replace (23 / 5 * (5 / 23)) with 1 by lra. rewrite Rpower_1 by lra. lra. }
    lra. }
  assert (P13b : P_inf <= P13 * xi_nozzle_loss).
  { rewrite EP. unfold inlet_P, xi_nozzle_loss, xi_inlet_loss, P_inf. set (p := pres_ratio (gA ex_two_flow) Mach_inf) in *.
    assert (1331 / 1000 * 1 <= x * p) by (apply Rmult_le_compat; lra). replace (x * (97 / 100 * (22700 * p)) * (97 / 100)) with (97 / 100 * (97 / 100) * 22700 * (x * p)) by ring. lra. }
  destruct (N ltac:(unfold P_inf; lra) P13b) as (M9 & V9 & M19 & V19 & h9 & hV9 & h19 & hV19 & n9 & n19 & Pf).
  destruct n9 as (z1 & z2 & _ & _).
  assert (M2 : 2 < M9 ^ 2).
  { destruct (Rlt_dec 2 (M9 ^ 2)) as [|Q]; [assumption|exfalso]. unfold pres_ratio, temp_ratio in z2. cbn [gB ex_two_flow] in z2.
    assert (0 <= M9 ^ 2) by apply pow2_ge_0.
    assert (U : Rpower (1 + (133 / 100 - 1) / 2 * M9 ^ 2) (133 / 100 / (133 / 100 - 1)) <= Rpower (133 / 100) (133 / 33)).
    { replace (133 / 100 / (133 / 100 - 1)) with (133 / 33) by field. apply Rle_Rpower_l; [lra|]. split; lra. }
    assert (W : Rpower (133 / 100) (133 / 33) < 317 / 100).
    { apply Rle_lt_trans with (Rpower (133 / 100) (4 + 1 / 25)); [apply Rle_Rpower; lra|]. rewrite Rpower_plus. replace 4 with (INR 4) at 1 by (cbn; lra). rewrite Rpower_pow by lra.
      assert (Rpower (133 / 100) (1 / 25) < 1012 / 1000).
      { apply Rlt_le_trans with (Rpower (Rpower (1012 / 1000) 25) (1 / 25)); [apply Rlt_Rpower_l; [lra|split; [lra|]]|].
        - replace 25 with (INR 25) by (cbn; lra). rewrite Rpower_pow by lra. cbn [pow]. lra.
        - rewrite Rpower_mult. replace (25 * (1 / 25)) with 1 by lra. rewrite Rpower_1 by lra. lra. }
      cbn [pow]. lra. }
    unfold P_inf in z2. lra. }
  assert (M0 : 0 < M9) by (destruct (Rle_lt_or_eq_dec 0 M9 z1) as [|Z]; [assumption|rewrite <- Z in M2; cbn in M2; lra]).
  destruct (nb_fixe_full (fixe_of ex_two_flow 0 x)) as (f' & o' & C' & _).
  assert (T9 : has (attrs o) "Tt9" (Tt5 c)).
  { destruct (fixe_complete (fixe_of ex_two_flow 0 x)) as (f & o0 & fresh & Rf & _ & _ & _ & Cf & Wf & _). assert (fresh = o) by congruence. subst fresh.
    destruct (fixe_lasting _ _ Rf) as [_ B]. destruct Sh as (_ & _ & _ & _ & _ & _ & _ & _ & _ & _ & h5 & _). unfold has in *.
    rewrite Wf in h5 |- * by (apply mem_in; reflexivity). rewrite <- h5. unfold holds in B. rewrite List.Forall_forall in B.
    apply (B ("Tt9"%string, V "Tt5")). unfold fixe_all. rewrite !in_app_iff. do 7 right. left. left. reflexivity. }
  exists o, o', M9, (Tt5 c). assert (CB : computed_by_both (fixe_of ex_two_flow 0 x) o o') by (left; split; assumption).
  split; [exact CB|]. split; [exact h9|]. split; [exact T9|]. split; [exact M0|]. split; [lra|]. split; [exact M2|].
  destruct (core_jet_refuted _ _ _ _ _ (gas_of (133 / 100) (2916 / 10) 42800000) _ (133 / 100) (2916 / 10) o o' M9 (Tt5 c) eq_refl eq_refl ltac:(lra) CB h9 T9 M0 P5) as (_ & _ & v & v' & k1 & k2 & _ & _ & _ & k3 & _).
  exists v, v'. split; [exact k1|]. split; [exact k2|]. now apply k3.
Qed.
