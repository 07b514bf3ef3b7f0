(** * C61: the turbofan cycle classes under any history of calls *)
From Coq Require Import String.
From Verif Require Import Num M_Isentropic M_Obj L_Obj M_Engine M_Cycle.

(** ** generic machinery: attribute environments included in a solution of all the assignments *)
Definition sub (o full : obj) : Prop := forall a v, o a = Some v -> full a = Some v.
Lemma eval_sub o full e v : sub o full -> eval o e = Some v -> eval full e = Some v.
Proof.
  intros S. revert v. induction e; cbn [eval]; intros v0 H; auto.
  - destruct (eval o e) as [x|]; [|discriminate]. now rewrite (IHe x).
  - destruct (eval o e1) as [x|]; [|discriminate]. destruct (eval o e2) as [y|]; [|discriminate]. now rewrite (IHe1 x), (IHe2 y).
  - destruct (eval o e1) as [x|]; [|discriminate]. destruct (eval o e2) as [y|]; [|discriminate].
    destruct (eval o e3) as [z|]; [|discriminate]. destruct (eval o e4) as [t|]; [|discriminate]. now rewrite (IHe1 x), (IHe2 y), (IHe3 z), (IHe4 t).
Qed.
Definition solves (full : obj) (p : prog) : Prop := Forall (fun ae => full (fst ae) = eval full (snd ae)) p.
Lemma run_sub full : forall p ins o, solves full p -> sub o full -> closed ins p = true -> (forall a, In a ins -> o a <> None) ->
  exists o', run p o = Some o' /\ sub o' full /\ (forall a, o a <> None \/ In a (writes p) -> o' a <> None).
Proof.
  induction p as [|[a e] p IH]; intros ins o S I C Hp.
  - exists o. cbn [run writes map]. split; [reflexivity|]. split; [exact I|]. intros b [H|[]]; exact H.
  - cbn [closed] in C. apply andb_prop in C. destruct C as [C1 C2]. apply Forall_cons_iff in S. destruct S as [S1 S2]. cbn [fst snd] in S1.
    destruct (eval_some o e) as [v E]. { intros b B. apply Hp. apply mem_in. rewrite forallb_forall in C1. now apply C1. }
    cbn [run]. rewrite E.
    assert (U : forall b, o b <> None -> upd a v o b <> None). { intros b B. unfold upd. destruct (String.eqb b a); [discriminate|exact B]. }
    destruct (IH (a :: ins) (upd a v o) S2) as (o' & R1 & R2 & R3).
    + intros b w. unfold upd. destruct (String.eqb b a) eqn:Eb; [|apply I]. apply String.eqb_eq in Eb. subst b. intros Q. injection Q as <-.
      rewrite S1. apply (eval_sub o full e v I E).
    + exact C2.
    + intros b [<-|B]; [rewrite upd_same; discriminate|auto].
    + exists o'. split; [exact R1|]. split; [exact R2|]. intros b [B|[<-|B]]; cbn [fst].
      * apply R3. left. auto.
      * apply R3. left. rewrite upd_same. discriminate.
      * apply R3. now right.
Qed.

(** ** static description of what the counters promise *)
Definition flagset := list (nat * nat).
Definition subset (l m : list string) : bool := forallb (fun a => mem a m) l.
Lemma subset_in l m : subset l m = true -> forall a, In a l -> In a m.
Proof. unfold subset. rewrite forallb_forall. intros H a I. apply mem_in. auto. Qed.
Definition fmem (k f : nat) (S : flagset) : bool := existsb (fun kf => Nat.eqb (fst kf) k && Nat.eqb (snd kf) f) S.
Lemma fmem_in k f S : fmem k f S = true <-> In (k, f) S.
Proof.
  unfold fmem. rewrite existsb_exists. split.
  - intros ([a b] & I & E). cbn in E. apply andb_prop in E. destruct E as [E1 E2]. apply Nat.eqb_eq in E1, E2. now subst.
  - intros I. exists (k, f). split; [exact I|]. cbn. now rewrite !Nat.eqb_refl.
Qed.
(** a stage called with counters (k, f), with the attributes [have] present, reads only what is present and the
    counters it sets do not promise more than what is present afterwards *)
Definition stage_ok (have : nat -> nat -> list string) (S : flagset) (s : stage) (kf : nat * nat) : bool :=
  let (k, f) := kf in
  if guard s k f then
    closed (have k f) (code s) &&
    fmem (new_corps s k) (new_fan s f) S && subset (have (new_corps s k) (new_fan s f)) (writes (code s) ++ have k f)
  else true.
Definition inv (have : nat -> nat -> list string) (S : flagset) (full : obj) (c : cyc) : Prop :=
  sub (attrs c) full /\ In (corps c, fan c) S /\ forall a, In a (have (corps c) (fan c)) -> attrs c a <> None.
Definition next (s : stage) (kf : nat * nat) : nat * nat :=
  if guard s (fst kf) (snd kf) then (new_corps s (fst kf), new_fan s (snd kf)) else kf.
Lemma call_ok have S full s c : solves full (code s) -> forallb (stage_ok have S s) S = true -> inv have S full c ->
  exists c', call s c = Some c' /\ inv have S full c' /\ (corps c', fan c') = next s (corps c, fan c) /\
  (forall a, attrs c a <> None -> attrs c' a <> None) /\ (guard s (corps c) (fan c) = true -> forall a, In a (writes (code s)) -> attrs c' a <> None).
Proof.
  intros So Ok (I1 & I2 & I3). rewrite forallb_forall in Ok. specialize (Ok _ I2). unfold stage_ok in Ok. unfold call, next. cbn [fst snd].
  destruct (guard s (corps c) (fan c)).
  - apply andb_prop in Ok. destruct Ok as [Ok O3]. apply andb_prop in Ok. destruct Ok as [O1 O2].
    destruct (run_sub full (code s) _ (attrs c) So I1 O1 I3) as (o' & R1 & R2 & R3). rewrite R1. eexists. split; [reflexivity|].
    split; [split; [exact R2|split]; cbn [attrs corps fan]|split; [reflexivity|split]].
    + now apply fmem_in.
    + intros a A. apply R3. apply (subset_in _ _ O3) in A. apply in_app_or in A. destruct A as [A|A]; auto.
    + intros a A. apply R3. auto.
    + intros _ a A. apply R3. auto.
  - exists c. split; [reflexivity|]. split; [now repeat split|]. split; [reflexivity|]. split; [auto|discriminate].
Qed.
Definition stages_of (m : method) : list stage := concat (map snd m).
Definition method_ok (have : nat -> nat -> list string) (S : flagset) (full : obj) (m : method) : Prop :=
  Forall (fun s => solves full (code s) /\ forallb (stage_ok have S s) S = true) (stages_of m).
Fixpoint nexts (l : list stage) (kf : nat * nat) : nat * nat := match l with [] => kf | s :: l => nexts l (next s kf) end.
Fixpoint mnext (m : method) (kf : nat * nat) : nat * nat :=
  match m with [] => kf | (cond, l) :: m => if cond (fst kf) (snd kf) then mnext m (nexts l kf) else mnext m kf end.
Lemma calls_ok have S full : forall l c, Forall (fun s => solves full (code s) /\ forallb (stage_ok have S s) S = true) l -> inv have S full c ->
  exists c', calls l c = Some c' /\ inv have S full c' /\ (corps c', fan c') = nexts l (corps c, fan c) /\ (forall a, attrs c a <> None -> attrs c' a <> None).
Proof.
  induction l as [|s l IH]; intros c F I; cbn [calls nexts]; [eauto 10|].
  apply Forall_cons_iff in F. destruct F as [[F1 F2] F3]. destruct (call_ok have S full s c F1 F2 I) as (c1 & C1 & I1 & N1 & K1 & _). rewrite C1.
  destruct (IH c1 F3 I1) as (c2 & C2 & I2 & N2 & K2). exists c2. split; [exact C2|]. split; [exact I2|]. split; [now rewrite N2, N1|auto].
Qed.
Lemma exec_ok have S full : forall m c, method_ok have S full m -> inv have S full c ->
  exists c', exec m c = Some c' /\ inv have S full c' /\ (corps c', fan c') = mnext m (corps c, fan c) /\ (forall a, attrs c a <> None -> attrs c' a <> None).
Proof.
  unfold method_ok, stages_of. induction m as [|[cond l] m IH]; intros c F I; cbn [exec mnext]; [eauto 10|].
  cbn [map concat snd] in F. apply Forall_app in F. destruct F as [F1 F2]. cbn [fst snd].
  destruct (cond (corps c) (fan c)); [|now apply IH].
  destruct (calls_ok have S full l c F1 I) as (c1 & C1 & I1 & N1 & K1). rewrite C1.
  destruct (IH c1 F2 I1) as (c2 & C2 & I2 & N2 & K2). exists c2. split; [exact C2|]. split; [exact I2|]. split; [now rewrite N2, N1|auto].
Qed.
Lemma history_ok have S full : forall h c, Forall (method_ok have S full) h -> inv have S full c ->
  exists c', history h c = Some c' /\ inv have S full c' /\ (forall a, attrs c a <> None -> attrs c' a <> None).
Proof.
  induction h as [|m h IH]; intros c F I; cbn [history]; [eauto|].
  apply Forall_cons_iff in F. destruct F as [F1 F2]. destruct (exec_ok have S full m c F1 I) as (c1 & C1 & I1 & _ & K1). rewrite C1.
  destruct (IH c1 F2 I1) as (c2 & C2 & I2 & K2). exists c2. auto.
Qed.

(** ** the two classes *)
Definition cyc_params : list string := (writes (init_1_to_4 None None None None gaz_default gaz_default)).
Definition when (b : bool) (l : list string) : list string := if b then l else [].
Definition have_1_to_4 (k : nat) : list string :=
  cyc_params ++ when (Nat.leb 1 k) (writes (code InitialValues)) ++ when (Nat.leb 2 k) (writes (code stage_2)) ++
  when (Nat.leb 3 k) (writes (code stage_3)) ++ when (Nat.leb 4 k) (writes (code stage_4)).
Definition have_fixe (k f : nat) : list string :=
  "pi_f"%string :: have_1_to_4 k ++ when (Nat.leb 13 f) (writes (code InitialValues) ++ writes (code stage_2) ++ writes (code fixe_stage_13)) ++
  when (Nat.leb 19 f) (writes (code stage_19)) ++ when (Nat.leb 5 k) (writes (code fixe_stage_5)) ++ when (Nat.leb 9 k) (writes (code fixe_stage_9)).
Definition have_calc (k f : nat) : list string :=
  "taux_meca"%string :: have_1_to_4 k ++ when (Nat.leb 13 f) (writes (code InitialValues) ++ writes (code stage_2) ++ writes (code calc_stage_13)) ++
  when (Nat.leb 19 f) (writes (code stage_19)) ++ when (Nat.leb 5 k) (writes (code calc_stage_4_etoile)) ++ when (Nat.leb 6 k) (writes (code calc_stage_5)) ++
  when (Nat.leb 9 k) (writes (code calc_stage_9)).
Definition flags (ks fs : list nat) : flagset := list_prod ks fs.
Definition fixe_flags : flagset := flags [0; 1; 2; 3; 4; 5; 9]%nat [0; 13; 19]%nat.
Definition calc_flags : flagset := flags [0; 1; 2; 3; 4; 5; 6; 9]%nat [0; 13; 19]%nat.
(** every assignment of the class, in an order in which nothing is read before it is assigned *)
Definition fixe_all : prog :=
  code InitialValues ++ code stage_2 ++ code stage_3 ++ code stage_4 ++ code fixe_stage_13 ++ code stage_19 ++ code fixe_stage_5 ++ code fixe_stage_9 ++ code perfo.
Definition calc_all : prog :=
  code InitialValues ++ code stage_2 ++ code stage_3 ++ code stage_4 ++ code calc_stage_4_etoile ++ code calc_stage_5 ++ code calc_stage_9 ++ code calc_stage_13 ++ code stage_19 ++ code perfo.
Lemma fixe_ssa : lasting fixe_all = fixe_all. Proof. reflexivity. Qed.
Lemma calc_ssa : lasting calc_all = calc_all. Proof. reflexivity. Qed.
Definition all_stages (ms : list method) : list stage := concat (map stages_of ms).
Lemma fixe_ok : forallb (fun s => forallb (stage_ok have_fixe fixe_flags s) fixe_flags) (all_stages fixe_methods) = true.
Proof. vm_compute. reflexivity. Qed.
Lemma calc_ok : forallb (fun s => forallb (stage_ok have_calc calc_flags s) calc_flags) (all_stages calc_methods) = true.
Proof. vm_compute. reflexivity. Qed.

(** ** fixed fan pressure ratio *)
Definition fixe_args := (num * num * num * num * gaz * gaz * num)%type.
Definition fixe_init (a : fixe_args) : prog := let '(l, pc, t4, m, g, gf, x) := a in init_fixe l pc t4 m g gf x.
Definition calc_init (a : fixe_args) : prog := let '(l, pc, t4, m, g, gf, x) := a in init_calcule l pc t4 m g gf x.

Lemma forall_stages (P : stage -> Prop) (L : list stage) ms : Forall P L -> (forall s, In s (all_stages ms) -> In s L) -> Forall P (all_stages ms).
Proof. intros H I. apply Forall_forall. intros s Hs. rewrite Forall_forall in H. auto. Qed.
Lemma split_solves full p q : solves full (p ++ q) -> solves full p /\ solves full q.
Proof. apply Forall_app. Qed.

Section generic.
Variables (have : nat -> nat -> list string) (S : flagset) (init all : prog) (ms : list method) (L : list stage).
Hypothesis Hall : all = concat (map code L).
Hypothesis Hclosed : closed [] (init ++ all) = true.
Hypothesis Hssa : lasting (init ++ all) = init ++ all.
Hypothesis HL : forall s, In s (all_stages ms) -> In s L.
Hypothesis Hok : forallb (fun s => forallb (stage_ok have S s) S) (all_stages ms) = true.
Hypothesis H0 : In (0, 0)%nat S.
Hypothesis Hinit : subset (have 0%nat 0%nat) (writes init) = true.
Hypothesis H14 : In calculs_1_to_4 ms.
Lemma generic_full : exists full o0, run (init ++ all) empty_obj = Some full /\ run init empty_obj = Some o0 /\ sub o0 full /\
  (forall m, In m ms -> method_ok have S full m) /\ inv have S full {| attrs := o0; corps := 0; fan := 0 |}.
Proof.
  destruct (run_total (init ++ all) [] empty_obj Hclosed) as [full Rf]; [intros a []|].
  pose proof (run_lasting _ _ _ Rf) as E. rewrite Hssa in E. apply split_solves in E. destruct E as [E1 E2].
  assert (Sub0 : exists o0, run init empty_obj = Some o0 /\ sub o0 full /\ forall a, In a (writes init) -> o0 a <> None).
  { assert (C0 : closed [] init = true).
    { clear - Hclosed. revert Hclosed. generalize (@nil string). induction init as [|[a e] p IH]; intros l; cbn [app closed]; [reflexivity|].
      intros C. apply andb_prop in C. destruct C as [C1 C2]. now rewrite C1, (IH _ C2). }
    destruct (run_sub full init [] empty_obj E1) as (o0 & R0 & R1 & R2); [intros a v; discriminate|exact C0|intros a []|]. exists o0. auto. }
  destruct Sub0 as (o0 & R0 & R1 & R2). exists full, o0. split; [exact Rf|]. split; [exact R0|]. split; [exact R1|]. split.
  - assert (A : Forall (fun s => solves full (code s) /\ forallb (stage_ok have S s) S = true) (all_stages ms)).
    { apply Forall_forall. intros s Hs. split.
      - rewrite Hall in E2. clear - E2 Hs HL. apply HL in Hs. clear HL. induction L as [|t l IH]; [destruct Hs|]. cbn [map concat] in E2. apply split_solves in E2. destruct E2 as [X Y].
        destruct Hs as [->|Hs]; [exact X|]. apply IH; auto.
      - rewrite forallb_forall in Hok. now apply Hok. }
    intros m Hm. unfold method_ok. apply Forall_forall. intros s Hs. rewrite Forall_forall in A. apply A. unfold all_stages. apply in_concat. exists (stages_of m). split; [now apply in_map|exact Hs].
  - split; [exact R1|]. split; [exact H0|]. cbn [attrs corps fan]. intros a Ha. apply R2. now apply (subset_in _ _ Hinit).
Qed.
Lemma generic_safe : exists full, run (init ++ all) empty_obj = Some full /\
  exists c0, construct init = Some c0 /\ inv have S full c0 /\ (corps c0, fan c0) = (4, 0)%nat /\
  forall h, Forall (fun m => In m ms) h -> exists c, history h c0 = Some c /\ inv have S full c /\ (forall a, attrs c0 a <> None -> attrs c a <> None).
Proof.
  destruct generic_full as (full & o0 & Rf & R0 & _ & M & I). exists full. split; [exact Rf|]. unfold construct. rewrite R0.
  destruct (exec_ok have S full calculs_1_to_4 _ (M _ H14) I) as (c0 & C0 & I0 & N0 & _). exists c0. split; [exact C0|]. split; [exact I0|]. split; [exact N0|].
  intros h Hh. apply history_ok; [|exact I0]. apply Forall_forall. intros m Hm. apply M. rewrite Forall_forall in Hh. auto.
Qed.
(** a final method that ends with counters (9, 19) and a call of perfo there *)
Variable fin : method.
Hypothesis Hfin : In fin ms.
Variable pre : method.
Hypothesis Hpre : fin = pre ++ [(done_both, [perfo])].
Hypothesis Hhave : subset (writes all) (writes (code perfo) ++ have 9%nat 19%nat) = true.
Lemma generic_complete full c : run (init ++ all) empty_obj = Some full -> inv have S full c -> mnext pre (corps c, fan c) = (9, 19)%nat ->
  exists c', exec fin c = Some c' /\ inv have S full c' /\ (corps c', fan c') = (9, 19)%nat /\ forall a, In a (writes all) -> attrs c' a = full a /\ attrs c' a <> None.
Proof.
  intros Rf I N. destruct generic_full as (full' & o0 & Rf' & _ & _ & M & _). assert (full' = full) by congruence. subst full'.
  assert (Mp := M fin Hfin). unfold method_ok, stages_of in Mp. rewrite Hpre, map_app, concat_app in Mp. apply Forall_app in Mp. destruct Mp as [Mp1 Mp2].
  destruct (exec_ok have S full pre c Mp1 I) as (c1 & C1 & I1 & N1 & _). rewrite N in N1. injection N1 as K1 F1.
  cbn [map concat snd app] in Mp2. apply Forall_cons_iff in Mp2. destruct Mp2 as [[Mp2 Mp3] _].
  destruct (call_ok have S full perfo c1 Mp2 Mp3 I1) as (c2 & C2 & I2 & N2 & K2 & W2).
  assert (EX : forall m m' c, exec (m ++ m') c = match exec m c with Some c => exec m' c | None => None end).
  { clear. induction m as [|[cond l] m IH]; intros m' c; cbn [app exec]; [reflexivity|]. destruct (cond _ _); [|apply IH]. destruct (calls l c); [apply IH|reflexivity]. }
  exists c2. split. { rewrite Hpre, EX, C1. cbn [exec calls]. rewrite K1, F1. cbn [done_both Nat.eqb andb]. now rewrite C2. }
  split; [exact I2|]. assert (KF : (corps c2, fan c2) = (9, 19)%nat). { rewrite N2, K1, F1. reflexivity. } split; [exact KF|].
  assert (G : guard perfo (corps c1) (fan c1) = true) by now rewrite K1, F1.
  intros a A. assert (Pa : attrs c2 a <> None).
  { apply (subset_in _ _ Hhave) in A. apply in_app_or in A. destruct A as [A|A]; [now apply W2|]. destruct I1 as (_ & _ & I1). apply K2, I1. now rewrite K1, F1. }
  split; [|exact Pa]. destruct (attrs c2 a) as [v|] eqn:E; [|contradiction]. destruct I2 as (I2 & _ & _). symmetry. now apply I2.
Qed.
End generic.
Definition fixe_list : list stage := [InitialValues; stage_2; stage_3; stage_4; fixe_stage_13; stage_19; fixe_stage_5; fixe_stage_9; perfo].
Definition calc_list : list stage := [InitialValues; stage_2; stage_3; stage_4; calc_stage_4_etoile; calc_stage_5; calc_stage_9; calc_stage_13; stage_19; perfo].
Lemma fixe_in s : In s (all_stages fixe_methods) -> In s fixe_list.
Proof. cbn. intros H. repeat (destruct H as [H|H]; [subst; tauto|]). contradiction. Qed.
Lemma calc_in s : In s (all_stages calc_methods) -> In s calc_list.
Proof. cbn. intros H. repeat (destruct H as [H|H]; [subst; tauto|]). contradiction. Qed.

Lemma ends_pair S f : forallb (fun kf => let r := f kf in Nat.eqb (fst r) 9 && Nat.eqb (snd r) 19) S = true -> forall kf : nat * nat, In kf S -> f kf = (9, 19)%nat.
Proof.
  intros K kf Hk. rewrite forallb_forall in K. specialize (K kf Hk). cbv zeta in K. destruct (f kf) as [u v]. cbn [fst snd] in K.
  apply andb_prop in K. destruct K as [K1 K2]. apply Nat.eqb_eq in K1, K2. now subst.
Qed.
Lemma fixe_ends : forall kf, In kf fixe_flags -> mnext (firstn 4 fixe_5_to_9) (mnext calculs_1_to_4 kf) = (9, 19)%nat.
Proof. apply (ends_pair fixe_flags (fun kf => mnext (firstn 4 fixe_5_to_9) (mnext calculs_1_to_4 kf))). vm_compute. reflexivity. Qed.
Lemma calc_ends : forall kf, In kf calc_flags -> mnext (firstn 5 calc_5_to_9) (mnext calculs_1_to_4 kf) = (9, 19)%nat.
Proof. apply (ends_pair calc_flags (fun kf => mnext (firstn 5 calc_5_to_9) (mnext calculs_1_to_4 kf))). vm_compute. reflexivity. Qed.

(*@P C61_fixed_fan: cycle_taux_fan_fixe, whatever its arguments: the constructor succeeds, and after every finite sequence of calls of its calculation methods, in any order, no attribute was read before being assigned, and every attribute of the object has the value of the straight computation (all stages once, in order); calling calculs_1_to_4 then calculs_5_to_9 after any such sequence yields the complete performance. *)
Lemma fixe_any_order : forall a, exists full, run (fixe_init a ++ fixe_all) empty_obj = Some full /\
  exists c0, construct (fixe_init a) = Some c0 /\
  forall h, Forall (fun m => In m fixe_methods) h ->
  exists c, history h c0 = Some c /\ (forall x v, attrs c x = Some v -> full x = Some v) /\
  exists c', history [calculs_1_to_4; fixe_5_to_9] c = Some c' /\ forall x, In x (writes fixe_all) -> attrs c' x = full x /\ attrs c' x <> None.
Proof.
  intros [[[[[[l pc] t4] m] g] gf] x]. set (a := (l, pc, t4, m, g, gf, x)).
  destruct (generic_safe have_fixe fixe_flags (fixe_init a) fixe_all fixe_methods fixe_list eq_refl eq_refl eq_refl fixe_in fixe_ok) as (full & Rf & c0 & C0 & I0 & _ & H); [left; reflexivity|reflexivity|unfold fixe_methods; cbn [In]; tauto|].
  exists full. split; [exact Rf|]. exists c0. split; [exact C0|]. intros h Hh. destruct (H h Hh) as (c & Hc & Ic & _). exists c. split; [exact Hc|]. split; [apply Ic|].
  assert (Hh1 : Forall (fun m => In m fixe_methods) (h ++ [calculs_1_to_4])) by (apply Forall_app; split; [exact Hh|repeat constructor; unfold fixe_methods; cbn [In]; tauto]).
  destruct (generic_full have_fixe fixe_flags (fixe_init a) fixe_all fixe_methods fixe_list eq_refl eq_refl eq_refl fixe_in fixe_ok) as (full' & o0 & Rf' & _ & _ & M & _); [left; reflexivity|reflexivity|].
  assert (full' = full) by congruence. subst full'.
  destruct (exec_ok have_fixe fixe_flags full calculs_1_to_4 c) as (c1 & C1 & I1 & N1 & _); [apply M; unfold fixe_methods; cbn [In]; tauto|exact Ic|].
  destruct (generic_complete have_fixe fixe_flags (fixe_init a) fixe_all fixe_methods fixe_list eq_refl eq_refl eq_refl fixe_in fixe_ok) with (fin := fixe_5_to_9)
    (pre := firstn 4 fixe_5_to_9) (full := full) (c := c1) as (c2 & C2 & I2 & _ & W2); [left; reflexivity|reflexivity|unfold fixe_methods; cbn [In]; tauto|reflexivity|reflexivity|exact Rf|exact I1| |].
  - rewrite N1. destruct Ic as (_ & Ic & _). revert Ic. generalize (corps c, fan c). intros kf Hk.
    now apply fixe_ends.
  - exists c2. split; [|exact W2]. cbn [history]. now rewrite C1, C2.
Qed.

(*@P C61_computed_fan: The same for cycle_taux_fan_calcule: no call sequence reads a missing attribute or stores anything but the values of the straight computation, and calculs_1_to_4 then calculs_5_to_9 complete it. *)
Lemma calc_any_order : forall a, exists full, run (calc_init a ++ calc_all) empty_obj = Some full /\
  exists c0, construct (calc_init a) = Some c0 /\
  forall h, Forall (fun m => In m calc_methods) h ->
  exists c, history h c0 = Some c /\ (forall x v, attrs c x = Some v -> full x = Some v) /\
  exists c', history [calculs_1_to_4; calc_5_to_9] c = Some c' /\ forall x, In x (writes calc_all) -> attrs c' x = full x /\ attrs c' x <> None.
Proof.
  intros [[[[[[l pc] t4] m] g] gf] x]. set (a := (l, pc, t4, m, g, gf, x)).
  destruct (generic_safe have_calc calc_flags (calc_init a) calc_all calc_methods calc_list eq_refl eq_refl eq_refl calc_in calc_ok) as (full & Rf & c0 & C0 & I0 & _ & H); [left; reflexivity|reflexivity|unfold calc_methods; cbn [In]; tauto|].
  exists full. split; [exact Rf|]. exists c0. split; [exact C0|]. intros h Hh. destruct (H h Hh) as (c & Hc & Ic & _). exists c. split; [exact Hc|]. split; [apply Ic|].
  destruct (generic_full have_calc calc_flags (calc_init a) calc_all calc_methods calc_list eq_refl eq_refl eq_refl calc_in calc_ok) as (full' & o0 & Rf' & _ & _ & M & _); [left; reflexivity|reflexivity|].
  assert (full' = full) by congruence. subst full'.
  destruct (exec_ok have_calc calc_flags full calculs_1_to_4 c) as (c1 & C1 & I1 & N1 & _); [apply M; unfold calc_methods; cbn [In]; tauto|exact Ic|].
  destruct (generic_complete have_calc calc_flags (calc_init a) calc_all calc_methods calc_list eq_refl eq_refl eq_refl calc_in calc_ok) with (fin := calc_5_to_9)
    (pre := firstn 5 calc_5_to_9) (full := full) (c := c1) as (c2 & C2 & I2 & _ & W2); [left; reflexivity|reflexivity|unfold calc_methods; cbn [In]; tauto|reflexivity|reflexivity|exact Rf|exact I1| |].
  - rewrite N1. destruct Ic as (_ & Ic & _). revert Ic. generalize (corps c, fan c). intros kf Hk. now apply calc_ends.
  - exists c2. split; [|exact W2]. cbn [history]. now rewrite C1, C2.
Qed.

(** ** counters along a history *)
Definition stays (S : flagset) (ms : list method) : Prop := forall kf m, In kf S -> In m ms -> In (mnext m kf) S.
Lemma stays_dec S ms : forallb (fun m => forallb (fun kf => let r := mnext m kf in fmem (fst r) (snd r) S) S) ms = true -> stays S ms.
Proof.
  intros K kf m Hk Hm. rewrite forallb_forall in K. specialize (K m Hm). rewrite forallb_forall in K. specialize (K kf Hk). cbv zeta in K.
  apply fmem_in in K. now rewrite <- surjective_pairing in K.
Qed.
Lemma history_flags have S full S' ms : (forall m, In m ms -> method_ok have S full m) -> stays S' ms ->
  forall h c, Forall (fun m => In m ms) h -> inv have S full c -> In (corps c, fan c) S' ->
  exists c', history h c = Some c' /\ inv have S full c' /\ In (corps c', fan c') S'.
Proof.
  intros M St. induction h as [|m h IH]; intros c F I K; cbn [history]; [eauto|].
  apply Forall_cons_iff in F. destruct F as [F1 F2]. destruct (exec_ok have S full m c (M m F1) I) as (c1 & C1 & I1 & N1 & _). rewrite C1.
  apply IH; [exact F2|exact I1|]. rewrite N1. now apply St.
Qed.
Definition fixe_started : flagset := flags [4; 5; 9]%nat [0; 13; 19]%nat.
Definition calc_started : flagset := flags [4; 5; 6; 9]%nat [0; 13; 19]%nat.
Lemma fixe_stays : stays fixe_started (tl fixe_methods). Proof. apply stays_dec. vm_compute. reflexivity. Qed.
Lemma calc_stays : stays calc_started (tl calc_methods). Proof. apply stays_dec. vm_compute. reflexivity. Qed.
Lemma fixe_ends1 : forall kf, In kf fixe_started -> mnext (firstn 4 fixe_5_to_9) kf = (9, 19)%nat.
Proof. apply (ends_pair fixe_started (fun kf => mnext (firstn 4 fixe_5_to_9) kf)). vm_compute. reflexivity. Qed.
Lemma calc_ends1 : forall kf, In kf calc_started -> mnext (firstn 5 calc_5_to_9) kf = (9, 19)%nat.
Proof. apply (ends_pair calc_started (fun kf => mnext (firstn 5 calc_5_to_9) kf)). vm_compute. reflexivity. Qed.
Lemma tl_in {A} (x : A) l : In x (tl l) -> In x l.
Proof. destruct l; [intros []|now right]. Qed.

(*@P C61_completion_partial: After any sequence of calls that does not include InitialValues (the head of the method lists; the constructor has already called it), calculs_5_to_9 alone ends with every attribute of the straight computation present and equal to it - in both classes. PARTIAL: with a call of InitialValues in the sequence this is false, see C61_reset_refuted. *)
Lemma completion : forall a,
  (exists full c0, run (fixe_init a ++ fixe_all) empty_obj = Some full /\ construct (fixe_init a) = Some c0 /\
   forall h, Forall (fun m => In m (tl fixe_methods)) h -> exists c, history (h ++ [fixe_5_to_9]) c0 = Some c /\
   forall x, In x (writes fixe_all) -> attrs c x = full x /\ attrs c x <> None) /\
  (exists full c0, run (calc_init a ++ calc_all) empty_obj = Some full /\ construct (calc_init a) = Some c0 /\
   forall h, Forall (fun m => In m (tl calc_methods)) h -> exists c, history (h ++ [calc_5_to_9]) c0 = Some c /\
   forall x, In x (writes calc_all) -> attrs c x = full x /\ attrs c x <> None).
Proof.
  assert (HA : forall h m c, history (h ++ [m]) c = match history h c with Some c => exec m c | None => None end).
  { induction h as [|n h IH]; intros m c; cbn [app history]; [now destruct (exec m c)|]. destruct (exec n c); [apply IH|reflexivity]. }
  intros [[[[[[l pc] t4] m] g] gf] x]. set (a := (l, pc, t4, m, g, gf, x)). split.
  - destruct (generic_safe have_fixe fixe_flags (fixe_init a) fixe_all fixe_methods fixe_list eq_refl eq_refl eq_refl fixe_in fixe_ok) as (full & Rf & c0 & C0 & I0 & K0 & _); [left; reflexivity|reflexivity|unfold fixe_methods; cbn [In]; tauto|].
    destruct (generic_full have_fixe fixe_flags (fixe_init a) fixe_all fixe_methods fixe_list eq_refl eq_refl eq_refl fixe_in fixe_ok) as (full' & o0 & Rf' & _ & _ & M & _); [left; reflexivity|reflexivity|].
    assert (full' = full) by congruence. subst full'. exists full, c0. split; [exact Rf|]. split; [exact C0|]. intros h Hh.
    destruct (history_flags have_fixe fixe_flags full fixe_started (tl fixe_methods)) with (h := h) (c := c0) as (c & Hc & Ic & Kc); auto using tl_in, fixe_stays.
    { rewrite K0. vm_compute. tauto. }
    destruct (generic_complete have_fixe fixe_flags (fixe_init a) fixe_all fixe_methods fixe_list eq_refl eq_refl eq_refl fixe_in fixe_ok) with (fin := fixe_5_to_9)
      (pre := firstn 4 fixe_5_to_9) (full := full) (c := c) as (c2 & C2 & I2 & _ & W2); [left; reflexivity|reflexivity|unfold fixe_methods; cbn [In]; tauto|reflexivity|reflexivity|exact Rf|exact Ic|now apply fixe_ends1|].
    exists c2. split; [|exact W2]. now rewrite HA, Hc.
  - destruct (generic_safe have_calc calc_flags (calc_init a) calc_all calc_methods calc_list eq_refl eq_refl eq_refl calc_in calc_ok) as (full & Rf & c0 & C0 & I0 & K0 & _); [left; reflexivity|reflexivity|unfold calc_methods; cbn [In]; tauto|].
    destruct (generic_full have_calc calc_flags (calc_init a) calc_all calc_methods calc_list eq_refl eq_refl eq_refl calc_in calc_ok) as (full' & o0 & Rf' & _ & _ & M & _); [left; reflexivity|reflexivity|].
    assert (full' = full) by congruence. subst full'. exists full, c0. split; [exact Rf|]. split; [exact C0|]. intros h Hh.
    destruct (history_flags have_calc calc_flags full calc_started (tl calc_methods)) with (h := h) (c := c0) as (c & Hc & Ic & Kc); auto using tl_in, calc_stays.
    { rewrite K0. vm_compute. tauto. }
    destruct (generic_complete have_calc calc_flags (calc_init a) calc_all calc_methods calc_list eq_refl eq_refl eq_refl calc_in calc_ok) with (fin := calc_5_to_9)
      (pre := firstn 5 calc_5_to_9) (full := full) (c := c) as (c2 & C2 & I2 & _ & W2); [left; reflexivity|reflexivity|unfold calc_methods; cbn [In]; tauto|reflexivity|reflexivity|exact Rf|exact Ic|now apply calc_ends1|].
    exists c2. split; [|exact W2]. now rewrite HA, Hc.
Qed.

Ltac crunch := lazy -[nadd nsub nmul ndiv npow nsqrt npowi nopp PtPs_Mach TtTs_Mach Mach_PtPs Velocity_MachTi IZR Rdiv].
(*@P C61_reset_refuted: calculs_5_to_9 does not always complete: on a fresh object of either class, whatever the arguments, InitialValues followed by calculs_5_to_9 leaves it without thrust, and printing the performance then prints nothing; and on an object brought to the last stages by individual calls, without perfo, printing it is an AttributeError. *)
Lemma reset_refuted : forall a,
  (exists c, match construct (fixe_init a) with Some c => history [prim InitialValues; fixe_5_to_9] c | None => None end = Some c /\ attrs c "F" = None /\ call show_perfo c = Some c) /\
  (exists c, match construct (calc_init a) with Some c => history [prim InitialValues; calc_5_to_9] c | None => None end = Some c /\ attrs c "F" = None /\ call show_perfo c = Some c) /\
  (exists c, match construct (fixe_init a) with Some c => history (map prim [fixe_stage_13; stage_19; fixe_stage_5; fixe_stage_9]) c | None => None end = Some c /\ call show_perfo c = None).
Proof.
  intros [[[[[[l pc] t4] m] g] gf] x]. split; [|split].
  - eexists. split; [crunch; reflexivity|]. split; reflexivity.
  - eexists. split; [crunch; reflexivity|]. split; reflexivity.
  - eexists. split; [crunch; reflexivity|]. reflexivity.
Qed.
(*@P C61_printing: Printing the performance, from any state of an object whatsoever: unless both stage counters are at the end (9 for the core, 19 for the fan) it prints nothing and changes nothing; when both are, it succeeds exactly when the six performance values have been computed (otherwise it is an AttributeError). *)
Lemma show_perfo_guarded : forall c,
  (corps c <> 9%nat \/ fan c <> 19%nat -> call show_perfo c = Some c) /\
  (corps c = 9%nat -> fan c = 19%nat ->
    ((exists c', call show_perfo c = Some c') <-> Forall (fun x => attrs c x <> None) ["F"; "F_spe"; "mk_spe"; "eta_th"; "eta_prop"; "eta"])).
Proof.
  intros c. split.
  - intros H. unfold call, show_perfo; cbn [guard]. destruct (Nat.eqb_spec (corps c) 9); [destruct (Nat.eqb_spec (fan c) 19)|]; cbn [andb]; try reflexivity. tauto.
  - intros E1 E2. unfold call, show_perfo; cbn [guard code]. rewrite E1, E2. cbn [Nat.eqb andb]. cbn [run eval].
    split.
    + intros [c' H]. repeat constructor; intros N; rewrite N in H; repeat match goal with H : context [match attrs c ?x with _ => _ end] |- _ => destruct (attrs c x) eqn:?; try discriminate end; discriminate.
    + intros H. repeat match goal with H : Forall _ (_ :: _) |- _ => inversion H; clear H; subst end.
      repeat match goal with H : attrs c ?x <> None |- _ => destruct (attrs c x); [clear H|easy] end. eexists; reflexivity.
Qed.
(*@E C61_example: Example: two disordered call histories of the kind quantified over, with stages before the ones they depend on and repetitions; the second one does not include InitialValues. *)
Lemma C61_example_lemma :
  Forall (fun m => In m fixe_methods) (map prim [fixe_stage_9; fixe_stage_13] ++ [fixe_5_to_9; prim InitialValues; calculs_1_to_4; prim fixe_stage_5; prim fixe_stage_13]) /\
  Forall (fun m => In m (tl calc_methods)) [calc_5_to_9; calculs_1_to_4; calc_5_to_9].
Proof.
  split; cbn [map app]; repeat (constructor; [repeat ((left; reflexivity) || right)|]); constructor.
Qed.
