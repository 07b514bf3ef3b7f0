(** * C62: the cycle classes against the scripts *)
From Coq Require Import String.
From Verif Require Import Num L_Num M_Isentropic M_Obj L_Obj M_Engine M_Cycle EngineSpec L_Engine L_Engine2 L_Cycle.
Open Scope R_scope.

(** ** arithmetic on possibly undefined numbers *)
Lemma half_root x : npow x (Some (1 / 2)) = nsqrt x.
Proof.
  destruct x as [a|]; [|reflexivity]. unfold npow, nsqrt. destruct (Rlt_dec 0 a) as [P|N].
  - destruct (Rle_dec 0 a); [|lra]. f_equal. rewrite <- Rpower_sqrt by exact P. f_equal. lra.
  - destruct (Req_EM_T a 0) as [Z|Z].
    + destruct (Rle_dec 0 a); [|lra]. destruct (Rlt_dec 0 (1 / 2)); [|lra]. rewrite Z, sqrt_0. reflexivity.
    + destruct (Rle_dec 0 a); [lra|]. destruct (Req_EM_T (1 / 2) (IZR (Int_part (1 / 2)))) as [E|]; [|reflexivity]. exfalso.
      assert (H : (2 * IZR (Int_part (1 / 2)) = 1)%R) by lra. rewrite <- mult_IZR in H. apply eq_IZR in H. lia.
Qed.
Lemma nadd_comm x y : nadd x y = nadd y x.
Proof. destruct x, y; try reflexivity. cbn [nadd]. f_equal. ring. Qed.
Lemma nmul_comm x y : nmul x y = nmul y x.
Proof. destruct x, y; try reflexivity. cbn [nmul]. f_equal. ring. Qed.
Lemma nopp_mul x y : nmul (nopp x) y = nopp (nmul x y).
Proof. destruct x, y; try reflexivity. cbn [nmul nopp]. f_equal. ring. Qed.
Lemma mach_inline q g : 1 < g ->
  nsqrt (nmul (nsub (npow q (ndiv (nsub (Some g) (Some 1)) (Some g))) (Some 1)) (ndiv (Some 2) (nsub (Some g) (Some 1)))) = Mach_PtPs q (Some g).
Proof.
  intros H. unfold Mach_PtPs. f_equal. destruct (npow q _) as [w|]; [|reflexivity]. cbn [nsub nmul]. rewrite !ndiv_Some by lra. cbn [nmul]. f_equal. field. lra.
Qed.
Lemma velocity_inline m t g r : 1 < g ->
  nmul m (nsqrt (nmul (nmul (Some g) (Some r)) (ndiv t (nadd (Some 1) (nmul (ndiv (nsub (Some g) (Some 1)) (Some 2)) (npowi m 2)))))) = Velocity_MachTi m t (Some r) (Some g).
Proof.
  intros H. unfold Velocity_MachTi, Velocity_MachTt. destruct m as [m|]; [|destruct t; reflexivity]. f_equal. f_equal. rewrite TtTs_spec. pose proof (temp_ratio_pos g m H) as P.
  destruct t as [t|]; [|reflexivity]. cbn [nsub]. rewrite ndiv_Some by lra. cbn [nadd nmul npowi].
  replace (1 + (g - 1) / 2 * m ^ 2) with (temp_ratio g m) by reflexivity. rewrite !ndiv_Some by lra. cbn [nmul]. f_equal. field. lra.
Qed.

Ltac nconst := repeat (cbn [nsub nmul nadd npowi nopp]; rewrite ?ndiv_Some by lra); try reflexivity; try (f_equal; lra).

(** the equations of a program, as hypotheses *)
Ltac spread H := unfold holds in H; repeat (apply List.Forall_cons_iff in H; let E := fresh "E" in destruct H as [E H]; cbn [fst snd] in E); clear H.
(** evaluate the right-hand side of an equation of o with the values known so far *)
Ltac ev o H :=
  unfold w_uf_theo, T5, Qf, delta_E, ten7, get_cp, half_power, np_root in H; unfold one, two in H; cbn [eval append] in H;
  repeat match goal with K : o ?b = Some _ |- _ => match type of H with _ = ?rhs => match rhs with context [o b] => rewrite K in H end end end.
(** attribute a of k and attribute b of s have the same value *)
Ltac pair k s a b tac :=
  lazymatch goal with H1 : k a = eval k _, H2 : s b = eval s _ |- _ =>
    ev k H1; ev s H2;
    lazymatch type of H1 with _ = Some ?w1 => lazymatch type of H2 with _ = Some ?w2 =>
      let Q := fresh "E" in assert (Q : s b = Some w1) by (rewrite H2; refine (f_equal Some _); tac); clear H2;
      let v := fresh "v" in set (v := w1) in H1, Q; clearbody v end end end.
(** attribute of one side only *)
Ltac solo o a := match goal with H : o a = eval o _ |- _ => ev o H end.

Definition agree (o1 o2 : obj) (l : list (string * string)) : Prop :=
  List.Forall (fun ab => exists v, o1 (fst ab) = Some v /\ o2 (snd ab) = Some v) l.
Definition same (l : list string) : list (string * string) := map (fun a => (a, a)) l.
(** what the computed-fan class and the script call the same quantity *)
Definition names_calc : list (string * string) :=
  app (same ["V0"; "Pt0"; "Tt0"; "Tt2"; "Pt2"; "m_c"; "Tt3"; "Pt3"; "m_k"; "alpha"; "Pt4"; "Tt5"; "Pt5"; "Tt9"; "Pt9"; "P9"; "M9"; "V9"; "m_f"; "Tt13"; "pi_f"; "Pt13";
    "Pt19"; "Tt19"; "P19"; "M19"; "V19"; "F"; "mk_spe"; "eta_th"; "eta_prop"; "eta"]%string)
   ([("wu_c", "w_uc"); ("Tt4_etoile", "Tt4_"); ("pi_t_c", "pi_tc"); ("Pt4_etoile", "Pt4_"); ("wu_fan", "Wu_f"); ("pi_t_f", "pi_tf"); ("F_c", "Fc"); ("F_f", "Ff"); ("F_spe", "Fspe")])%string.
Definition names_fixe : list (string * string) :=
  app (same ["V0"; "Pt0"; "Tt0"; "Tt2"; "Pt2"; "m_c"; "Tt3"; "Pt3"; "m_k"; "alpha"; "Pt4"; "Tt5"; "pi_t"; "Pt5"; "Tt9"; "Pt9"; "P9"; "M9"; "V9"; "m_f";
    "Pt19"; "Tt19"; "P19"; "M19"; "V19"; "F"; "mk_spe"; "eta_th"; "eta_prop"; "eta"]%string)
   ([("wu_c", "w_uc"); ("wu_f", "w_uf"); ("Tt13", "Tt17"); ("Pt13", "Pt17"); ("F_c", "Fc"); ("F_f", "Ff"); ("F_spe", "Fspe")])%string.

Lemma calc_lasting a full : run (calc_init a ++ calc_all) empty_obj = Some full -> holds (calc_init a) full /\ holds calc_all full.
Proof.
  destruct a as [[[[[[l pc] t4] m] g] gf] x]. intros H. apply run_lasting in H. apply (holds_app (calc_init _) calc_all). exact H.
Qed.
Lemma fixe_lasting a full : run (fixe_init a ++ fixe_all) empty_obj = Some full -> holds (fixe_init a) full /\ holds fixe_all full.
Proof.
  destruct a as [[[[[[l pc] t4] m] g] gf] x]. intros H. apply run_lasting in H. apply (holds_app (fixe_init _) fixe_all). exact H.
Qed.

Lemma calc_vs_script l pc t4 m x k s : holds (calc_init (l, pc, t4, m, gaz_default, gaz_fuel, x)) k -> holds calc_all k ->
  holds (app script_globals [("lambda_", L l); ("pi_c", L pc); ("Tt4", L t4); ("m", L m); ("taux_meca", L x)]%string) s -> holds double_corps_body s ->
  agree k s names_calc.
Proof.
  intros A B C D. unfold calc_init, init_calcule, init_1_to_4, class_attrs, attrs_with, gaz_init, gaz_default, gaz_fuel in A. cbn [gz_gamma gz_r gz_P_k append app] in A.
  unfold calc_all in B. cbn [code InitialValues stage_2 stage_3 stage_4 calc_stage_4_etoile calc_stage_5 calc_stage_9 calc_stage_13 stage_19 perfo core_nozzle app] in B.
  unfold script_globals, script_globals_with, attrs_with in C. cbn [app] in C.
  unfold double_corps_body, script_inlet, script_core, script_core_nozzle, script_fan_nozzle, script_perfo in D. cbn [app] in D.
  spread A. spread C. cbn [eval] in *. spread B. spread D.
  solo s "cp"%string. solo s "cp_"%string.
  pair k s "V0"%string "V0"%string reflexivity.
  pair k s "Pt0"%string "Pt0"%string ltac:(unfold PtPs_Mach; do 2 f_equal; nconst).
  pair k s "Tt0"%string "Tt0"%string ltac:(unfold TtTs_Mach; do 2 f_equal; nconst).
  pair k s "Tt2"%string "Tt2"%string reflexivity.
  pair k s "Pt2"%string "Pt2"%string reflexivity.
  pair k s "m_c"%string "m_c"%string reflexivity.
  pair k s "Tt3"%string "Tt3"%string ltac:(do 2 f_equal; nconst).
  pair k s "Pt3"%string "Pt3"%string reflexivity.
  pair k s "wu_c"%string "w_uc"%string reflexivity.
  pair k s "m_k"%string "m_k"%string reflexivity.
  pair k s "alpha"%string "alpha"%string reflexivity.
  pair k s "Pt4"%string "Pt4"%string reflexivity.
  pair k s "Tt4_etoile"%string "Tt4_"%string reflexivity.
  pair k s "pi_t_c"%string "pi_tc"%string ltac:(f_equal; nconst).
  pair k s "Pt4_etoile"%string "Pt4_"%string reflexivity.
  solo s "P5"%string. solo s "T5"%string. solo s "w_uf_theo"%string.
  assert (U : exists u, s "w_uf_theo"%string = Some u /\ k "wu_fan"%string = Some (nmul u x) /\ s "Wu_f"%string = Some (nmul u x)).
  { solo k "wu_fan"%string. solo s "Wu_f"%string. eexists. repeat split; eassumption. }
  repeat match goal with H : s "w_uf_theo"%string = Some _ |- _ => clear H | H : k "wu_fan"%string = eval _ _ |- _ => clear H | H : s "Wu_f"%string = eval _ _ |- _ => clear H end.
  destruct U as (u & U1 & U2 & U3).
  pair k s "Tt5"%string "Tt5"%string reflexivity.
  pair k s "pi_t_f"%string "pi_tf"%string ltac:(f_equal; nconst).
  pair k s "Pt5"%string "Pt5"%string reflexivity.
  pair k s "Tt9"%string "Tt9"%string reflexivity.
  pair k s "Pt9"%string "Pt9"%string reflexivity.
  pair k s "P9"%string "P9"%string reflexivity.
  pair k s "M9"%string "M9"%string ltac:(apply mach_inline; lra).
  solo s "T9"%string. solo s "A9"%string.
  pair k s "V9"%string "V9"%string ltac:(apply velocity_inline; lra).
  pair k s "F_c"%string "Fc"%string reflexivity.
  pair k s "m_f"%string "m_f"%string reflexivity.
  solo s "Wf"%string.
  pair k s "Tt13"%string "Tt13"%string ltac:(now rewrite !nopp_mul).
  pair k s "pi_f"%string "pi_f"%string ltac:(f_equal; nconst).
  pair k s "Pt13"%string "Pt13"%string reflexivity.
  pair k s "Pt19"%string "Pt19"%string reflexivity.
  pair k s "Tt19"%string "Tt19"%string reflexivity.
  pair k s "P19"%string "P19"%string reflexivity.
  pair k s "M19"%string "M19"%string ltac:(apply mach_inline; lra).
  solo s "T19"%string. solo s "A19"%string.
  pair k s "V19"%string "V19"%string ltac:(apply velocity_inline; lra).
  pair k s "F_f"%string "Ff"%string reflexivity.
  pair k s "F"%string "F"%string ltac:(apply nadd_comm).
  pair k s "F_spe"%string "Fspe"%string reflexivity.
  pair k s "mk_spe"%string "mk_spe"%string reflexivity.
  solo s "Qf"%string. solo s "delta_E"%string.
  pair k s "eta_th"%string "eta_th"%string reflexivity.
  pair k s "eta_prop"%string "eta_prop"%string reflexivity.
  pair k s "eta"%string "eta"%string reflexivity.
  unfold agree, names_calc, same. cbn [map app].
  repeat (apply List.Forall_cons; [cbn [fst snd]; eexists; split; eassumption|]). apply List.Forall_nil.
Qed.

(** propu_be with its global eta_f reassigned to eta_c *)
Definition eta_f_as_eta_c : prog := script_globals_with (90 / 100).
Lemma fixe_vs_script l pc t4 m x k s : holds (fixe_init (l, pc, t4, m, gaz_default, gaz_fuel, x)) k -> holds fixe_all k ->
  holds (app eta_f_as_eta_c [("lambda_", L l); ("pi_c", L pc); ("Tt4", L t4); ("pi_f", L x); ("m", L m)]%string) s -> holds propu_be_body s ->
  agree k s names_fixe.
Proof.
  intros A B C D. unfold fixe_init, init_fixe, init_1_to_4, class_attrs, attrs_with, gaz_init, gaz_default, gaz_fuel in A. cbn [gz_gamma gz_r gz_P_k append app] in A.
  unfold fixe_all in B. cbn [code InitialValues stage_2 stage_3 stage_4 fixe_stage_13 fixe_stage_5 fixe_stage_9 stage_19 perfo core_nozzle app] in B.
  unfold eta_f_as_eta_c, script_globals_with, attrs_with in C. cbn [app] in C.
  unfold propu_be_body, script_inlet, script_core, script_core_nozzle, script_fan_nozzle, script_perfo in D. cbn [app] in D.
  spread A. spread C. cbn [eval] in *.
  spread B. spread D.
  solo s "cp"%string. solo s "cp_"%string.
  pair k s "V0"%string "V0"%string ltac:(now rewrite half_root).
  pair k s "Pt0"%string "Pt0"%string ltac:(unfold PtPs_Mach; do 2 f_equal; nconst).
  pair k s "Tt0"%string "Tt0"%string ltac:(unfold TtTs_Mach; do 2 f_equal; nconst).
  pair k s "Tt2"%string "Tt2"%string reflexivity.
  pair k s "Pt2"%string "Pt2"%string reflexivity.
  pair k s "m_c"%string "m_c"%string reflexivity.
  pair k s "Tt3"%string "Tt3"%string ltac:(do 2 f_equal; nconst).
  pair k s "Pt3"%string "Pt3"%string reflexivity.
  pair k s "wu_c"%string "w_uc"%string reflexivity.
  pair k s "m_k"%string "m_k"%string reflexivity.
  pair k s "alpha"%string "alpha"%string reflexivity.
  pair k s "Pt4"%string "Pt4"%string reflexivity.
  pair k s "m_f"%string "m_f"%string ltac:(now rewrite (nmul_comm l m)).
  pair k s "Tt13"%string "Tt17"%string ltac:(do 2 f_equal; nconst).
  pair k s "Pt13"%string "Pt17"%string reflexivity.
  pair k s "wu_f"%string "w_uf"%string reflexivity.
  pair k s "Tt5"%string "Tt5"%string reflexivity.
  pair k s "pi_t"%string "pi_t"%string ltac:(f_equal; nconst).
  pair k s "Pt5"%string "Pt5"%string reflexivity.
  pair k s "Tt9"%string "Tt9"%string reflexivity.
  pair k s "Pt9"%string "Pt9"%string reflexivity.
  pair k s "P9"%string "P9"%string reflexivity.
  pair k s "M9"%string "M9"%string ltac:(rewrite half_root; apply mach_inline; lra).
  solo s "T9"%string. solo s "A9"%string.
  pair k s "V9"%string "V9"%string ltac:(rewrite half_root; apply velocity_inline; lra).
  pair k s "F_c"%string "Fc"%string reflexivity.
  pair k s "Pt19"%string "Pt19"%string reflexivity.
  pair k s "Tt19"%string "Tt19"%string reflexivity.
  pair k s "P19"%string "P19"%string reflexivity.
  pair k s "M19"%string "M19"%string ltac:(rewrite half_root; apply mach_inline; lra).
  solo s "T19"%string. solo s "A19"%string.
  pair k s "V19"%string "V19"%string ltac:(rewrite half_root; apply velocity_inline; lra).
  pair k s "F_f"%string "Ff"%string reflexivity.
  pair k s "F"%string "F"%string ltac:(apply nadd_comm).
  pair k s "F_spe"%string "Fspe"%string reflexivity.
  pair k s "mk_spe"%string "mk_spe"%string reflexivity.
  solo s "Qf"%string. solo s "delta_E"%string.
  pair k s "eta_th"%string "eta_th"%string reflexivity.
  pair k s "eta_prop"%string "eta_prop"%string reflexivity.
  pair k s "eta"%string "eta"%string reflexivity.
  unfold agree, names_fixe, same. cbn [map app].
  repeat (apply List.Forall_cons; [cbn [fst snd]; eexists; split; eassumption|]). apply List.Forall_nil.
Qed.

Lemma agree_sub k k' s l : (forall a, In a (map fst l) -> k a = k' a) -> agree k' s l -> agree k s l.
Proof.
  intros H A. unfold agree in *. apply List.Forall_forall. intros [a b] I. rewrite List.Forall_forall in A. destruct (A _ I) as (v & V1 & V2).
  exists v. split; [|exact V2]. cbn [fst snd] in *. rewrite H; [exact V1|]. apply (in_map fst _ _ I).
Qed.
Lemma names_calc_in : forall a, In a (map fst names_calc) -> In a (writes calc_all).
Proof. apply subset_in. vm_compute. reflexivity. Qed.
Lemma names_fixe_in : forall a, In a (map fst names_fixe) -> In a (writes fixe_all).
Proof. apply subset_in. vm_compute. reflexivity. Qed.

(** a new object of either class on which calculs_5_to_9 was called *)
Definition computed (init : prog) (last : method) : option cyc :=
  match construct init with Some c => exec last c | None => None end.
(*@P C62_double_corps: For all values of by-pass ratio, compressor pressure ratio, turbine inlet temperature, mass flow and mechanical ratio - also those for which some quantity is undefined - a cycle_taux_fan_calcule with the gases of the script, once computed, and propu_be_double_corps.calculs agree on every quantity they both compute, each of them present on both sides (undefined on one side exactly when undefined on the other). *)
Lemma double_corps : forall l pc t4 m x, exists c s,
  computed (init_calcule l pc t4 m gaz_default gaz_fuel x) calc_5_to_9 = Some c /\ double_corps_calculs script_globals l pc t4 m x = Some s /\
  agree (attrs c) s names_calc.
Proof.
  intros l pc t4 m x. destruct (completion (l, pc, t4, m, gaz_default, gaz_fuel, x)) as [_ (full & c0 & R1 & R2 & H)].
  destruct (H [] (List.Forall_nil _)) as (c & Hc & W). cbn [app history] in Hc.
  destruct (run_total (app script_globals (app [("lambda_", L l); ("pi_c", L pc); ("Tt4", L t4); ("m", L m); ("taux_meca", L x)]%string double_corps_body)) [] empty_obj) as [s S]; [reflexivity|intros a []|].
  exists c, s. split. { unfold computed. change (init_calcule l pc t4 m gaz_default gaz_fuel x) with (calc_init (l, pc, t4, m, gaz_default, gaz_fuel, x)). rewrite R2. destruct (exec calc_5_to_9 c0); [now injection Hc as ->|discriminate]. }
  split; [exact S|]. apply agree_sub with full. { intros a I. apply W. now apply names_calc_in. }
  destruct (calc_lasting _ _ R1) as [A B]. apply run_lasting in S. rewrite app_assoc in S.
  match type of S with List.Forall _ (lasting ?p) => change (lasting p) with p in S end.
  apply (holds_app (app script_globals _) double_corps_body) in S. destruct S as [C D].
  apply (calc_vs_script l pc t4 m x full s A B C D).
Qed.

(*@P C62_propu_be_partial: Likewise cycle_taux_fan_fixe and propu_be.calculs agree on every quantity for all arguments - PROVIDED the fan efficiency of the script is set to its compressor efficiency. PARTIAL: with the values in the two files this is false, see C62_propu_be_refuted. *)
Lemma propu_be : forall l pc t4 m x, exists c s,
  computed (init_fixe l pc t4 m gaz_default gaz_fuel x) fixe_5_to_9 = Some c /\ propu_be_calculs eta_f_as_eta_c l pc t4 x m = Some s /\
  agree (attrs c) s names_fixe.
Proof.
  intros l pc t4 m x. destruct (completion (l, pc, t4, m, gaz_default, gaz_fuel, x)) as [(full & c0 & R1 & R2 & H) _].
  destruct (H [] (List.Forall_nil _)) as (c & Hc & W). cbn [app history] in Hc.
  destruct (run_total (app eta_f_as_eta_c (app [("lambda_", L l); ("pi_c", L pc); ("Tt4", L t4); ("pi_f", L x); ("m", L m)]%string propu_be_body)) [] empty_obj) as [s S]; [reflexivity|intros a []|].
  exists c, s. split. { unfold computed. change (init_fixe l pc t4 m gaz_default gaz_fuel x) with (fixe_init (l, pc, t4, m, gaz_default, gaz_fuel, x)). rewrite R2. destruct (exec fixe_5_to_9 c0); [now injection Hc as ->|discriminate]. }
  split; [exact S|]. apply agree_sub with full. { intros a I. apply W. now apply names_fixe_in. }
  destruct (fixe_lasting _ _ R1) as [A B]. apply run_lasting in S. rewrite app_assoc in S.
  match type of S with List.Forall _ (lasting ?p) => change (lasting p) with p in S end.
  apply (holds_app (app eta_f_as_eta_c _) propu_be_body) in S. destruct S as [C D].
  apply (fixe_vs_script l pc t4 m x full s A B C D).
Qed.

(** give attribute a of o the value w *)
Ltac value o a w tac :=
  solo o a; lazymatch goal with H : o a = Some ?u |- _ => let Q := fresh "E" in assert (Q : o a = Some w) by (rewrite H; refine (f_equal Some _); tac); clear H end.
(*@P C62_propu_be_refuted: cycle_taux_fan_fixe and propu_be.calculs disagree for every positive fan pressure ratio other than 1, whatever the other arguments: the class compresses the fan flow with the compressor efficiency eta_c instead of eta_f, so the fan exit temperatures differ; for a pressure ratio above 1 and positive by-pass ratio and mass flow the class understates the fan power. *)
Lemma propu_be_refuted : forall l pc t4 m x, 0 < x -> x <> 1 -> exists c s v w,
  computed (init_fixe l pc t4 m gaz_default gaz_fuel (Some x)) fixe_5_to_9 = Some c /\ propu_be_calculs script_globals l pc t4 (Some x) m = Some s /\
  has (attrs c) "Tt13" v /\ has s "Tt17" w /\ v <> w /\
  (forall l' m', l = Some l' -> m = Some m' -> 0 < l' -> 0 < m' -> 1 < x -> exists p q, has (attrs c) "wu_f" p /\ has s "w_uf" q /\ p < q).
Proof.
  intros l pc t4 m x X1 X2. destruct (completion (l, pc, t4, m, gaz_default, gaz_fuel, Some x)) as [(full & c0 & R1 & R2 & H) _].
  destruct (H [] (List.Forall_nil _)) as (c & Hc & W). cbn [app history] in Hc.
  destruct (run_total (app script_globals (app [("lambda_", L l); ("pi_c", L pc); ("Tt4", L t4); ("pi_f", L (Some x)); ("m", L m)]%string propu_be_body)) [] empty_obj) as [s S]; [reflexivity|intros a []|].
  exists c, s.
  assert (CC : computed (init_fixe l pc t4 m gaz_default gaz_fuel (Some x)) fixe_5_to_9 = Some c).
  { unfold computed. change (init_fixe l pc t4 m gaz_default gaz_fuel (Some x)) with (fixe_init (l, pc, t4, m, gaz_default, gaz_fuel, Some x)). rewrite R2. destruct (exec fixe_5_to_9 c0); [now injection Hc as ->|discriminate]. }
  destruct (fixe_lasting _ _ R1) as [A B]. pose proof S as S0. apply run_lasting in S. rewrite app_assoc in S.
  match type of S with List.Forall _ (lasting ?p) => change (lasting p) with p in S end.
  apply (holds_app (app script_globals _) propu_be_body) in S. destruct S as [C D].
  unfold fixe_init, init_fixe, init_1_to_4, class_attrs, attrs_with, gaz_init, gaz_default, gaz_fuel in A. cbn [gz_gamma gz_r gz_P_k append app] in A.
  unfold fixe_all in B. cbn [code InitialValues stage_2 stage_3 stage_4 fixe_stage_13 fixe_stage_5 fixe_stage_9 stage_19 perfo core_nozzle app] in B.
  unfold script_globals, script_globals_with, attrs_with in C. cbn [app] in C.
  unfold propu_be_body, script_inlet, script_core, script_core_nozzle, script_fan_nozzle, script_perfo in D. cbn [app] in D.
  spread A. spread C. cbn [eval] in *. spread B. spread D.
  set (t2 := 217 * temp_ratio (14 / 10) (8 / 10)).
  assert (P2 : 0 < t2) by (apply Rmult_lt_0_compat; [lra|apply temp_ratio_pos; lra]).
  assert (TR : 217 * temp_ratio (14 / 10) (8 / 10) = t2) by reflexivity.
  value full "Tt0"%string (Some t2) ltac:(rewrite TtTs_spec; reflexivity).
  value full "Tt2"%string (Some t2) reflexivity.
  value s "Tt0"%string (Some t2) ltac:(cbn [nsub]; rewrite ndiv_Some by lra; reflexivity).
  value s "Tt2"%string (Some t2) reflexivity.
  clearbody t2.
  set (y := Rpower x (4 / 10 / (14 / 10) / (90 / 100))). set (z := Rpower x (4 / 10 / (14 / 10 * (89 / 100)))).
  value full "Tt13"%string (Some (t2 * y)) ltac:(nconst; rewrite npow_Some by lra; cbn [nmul]; unfold y; do 3 f_equal; lra).
  value s "Tt17"%string (Some (t2 * z)) ltac:(nconst; rewrite npow_Some by lra; cbn [nmul]; unfold z; do 3 f_equal; lra).
  exists (t2 * y), (t2 * z). split; [exact CC|]. split; [exact S0|]. unfold has. split; [rewrite (proj1 (W "Tt13"%string ltac:(apply names_fixe_in; vm_compute; tauto))); assumption|].
  split; [assumption|].
  assert (YZ : forall u, 1 < u -> Rpower u (4 / 10 / (14 / 10) / (90 / 100)) < Rpower u (4 / 10 / (14 / 10 * (89 / 100)))) by (intros u Hu; apply Rpower_lt; lra).
  split.
  - intros Q. apply Rmult_eq_reg_l in Q; [|lra]. destruct (Rtotal_order x 1) as [L1|[L1|L1]]; [|contradiction|].
    + specialize (YZ (/ x)). assert (I1 : 1 < / x). { rewrite <- Rinv_1. apply Rinv_lt_contravar; lra. } specialize (YZ I1).
      assert (IP : forall p, Rpower (/ x) p = / Rpower x p). { intros p. unfold Rpower. rewrite ln_Rinv by lra. rewrite <- exp_Ropp. f_equal. ring. }
      rewrite !IP in YZ. fold y z in YZ. rewrite Q in YZ. lra.
    + specialize (YZ x L1). fold y z in YZ. lra.
  - intros l' m' Hl Hm L0 M0' X3. subst l m.
    value full "m_f"%string (Some (m' * l' / (l' + 1))) ltac:(cbn [nmul nadd]; rewrite ndiv_Some by lra; reflexivity).
    value s "m_f"%string (Some (m' * l' / (l' + 1))) ltac:(cbn [nmul nadd]; rewrite ndiv_Some by lra; f_equal; lra).
    solo s "cp"%string.
    value full "wu_f"%string (Some (m' * l' / (l' + 1) * (287 * (14 / 10) / (14 / 10 - 1)) * (t2 * y - t2))) ltac:(nconst).
    value s "w_uf"%string (Some (m' * l' / (l' + 1) * (287 * (14 / 10) / (14 / 10 - 1)) * (t2 * z - t2))) ltac:(nconst).
    do 2 eexists. split; [rewrite (proj1 (W "wu_f"%string ltac:(apply names_fixe_in; vm_compute; tauto))); eassumption|]. split; [eassumption|].
    apply Rmult_lt_compat_l.
    + apply Rmult_lt_0_compat; [|lra]. apply Rdiv_lt_0_compat; [|lra]. apply Rmult_lt_0_compat; lra.
    + specialize (YZ x X3). fold y z in YZ. nra.
Qed.
(*@E C62_example: Example: by-pass ratio 5, compressor 40, 1600 K, 200 kg/s, fan pressure ratio 3/2: all hypotheses of the refutation hold, so the class understates the fan power at this operating point. *)
Lemma C62_example_lemma : exists c s p q, computed (init_fixe (Some 5) (Some 40) (Some 1600) (Some 200) gaz_default gaz_fuel (Some (3/2))) fixe_5_to_9 = Some c /\
  propu_be_calculs script_globals (Some 5) (Some 40) (Some 1600) (Some (3/2)) (Some 200) = Some s /\ has (attrs c) "wu_f" p /\ has s "w_uf" q /\ p < q.
Proof.
  destruct (propu_be_refuted (Some 5) (Some 40) (Some 1600) (Some 200) (3/2) ltac:(lra) ltac:(lra)) as (c & s & v & w & C & S & _ & _ & _ & H).
  destruct (H 5 200 eq_refl eq_refl ltac:(lra) ltac:(lra) ltac:(lra)) as (p & q & P & Q & L). exists c, s, p, q. auto.
Qed.
