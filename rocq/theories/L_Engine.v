(** * C59: gas generator *)
From Coq Require Import String.
From Verif Require Import Num L_Num M_Isentropic M_Obj L_Obj M_Engine EngineSpec.
Open Scope R_scope.

Ltac hasrw := unfold has in *; repeat match goal with H : ?o ?a = Some _ |- context [?o ?a] => rewrite H end.
Ltac unpackF H := repeat (apply List.Forall_cons_iff in H; let E := fresh "Q" in destruct H as [E H]; cbn [fst snd] in E).
Ltac split_and := repeat match goal with H : _ /\ _ |- _ => destruct H end.

Lemma temp_ratio_pos g m : 1 < g -> 0 < temp_ratio g m.
Proof. intros H. unfold temp_ratio. pose proof (sq_nonneg m). nra. Qed.
Lemma TtTs_spec g m : TtTs_Mach (Some m) (Some g) = Some (temp_ratio g m).
Proof. unfold TtTs_Mach, temp_ratio. cbn [nadd nsub nmul npowi]. f_equal. field. Qed.
Lemma PtPs_spec g m : 1 < g -> PtPs_Mach (Some m) (Some g) = Some (pres_ratio g m).
Proof.
  intros H. unfold PtPs_Mach, pres_ratio. fold (TtTs_Mach (Some m) (Some g)). rewrite TtTs_spec. cbn [nsub]. rewrite ndiv_Some by lra.
  now rewrite npow_Some by now apply temp_ratio_pos.
Qed.
Lemma cp_cold_spec o e : described o e -> 1 < gc e -> eval o cp_cold = Some (Some (cpc e)).
Proof. intros D H. unfold described in D. split_and. unfold cp_cold, cpc, cp_of, one. cbn [eval]. hasrw. cbn [nmul nsub]. now rewrite ndiv_Some by lra. Qed.
Lemma cp_hot_spec o e : described o e -> 1 < gh e -> eval o cp_hot = Some (Some (cph e)).
Proof. intros D H. unfold described in D. split_and. unfold cp_hot, cph, cp_of, one. cbn [eval]. hasrw. cbn [nmul nsub]. now rewrite ndiv_Some by lra. Qed.

Definition gg_inputs : list string := ["OPR"; "Tt4"; "gam_cold"; "gam_hot"; "r_cold"; "r_hot"; "xi_inlet"; "xi_cc"; "Pci"; "etapolCHP"; "etapolTHP"; "eta_shaft"; "T0"; "P0"; "M0"]%string.
Lemma described_frame p o o' e : disjoint gg_inputs (writes p) = true -> run p o = Some o' -> described o e -> described o' e.
Proof.
  intros D R H. unfold disjoint in D. rewrite forallb_forall in D.
  assert (F : forall a, In a gg_inputs -> o' a = o a).
  { intros a I. apply (run_frame _ _ _ _ R). intros J. specialize (D a I). apply negb_true_iff in D. apply mem_in in J. congruence. }
  unfold described, has in *. rewrite !F by (cbn; tauto). exact H.
Qed.
Lemma described_present o e : described o e -> forall a, In a gg_inputs -> o a <> None.
Proof.
  intros D a I. unfold described, has in D. split_and. cbn in I.
  repeat (destruct I as [<-|I]; [congruence|]). contradiction.
Qed.


Definition holds (p : prog) (o : obj) : Prop := List.Forall (fun ae => o (fst ae) = eval o (snd ae)) p.
Lemma gg_from_equations o e : described o e -> in_range e -> feasible e (xi_cc e) -> holds gg_update o ->
  exists s, shows o s /\ cycle e s /\ burner (cpc e) (cph e) (xi_cc e) (Pci e) (far s) (Tt3 s) (Tt4 e) /\
    0 < 1 + far s /\ 0 < Tt45 s /\ 0 < Pt45 s /\ 0 < Tt2 s /\ 0 < Pt2 s /\ Tt3 s = compressor_exit e.
Proof.
  intros D Rg Fe E.
  pose proof (cp_cold_spec o e D) as CC. pose proof (cp_hot_spec o e D) as CH.
  unfold in_range in Rg. unfold described in D. destruct Rg as (g1 & g2 & g3 & g4 & g5 & g6 & g7 & g8 & g9 & g10 & g11 & g12 & g13 & g14 & g15).
  specialize (CC g3). specialize (CH g4).
  destruct D as (d1 & d2 & d3 & d4 & d5 & d6 & d7 & d8 & d9 & d10 & d11 & d12 & d13 & d14 & d15).
  unfold holds, gg_update in E. unpackF E. clear E.
  set (tt0 := T0 e * temp_ratio (gc e) (M0 e)).
  pose proof (temp_ratio_pos (gc e) (M0 e) g3) as tr.
  assert (Ptt0 : 0 < tt0) by (unfold tt0; nra).
  assert (h1 : has o "Tt0" tt0). { unfold has. rewrite Q. cbn [eval]. hasrw. rewrite TtTs_spec. reflexivity. }
  set (pt0 := P0 e * pres_ratio (gc e) (M0 e)).
  assert (Ppt0 : 0 < pt0) by (apply Rmult_lt_0_compat; [lra|apply Rpower_pos]).
  assert (h2 : has o "Pt0" pt0). { unfold has. rewrite Q0. cbn [eval]. hasrw. rewrite PtPs_spec by lra. reflexivity. }
  assert (h3 : has o "V0" (M0 e * sqrt (gc e * rc e * T0 e))).
  { unfold has. rewrite Q1. cbn [eval]. hasrw. cbn [nmul]. rewrite nsqrt_Some; [reflexivity|]. left. repeat apply Rmult_lt_0_compat; lra. }
  set (pt2 := pt0 * xi_inlet e). assert (Ppt2 : 0 < pt2) by (apply Rmult_lt_0_compat; lra).
  assert (h4 : has o "Pt2" pt2). { unfold has. rewrite Q2. cbn [eval]. hasrw. reflexivity. }
  assert (h5 : has o "Tt2" tt0). { unfold has. rewrite Q3. cbn [eval]. hasrw. reflexivity. }
  set (pt3 := pt2 * OPR e). assert (Ppt3 : 0 < pt3) by (apply Rmult_lt_0_compat; lra).
  assert (h6 : has o "Pt3" pt3). { unfold has. rewrite Q4. cbn [eval]. hasrw. reflexivity. }
  set (tt3 := compressor_exit e).
  assert (Ptt3 : 0 < tt3) by (apply Rmult_lt_0_compat; [exact Ptt0|apply Rpower_pos]).
  assert (h7 : has o "Tt3" tt3).
  { unfold has. rewrite Q5. unfold one. cbn [eval]. hasrw. cbn [nmul nsub]. rewrite ndiv_Some by nra. rewrite npow_Some by lra. reflexivity. }
  set (pt4 := pt3 * xi_cc e). assert (Ppt4 : 0 < pt4) by (apply Rmult_lt_0_compat; lra).
  assert (h8 : has o "Pt4" pt4). { unfold has. rewrite Q6. cbn [eval]. hasrw. reflexivity. }
  destruct Fe as [f1 f2]. fold tt3 in f1, f2. unfold inlet_temp in f2. fold tt0 in f2.
  set (fa := (cph e * Tt4 e - cpc e * tt3) / (xi_cc e * Pci e - cph e * Tt4 e)).
  assert (Pcc : 0 < cpc e). { unfold cpc, cp_of. apply Rdiv_lt_0_compat; nra. }
  assert (Pch : 0 < cph e). { unfold cph, cp_of. apply Rdiv_lt_0_compat; nra. }
  assert (Pfa : 1 + fa = (xi_cc e * Pci e - cpc e * tt3) / (xi_cc e * Pci e - cph e * Tt4 e)) by (unfold fa; field; lra).
  assert (Pf : 0 < 1 + fa) by (rewrite Pfa; apply Rdiv_lt_0_compat; lra).
  assert (h9 : has o "far" fa).
  { unfold has. rewrite Q7. cbn [eval]. unfold has in *. rewrite CC, CH. hasrw. cbn [nmul nsub]. rewrite ndiv_Some by lra. reflexivity. }
  set (tt45 := Tt4 e - cpc e * (tt3 - tt0) / (eS e * cph e * (1 + fa))).
  assert (Pd : 0 < eS e * cph e * (1 + fa)) by (apply Rmult_lt_0_compat; [apply Rmult_lt_0_compat; lra|exact Pf]).
  assert (f3 : cpc e * (tt3 - tt0) < eS e * cph e * (1 + fa) * Tt4 e).
  { rewrite Pfa. eapply Rlt_le_trans; [exact f2|]. right. field. lra. }
  assert (Ptt45 : 0 < tt45).
  { unfold tt45. assert (cpc e * (tt3 - tt0) / (eS e * cph e * (1 + fa)) < Tt4 e); [|lra].
    apply Rmult_lt_reg_r with (eS e * cph e * (1 + fa)); [exact Pd|]. unfold Rdiv. rewrite Rmult_assoc, Rinv_l by lra. lra. }
  assert (h10 : has o "Tt45" tt45).
  { unfold has. rewrite Q8. unfold one. cbn [eval]. unfold has in *. rewrite CC, CH. hasrw. cbn [nmul nsub nadd]. rewrite ndiv_Some by lra. reflexivity. }
  set (pt45 := pt4 * Rpower (tt45 / Tt4 e) (gh e / ((gh e - 1) * eT e))).
  assert (Pq : 0 < tt45 / Tt4 e) by (apply Rdiv_lt_0_compat; lra).
  assert (Ppt45 : 0 < pt45) by (apply Rmult_lt_0_compat; [lra|apply Rpower_pos]).
  assert (h11 : has o "Pt45" pt45).
  { unfold has. rewrite Q9. unfold one. cbn [eval]. hasrw. cbn [nmul nsub nadd]. assert (0 < (gh e - 1) * eT e) by (apply Rmult_lt_0_compat; lra). rewrite !ndiv_Some by lra. rewrite npow_Some by lra. reflexivity. }
  exists {| Tt0 := tt0; Pt0 := pt0; V0 := M0 e * sqrt (gc e * rc e * T0 e); Tt2 := tt0; Pt2 := pt2; Tt3 := tt3; Pt3 := pt3; Pt4 := pt4; far := fa; Tt45 := tt45; Pt45 := pt45 |}.
  unfold shows, cycle, burner, shaft_balance, compression, expansion. cbn [Tt0 Pt0 V0 Tt2 Pt2 Tt3 Pt3 Pt4 far Tt45 Pt45].
  split; [repeat (split; [assumption|]); assumption|]. split.
  - split; [reflexivity|]. split; [reflexivity|]. split; [reflexivity|]. split; [reflexivity|]. split; [unfold pt2; ring|]. split; [unfold pt3; ring|]. split.
    { replace (pt3 / pt2) with (OPR e) by (unfold pt3; field; lra). unfold tt3, compressor_exit. fold tt0. field. lra. }
    split; [unfold pt4; ring|]. split.
    { unfold tt45. field. repeat split; lra. }
    replace (pt45 / pt4) with (Rpower (tt45 / Tt4 e) (gh e / ((gh e - 1) * eT e))) by (unfold pt45; field; lra).
    rewrite Rpower_mult. replace (gh e / ((gh e - 1) * eT e) * ((gh e - 1) * eT e / gh e)) with 1 by (field; lra). now rewrite Rpower_1.
  - split; [|tauto]. unfold fa. field. lra.
Qed.

(*@P C59_cycle_partial: For every object - whatever was called or computed on it before - whose parameters and flight conditions are finite and in the operating range (positive temperatures, pressures, efficiencies; gammas > 1; a turbine able to drive the compressor), update succeeds, leaves the parameters unchanged, and the stored stations satisfy: flight total conditions, inlet loss, pressure ratio and polytropic compression, combustor pressure loss, shaft power balance, polytropic expansion. PARTIAL: the combustor energy balance holds with the pressure loss coefficient xi_cc in place of the combustion efficiency eta_cc (see C59_eta_cc_refuted). *)
Lemma gg_cycle : forall o e, described o e -> in_range e -> feasible e (xi_cc e) ->
  exists o' s, run gg_update o = Some o' /\ described o' e /\ shows o' s /\ cycle e s /\
  burner (cpc e) (cph e) (xi_cc e) (Pci e) (far s) (Tt3 s) (Tt4 e).
Proof.
  intros o e D Rg Fe.
  destruct (run_total gg_update gg_inputs o eq_refl (described_present o e D)) as [o' Rn].
  pose proof (described_frame gg_update o o' e eq_refl Rn D) as D'.
  destruct (gg_from_equations o' e D' Rg Fe (run_lasting _ _ _ Rn)) as (s & S1 & S2 & S3 & _).
  exists o', s. repeat (split; [assumption|]). assumption.
Qed.

(*@P C59_no_history: update depends only on the parameters and flight conditions: two objects that agree on them (and may differ in anything else, such as the results of earlier updates) end with the same stations; this includes the AttributeError when one of them was never set, e.g. update before flight_conditions. *)
Lemma gg_no_history : forall o1 o2, (forall a, In a gg_inputs -> o1 a = o2 a) ->
  (forall o1', run gg_update o1 = Some o1' -> exists o2', run gg_update o2 = Some o2' /\ forall a, In a (gg_inputs ++ writes gg_update) -> o1' a = o2' a) /\
  (run gg_update o1 = None <-> run gg_update o2 = None) /\
  (forall a, In a gg_inputs -> o1 a = None -> run gg_update o1 = None).
Proof.
  assert (G : forall p ins o1 o2, closed ins p = true -> (forall a, In a ins -> o1 a = o2 a) ->
    match run p o1, run p o2 with
    | Some a, Some b => forall x, In x (ins ++ writes p) -> a x = b x | None, None => True | _, _ => False end).
  { induction p as [|[a ex] p IH]; intros ins o1 o2; cbn [closed run writes map fst].
    - intros _ H x I. apply H. rewrite app_nil_r in I. exact I.
    - intros C H. apply andb_prop in C. destruct C as [C1 C2].
      rewrite (eval_ext o1 o2 ex). 2:{ intros b B. apply H. apply mem_in. rewrite forallb_forall in C1. now apply C1. }
      destruct (eval o2 ex) as [v|]; [|exact I].
      specialize (IH (a :: ins) (upd a v o1) (upd a v o2) C2). 
      assert (W : forall b, In b (a :: ins) -> upd a v o1 b = upd a v o2 b).
      { intros b B. unfold upd. destruct (String.eqb b a) eqn:Eb; [reflexivity|]. destruct B as [->|B]; [now rewrite String.eqb_refl in Eb|now apply H]. }
      specialize (IH W). destruct (run p (upd a v o1)), (run p (upd a v o2)); try contradiction; [|exact I].
      intros x Ix. apply IH. apply in_app_or in Ix. destruct Ix as [Ix|[<-|Ix]]; [apply in_or_app; left; now right|left; reflexivity|apply in_or_app; now right]. }
  intros o1 o2 H. pose proof (G gg_update gg_inputs o1 o2 eq_refl H) as K.
  assert (M : forall p o a, existsb (fun ae => mem a (reads (snd ae))) p = true -> mem a (writes p) = false -> o a = None -> run p o = None).
  { clear. intros p. assert (Ev : forall ex o a, mem a (reads ex) = true -> o a = None -> eval o ex = None).
    { intros ex o a. rewrite mem_in. induction ex; cbn [reads eval]; intros I N.
      - destruct I as [->|[]]. exact N.
      - destruct I.
      - now rewrite IHex.
      - apply in_app_or in I. destruct I as [I|I]; [now rewrite IHex1|rewrite IHex2 by assumption; now destruct (eval o ex1)].
      - repeat (apply in_app_or in I; destruct I as [I|I]); [rewrite IHex1|rewrite IHex2|rewrite IHex3|rewrite IHex4]; try assumption;
          destruct (eval o ex1), (eval o ex2), (eval o ex3); reflexivity. }
    induction p as [|[b ex] p IH]; intros o a; cbn [existsb run writes map fst snd]; [discriminate|].
    intros I W N. destruct (mem a (reads ex)) eqn:Ea; cbn [orb] in I.
    - now rewrite (Ev _ _ _ Ea N).
    - destruct (eval o ex) as [v|]; [|reflexivity]. unfold mem in W; cbn [existsb] in W. apply orb_false_elim in W. destruct W as [W1 W2].
      apply (IH _ a I W2). rewrite upd_other; [exact N|]. now apply String.eqb_neq. }
  split; [|split].
  - intros o1' E. rewrite E in K. destruct (run gg_update o2) as [o2'|]; [|contradiction]. eauto.
  - destruct (run gg_update o1), (run gg_update o2); try contradiction; split; congruence.
  - intros a I N. apply (M _ _ a); [| |exact N]; cbn in I; repeat (destruct I as [<-|I]; [reflexivity|]); contradiction.
Qed.

Definition with_eta_cc (p : gg_args) (x : num) : gg_args :=
  {| a_OPR := a_OPR p; a_Tt4 := a_Tt4 p; a_gam_cold := a_gam_cold p; a_gam_hot := a_gam_hot p; a_r_cold := a_r_cold p; a_r_hot := a_r_hot p;
     a_xi_inlet := a_xi_inlet p; a_xi_nozzle := a_xi_nozzle p; a_xi_cc := a_xi_cc p; a_eta_cc := x; a_Pci := a_Pci p;
     a_etapolCHP := a_etapolCHP p; a_etapolTHP := a_etapolTHP p; a_eta_shaft := a_eta_shaft p |}.
(*@P C59_eta_cc_refuted: The constructor ignores eta_cc: objects built with any two values of it are identical, and after update the combustor energy balance with efficiency eta is false for every eta other than xi_cc, as soon as fuel is burnt (far <> 0) with a non-zero heating value. *)
Lemma gg_eta_cc_refuted : 
  (forall p x o, run (gg_init_body (with_eta_cc p x)) o = run (gg_init_body p) o) /\
  (forall o e eta, described o e -> in_range e -> feasible e (xi_cc e) -> eta <> xi_cc e -> Pci e <> 0 ->
   exists o' s, run gg_update o = Some o' /\ shows o' s /\
   (far s <> 0 -> ~ burner (cpc e) (cph e) eta (Pci e) (far s) (Tt3 s) (Tt4 e))).
Proof.
  split; [reflexivity|]. intros o e eta D Rg Fe N Np.
  destruct (gg_cycle o e D Rg Fe) as (o' & s & E & _ & S & _ & B). exists o', s. split; [exact E|]. split; [exact S|].
  intros F B'. unfold burner in *. rewrite B in B'. apply N. apply Rmult_eq_reg_r with (far s * Pci e); [|now apply Rmult_integral_contrapositive].
  lra.
Qed.

(*@P C59_constructor: For all constructor arguments and flight conditions, defined or not, and whatever the object held: every attribute holds the argument of its name (eta_cc excepted, see C59_eta_cc_refuted), and no other attribute is touched. *)
Lemma gg_constructor : forall opr tt4 gamc gamh rcold rhot xin xnoz xcc etacc pci ec et es t0 p0 m0 o,
  let p := {| a_OPR := opr; a_Tt4 := tt4; a_gam_cold := gamc; a_gam_hot := gamh; a_r_cold := rcold; a_r_hot := rhot; a_xi_inlet := xin;
              a_xi_nozzle := xnoz; a_xi_cc := xcc; a_eta_cc := etacc; a_Pci := pci; a_etapolCHP := ec; a_etapolTHP := et; a_eta_shaft := es |} in
  exists o', run (gg_init_body p ++ flight_conditions t0 p0 m0) o = Some o' /\
  (o' "OPR" = Some opr /\ o' "Tt4" = Some tt4 /\ o' "gam_cold" = Some gamc /\ o' "gam_hot" = Some gamh /\ o' "r_cold" = Some rcold /\
   o' "r_hot" = Some rhot /\ o' "xi_inlet" = Some xin /\ o' "xi_cc" = Some xcc /\ o' "Pci" = Some pci /\ o' "etapolCHP" = Some ec /\
   o' "etapolTHP" = Some et /\ o' "eta_shaft" = Some es /\ o' "T0" = Some t0 /\ o' "P0" = Some p0 /\ o' "M0" = Some m0)%string /\
  (forall a, ~ In a ["OPR"; "Tt4"; "gam_cold"; "gam_hot"; "r_cold"; "r_hot"; "xi_inlet"; "xi_cc"; "Pci"; "etapolCHP"; "etapolTHP"; "eta_shaft"; "T0"; "P0"; "M0"]%string ->
   o' a = o a).
Proof.
  intros. eexists. split; [reflexivity|]. split; [repeat split; reflexivity|].
  intros a Na. cbn [In] in Na. unfold upd.
  repeat match goal with |- context [String.eqb ?x ?y] => destruct (String.eqb_spec x y); [exfalso; apply Na; subst; tauto|] end.
  reflexivity.
Qed.

(*@P C59_defaults: A gas generator built from its two required arguments only is the ideal engine running on air: gamma 1.4 and r 287.1 on both sides, no pressure losses, all efficiencies 1, fuel of 42.8 MJ/kg. For every pressure ratio, turbine inlet temperature and flight condition in range, its update gives the whole cycle including the combustor energy balance with combustion efficiency 1. *)
Lemma gg_defaults : forall opr tt4 t0 p0 m0,
  let e := {| OPR := opr; Tt4 := tt4; gc := 14 / 10; gh := 14 / 10; rc := 2871 / 10; rh := 2871 / 10; xi_inlet := 1; xi_cc := 1;
              Pci := 42800000; eC := 1; eT := 1; eS := 1; T0 := t0; P0 := p0; M0 := m0 |} in
  in_range e -> feasible e 1 -> exists o o' s,
  run (gg_init_body (gg_default (Some opr) (Some tt4)) ++ flight_conditions (Some t0) (Some p0) (Some m0)) empty_obj = Some o /\
  run gg_update o = Some o' /\ described o' e /\ shows o' s /\ cycle e s /\ burner (cpc e) (cph e) 1 (Pci e) (far s) (Tt3 s) tt4.
Proof.
  intros opr tt4 t0 p0 m0 e Rg Fe.
  assert (E : exists o, run (gg_init_body (gg_default (Some opr) (Some tt4)) ++ flight_conditions (Some t0) (Some p0) (Some m0)) empty_obj = Some o /\ described o e).
  { eexists. split; [reflexivity|]. unfold described, has, e. cbn [OPR Tt4 gc gh rc rh xi_inlet xi_cc Pci eC eT eS T0 P0 M0]. repeat split; reflexivity. }
  destruct E as [o [E D]]. destruct (gg_cycle o e D Rg Fe) as (o' & s & R1 & D' & S & C & B). exists o, o', s.
  split; [exact E|]. split; [exact R1|]. split; [exact D'|]. split; [exact S|]. split; [exact C|exact B].
Qed.
(*@E C59_defaults_example: pressure ratio 2^3.5, 1600 K, Mach 1 at 200 K and 20000 Pa are in range. *)
Lemma gg_defaults_ex :
  let e := {| OPR := Rpower 2 (7 / 2); Tt4 := 1600; gc := 14 / 10; gh := 14 / 10; rc := 2871 / 10; rh := 2871 / 10; xi_inlet := 1; xi_cc := 1;
              Pci := 42800000; eC := 1; eT := 1; eS := 1; T0 := 200; P0 := 20000; M0 := 1 |} in in_range e /\ feasible e 1.
Proof.
  cbv zeta. split.
  - unfold in_range, cph, cp_of. cbn [OPR Tt4 gc gh rc rh xi_inlet xi_cc Pci eC eT eS T0 P0 M0]. pose proof (Rpower_pos 2 (7 / 2)). repeat split; lra.
  - unfold feasible, compressor_exit, inlet_temp, temp_ratio, cpc, cph, cp_of. cbn [OPR Tt4 gc gh rc rh xi_inlet xi_cc Pci eC eT eS T0 P0 M0].
    rewrite Rpower_mult. replace (7 / 2 * ((14 / 10 - 1) / (14 / 10 * 1))) with 1 by field. rewrite Rpower_1 by lra. split; lra.
Qed.

Definition ex_engine : gas_generator :=
  {| OPR := Rpower 2 (7 / 2); Tt4 := 1600; gc := 14 / 10; gh := 14 / 10; rc := 2871 / 10; rh := 2871 / 10; xi_inlet := 98 / 100; xi_cc := 95 / 100;
     Pci := 42800000; eC := 1; eT := 9 / 10; eS := 98 / 100; T0 := 200; P0 := 20000; M0 := 1 |}.
Lemma ex_range : in_range ex_engine.
Proof.
  unfold in_range, cph, cp_of, ex_engine. cbn [OPR Tt4 gc gh rc rh xi_inlet xi_cc Pci eC eT eS T0 P0 M0].
  pose proof (Rpower_pos 2 (7 / 2)). repeat split; lra.
Qed.
Lemma ex_exit : compressor_exit ex_engine = 480.
Proof.
  unfold compressor_exit, temp_ratio, ex_engine. cbn [OPR Tt4 gc gh rc rh xi_inlet xi_cc Pci eC eT eS T0 P0 M0].
  rewrite Rpower_mult. replace (7 / 2 * ((14 / 10 - 1) / (14 / 10 * 1))) with 1 by field. rewrite Rpower_1 by lra. lra.
Qed.
Lemma ex_feasible : feasible ex_engine (xi_cc ex_engine).
Proof.
  unfold feasible. rewrite ex_exit. unfold inlet_temp, temp_ratio, cpc, cph, cp_of, ex_engine. cbn [OPR Tt4 gc gh rc rh xi_inlet xi_cc Pci eC eT eS T0 P0 M0].
  split; lra.
Qed.
Definition ex_args (xn : R) : gg_args :=
  {| a_OPR := Some (Rpower 2 (7 / 2)); a_Tt4 := Some 1600; a_gam_cold := Some (14 / 10); a_gam_hot := Some (14 / 10);
     a_r_cold := Some (2871 / 10); a_r_hot := Some (2871 / 10); a_xi_inlet := Some (98 / 100); a_xi_nozzle := Some xn; a_xi_cc := Some (95 / 100);
     a_eta_cc := Some (99 / 100); a_Pci := Some 42800000; a_etapolCHP := Some 1; a_etapolTHP := Some (9 / 10); a_eta_shaft := Some (98 / 100) |}.
(*@E C59_example: A gas generator built by the constructor and given flight conditions at Mach 1 meets the hypotheses, with far > 0. *)
Lemma gg_example : exists o e, run (gg_init_body (ex_args 1) ++ flight_conditions (Some 200) (Some 20000) (Some 1)) empty_obj = Some o /\
  described o e /\ in_range e /\ feasible e (xi_cc e) /\ cpc e * compressor_exit e < cph e * Tt4 e /\ xi_cc e <> 99 / 100 /\ Pci e <> 0.
Proof.
  eexists. exists ex_engine. split; [reflexivity|]. split; [|split; [apply ex_range|split; [apply ex_feasible|]]].
  - unfold described, has, ex_engine. cbn [OPR Tt4 gc gh rc rh xi_inlet xi_cc Pci eC eT eS T0 P0 M0]. repeat split; reflexivity.
  - rewrite ex_exit. unfold cpc, cph, cp_of, ex_engine. cbn [OPR Tt4 gc gh rc rh xi_inlet xi_cc Pci eC eT eS T0 P0 M0]. repeat split; lra.
Qed.
