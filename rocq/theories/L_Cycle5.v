(** * C75: thrust and consumption, and an example for C74 *)
From Coq Require Import String.
From Verif Require Import Num L_Num M_Isentropic M_Obj L_Obj M_Engine M_Cycle EngineSpec CycleSpec L_Engine L_Engine2 L_Cycle L_Cycle2 L_Cycle3 L_Cycle4.
Open Scope R_scope.

(** a completed object of one of the two classes *)
Definition completed (e : two_flow) (pkA x : R) (o : cyc) : Prop :=
  computed (fixe_init (fixe_of e pkA x)) fixe_5_to_9 = Some o \/ computed (calc_init (calc_of e pkA x)) calc_5_to_9 = Some o.
Lemma completed_performance e pkA x o V9 V19 : sensible e -> completed e pkA x o -> has (attrs o) "V9" V9 -> has (attrs o) "V19" V19 ->
  has (attrs o) "alpha" (fuel_ratio e) /\ performance (attrs o) e (fuel_ratio e) V9 V19.
Proof.
  intros S C H9 H19. 
  assert (G : exists full, (forall y v, mem y (writes fixe_all) && mem y (writes calc_all) = true -> has full y v <-> has (attrs o) y v) /\
    (holds (fixe_init (fixe_of e pkA x)) full \/ holds (calc_init (fixe_of e pkA x)) full) /\ holds common full /\ holds (app core_nozzle (app (code stage_19) (code perfo))) full /\
    (full "m_f"%string = eval full (V "m" * V "lambda_" / (V "lambda_" + one))%obj \/ full "m_f"%string = eval full (V "lambda_" * V "m" / (V "lambda_" + one))%obj)).
  { destruct C as [C|C].
    - destruct (fixe_complete (fixe_of e pkA x)) as (full & o0 & fresh & Rf & _ & _ & _ & Cf & Wf & _). assert (fresh = o) by congruence. subst fresh.
      destruct (fixe_lasting _ _ Rf) as [A B]. exists full. split.
      { intros y v I. apply andb_prop in I. destruct I as [I _]. apply mem_in in I. unfold has. rewrite Wf by exact I. tauto. }
      split; [now left|]. unfold holds in *. rewrite !List.Forall_forall in *. split; [|split].
      + intros ae J. apply B. unfold common, fixe_all in *. rewrite !in_app_iff in *. tauto.
      + intros ae J. apply B. unfold fixe_all. change core_nozzle with (code fixe_stage_9) in J. rewrite !in_app_iff in *. tauto.
      + left. apply (B ("m_f"%string, (V "m" * V "lambda_" / (V "lambda_" + one))%obj)). unfold fixe_all. rewrite !in_app_iff. do 4 right. left. left. reflexivity.
    - unfold calc_of in C. destruct (calc_complete (fixe_of e pkA x)) as (full & o0 & fresh & Rf & _ & _ & _ & Cf & Wf & _). assert (fresh = o) by congruence. subst fresh.
      destruct (calc_lasting _ _ Rf) as [A B]. exists full. split.
      { intros y v I. apply andb_prop in I. destruct I as [_ I]. apply mem_in in I. unfold has. rewrite Wf by exact I. tauto. }
      split; [now right|]. unfold holds in *. rewrite !List.Forall_forall in *. split; [|split].
      + intros ae J. apply B. unfold common, calc_all in *. rewrite !in_app_iff in *. tauto.
      + intros ae J. apply B. unfold calc_all. change core_nozzle with (code calc_stage_9) in J. rewrite !in_app_iff in *. tauto.
      + right. apply (B ("m_f"%string, (V "lambda_" * V "m" / (V "lambda_" + one))%obj)). unfold calc_all. rewrite !in_app_iff. do 7 right. left. left. reflexivity. }
  destruct G as (full & Tr & A & Bc & Bn & Mf).
  destruct (core_values full e pkA x S A Bc) as (v1 & v2 & v3 & v4 & v5 & v6 & v7 & v8 & v9 & v10 & v11 & v12 & v13 & v14 & v15 & v16 & v17 & v18 & v19 & _).
  apply Tr in H9; [|reflexivity]. apply Tr in H19; [|reflexivity].
  assert (M : has full "m_f" (fan_air e)).
  { unfold has in *. destruct S as (s1 & _). unfold one in Mf. cbn [eval] in Mf. rewrite v13, v14 in Mf. cbn [nmul nadd] in Mf. rewrite !ndiv_Some in Mf by lra. destruct Mf as [Mf|Mf]; rewrite Mf; do 2 f_equal; unfold fan_air; f_equal; ring. }
  rewrite app_assoc in Bn. apply holds_app in Bn. destruct Bn as [Bn Bp]. cbn [code core_nozzle stage_19 app] in Bn. spread Bn.
  unfold has in v2, v5, M, H9, H19.
  match goal with H : full "V9"%string = eval _ _ |- _ => clear H end. match goal with H : full "V19"%string = eval _ _ |- _ => clear H end.
  value full "F_c"%string (Some (core_air e * (V9 - flight_speed e))) reflexivity. value full "F_f"%string (Some (fan_air e * (V19 - flight_speed e))) reflexivity.
  destruct (performance_values full e V9 V19 (core_air e * (V9 - flight_speed e)) (fan_air e * (V19 - flight_speed e)) S) as (q1 & q2 & q3 & q4 & q5 & q6); try eassumption; try reflexivity.
  split; [apply Tr; [reflexivity|exact v10]|].
  unfold performance. cbv zeta. repeat split; intros; apply Tr; try reflexivity; auto.
Qed.

(*@P C75_thrust_refuted: In both classes the thrust is not the momentum balance of the two flows: for all arguments in the sensible range, on a completed object with finite jet velocities, F is below it by the momentum of the fuel alpha m_c V9 - although the kinetic power that enters the efficiencies counts the fuel - so they differ as soon as fuel is burnt and the core jet moves. *)
Lemma thrust_refuted : forall e pkA x o a V9 V19 F, sensible e -> completed e pkA x o ->
  has (attrs o) "alpha" a -> has (attrs o) "V9" V9 -> has (attrs o) "V19" V19 -> has (attrs o) "F" F ->
  F = thrust e a V9 V19 - a * core_air e * V9 /\ (a * V9 <> 0 -> F <> thrust e a V9 V19).
Proof.
  intros e pkA x o a V9 V19 F S C Ha H9 H19 HF. destruct (completed_performance e pkA x o V9 V19 S C H9 H19) as (Q & q1 & _).
  pose proof (sensible_facts e S) as (_ & _ & f3 & _).
  assert (a = fuel_ratio e) by (unfold has in *; congruence). assert (F = thrust_without_fuel e V9 V19) by (unfold has in *; congruence). subst a F.
  assert (E : thrust_without_fuel e V9 V19 = thrust e (fuel_ratio e) V9 V19 - fuel_ratio e * core_air e * V9) by (unfold thrust_without_fuel, thrust; ring).
  split; [exact E|]. intros N K. rewrite E in K. apply N. assert (Z : core_air e * (fuel_ratio e * V9) = 0) by lra. apply Rmult_integral in Z. destruct Z; [lra|assumption].
Qed.
(*@P C75_consumption_refuted: In both classes the specific consumption, printed with the unit g/kN/s, is ten times that quantity (10e6 instead of 1e6), whenever the jet velocities are finite and the thrust is not zero. *)
Lemma consumption_refuted : forall e pkA x o mk V9 V19 F, sensible e -> completed e pkA x o ->
  has (attrs o) "m_k" mk -> has (attrs o) "V9" V9 -> has (attrs o) "V19" V19 -> has (attrs o) "F" F -> F <> 0 ->
  has (attrs o) "mk_spe" (10 * grams_per_kN mk F) /\ (mk <> 0 -> 10 * grams_per_kN mk F <> grams_per_kN mk F).
Proof.
  intros e pkA x o mk V9 V19 F S C Hm H9 H19 HF N. destruct (completed_performance e pkA x o V9 V19 S C H9 H19) as (Q & q1 & _ & q3 & _).
  assert (F = thrust_without_fuel e V9 V19) by (unfold has in *; congruence).
  assert (mk = fuel_ratio e * core_air e).
  { destruct C as [C|C].
    - destruct (fixe_complete (fixe_of e pkA x)) as (full & o0 & fresh & Rf & _ & _ & _ & Cf & Wf & _). assert (fresh = o) by congruence. subst fresh. destruct (fixe_lasting _ _ Rf) as [A B].
      assert (Bc : holds common full) by (unfold holds in *; rewrite !List.Forall_forall in *; intros ae J; apply B; unfold common, fixe_all in *; rewrite !in_app_iff in *; tauto).
      destruct (core_values full e pkA x S (or_introl A) Bc) as (_ & _ & _ & _ & _ & _ & _ & _ & v & _). unfold has in *. rewrite Wf in Hm by (apply mem_in; reflexivity). congruence.
    - unfold calc_of in C. destruct (calc_complete (fixe_of e pkA x)) as (full & o0 & fresh & Rf & _ & _ & _ & Cf & Wf & _). assert (fresh = o) by congruence. subst fresh. destruct (calc_lasting _ _ Rf) as [A B].
      assert (Bc : holds common full) by (unfold holds in *; rewrite !List.Forall_forall in *; intros ae J; apply B; unfold common, calc_all in *; rewrite !in_app_iff in *; tauto).
      destruct (core_values full e pkA x S (or_intror A) Bc) as (_ & _ & _ & _ & _ & _ & _ & _ & v & _). unfold has in *. rewrite Wf in Hm by (apply mem_in; reflexivity). congruence. }
  subst F mk. split; [now apply q3|]. intros M K. apply M. set (g := grams_per_kN (fuel_ratio e * core_air e) (thrust_without_fuel e V9 V19)) in *. assert (Z : g = 0) by lra.
  unfold g, grams_per_kN in Z. assert (Y : fuel_ratio e * core_air e = 1000 * (fuel_ratio e * core_air e) / (thrust_without_fuel e V9 V19 / 1000) * (thrust_without_fuel e V9 V19 / 1000) / 1000) by (field; exact N).
  rewrite Z in Y. lra.
Qed.

Definition ex_two_flow : two_flow :=
  {| bypass := 5; core_ratio := Rpower 2 (63 / 20); T_max := 1400; air := 180; gA := 14 / 10; rA := 287; gB := 133 / 100; rB := 2916 / 10; heating := 42800000 |}.
Lemma ex_compressed : compressed_T ex_two_flow = 2 * inlet_T ex_two_flow.
Proof.
  unfold compressed_T. cbn [core_ratio gA ex_two_flow]. rewrite Rpower_mult. unfold eta_compressor. replace (63 / 20 * ((14 / 10 - 1) / (14 / 10 * (90 / 100)))) with 1 by field.
  rewrite Rpower_1 by lra. ring.
Qed.
Lemma ex_inlet : inlet_T ex_two_flow = 217 * (1128 / 1000).
Proof. unfold inlet_T, temp_ratio, T_inf, Mach_inf. cbn [gA ex_two_flow]. lra. Qed.
Lemma ex_sensible : sensible ex_two_flow.
Proof.
  unfold sensible. rewrite ex_compressed, ex_inlet. unfold cA, cB, cp_of, eta_burning. cbn [bypass core_ratio T_max air gA rA gB rB heating ex_two_flow].
  pose proof (Rpower_pos 2 (63 / 20)). repeat split; lra.
Qed.
Lemma ex_fuel : 28 / 1000 < fuel_ratio ex_two_flow < 29 / 1000.
Proof.
  unfold fuel_ratio. rewrite ex_compressed, ex_inlet. unfold cA, cB, cp_of, eta_burning. cbn [T_max gA rA gB rB heating ex_two_flow]. lra.
Qed.
(*@E C74_example: An engine of by-pass ratio 5 with a fan ratio that raises the fan temperature by ten per cent meets the hypotheses of C74_fixed_fan_partial including those on the nozzles, with fuel burnt and a moving core jet (so the refutations of C75 apply to it). *)
Lemma ex_fixed : exists x, 1 < x /\ sensible ex_two_flow /\
  cA ex_two_flow * (compressed_T ex_two_flow - inlet_T ex_two_flow) + bypass ex_two_flow * cA ex_two_flow * (fan_T ex_two_flow eta_compressor x - inlet_T ex_two_flow) <
    eta_shaft * (1 + fuel_ratio ex_two_flow) * cB ex_two_flow * T_max ex_two_flow /\
  exists o a V9 V19, completed ex_two_flow 0 x o /\ has (attrs o) "alpha" a /\ has (attrs o) "V9" V9 /\ has (attrs o) "V19" V19 /\ 0 < a /\ 0 < V9 /\
  performance (attrs o) ex_two_flow a V9 V19.
Proof.
  set (x := Rpower (11 / 10) (63 / 20)). exists x.
  assert (X3 : 1331 / 1000 < x).
  { unfold x. apply Rle_lt_trans with (Rpower (11 / 10) 3); [|apply Rpower_lt; lra]. replace 3 with (INR 3) by (cbn; lra). rewrite Rpower_pow by lra. cbn. lra. }
  assert (FT : fan_T ex_two_flow eta_compressor x = 11 / 10 * inlet_T ex_two_flow).
  { unfold fan_T, x. cbn [gA ex_two_flow]. rewrite Rpower_mult. unfold eta_compressor. replace (63 / 20 * ((14 / 10 - 1) / (14 / 10 * (90 / 100)))) with 1 by field. rewrite Rpower_1 by lra. ring. }
  assert (Fe : cA ex_two_flow * (compressed_T ex_two_flow - inlet_T ex_two_flow) + bypass ex_two_flow * cA ex_two_flow * (fan_T ex_two_flow eta_compressor x - inlet_T ex_two_flow) <
    eta_shaft * (1 + fuel_ratio ex_two_flow) * cB ex_two_flow * T_max ex_two_flow).
  { rewrite FT, ex_compressed, ex_inlet. pose proof ex_fuel as [B1 B2]. unfold cA, cB, cp_of, eta_shaft. cbn [bypass T_max gA rA gB rB ex_two_flow]. lra. }
  split; [lra|]. split; [apply ex_sensible|]. split; [exact Fe|].
  destruct (fixed_fan ex_two_flow 0 x ex_sensible ltac:(lra) Fe) as (o & c & T13 & P13 & C & Sh & Cy & H13 & HP13 & EP & Co & Sf & Ex & P5 & PP5 & Pa & N).
  pose proof (sensible_facts _ ex_sensible) as (f1 & f2 & f3 & f4 & f5 & f6 & f7 & f8 & f9 & f10).
  destruct Cy as (c1 & c2 & c3 & c4).
  assert (PR : 1 <= pres_ratio (gA ex_two_flow) Mach_inf).
  { unfold pres_ratio, temp_ratio, Mach_inf. cbn [gA ex_two_flow]. apply Rle_trans with (Rpower (1 + (14 / 10 - 1) / 2 * (8 / 10) ^ 2) 0); [rewrite Rpower_O by lra; lra|]. apply Rle_Rpower; lra. }
  assert (IP : 22000 < inlet_P ex_two_flow) by (unfold inlet_P, xi_inlet_loss, P_inf; lra).
  assert (T3 : Tt3 c = 2 * inlet_T ex_two_flow).
  { unfold compression in c2. rewrite c1 in c2. replace (core_ratio ex_two_flow * inlet_P ex_two_flow / inlet_P ex_two_flow) with (core_ratio ex_two_flow) in c2 by (field; lra).
    rewrite <- ex_compressed. unfold compressed_T. apply Rmult_eq_reg_r with (/ inlet_T ex_two_flow); [|apply Rinv_neq_0_compat; lra]. fold (Tt3 c / inlet_T ex_two_flow). rewrite c2. field. lra. }
  assert (T13e : T13 = 11 / 10 * inlet_T ex_two_flow).
  { unfold compression in Co. rewrite EP in Co. replace (x * inlet_P ex_two_flow / inlet_P ex_two_flow) with x in Co by (field; lra).
    rewrite <- FT. unfold fan_T. apply Rmult_eq_reg_r with (/ inlet_T ex_two_flow); [|apply Rinv_neq_0_compat; lra]. fold (T13 / inlet_T ex_two_flow). rewrite Co. field. lra. }
  assert (AL : alpha c = fuel_ratio ex_two_flow).
  { unfold burner in c3. rewrite T3, <- ex_compressed in c3. unfold fuel_ratio.
    assert (D : eta_burning * heating ex_two_flow - cB ex_two_flow * T_max ex_two_flow <> 0). { unfold cB, cp_of, eta_burning. cbn [T_max gB rB heating ex_two_flow]. lra. }
    apply Rmult_eq_reg_r with (eta_burning * heating ex_two_flow - cB ex_two_flow * T_max ex_two_flow); [|exact D].
    unfold Rdiv. rewrite Rmult_assoc, Rinv_l by exact D. lra. }
  pose proof ex_fuel as [B1 B2]. rewrite <- AL in B1, B2.
  assert (T5b : 1077 < Tt5 c).
  { unfold shaft in Sf. rewrite T3, T13e, ex_inlet in Sf. unfold core_air, fan_air, cA, cB, cp_of, eta_shaft in Sf. cbn [bypass air T_max gA rA gB rB ex_two_flow] in Sf.
    destruct (Rlt_dec 1077 (Tt5 c)) as [|Q]; [assumption|exfalso].
    assert (G : 332 <= (1 + alpha c) * (1400 - Tt5 c)). { apply Rle_trans with (1028 / 1000 * 323); [lra|]. apply Rmult_le_compat; lra. }
    set (g := (1 + alpha c) * (1400 - Tt5 c)) in *. replace (98 / 100 * (180 / (1 + 5) * (1 + alpha c) * (133 / 100 * (2916 / 10) / (133 / 100 - 1)) * (1400 - Tt5 c))) with (98 / 100 * 30 * (133 / 100 * (2916 / 10) / (133 / 100 - 1)) * g) in Sf by (unfold g; field).
    lra. }
  assert (PC : 8 < core_ratio ex_two_flow).
  { cbn [core_ratio ex_two_flow]. apply Rle_lt_trans with (Rpower 2 3); [|apply Rpower_lt; lra]. replace 3 with (INR 3) by (cbn; lra). rewrite Rpower_pow by lra. cbn. lra. }
  assert (P4b : 167200 < Pt4 c). { rewrite c4, c1. unfold xi_burner_loss. assert (8 * 22000 < core_ratio ex_two_flow * inlet_P ex_two_flow) by (apply Rmult_le_0_lt_compat; lra). lra. }
  assert (P5b : P_inf < Pt5 c * xi_nozzle_loss).
  { unfold P_inf, xi_nozzle_loss. destruct (Rlt_dec 22700 (Pt5 c * (97 / 100))) as [|Q]; [assumption|exfalso].
    unfold expansion in Ex. cbn [T_max gB ex_two_flow] in Ex. set (y := Pt5 c / Pt4 c) in *.
    assert (Y0 : 0 < y) by (apply Rdiv_lt_0_compat; lra).
    assert (Y1 : y < 14 / 100 * (1000 / 1000)). { unfold y. apply Rmult_lt_reg_r with (Pt4 c); [lra|]. unfold Rdiv at 1. rewrite Rmult_assoc, Rinv_l by lra. lra. }
    assert (Y2 : 10 / 13 < Tt5 c / 1400) by lra.
    assert (Y3 : Rpower y ((133 / 100 - 1) * eta_turbine / (133 / 100)) < Rpower y (1 / 5)).
    { unfold Rpower. apply exp_increasing. assert (ln y < 0) by (rewrite <- ln_1; apply ln_increasing; lra). unfold eta_turbine. nra. }
    assert (Y4 : Rpower y (1 / 5) < 10 / 13).
    { apply Rlt_le_trans with (Rpower (Rpower (10 / 13) 5) (1 / 5)).
      - apply Rlt_Rpower_l; [lra|]. split; [exact Y0|]. replace 5 with (INR 5) by (cbn; lra). rewrite Rpower_pow by lra. cbn [pow]. lra.
      - rewrite Rpower_mult. replace (5 * (1 / 5)) with 1 by lra. rewrite Rpower_1 by lra. lra. }
    lra. }
  assert (P13b : P_inf <= P13 * xi_nozzle_loss).
  { rewrite EP. unfold inlet_P, xi_nozzle_loss, xi_inlet_loss, P_inf. set (p := pres_ratio (gA ex_two_flow) Mach_inf) in *.
    assert (1331 / 1000 * 1 <= x * p) by (apply Rmult_le_compat; lra). replace (x * (97 / 100 * (22700 * p)) * (97 / 100)) with (97 / 100 * (97 / 100) * 22700 * (x * p)) by ring. lra. }
  destruct (N ltac:(lra) P13b) as (M9 & V9 & M19 & V19 & h9 & hV9 & h19 & hV19 & n9 & n19 & Pf).
  exists o, (alpha c), V9, V19. split; [now left|]. destruct Sh as (_ & _ & _ & _ & _ & _ & _ & ha & _). split; [exact ha|]. split; [exact hV9|]. split; [exact hV19|]. split; [lra|]. split; [|exact Pf].
  destruct n9 as (z1 & z2 & z3 & z4). destruct (Rle_lt_or_eq_dec 0 V9 z4) as [|Z]; [assumption|exfalso]. rewrite <- Z in z3.
  pose proof (temp_ratio_pos (gB ex_two_flow) M9 ltac:(cbn [gB ex_two_flow]; lra)) as tp. set (t := temp_ratio (gB ex_two_flow) M9) in *.
  assert (Z3 : Tt5 c - Tt5 c / t = 0). { assert (CPs : cp_of (gB ex_two_flow) (rB ex_two_flow) <> 0) by (unfold cp_of; cbn [gB rB ex_two_flow]; lra). apply Rmult_eq_reg_l with (2 * cp_of (gB ex_two_flow) (rB ex_two_flow)); [|lra]. lra. }
  assert (T1 : t = 1). { assert (Z4 : Tt5 c * t = Tt5 c). { assert (Tt5 c / t = Tt5 c) by lra. rewrite <- H at 1. field. lra. } apply Rmult_eq_reg_l with (Tt5 c); lra. }
  unfold pres_ratio in z2. fold t in z2. rewrite T1 in z2. unfold Rpower in z2. rewrite ln_1, Rmult_0_r, exp_0 in z2.
  assert (Pt5 c * xi_nozzle_loss = P_inf). { replace (Pt5 c * xi_nozzle_loss) with (Pt5 c * xi_nozzle_loss / P_inf * P_inf) by (field; unfold P_inf; lra). rewrite z2. ring. } lra.
Qed.
(*@E C75_example: Example: the engine of C74_example meets the hypotheses of both refutations: it burns fuel and its core jet moves, so its reported thrust is below the momentum balance. *)
Lemma C75_example_lemma : exists x o a V9 V19 F, sensible ex_two_flow /\ completed ex_two_flow 0 x o /\ has (attrs o) "alpha" a /\ has (attrs o) "V9" V9 /\
  has (attrs o) "V19" V19 /\ has (attrs o) "F" F /\ F < thrust ex_two_flow a V9 V19.
Proof.
  destruct ex_fixed as (x & _ & S & _ & o & a & V9 & V19 & C & A & H9 & H19 & Pa & P9 & Pf).
  destruct Pf as (HF & _). exists x, o, a, V9, V19, (thrust_without_fuel ex_two_flow V9 V19). repeat (split; [assumption|]).
  destruct (thrust_refuted _ _ _ _ _ _ _ _ S C A H9 H19 HF) as [E _]. rewrite E.
  pose proof (sensible_facts _ S) as (_ & _ & f3 & _). assert (0 < a * core_air ex_two_flow * V9) by (apply Rmult_lt_0_compat; [apply Rmult_lt_0_compat|]; assumption || lra). lra.
Qed.
