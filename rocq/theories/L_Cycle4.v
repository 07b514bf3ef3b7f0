(** * C74, C75: the stations and the performance of the turbofan cycle classes *)
From Coq Require Import String.
From Verif Require Import Num L_Num M_Isentropic M_Obj L_Obj M_Engine M_Cycle EngineSpec CycleSpec L_Engine L_Engine2 L_Cycle L_Cycle2 L_Cycle3.
Open Scope R_scope.

Definition gas_of (g r pk : R) : gaz := {| gz_gamma := Some g; gz_r := Some r; gz_P_k := Some pk |}.
(** constructor arguments of the two classes for the engine e *)
Definition fixe_of (e : two_flow) (pkA x : R) : fixe_args :=
  (Some (bypass e), Some (core_ratio e), Some (T_max e), Some (air e), gas_of (gA e) (rA e) pkA, gas_of (gB e) (rB e) (heating e), Some x).

Ltac init_values A := unfold fixe_of, fixe_init, calc_init, init_fixe, init_calcule, init_1_to_4, class_attrs, attrs_with, gaz_init, gas_of in A; cbn [gz_gamma gz_r gz_P_k append app] in A.

(** the part common to both classes *)
Definition common : prog := app (code InitialValues) (app (code stage_2) (app (code stage_3) (code stage_4))).
Lemma core_values o e pkA x : sensible e -> holds (fixe_init (fixe_of e pkA x)) o \/ holds (calc_init (fixe_of e pkA x)) o -> holds common o ->
  has o "P0" P_inf /\ has o "V0" (flight_speed e) /\ has o "Tt2" (inlet_T e) /\ has o "Pt2" (inlet_P e) /\ has o "m_c" (core_air e) /\ has o "Tt3" (compressed_T e) /\
  has o "Pt3" (core_ratio e * inlet_P e) /\ has o "wu_c" (core_air e * cA e * (compressed_T e - inlet_T e)) /\ has o "m_k" (fuel_ratio e * core_air e) /\
  has o "alpha" (fuel_ratio e) /\ has o "Pt4" (xi_burner_loss * (core_ratio e * inlet_P e)) /\ has o "Tt4" (T_max e) /\
  has o "m" (air e) /\ has o "lambda_" (bypass e) /\ has o "g.gamma" (gA e) /\ has o "g.r" (rA e) /\ has o "g_fuel.gamma" (gB e) /\ has o "g_fuel.r" (rB e) /\ has o "g_fuel.P_k" (heating e) /\
  has o "g.gmusg" ((gA e - 1) / gA e) /\ has o "g.gsgmu" (gA e / (gA e - 1)) /\ has o "g_fuel.gmusg" ((gB e - 1) / gB e) /\ has o "g_fuel.gsgmu" (gB e / (gB e - 1)) /\
  has o "eta_c" eta_compressor /\ has o "eta_f" eta_fan /\ has o "eta_m" eta_shaft /\ has o "eta_turb" eta_turbine /\ has o "xi_tuy" xi_nozzle_loss.
Proof.
  intros S A B. destruct S as (s1 & s2 & s3 & s4 & s5 & s6 & s7 & s8 & s9 & s10).
  unfold common in B. cbn [code InitialValues stage_2 stage_3 stage_4 app] in B.
  assert (A' : holds (app (class_attrs) (app [("lambda_", L (Some (bypass e))); ("pi_c", L (Some (core_ratio e))); ("Tt4", L (Some (T_max e))); ("m", L (Some (air e)))]%string
     (app (gaz_init "g" (gas_of (gA e) (rA e) pkA)) (gaz_init "g_fuel" (gas_of (gB e) (rB e) (heating e)))))) o).
  { destruct A as [A|A]; unfold fixe_init, calc_init, fixe_of, init_fixe, init_calcule, init_1_to_4 in A; apply holds_app in A; destruct A as [A _]; exact A. }
  clear A. rename A' into A. unfold class_attrs, attrs_with, gaz_init, gas_of in A. cbn [gz_gamma gz_r gz_P_k append app] in A.
  spread A. cbn [eval nsub] in *. rewrite !ndiv_Some in * by lra. spread B.
  pose proof (temp_ratio_pos (gA e) Mach_inf s5) as TP.
  assert (TT : 0 < inlet_T e) by (unfold inlet_T, T_inf; lra).
  value o "Pt0"%string (Some (P_inf * pres_ratio (gA e) Mach_inf)) ltac:(rewrite PtPs_spec by lra; reflexivity).
  value o "Tt0"%string (Some (inlet_T e)) ltac:(rewrite TtTs_spec; reflexivity).
  value o "V0"%string (Some (flight_speed e)) ltac:(cbn [nmul]; rewrite nsqrt_Some; [reflexivity|left; apply Rmult_lt_0_compat; [apply Rmult_lt_0_compat; lra|lra]]).
  value o "Tt2"%string (Some (inlet_T e)) reflexivity.
  value o "Pt2"%string (Some (inlet_P e)) ltac:(cbn [nmul]; f_equal; unfold inlet_P, xi_inlet_loss; ring).
  value o "m_c"%string (Some (core_air e)) ltac:(cbn [nadd]; rewrite ndiv_Some by lra; f_equal; unfold core_air; f_equal; ring).
  assert (MC : 0 < core_air e) by (unfold core_air; apply Rdiv_lt_0_compat; lra).
  value o "Tt3"%string (Some (compressed_T e)) ltac:(rewrite ndiv_Some by lra; rewrite npow_Some by lra; cbn [nmul]; f_equal; unfold compressed_T, eta_compressor; do 2 f_equal; field; lra).
  value o "Pt3"%string (Some (core_ratio e * inlet_P e)) ltac:(cbn [nmul]; f_equal; ring).
  assert (CA : rA e * gA e / (gA e - 1) = cA e) by (unfold cA, cp_of; field; lra).
  assert (CB : rB e * gB e / (gB e - 1) = cB e) by (unfold cB, cp_of; field; lra).
  value o "wu_c"%string (Some (core_air e * cA e * (compressed_T e - inlet_T e))) ltac:(cbn [nmul nsub]; rewrite !ndiv_Some by lra; cbn [nmul]; now rewrite CA).
  assert (DD : eta_burning * heating e - cB e * T_max e <> 0) by lra.
  value o "m_k"%string (Some (fuel_ratio e * core_air e)) ltac:(cbn [nmul nsub]; rewrite !(ndiv_Some _ (gA e - 1)), !(ndiv_Some _ (gB e - 1)) by lra; cbn [nmul nsub]; rewrite CA, CB; rewrite ndiv_Some by exact DD; cbn [nmul]; f_equal; unfold fuel_ratio, eta_burning; ring).
  value o "alpha"%string (Some (fuel_ratio e)) ltac:(rewrite ndiv_Some by lra; f_equal; field; lra).
  value o "Pt4"%string (Some (xi_burner_loss * (core_ratio e * inlet_P e))) ltac:(cbn [nmul]; f_equal; unfold xi_burner_loss; ring).
  unfold has. repeat split; assumption.
Qed.
Lemma sensible_facts e : sensible e -> 0 < inlet_T e /\ 0 < inlet_P e /\ 0 < core_air e /\ 0 < fan_air e /\ 0 < compressed_T e /\ 0 < cA e /\ 0 < cB e /\ 0 < 1 + fuel_ratio e /\
  burner (cA e) (cB e) eta_burning (heating e) (fuel_ratio e) (compressed_T e) (T_max e) /\
  compression (gA e) eta_compressor (inlet_P e) (inlet_T e) (core_ratio e * inlet_P e) (compressed_T e).
Proof.
  intros (s1 & s2 & s3 & s4 & s5 & s6 & s7 & s8 & s9 & s10).
  pose proof (temp_ratio_pos (gA e) Mach_inf s5) as TP. pose proof (Rpower_pos (temp_ratio (gA e) Mach_inf) (gA e / (gA e - 1))) as PP. fold (pres_ratio (gA e) Mach_inf) in PP.
  assert (A1 : 0 < inlet_T e) by (unfold inlet_T, T_inf; lra). assert (A2 : 0 < inlet_P e) by (unfold inlet_P, xi_inlet_loss, P_inf; lra).
  assert (A3 : 0 < core_air e) by (unfold core_air; apply Rdiv_lt_0_compat; lra).
  assert (A4 : 0 < fan_air e) by (unfold fan_air; apply Rdiv_lt_0_compat; [apply Rmult_lt_0_compat|]; lra).
  assert (A5 : 0 < compressed_T e) by (unfold compressed_T; apply Rmult_lt_0_compat; [lra|apply Rpower_pos]).
  assert (A6 : 0 < cA e). { unfold cA, cp_of. apply Rdiv_lt_0_compat; nra. }
  assert (A7 : 0 < cB e). { unfold cB, cp_of. apply Rdiv_lt_0_compat; nra. }
  assert (A8 : 1 + fuel_ratio e = (eta_burning * heating e - cA e * compressed_T e) / (eta_burning * heating e - cB e * T_max e)) by (unfold fuel_ratio; field; lra).
  repeat (split; [assumption|]). split; [rewrite A8; apply Rdiv_lt_0_compat; lra|]. split.
  - unfold burner, fuel_ratio. field. lra.
  - unfold compression. replace (core_ratio e * inlet_P e / inlet_P e) with (core_ratio e) by (field; lra). unfold compressed_T. field. lra.
Qed.
(** turbine between the stations (p1, t1) and the temperature t2 *)
Lemma turbine_expansion g p1 t1 t2 : 1 < g -> 0 < p1 -> 0 < t1 -> 0 < t2 ->
  expansion g eta_turbine p1 t1 (p1 / Rpower (t1 / t2) (g / (g - 1) / eta_turbine)) t2 /\ 0 < p1 / Rpower (t1 / t2) (g / (g - 1) / eta_turbine).
Proof.
  intros G P1 T1 T2. pose proof (Rpower_pos (t1 / t2) (g / (g - 1) / eta_turbine)) as Q. split; [|apply Rdiv_lt_0_compat; lra].
  unfold expansion. replace (p1 / Rpower (t1 / t2) (g / (g - 1) / eta_turbine) / p1) with (/ Rpower (t1 / t2) (g / (g - 1) / eta_turbine)) by (field; lra).
  assert (I : forall u v, 0 < u -> / Rpower u v = Rpower (/ u) v). { intros u v U. unfold Rpower. rewrite ln_Rinv by lra. rewrite <- exp_Ropp. f_equal. ring. }
  assert (R0 : 0 < t1 / t2) by (apply Rdiv_lt_0_compat; lra). rewrite I by exact R0. rewrite Rpower_mult.
  replace (g / (g - 1) / eta_turbine * ((g - 1) * eta_turbine / g)) with 1 by (unfold eta_turbine; field; lra).
  rewrite Rpower_1 by now apply Rinv_0_lt_compat. field. lra.
Qed.

(** what perfo leaves *)
Definition performance (o : obj) (e : two_flow) (a V9 V19 : R) : Prop :=
  let F := thrust_without_fuel e V9 V19 in
  has o "F" F /\ has o "F_spe" (F / air e) /\
  (F <> 0 -> has o "mk_spe" (10 * grams_per_kN (a * core_air e) F)) /\
  (a * heating e <> 0 -> has o "eta_th" (kinetic_power e a V9 V19 / (heating e * (a * core_air e)))) /\
  (kinetic_power e a V9 V19 <> 0 -> has o "eta_prop" (F * flight_speed e / kinetic_power e a V9 V19)) /\
  (a * heating e <> 0 -> kinetic_power e a V9 V19 <> 0 -> has o "eta" (F * flight_speed e / (heating e * (a * core_air e)))).
Lemma performance_values o e V9 V19 Fc Ff : sensible e -> has o "m_c" (core_air e) -> has o "m_f" (fan_air e) -> has o "V0" (flight_speed e) -> has o "m" (air e) ->
  has o "m_k" (fuel_ratio e * core_air e) -> has o "alpha" (fuel_ratio e) -> has o "g_fuel.P_k" (heating e) -> has o "V9" V9 -> has o "V19" V19 ->
  has o "F_c" Fc -> has o "F_f" Ff -> Fc = core_air e * (V9 - flight_speed e) -> Ff = fan_air e * (V19 - flight_speed e) ->
  holds (code perfo) o -> performance o e (fuel_ratio e) V9 V19.
Proof.
  intros S h1 h2 h3 h4 h5 h6 h7 h8 h9 h10 h11 q1 q2 H. pose proof (sensible_facts e S) as (f1 & f2 & f3 & f4 & _). destruct S as (s1 & s2 & s3 & s4 & _).
  unfold has in *. cbn [code perfo] in H. spread H. set (F := thrust_without_fuel e V9 V19). set (K := kinetic_power e (fuel_ratio e) V9 V19).
  value o "F"%string (Some F) ltac:(cbn [nadd]; f_equal; subst Fc Ff; unfold F, thrust_without_fuel; ring).
  value o "F_spe"%string (Some (F / air e)) ltac:(rewrite ndiv_Some by lra; reflexivity).
  unfold performance, has. cbv zeta. fold F K.
  solo o "mk_spe"%string. solo o "eta_th"%string. solo o "eta_prop"%string. solo o "eta"%string.
  cbn [nmul nadd nsub npowi] in *.
  match goal with H : o "eta_th"%string = Some (ndiv (Some ?u) (Some ?v)) |- _ => replace u with K in *; [|unfold K, kinetic_power; field] end.
  split; [assumption|]. split; [assumption|].
  assert (Hq : fuel_ratio e * heating e <> 0 -> heating e * (fuel_ratio e * core_air e) <> 0).
  { intros N. apply Rmult_neq_0_reg in N. destruct N. apply Rmult_integral_contrapositive. split; [assumption|]. apply Rmult_integral_contrapositive. split; [assumption|lra]. }
  split; [|split; [|split]].
  - intros N. match goal with H : o "mk_spe"%string = _ |- _ => rewrite H end. rewrite ndiv_Some by exact N. cbn [nmul]. do 2 f_equal. unfold grams_per_kN. field. exact N.
  - intros N. match goal with H : o "eta_th"%string = _ |- _ => rewrite H end. now rewrite ndiv_Some by now apply Hq.
  - intros N. match goal with H : o "eta_prop"%string = _ |- _ => rewrite H end. now rewrite ndiv_Some by exact N.
  - intros N1 N2. match goal with H : o "eta"%string = _ |- _ => rewrite H end. rewrite !ndiv_Some by (first [exact N2|now apply Hq]). cbn [nmul]. do 2 f_equal. specialize (Hq N1).
    apply Rmult_neq_0_reg in Hq. destruct Hq as [Q1 Q2]. apply Rmult_neq_0_reg in Q2. destruct Q2 as [Q2 Q3]. field. repeat split; assumption.
Qed.

Definition fan_T (e : two_flow) (eta x : R) : R := inlet_T e * Rpower x ((gA e - 1) / (gA e * eta)).
(*@P C74_fixed_fan_partial: cycle_taux_fan_fixe, for all arguments and gases in the sensible range and a turbine able to drive compressor and fan: the computed object shows the flight conditions, the split of the mass flow, polytropic compression, combustor energy balance with efficiency eta_comb and pressure loss, shaft balance with losses over compressor and fan, polytropic turbine expansion; and, when both nozzles discharge above ambient pressure, their adapted isentropic expansions and the performance formulas. PARTIAL: the fan compression holds with the efficiency of the compressor (see C62_propu_be_refuted); the thrust leaves out the fuel and the consumption is ten times the printed unit (C75). *)
Lemma fixed_fan : forall e pkA x, sensible e -> 0 < x ->
  cA e * (compressed_T e - inlet_T e) + bypass e * cA e * (fan_T e eta_compressor x - inlet_T e) < eta_shaft * (1 + fuel_ratio e) * cB e * T_max e ->
  exists o c Tt13 Pt13, computed (fixe_init (fixe_of e pkA x)) fixe_5_to_9 = Some o /\ core_shows (attrs o) e c /\ core_cycle e c /\
  has (attrs o) "Tt13" Tt13 /\ has (attrs o) "Pt13" Pt13 /\ Pt13 = x * inlet_P e /\ compression (gA e) eta_compressor (inlet_P e) (inlet_T e) Pt13 Tt13 /\
  shaft e c (core_air e * cA e * (Tt3 c - inlet_T e) + fan_air e * cA e * (Tt13 - inlet_T e)) /\
  expansion (gB e) eta_turbine (Pt4 c) (T_max e) (Pt5 c) (Tt5 c) /\ 0 < Tt5 c /\ 0 < Pt5 c /\ 0 < 1 + alpha c /\
  (P_inf <= Pt5 c * xi_nozzle_loss -> P_inf <= Pt13 * xi_nozzle_loss ->
   exists M9 V9 M19 V19, has (attrs o) "M9" M9 /\ has (attrs o) "V9" V9 /\ has (attrs o) "M19" M19 /\ has (attrs o) "V19" V19 /\
   nozzle (gB e) (rB e) (Pt5 c * xi_nozzle_loss) (Tt5 c) P_inf M9 V9 /\ nozzle (gA e) (rA e) (Pt13 * xi_nozzle_loss) Tt13 P_inf M19 V19 /\
   performance (attrs o) e (alpha c) V9 V19).
Proof.
  intros e pkA x S X Fe. pose proof (sensible_facts e S) as (f1 & f2 & f3 & f4 & f5 & f6 & f7 & f8 & f9 & f10).
  destruct (fixe_complete (fixe_of e pkA x)) as (o & o0 & fresh & Rf & _ & _ & _ & Cf & Wf & _).
  destruct (fixe_lasting _ _ Rf) as [A B].
  assert (Bc : holds common o). { unfold holds in *. rewrite List.Forall_forall in *. intros ae J. apply B. unfold common, fixe_all in *. rewrite !in_app_iff in *. tauto. }
  destruct (core_values o e pkA x S (or_introl A) Bc) as (v1 & v2 & v3 & v4 & v5 & v6 & v7 & v8 & v9 & v10 & v11 & v12 & v13 & v14 & v15 & v16 & v17 & v18 & v19 & v20 & v21 & v22 & v23 & v24 & v25 & v26 & v27 & v28).
  assert (Px : o "pi_f"%string = Some (Some x)). { unfold holds in A. rewrite List.Forall_forall in A. apply (A ("pi_f"%string, L (Some x))). unfold fixe_init, fixe_of, init_fixe. apply in_or_app. right. left. reflexivity. }
  assert (B' : holds (app (code fixe_stage_13) (app (code stage_19) (app (code fixe_stage_5) (app (code fixe_stage_9) (code perfo))))) o).
  { unfold fixe_all in B. do 4 (apply holds_app in B; destruct B as [_ B]). exact B. }
  rewrite !app_assoc in B'. apply holds_app in B'. destruct B' as [B' Bp]. cbn [code fixe_stage_13 stage_19 fixe_stage_5 fixe_stage_9 core_nozzle app] in B'. clear B A Bc.
  destruct S as (s1 & s2 & s3 & s4 & s5 & s6 & s7 & s8 & s9 & s10). assert (S : sensible e) by (unfold sensible; tauto).
  spread B'. unfold has in v1, v2, v3, v4, v5, v6, v7, v8, v9, v10, v11, v12, v13, v14, v15, v16, v17, v18, v19, v20, v21, v22, v23, v24, v25, v26, v27, v28.
  assert (CA : rA e * gA e / (gA e - 1) = cA e) by (unfold cA, cp_of; field; lra).
  assert (CB : rB e * gB e / (gB e - 1) = cB e) by (unfold cB, cp_of; field; lra).
  set (T13 := fan_T e eta_compressor x) in *. set (T3 := compressed_T e) in *. set (al := fuel_ratio e) in *.
  assert (P13 : 0 < T13) by (unfold T13, fan_T; apply Rmult_lt_0_compat; [lra|apply Rpower_pos]).
  value o "m_f"%string (Some (fan_air e)) ltac:(cbn [nmul nadd]; rewrite ndiv_Some by lra; f_equal; unfold fan_air; f_equal; ring).
  value o "Tt13"%string (Some T13) ltac:(rewrite ndiv_Some by (unfold eta_compressor; lra); rewrite npow_Some by lra; cbn [nmul]; f_equal; unfold T13, fan_T, eta_compressor; do 2 f_equal; field; lra).
  value o "Pt13"%string (Some (x * inlet_P e)) ltac:(cbn [nmul]; f_equal; ring).
  value o "wu_f"%string (Some (fan_air e * cA e * (T13 - inlet_T e))) ltac:(cbn [nmul nsub]; rewrite !ndiv_Some by lra; cbn [nmul]; now rewrite CA).
  set (D := core_air e * (1 + al) * cB e * eta_shaft).
  assert (PD : 0 < D). { unfold D, eta_shaft. apply Rmult_lt_0_compat; [|lra]. apply Rmult_lt_0_compat; [|exact f7]. apply Rmult_lt_0_compat; assumption. }
  set (T5 := T_max e - (fan_air e * cA e * (T13 - inlet_T e) + core_air e * cA e * (T3 - inlet_T e)) / D).
  value o "Tt5"%string (Some T5) ltac:(cbn [nadd nmul nsub]; rewrite !(ndiv_Some _ (gB e - 1)) by lra; rewrite CB; cbn [nmul nadd nsub]; fold D; rewrite ndiv_Some by lra; reflexivity).
  assert (FA : fan_air e = bypass e * core_air e) by (unfold fan_air, core_air; field; lra).
  assert (P5 : 0 < T5).
  { unfold T5. assert ((fan_air e * cA e * (T13 - inlet_T e) + core_air e * cA e * (T3 - inlet_T e)) / D < T_max e); [|lra].
    apply Rmult_lt_reg_r with D; [exact PD|]. unfold Rdiv. rewrite Rmult_assoc, Rinv_l by lra. rewrite Rmult_1_r, FA.
    apply Rle_lt_trans with (core_air e * (cA e * (T3 - inlet_T e) + bypass e * cA e * (T13 - inlet_T e))); [right; ring|].
    apply Rlt_le_trans with (core_air e * (eta_shaft * (1 + al) * cB e * T_max e)); [apply Rmult_lt_compat_l; assumption|right; unfold D; ring]. }
  set (pit := Rpower (T_max e / T5) (gB e / (gB e - 1) / eta_turbine)).
  assert (PQ : 0 < T_max e / T5) by (apply Rdiv_lt_0_compat; lra).
  value o "pi_t"%string (Some pit) ltac:(rewrite !ndiv_Some by (unfold eta_turbine; lra); rewrite npow_Some by exact PQ; reflexivity).
  set (p4 := xi_burner_loss * (core_ratio e * inlet_P e)).
  assert (P4 : 0 < p4). { unfold p4, xi_burner_loss. apply Rmult_lt_0_compat; [lra|]. apply Rmult_lt_0_compat; assumption. }
  assert (Ppit : 0 < pit) by apply Rpower_pos.
  value o "Pt5"%string (Some (p4 / pit)) ltac:(rewrite ndiv_Some by lra; reflexivity).
  destruct (turbine_expansion (gB e) p4 (T_max e) T5 s6 P4 s3 P5) as [X1 X2]. fold pit in X1, X2.
  exists fresh, {| Tt3 := T3; Pt3 := core_ratio e * inlet_P e; alpha := al; Pt4 := p4; Tt5 := T5; Pt5 := p4 / pit |}, T13, (x * inlet_P e).
  split; [exact Cf|]. cbn [Tt3 Pt3 alpha Pt4 Tt5 Pt5].
  assert (Tr : forall y v, mem y (writes fixe_all) = true -> has o y v -> has (attrs fresh) y v).
  { intros y v I Hv. unfold has in *. rewrite Wf; [exact Hv|now apply mem_in]. }
  split. { unfold core_shows. cbn [Tt3 Pt3 alpha Pt4 Tt5 Pt5]. repeat split; apply Tr; try reflexivity; unfold has; assumption. }
  split. { unfold core_cycle. cbn [Tt3 Pt3 alpha Pt4 Tt5 Pt5]. repeat (split; [first [reflexivity|assumption]|]). reflexivity. }
  split; [apply Tr; [reflexivity|assumption]|]. split; [apply Tr; [reflexivity|assumption]|]. split; [reflexivity|].
  split. { unfold compression. replace (x * inlet_P e / inlet_P e) with x by (field; lra). unfold T13, fan_T. field. lra. }
  split. { unfold shaft. cbn [Tt5 alpha]. replace (eta_shaft * (core_air e * (1 + al) * cB e * (T_max e - T5))) with (D * (T_max e - T5)) by (unfold D; ring). unfold T5. field. lra. }
  split; [exact X1|]. split; [exact P5|]. split; [exact X2|]. split; [exact f8|]. intros N9 N19.
  value o "Pt9"%string (Some (p4 / pit * xi_nozzle_loss)) reflexivity. value o "Tt9"%string (Some T5) reflexivity. value o "P9"%string (Some P_inf) reflexivity.
  value o "Pt19"%string (Some (x * inlet_P e * xi_nozzle_loss)) reflexivity. value o "Tt19"%string (Some T13) reflexivity. value o "P19"%string (Some P_inf) reflexivity.
  solo o "M9"%string. solo o "M19"%string.
  destruct (nozzle_spec o "M9" "V9" (gB e) (rB e) (p4 / pit * xi_nozzle_loss) T5 P_inf s6 s8 P5) as (M9 & V9 & N1 & N2 & N3); [unfold P_inf; lra|exact N9|assumption| |].
  { intros mm Hm. unfold has in Hm. match goal with H : o "V9"%string = eval _ _ |- _ => rewrite H end. cbn [eval]. rewrite Hm, v17, v18. match goal with H : o "Tt9"%string = _ |- _ => rewrite H end. reflexivity. }
  destruct (nozzle_spec o "M19" "V19" (gA e) (rA e) (x * inlet_P e * xi_nozzle_loss) T13 P_inf s5 s7 P13) as (M19 & V19 & N4 & N5 & N6); [unfold P_inf; lra|exact N19|assumption| |].
  { intros mm Hm. unfold has in Hm. match goal with H : o "V19"%string = eval _ _ |- _ => rewrite H end. cbn [eval]. rewrite Hm, v15, v16. match goal with H : o "Tt19"%string = _ |- _ => rewrite H end. reflexivity. }
  exists M9, V9, M19, V19. do 4 (split; [apply Tr; [reflexivity|assumption]|]). split; [exact N3|]. split; [exact N6|].
  unfold has in N2, N5. repeat match goal with H : o "V9"%string = eval _ _ |- _ => clear H | H : o "V19"%string = eval _ _ |- _ => clear H end.
  value o "F_c"%string (Some (core_air e * (V9 - flight_speed e))) reflexivity. value o "F_f"%string (Some (fan_air e * (V19 - flight_speed e))) reflexivity.
  destruct (performance_values o e V9 V19 (core_air e * (V9 - flight_speed e)) (fan_air e * (V19 - flight_speed e)) S) as (q1 & q2 & q3 & q4 & q5 & q6); try eassumption; try reflexivity.
  unfold performance. cbv zeta. repeat split; intros; apply Tr; try reflexivity; auto.
Qed.

(** the temperature after the compressor turbine, its pressure, and after an ideal expansion of this gas to ambient pressure *)
Definition T_between (e : two_flow) : R := T_max e - cA e * (compressed_T e - inlet_T e) / ((1 + fuel_ratio e) * cB e * eta_shaft).
Definition calc_of (e : two_flow) (pkA taux : R) : fixe_args := fixe_of e pkA taux.

(*@P C74_computed_fan: cycle_taux_fan_calcule, for all arguments and gases in the sensible range, a turbine able to drive the compressor and a mechanical ratio in [0, 1]: flight conditions, split of the mass flow, compression, combustor balance; the compressor turbine (shaft balance, polytropic expansion to Tt4_etoile, Pt4_etoile); the fan turbine takes the fraction taux_meca of the ideal power of an expansion from there to ambient pressure and expands polytropically to Tt5, Pt5; when Pt4_etoile is at least the ambient pressure, its power after losses heats the fan flow, compressed with the polytropic efficiency of the fan; and, when both nozzles discharge above ambient, their isentropic expansions and the performance formulas (thrust without the fuel and consumption: see C75). *)
Lemma computed_fan : forall e pkA taux, sensible e -> 0 <= taux <= 1 -> 0 < T_between e ->
  exists o c T4s P4s, computed (calc_init (calc_of e pkA taux)) calc_5_to_9 = Some o /\ core_cycle e c /\
  has (attrs o) "Tt3" (Tt3 c) /\ has (attrs o) "Pt3" (Pt3 c) /\ has (attrs o) "alpha" (alpha c) /\ has (attrs o) "Pt4" (Pt4 c) /\ has (attrs o) "Tt5" (Tt5 c) /\ has (attrs o) "Pt5" (Pt5 c) /\
  has (attrs o) "Tt4_etoile" T4s /\ has (attrs o) "Pt4_etoile" P4s /\
  eta_shaft * (core_air e * (1 + alpha c) * cB e * (T_max e - T4s)) = core_air e * cA e * (Tt3 c - inlet_T e) /\
  expansion (gB e) eta_turbine (Pt4 c) (T_max e) P4s T4s /\ 0 < T4s /\ 0 < P4s /\
  (let fan_power := core_air e * (1 + alpha c) * cB e * (T4s - Tt5 c) in
   fan_power = taux * (core_air e * (1 + alpha c) * cB e * T4s * (1 - Rpower (P_inf / P4s) ((gB e - 1) / gB e))) /\
   expansion (gB e) eta_turbine P4s T4s (Pt5 c) (Tt5 c) /\ 0 < Tt5 c /\ 0 < Pt5 c /\
   (P_inf <= P4s ->
    exists Tt13 Pt13, core_shows (attrs o) e c /\ has (attrs o) "Tt13" Tt13 /\ has (attrs o) "Pt13" Pt13 /\
    fan_air e * cA e * (Tt13 - inlet_T e) = eta_shaft * fan_power /\
    compression (gA e) eta_fan (inlet_P e) (inlet_T e) Pt13 Tt13 /\
    (P_inf <= Pt5 c * xi_nozzle_loss -> P_inf <= Pt13 * xi_nozzle_loss ->
     exists M9 V9 M19 V19, has (attrs o) "M9" M9 /\ has (attrs o) "V9" V9 /\ has (attrs o) "M19" M19 /\ has (attrs o) "V19" V19 /\
     nozzle (gB e) (rB e) (Pt5 c * xi_nozzle_loss) (Tt5 c) P_inf M9 V9 /\ nozzle (gA e) (rA e) (Pt13 * xi_nozzle_loss) Tt13 P_inf M19 V19 /\
     performance (attrs o) e (alpha c) V9 V19))).
Proof.
  intros e pkA taux S X Fe. pose proof (sensible_facts e S) as (f1 & f2 & f3 & f4 & f5 & f6 & f7 & f8 & f9 & f10). unfold calc_of.
  destruct (calc_complete (fixe_of e pkA taux)) as (o & o0 & fresh & Rf & _ & _ & _ & Cf & Wf & _).
  destruct (calc_lasting _ _ Rf) as [A B].
  assert (Bc : holds common o). { unfold holds in *. rewrite List.Forall_forall in *. intros ae J. apply B. unfold common, calc_all in *. rewrite !in_app_iff in *. tauto. }
  destruct (core_values o e pkA taux S (or_intror A) Bc) as (v1 & v2 & v3 & v4 & v5 & v6 & v7 & v8 & v9 & v10 & v11 & v12 & v13 & v14 & v15 & v16 & v17 & v18 & v19 & v20 & v21 & v22 & v23 & v24 & v25 & v26 & v27 & v28).
  assert (Px : o "taux_meca"%string = Some (Some taux)). { unfold holds in A. rewrite List.Forall_forall in A. apply (A ("taux_meca"%string, L (Some taux))). unfold calc_init, fixe_of, init_calcule. apply in_or_app. right. left. reflexivity. }
  assert (B' : holds (app (code calc_stage_4_etoile) (app (code calc_stage_5) (app (code calc_stage_9) (app (code calc_stage_13) (app (code stage_19) (code perfo)))))) o).
  { unfold calc_all in B. do 4 (apply holds_app in B; destruct B as [_ B]). exact B. }
  rewrite !app_assoc in B'. apply holds_app in B'. destruct B' as [B' Bp]. cbn [code calc_stage_4_etoile calc_stage_13 stage_19 calc_stage_5 calc_stage_9 core_nozzle app] in B'. clear B A Bc.
  destruct S as (s1 & s2 & s3 & s4 & s5 & s6 & s7 & s8 & s9 & s10). assert (S : sensible e) by (unfold sensible; tauto).
  spread B'. unfold has in v1, v2, v3, v4, v5, v6, v7, v8, v9, v10, v11, v12, v13, v14, v15, v16, v17, v18, v19, v20, v21, v22, v23, v24, v25, v26, v27, v28.
  assert (CA : rA e * gA e / (gA e - 1) = cA e) by (unfold cA, cp_of; field; lra).
  assert (CB : rB e * gB e / (gB e - 1) = cB e) by (unfold cB, cp_of; field; lra).
  set (T3 := compressed_T e) in *. set (al := fuel_ratio e) in *. set (T4s := T_between e) in *.
  set (D := core_air e * (1 + al) * cB e). assert (PD : 0 < D). { unfold D. apply Rmult_lt_0_compat; [|exact f7]. apply Rmult_lt_0_compat; assumption. }
  assert (PDs : 0 < D * eta_shaft) by (unfold eta_shaft; lra).
  value o "Tt4_etoile"%string (Some T4s) ltac:(cbn [nadd nmul nsub]; rewrite !(ndiv_Some _ (gB e - 1)) by lra; rewrite CB; cbn [nmul nadd nsub]; fold D; rewrite ndiv_Some by lra; cbn [nsub]; f_equal; unfold T4s, T_between, D; fold T3 al; field; unfold eta_shaft; repeat split; lra).
  set (pit := Rpower (T_max e / T4s) (gB e / (gB e - 1) / eta_turbine)).
  assert (PQ : 0 < T_max e / T4s) by (apply Rdiv_lt_0_compat; lra).
  value o "pi_t_c"%string (Some pit) ltac:(rewrite !ndiv_Some by (unfold eta_turbine; lra); rewrite npow_Some by exact PQ; reflexivity).
  set (p4 := xi_burner_loss * (core_ratio e * inlet_P e)).
  assert (P4 : 0 < p4). { unfold p4, xi_burner_loss. apply Rmult_lt_0_compat; [lra|]. apply Rmult_lt_0_compat; assumption. }
  assert (Ppit : 0 < pit) by apply Rpower_pos.
  value o "Pt4_etoile"%string (Some (p4 / pit)) ltac:(rewrite ndiv_Some by lra; reflexivity).
  destruct (turbine_expansion (gB e) p4 (T_max e) T4s s6 P4 s3 Fe) as [X1 X2]. fold pit in X1, X2. set (P4s := p4 / pit) in *.
  set (z := Rpower (P_inf / P4s) ((gB e - 1) / gB e)). assert (Pz : 0 < z) by apply Rpower_pos.
  assert (Pr : 0 < P_inf / P4s) by (apply Rdiv_lt_0_compat; [unfold P_inf; lra|exact X2]).
  value o "wu_fan"%string (Some (D * (T4s * z - T4s) * taux)) ltac:(cbn [nadd nmul nsub]; rewrite !(ndiv_Some _ (gB e - 1)) by lra; rewrite (ndiv_Some P_inf P4s) by lra; rewrite npow_Some by exact Pr; rewrite CB; cbn [nmul nadd nsub]; fold D; reflexivity).
  set (T5 := T4s - taux * (T4s - T4s * z)).
  value o "Tt5"%string (Some T5) ltac:(cbn [nadd nmul nsub]; rewrite !(ndiv_Some _ (gB e - 1)) by lra; rewrite CB; cbn [nmul nadd]; replace (cB e * core_air e * (1 + al)) with D by (unfold D; ring); rewrite ndiv_Some by lra; cbn [nadd]; f_equal; unfold T5; field; lra).
  assert (P5 : 0 < T5). { unfold T5. assert (0 < T4s * z) by (apply Rmult_lt_0_compat; assumption). destruct X as [Xa Xb]. replace (T4s - taux * (T4s - T4s * z)) with ((1 - taux) * T4s + taux * (T4s * z)) by ring. destruct (Req_dec taux 0); [subst taux; lra|]. assert (0 <= (1 - taux) * T4s) by (apply Rmult_le_pos; lra). assert (0 < taux * (T4s * z)) by (apply Rmult_lt_0_compat; lra). lra. }
  set (pif := Rpower (T4s / T5) (gB e / (gB e - 1) / eta_turbine)).
  assert (PQ2 : 0 < T4s / T5) by (apply Rdiv_lt_0_compat; lra).
  value o "pi_t_f"%string (Some pif) ltac:(rewrite !ndiv_Some by (unfold eta_turbine; lra); rewrite npow_Some by exact PQ2; reflexivity).
  assert (Ppif : 0 < pif) by apply Rpower_pos.
  value o "Pt5"%string (Some (P4s / pif)) ltac:(rewrite ndiv_Some by lra; reflexivity).
  destruct (turbine_expansion (gB e) P4s T4s T5 s6 X2 Fe P5) as [X3 X4]. fold pif in X3, X4.
  exists fresh, {| Tt3 := T3; Pt3 := core_ratio e * inlet_P e; alpha := al; Pt4 := p4; Tt5 := T5; Pt5 := P4s / pif |}, T4s, P4s.
  split; [exact Cf|]. cbn [Tt3 Pt3 alpha Pt4 Tt5 Pt5].
  assert (Tr : forall y v, mem y (writes calc_all) = true -> has o y v -> has (attrs fresh) y v).
  { intros y v I Hv. unfold has in *. rewrite Wf; [exact Hv|now apply mem_in]. }
  split. { unfold core_cycle. cbn [Tt3 Pt3 alpha Pt4 Tt5 Pt5]. repeat (split; [first [reflexivity|assumption]|]). reflexivity. }
  do 8 (split; [apply Tr; [reflexivity|assumption]|]).
  split. { fold D. unfold T4s, T_between, D. fold T3 al. field. unfold eta_shaft. repeat split; lra. }
  split; [exact X1|]. split; [exact Fe|]. split; [exact X2|]. cbv zeta. fold D z.
  split; [unfold T5; ring|]. split; [exact X3|]. split; [exact P5|]. split; [exact X4|]. intros Amb.
  assert (Z1 : z <= 1). { unfold z. assert (P_inf / P4s <= 1). { apply Rmult_le_reg_r with P4s; [exact X2|]. unfold Rdiv. rewrite Rmult_assoc, Rinv_l by lra. lra. }
    apply Rle_trans with (Rpower 1 ((gB e - 1) / gB e)); [apply Rle_Rpower_l; [apply Rmult_le_pos; [lra|left; apply Rinv_0_lt_compat; lra]|split; assumption]|]. unfold Rpower. rewrite ln_1, Rmult_0_r, exp_0. lra. }
  assert (FP : 0 <= D * (T4s - T5)). { apply Rmult_le_pos; [lra|]. unfold T5. destruct X. assert (0 <= taux * (T4s * (1 - z))) by (apply Rmult_le_pos; [lra|apply Rmult_le_pos; lra]). lra. }
  set (T13 := inlet_T e + eta_shaft * (D * (T4s - T5)) / (fan_air e * cA e)).
  assert (PM : 0 < fan_air e * cA e) by (apply Rmult_lt_0_compat; assumption).
  assert (P13 : 0 < T13). { unfold T13. assert (0 <= eta_shaft * (D * (T4s - T5)) / (fan_air e * cA e)); [|lra]. apply Rmult_le_pos; [apply Rmult_le_pos; [unfold eta_shaft; lra|exact FP]|]. left. now apply Rinv_0_lt_compat. }
  value o "m_f"%string (Some (fan_air e)) ltac:(cbn [nmul nadd]; rewrite ndiv_Some by lra; f_equal; unfold fan_air; f_equal; ring).
  value o "Tt13"%string (Some T13) ltac:(cbn [nopp nmul nsub]; rewrite !(ndiv_Some _ (gA e - 1)) by lra; rewrite CA; cbn [nmul]; rewrite ndiv_Some by lra; cbn [nadd]; f_equal; unfold T13, T5; field; split; lra).
  set (q := Rpower (T13 / inlet_T e) (eta_fan * (gA e / (gA e - 1)))).
  assert (PQ3 : 0 < T13 / inlet_T e) by (apply Rdiv_lt_0_compat; lra).
  value o "pi_f"%string (Some q) ltac:(rewrite !ndiv_Some by lra; cbn [nmul]; rewrite npow_Some by exact PQ3; reflexivity).
  value o "Pt13"%string (Some (inlet_P e * q)) reflexivity.
  exists T13, (inlet_P e * q).
  split. { unfold core_shows. cbn [Tt3 Pt3 alpha Pt4 Tt5 Pt5]. repeat split; apply Tr; try reflexivity; unfold has; assumption. }
  split; [apply Tr; [reflexivity|assumption]|]. split; [apply Tr; [reflexivity|assumption]|].
  split. { unfold T13. field. lra. }
  split. { unfold compression. replace (inlet_P e * q / inlet_P e) with q by (field; lra). unfold q. rewrite Rpower_mult. replace (eta_fan * (gA e / (gA e - 1)) * ((gA e - 1) / (gA e * eta_fan))) with 1 by (unfold eta_fan; field; lra). now rewrite Rpower_1. }
  intros N9 N19.
  value o "Pt9"%string (Some (P4s / pif * xi_nozzle_loss)) reflexivity. value o "Tt9"%string (Some T5) reflexivity. value o "P9"%string (Some P_inf) reflexivity.
  value o "Pt19"%string (Some (inlet_P e * q * xi_nozzle_loss)) reflexivity. value o "Tt19"%string (Some T13) reflexivity. value o "P19"%string (Some P_inf) reflexivity.
  solo o "M9"%string. solo o "M19"%string.
  destruct (nozzle_spec o "M9" "V9" (gB e) (rB e) (P4s / pif * xi_nozzle_loss) T5 P_inf s6 s8 P5) as (M9 & V9 & N1 & N2 & N3); [unfold P_inf; lra|exact N9|assumption| |].
  { intros mm Hm. unfold has in Hm. match goal with H : o "V9"%string = eval _ _ |- _ => rewrite H end. cbn [eval]. rewrite Hm, v17, v18. match goal with H : o "Tt9"%string = _ |- _ => rewrite H end. reflexivity. }
  destruct (nozzle_spec o "M19" "V19" (gA e) (rA e) (inlet_P e * q * xi_nozzle_loss) T13 P_inf s5 s7 P13) as (M19 & V19 & N4 & N5 & N6); [unfold P_inf; lra|exact N19|assumption| |].
  { intros mm Hm. unfold has in Hm. match goal with H : o "V19"%string = eval _ _ |- _ => rewrite H end. cbn [eval]. rewrite Hm, v15, v16. match goal with H : o "Tt19"%string = _ |- _ => rewrite H end. reflexivity. }
  exists M9, V9, M19, V19. do 4 (split; [apply Tr; [reflexivity|assumption]|]). split; [exact N3|]. split; [exact N6|].
  unfold has in N2, N5. repeat match goal with H : o "V9"%string = eval _ _ |- _ => clear H | H : o "V19"%string = eval _ _ |- _ => clear H end.
  value o "F_c"%string (Some (core_air e * (V9 - flight_speed e))) reflexivity. value o "F_f"%string (Some (fan_air e * (V19 - flight_speed e))) reflexivity.
  destruct (performance_values o e V9 V19 (core_air e * (V9 - flight_speed e)) (fan_air e * (V19 - flight_speed e)) S) as (q1 & q2 & q3 & q4 & q5 & q6); try eassumption; try reflexivity.
  unfold performance. cbv zeta. repeat split; intros; apply Tr; try reflexivity; auto.
Qed.
