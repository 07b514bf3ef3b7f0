(** * C76: the optimal fan of propu_be_double_corps.calculs_tau_optimum *)
From Coq Require Import String.
From Verif Require Import Num L_Num M_Isentropic M_Obj L_Obj M_Engine M_Cycle EngineSpec CycleSpec L_Engine L_Engine2 L_Cycle L_Cycle2.
Open Scope R_scope.

Definition energy (i : ideal_fan) : R := heat i - ram i * (comp i - 1) - heat i / (ram i * comp i) + byp i * (ram i - 1).
Lemma energy_split i t : core_jet i t + byp i * fan_jet i t = energy i.
Proof. unfold core_jet, fan_jet, energy. ring. Qed.
Lemma best_jets i : 0 < byp i -> 0 < ram i -> core_jet i (best_fan i) = energy i / (1 + byp i) /\ fan_jet i (best_fan i) = energy i / (1 + byp i).
Proof.
  intros B R0. assert (F : fan_jet i (best_fan i) = energy i / (1 + byp i)).
  { unfold fan_jet, best_fan, energy. set (q := heat i / (ram i * comp i)). field. lra. }
  split; [|exact F]. pose proof (energy_split i (best_fan i)) as S. rewrite F in S.
  assert (D : energy i / (1 + byp i) * (1 + byp i) = energy i) by (field; lra). lra.
Qed.
Lemma jets_bound i t : 0 < byp i -> 0 < ram i -> can_run i t -> can_run i (best_fan i) /\ jets i t <= jets i (best_fan i) /\ (jets i (best_fan i) <= jets i t -> t = best_fan i).
Proof.
  intros B R0 [C F]. destruct (best_jets i B R0) as [E1 E2]. pose proof (energy_split i t) as S.
  assert (P : 0 <= energy i) by nra. assert (Q : 0 <= energy i / (1 + byp i)) by (apply Rdiv_le_0_compat; lra).
  split; [split; lra|]. unfold jets. rewrite E1, E2.
  pose proof (sqrt_pos (core_jet i t)) as A1. pose proof (sqrt_pos (fan_jet i t)) as A2. pose proof (sqrt_pos (energy i / (1 + byp i))) as A3.
  pose proof (sq_sqrt _ C) as B1. pose proof (sq_sqrt _ F) as B2. pose proof (sq_sqrt _ Q) as B3.
  set (a := sqrt (core_jet i t)) in *. set (b := sqrt (fan_jet i t)) in *. set (c := sqrt (energy i / (1 + byp i))) in *. set (l := byp i) in *.
  assert (K : ((1 + l) * c) ^ 2 = (a + l * b) ^ 2 + l * (a - b) ^ 2).
  { replace (((1 + l) * c) ^ 2) with ((1 + l) ^ 2 * c ^ 2) by ring. rewrite B3.
    replace ((1 + l) ^ 2 * (energy i / (1 + l))) with ((1 + l) * energy i) by (field; lra). rewrite <- S, <- B1, <- B2. fold l. ring. }
  pose proof (sq_nonneg (a - b)) as N.
  assert (lb : 0 <= l * b) by (apply Rmult_le_pos; lra).
  assert (LE : a + l * b <= c + l * c).
  { apply Rnot_lt_le. intros G. assert (((1 + l) * c) ^ 2 < (a + l * b) ^ 2).
    { assert (0 <= (1 + l) * c) by (apply Rmult_le_pos; lra). rewrite <- !Rsqr_pow2. apply Rsqr_incrst_1; lra. }
    assert (0 <= l * (a - b) ^ 2) by (apply Rmult_le_pos; lra). lra. }
  split; [lra|]. intros GE. assert (EQ : (1 + l) * c = a + l * b) by lra. rewrite EQ in K.
  assert (Z : l * (a - b) ^ 2 = 0) by lra. apply Rmult_integral in Z. destruct Z as [Z|Z]; [lra|].
  assert (AB : a = b) by nra. assert (CF : core_jet i t = fan_jet i t) by (rewrite <- B1, <- B2, AB; ring).
  assert (fan_jet i t = fan_jet i (best_fan i)). { rewrite E2. apply Rmult_eq_reg_r with (1 + l); [|lra]. unfold Rdiv. rewrite Rmult_assoc, Rinv_l, Rmult_1_r by lra. rewrite <- S, CF. fold l. ring. }
  unfold fan_jet in H. apply Rmult_eq_reg_l with (ram i); lra.
Qed.
(** the optimum is unique, and is the closed form as soon as the engine can run at all *)
Lemma optimal_unique i t : 0 < byp i -> 0 < ram i -> optimal_fan i t -> t = best_fan i.
Proof. intros B R0 [C O]. destruct (jets_bound i t B R0 C) as (C' & _ & U). apply U, O, C'. Qed.
Lemma best_optimal i t : 0 < byp i -> 0 < ram i -> can_run i t -> optimal_fan i (best_fan i).
Proof. intros B R0 C. split; [now destruct (jets_bound i t B R0 C)|]. intros t' C'. now destruct (jets_bound i t' B R0 C'). Qed.

(** the engine of the script: its gases, flight condition and (polytropic) compressor *)
Definition script_engine (l pc t4 : R) : ideal_fan :=
  {| byp := l; heat := (cp_of (133 / 100) (2916 / 10) * t4) / (cp_of (14 / 10) 287 * T_inf); ram := temp_ratio (14 / 10) Mach_inf;
     comp := Rpower pc ((14 / 10 - 1) / (14 / 10 * eta_compressor)) |}.

Lemma script_tau l pc t4 m : 0 < l -> 0 < pc -> 0 < t4 -> exists o t, tau_optimum script_globals (Some l) (Some pc) (Some t4) m = Some o /\ has o "tau_f" t /\
  let i := script_engine l pc t4 in
  t = (heat i * (comp i - 1) - heat i / ram i / (ram i * comp i) + byp i * ram i + 1) / (ram i * (1 + byp i)).
Proof.
  intros L0 P0 T0.
  destruct (run_total (app script_globals (app [("lambda_", L (Some l)); ("pi_c", L (Some pc)); ("Tt4", L (Some t4)); ("m", L m)]%string tau_optimum_body)) [] empty_obj) as [s S]; [reflexivity|intros a []|].
  exists s. eexists. split; [exact S|]. apply run_lasting in S. rewrite app_assoc in S.
  match type of S with List.Forall _ (lasting ?p) => change (lasting p) with p in S end.
  apply (holds_app (app script_globals _) tau_optimum_body) in S. destruct S as [C D].
  unfold script_globals, script_globals_with, attrs_with in C. cbn [app] in C. spread C. cbn [eval] in *.
  unfold tau_optimum_body, script_inlet in D. cbn [app] in D. unfold holds in D.
  do 11 (apply List.Forall_cons_iff in D; let E := fresh "D" in destruct D as [E D]; cbn [fst snd] in E). clear D.
  assert (TP : 0 < temp_ratio (14 / 10) Mach_inf) by (apply temp_ratio_pos; lra).
  value s "Tt0"%string (Some (T_inf * temp_ratio (14 / 10) Mach_inf)) ltac:(cbn [nsub npowi]; rewrite ?ndiv_Some by lra; cbn [nmul nadd]; f_equal; unfold T_inf, temp_ratio, Mach_inf; lra).
  value s "cp"%string (Some (cp_of (14 / 10) 287)) ltac:(cbn [nsub nmul]; rewrite ndiv_Some by lra; f_equal; unfold cp_of; lra).
  value s "cp_"%string (Some (cp_of (133 / 100) (2916 / 10))) ltac:(cbn [nsub nmul]; rewrite ndiv_Some by lra; f_equal; unfold cp_of; lra).
  assert (C1 : 0 < cp_of (14 / 10) 287) by (unfold cp_of; lra). assert (C2 : 0 < cp_of (133 / 100) (2916 / 10)) by (unfold cp_of; lra).
  assert (I0 : 0 < T_inf) by (unfold T_inf; lra).
  set (c := cp_of (14 / 10) 287) in *. set (c' := cp_of (133 / 100) (2916 / 10)) in *. set (tr := temp_ratio (14 / 10) Mach_inf) in *.
  assert (N1 : c * (T_inf * tr) <> 0) by (apply Rmult_integral_contrapositive_currified; [|apply Rmult_integral_contrapositive_currified]; lra).
  value s "tau_lambda"%string (Some ((c' * t4) / (c * (T_inf * tr)))) ltac:(cbn [nmul]; rewrite ndiv_Some by exact N1; reflexivity).
  value s "tau_r"%string (Some tr) ltac:(rewrite ndiv_Some by lra; f_equal; unfold T_inf; field).
  set (tc := Rpower pc ((14 / 10 - 1) / (14 / 10 * eta_compressor))).
  assert (TC : 0 < tc) by apply Rpower_pos.
  value s "tau_c"%string (Some tc) ltac:(cbn [nsub nmul]; rewrite ndiv_Some by lra; rewrite npow_Some by exact P0; unfold tc, eta_compressor; do 2 f_equal; lra).
  assert (N2 : tr * tc <> 0) by (apply Rmult_integral_contrapositive_currified; lra).
  assert (N3 : tr * (1 + l) <> 0) by (apply Rmult_integral_contrapositive_currified; lra).
  solo s "tau_f"%string. cbn [nsub nmul] in *.
  match goal with H : s "tau_f"%string = Some ?u |- _ => assert (Q : s "tau_f"%string = Some (Some ((((c' * t4) / (c * (T_inf * tr))) * tr * (tc - 1) - ((c' * t4) / (c * (T_inf * tr))) / (tr * tc) + l * tr + 1) / (tr * (1 + l))))) end.
  { match goal with H : s "tau_f"%string = Some _ |- _ => rewrite H end. refine (f_equal Some _). cbn [nsub nmul nadd]. rewrite (ndiv_Some _ (tr * tc)) by exact N2. cbn [nsub nadd]. now rewrite ndiv_Some by exact N3. }
  split; [exact Q|]. cbv zeta. unfold script_engine. cbn [heat ram comp byp]. fold c c' tr tc. field. repeat split; lra.
Qed.

(*@P C76_tau_optimum_refuted: calculs_tau_optimum does not give the optimal fan. The optimum of the ideal turbofan - the fan temperature ratio for which no other one gives more jet momentum - is unique and is the textbook closed form whenever the engine can run at all; and for every by-pass ratio, turbine inlet temperature and mass flow, and every compressor pressure ratio whose temperature ratio is at least 2, the value the script prints and goes on with lies strictly above that closed form (the heating ratio is taken with Tt0 instead of T0 and multiplies the ram ratio where it should be added), so it is never the optimum. *)
Lemma tau_optimum_refuted : forall l pc t4 m, 0 < l -> 0 < pc -> 0 < t4 ->
  let i := script_engine l pc t4 in
  (forall t, optimal_fan i t -> t = best_fan i) /\ (forall t, can_run i t -> optimal_fan i (best_fan i)) /\
  exists o t, tau_optimum script_globals (Some l) (Some pc) (Some t4) m = Some o /\ has o "tau_f" t /\ (2 <= comp i -> best_fan i < t /\ ~ optimal_fan i t).
Proof.
  intros l pc t4 m L0 P0 T0 i. assert (R0 : 1 < ram i) by (unfold i, script_engine; cbn [ram]; unfold temp_ratio, Mach_inf; lra).
  split; [intros t; apply optimal_unique; [exact L0|lra]|]. split; [intros t; apply best_optimal; [exact L0|lra]|].
  destruct (script_tau l pc t4 m L0 P0 T0) as (o & t & O & H & E). cbv zeta in E. fold i in E. exists o, t. split; [exact O|]. split; [exact H|]. intros C2.
  assert (G : best_fan i < t).
  { rewrite E. unfold best_fan. assert (B0 : 0 < byp i) by exact L0. apply Rmult_lt_compat_r; [apply Rinv_0_lt_compat, Rmult_lt_0_compat; lra|].
    assert (Hh : 0 < heat i). { unfold i, script_engine. cbn [heat]. apply Rdiv_lt_0_compat; apply Rmult_lt_0_compat; try lra; unfold cp_of, T_inf; lra. }
    assert (Q : 0 < heat i / (ram i * comp i)) by (apply Rdiv_lt_0_compat; [lra|apply Rmult_lt_0_compat; lra]).
    assert (Q2 : heat i / ram i / (ram i * comp i) = heat i / (ram i * comp i) * / ram i) by (field; split; lra). rewrite Q2.
    assert (R1 : / ram i < 1) by (rewrite <- Rinv_1; apply Rinv_lt_contravar; lra).
    assert (heat i / (ram i * comp i) * / ram i < heat i / (ram i * comp i)) by nra. nra. }
  split; [exact G|]. intros Op. apply optimal_unique in Op; [lra|exact L0|lra].
Qed.

(** what calculs_tau_optimum and propu_be.calculs call the same quantity *)
Definition names_opt : list (string * string) :=
  app (same ["V0"; "Pt0"; "Tt0"; "Tt2"; "Pt2"; "m_c"; "Tt3"; "Pt3"; "m_k"; "alpha"; "Pt4"; "Tt5"; "Pt5"; "Tt9"; "Pt9"; "P9"; "M9"; "V9"; "m_f"; "pi_f"; "w_uc";
    "Pt19"; "Tt19"; "P19"; "M19"; "V19"; "Fc"; "Ff"; "F"; "Fspe"; "mk_spe"; "eta_th"; "eta_prop"; "eta"]%string)
   ([("wu_f", "w_uf"); ("Tt13", "Tt17"); ("Pt13", "Pt17"); ("pi_tc", "pi_t")])%string.
Lemma opt_vs_script l pc t4 m x k s tf : 0 < tf -> k "tau_f"%string = Some (Some tf) -> k "pi_f"%string = Some x ->
  holds (app script_globals [("lambda_", L l); ("pi_c", L pc); ("Tt4", L t4); ("m", L m)]%string) k -> holds tau_optimum_body k ->
  holds (app script_globals [("lambda_", L l); ("pi_c", L pc); ("Tt4", L t4); ("pi_f", L x); ("m", L m)]%string) s -> holds propu_be_body s ->
  agree k s names_opt.
Proof.
  intros TF KF KP A B C D.
  unfold script_globals, script_globals_with, attrs_with in A, C. cbn [app] in A, C.
  unfold tau_optimum_body, propu_be_body, script_inlet, script_core, script_core_nozzle, script_fan_nozzle, script_perfo in B, D. cbn [app] in B, D.
  spread A. spread C. cbn [eval] in *. spread B. spread D.
  pair k s "cp"%string "cp"%string reflexivity. pair k s "cp_"%string "cp_"%string reflexivity.
  pair k s "V0"%string "V0"%string reflexivity.
  pair k s "Pt0"%string "Pt0"%string reflexivity.
  pair k s "Tt0"%string "Tt0"%string reflexivity.
  pair k s "Tt2"%string "Tt2"%string reflexivity.
  pair k s "Pt2"%string "Pt2"%string reflexivity.
  match goal with H : k "pi_f"%string = eval k _ |- _ => ev k H; assert (KX : x = Some (Rpower tf ((89 / 100) * (14 / 10) / (14 / 10 - 1)))) by
    (apply Some_inj; rewrite <- KP, H; refine (f_equal Some _); cbn [nsub nmul]; rewrite ndiv_Some by lra; now rewrite npow_Some by exact TF); clear H end.
  repeat match goal with H : k "tau_f"%string = eval k _ |- _ => clear H end.
  pair k s "m_f"%string "m_f"%string reflexivity.
  pair k s "Tt13"%string "Tt17"%string ltac:(rewrite KX; f_equal; cbn [nsub nmul]; rewrite ndiv_Some by lra; rewrite npow_Some by apply Rpower_pos; f_equal; rewrite Rpower_inv_exp; [reflexivity|exact TF|lra]).
  pair k s "Pt13"%string "Pt17"%string reflexivity.
  pair k s "wu_f"%string "w_uf"%string reflexivity.
  pair k s "m_c"%string "m_c"%string reflexivity.
  pair k s "Tt3"%string "Tt3"%string reflexivity.
  pair k s "Pt3"%string "Pt3"%string reflexivity.
  pair k s "w_uc"%string "w_uc"%string reflexivity.
  pair k s "m_k"%string "m_k"%string reflexivity.
  pair k s "alpha"%string "alpha"%string reflexivity.
  pair k s "Pt4"%string "Pt4"%string reflexivity.
  pair k s "Tt5"%string "Tt5"%string ltac:(f_equal; f_equal; apply nadd_comm).
  pair k s "pi_tc"%string "pi_t"%string reflexivity.
  pair k s "Pt5"%string "Pt5"%string reflexivity.
  pair k s "Tt9"%string "Tt9"%string reflexivity.
  pair k s "Pt9"%string "Pt9"%string reflexivity.
  pair k s "P9"%string "P9"%string reflexivity.
  pair k s "M9"%string "M9"%string reflexivity.
  pair k s "T9"%string "T9"%string reflexivity.
  pair k s "A9"%string "A9"%string reflexivity.
  pair k s "V9"%string "V9"%string reflexivity.
  pair k s "Fc"%string "Fc"%string reflexivity.
  pair k s "Pt19"%string "Pt19"%string reflexivity.
  pair k s "Tt19"%string "Tt19"%string reflexivity.
  pair k s "P19"%string "P19"%string reflexivity.
  pair k s "M19"%string "M19"%string reflexivity.
  pair k s "T19"%string "T19"%string reflexivity.
  pair k s "A19"%string "A19"%string reflexivity.
  pair k s "V19"%string "V19"%string reflexivity.
  pair k s "Ff"%string "Ff"%string reflexivity.
  pair k s "F"%string "F"%string reflexivity.
  pair k s "Fspe"%string "Fspe"%string reflexivity.
  pair k s "mk_spe"%string "mk_spe"%string reflexivity.
  pair k s "Qf"%string "Qf"%string reflexivity. pair k s "delta_E"%string "delta_E"%string reflexivity.
  pair k s "eta_th"%string "eta_th"%string reflexivity.
  pair k s "eta_prop"%string "eta_prop"%string reflexivity.
  pair k s "eta"%string "eta"%string reflexivity.
  unfold agree, names_opt, same. cbn [map app].
  repeat (apply List.Forall_cons; [cbn [fst snd]; eexists; split; eassumption|]). apply List.Forall_nil.
Qed.
(*@P C76_tau_optimum_partial: Once it has its fan temperature ratio, calculs_tau_optimum is consistent: for all arguments for which that ratio is positive, every quantity it computes is the one propu_be.calculs computes for the fan pressure ratio it derives, each defined on one side exactly when on the other. PARTIAL: the ratio itself is not the optimum, see C76_tau_optimum_refuted, and the function returns nothing (its return statement is commented out). *)
Lemma tau_optimum_consistent : forall l pc t4 m o tf, tau_optimum script_globals l pc t4 m = Some o -> has o "tau_f" tf -> 0 < tf ->
  exists pf s, o "pi_f"%string = Some pf /\ propu_be_calculs script_globals l pc t4 pf m = Some s /\ agree o s names_opt.
Proof.
  intros l pc t4 m o tf O H P. pose proof O as S. unfold tau_optimum in S. apply run_lasting in S. rewrite app_assoc in S.
  match type of S with List.Forall _ (lasting ?p) => change (lasting p) with p in S end.
  apply (holds_app (app script_globals _) tau_optimum_body) in S. destruct S as [A B].
  assert (W : o "pi_f"%string <> None) by (apply (run_writes _ _ _ _ O); apply mem_in; reflexivity).
  destruct (o "pi_f"%string) as [pf|] eqn:PF; [|congruence].
  destruct (run_total (app script_globals (app [("lambda_", L l); ("pi_c", L pc); ("Tt4", L t4); ("pi_f", L pf); ("m", L m)]%string propu_be_body)) [] empty_obj) as [s S]; [reflexivity|intros a []|].
  exists pf, s. split; [reflexivity|]. split; [exact S|]. apply run_lasting in S. rewrite app_assoc in S.
  match type of S with List.Forall _ (lasting ?p) => change (lasting p) with p in S end.
  apply (holds_app (app script_globals _) propu_be_body) in S. destruct S as [C D].
  apply (opt_vs_script l pc t4 m pf o s tf P H PF A B C D).
Qed.
(*@E C76_example: Example: by-pass ratio 5, turbine inlet temperature 1400 K and a compressor that doubles the temperature; the engine can run without its fan doing work, the compressor is in the range of the refutation, and the printed fan ratio is positive. *)
Lemma tau_optimum_example : let i := script_engine 5 (Rpower 2 (63 / 20)) 1400 in
  comp i = 2 /\ can_run i 1 /\ exists o t, tau_optimum script_globals (Some 5) (Some (Rpower 2 (63 / 20))) (Some 1400) (Some 180) = Some o /\ has o "tau_f" t /\ 0 < t.
Proof.
  intros i. assert (C : comp i = 2). { unfold i, script_engine. cbn [comp]. rewrite Rpower_mult. unfold eta_compressor. replace (63 / 20 * ((14 / 10 - 1) / (14 / 10 * (90 / 100)))) with 1 by field. apply Rpower_1. lra. }
  assert (Hr : ram i = 1128 / 1000) by (unfold i, script_engine; cbn [ram]; unfold temp_ratio, Mach_inf; lra).
  assert (Hh : 7 < heat i < 8) by (unfold i, script_engine; cbn [heat]; unfold cp_of, T_inf; lra).
  assert (B : byp i = 5) by reflexivity.
  split; [exact C|]. split; [unfold can_run, core_jet, fan_jet; rewrite C, Hr; split; lra|].
  destruct (script_tau 5 (Rpower 2 (63 / 20)) 1400 (Some 180)) as (o & t & O & H & E); [lra|apply Rpower_pos|lra|]. exists o, t. split; [exact O|]. split; [exact H|].
  cbv zeta in E. fold i in E. rewrite E, C, Hr, B. apply Rdiv_lt_0_compat; lra.
Qed.
