(** * C107: the ideal engines *)
From Coq Require Import String.
From Verif Require Import Num L_Num M_Isentropic M_Obj L_Obj M_Engine EngineSpec IdealSpec L_Engine L_Engine2.
Open Scope R_scope.

Lemma pr_temp g m q : 1 < g -> q = pres_ratio g m -> Rpower q ((g - 1) / g) = temp_ratio g m.
Proof.
  intros G ->. unfold pres_ratio. rewrite Rpower_mult. replace (g / (g - 1) * ((g - 1) / g)) with 1 by (field; lra).
  rewrite Rpower_1; [reflexivity|]. now apply temp_ratio_pos.
Qed.
Lemma Rpower_div x y a : 0 < x -> 0 < y -> Rpower (x / y) a = Rpower x a / Rpower y a.
Proof.
  intros X Y. apply Rmult_eq_reg_r with (Rpower y a); [|apply Rgt_not_eq, Rpower_pos].
  replace (Rpower x a / Rpower y a * Rpower y a) with (Rpower x a) by (field; apply Rgt_not_eq, Rpower_pos).
  rewrite Rpower_mult_distr by (first [lra|apply Rdiv_lt_0_compat; lra]). f_equal. field. lra.
Qed.

Lemma feasible_ideal e : in_range e -> ideal e -> running e -> feasible e (xi_cc e).
Proof.
  intros Rg (i1 & i2 & i3 & i4 & i5 & i6 & i7) [r1 r2].
  destruct Rg as (g1 & g2 & g3 & g4 & g5 & g6 & g7 & g8 & g9 & g10 & g11 & g12 & g13 & g14 & g15).
  assert (C : cph e = cpc e) by (unfold cph, cpc; now rewrite i1, i2).
  assert (P : 0 < cpc e). { unfold cpc, cp_of. apply Rdiv_lt_0_compat; [apply Rmult_lt_0_compat; lra|lra]. }
  assert (I : 0 < inlet_temp e). { apply Rmult_lt_0_compat; [lra|now apply temp_ratio_pos]. }
  assert (X : 0 < compressor_exit e). { apply Rmult_lt_0_compat; [exact I|apply Rpower_pos]. }
  unfold feasible. rewrite C in *. rewrite i7. set (t3 := compressor_exit e) in *. set (t2 := inlet_temp e) in *.
  split; [nra|]. set (q := xi_cc e * Pci e) in *.
  assert (B : 1 <= (q - cpc e * t3) / (q - cpc e * Tt4 e)).
  { apply Rmult_le_reg_r with (q - cpc e * Tt4 e); [lra|]. replace ((q - cpc e * t3) / (q - cpc e * Tt4 e) * (q - cpc e * Tt4 e)) with (q - cpc e * t3) by (field; lra). nra. }
  replace (1 * (cpc e * (q - cpc e * t3) / (q - cpc e * Tt4 e)) * Tt4 e) with (cpc e * ((q - cpc e * t3) / (q - cpc e * Tt4 e) * Tt4 e)) by (field; lra).
  apply Rmult_lt_compat_l; [exact P|]. nra.
Qed.

Section Core.
Variables (e : gas_generator) (s : stations).
Hypotheses (Rg : in_range e) (Id : ideal e) (Ru : running e) (Cy : cycle e s)
  (Bu : burner (cpc e) (cph e) (xi_cc e) (Pci e) (far s) (Tt3 s) (Tt4 e)) (Pf : 0 < 1 + far s) (P45 : 0 < Tt45 s) (Pp45 : 0 < Pt45 s).
Let k := (gc e - 1) / gc e.
Let c := cpc e.
Let t9 := Tt4 e * T0 e / Tt3 s.

Lemma id_facts : cph e = c /\ 0 < c /\ 0 < Tt2 s /\ 0 < Pt2 s /\ Tt3 s = compressor_exit e /\ T0 e <= Tt2 s /\ Tt2 s <= Tt3 s /\
  Rpower (Pt2 s / P0 e) k = Tt2 s / T0 e /\ Rpower (Pt45 s / P0 e) k = Tt45 s / t9 /\
  (1 + far s) * Tt45 s = (1 + far s) * Tt4 e - Tt3 s + Tt2 s /\ far s * Pci e = c * ((1 + far s) * Tt4 e - Tt3 s) /\ 0 < far s /\
  V0 s ^ 2 = 2 * c * (Tt2 s - T0 e) /\ 0 <= V0 s /\ 0 < t9 /\ t9 <= Tt45 s.
Proof.
  destruct Id as (i1 & i2 & i3 & i4 & i5 & i6 & i7).
  destruct Cy as (c1 & c2 & c3 & c4 & c5 & c6 & c7 & c8 & c9 & c10).
  destruct Rg as (g1 & g2 & g3 & g4 & g5 & g6 & g7 & g8 & g9 & g10 & g11 & g12 & g13 & g14 & g15).
  destruct Ru as [r1 r2].
  assert (C : cph e = c) by (unfold c, cph, cpc; now rewrite i1, i2).
  assert (P : 0 < c). { unfold c, cpc, cp_of. apply Rdiv_lt_0_compat; [apply Rmult_lt_0_compat; lra|lra]. }
  pose proof (temp_ratio_pos (gc e) (M0 e) g3) as tr.
  assert (tr1 : 1 <= temp_ratio (gc e) (M0 e)). { unfold temp_ratio. pose proof (sq_nonneg (M0 e)). nra. }
  assert (I : T0 e <= Tt2 s) by (rewrite c4, c1; nra).
  assert (Pp2 : 0 < Pt2 s). { rewrite c5, c2. repeat apply Rmult_lt_0_compat; try lra. apply Rpower_pos. }
  assert (Kp : 0 < k) by (unfold k; apply Rdiv_lt_0_compat; lra).
  assert (E3 : Tt3 s / Tt2 s = Rpower (OPR e) k).
  { unfold compression in c7. rewrite c7, i5. f_equal; [rewrite c6; field; lra|unfold k; field; lra]. }
  assert (T3 : Tt3 s = Tt2 s * Rpower (OPR e) k) by (rewrite <- E3; field; lra).
  assert (X3 : Tt3 s = compressor_exit e).
  { rewrite T3. unfold compressor_exit. rewrite c4, c1, i5. f_equal. f_equal. unfold k. field. lra. }
  assert (O1 : 1 <= Rpower (OPR e) k).
  { apply Rle_trans with (Rpower 1 k); [rewrite Rpower_one; lra|]. apply Rle_Rpower_l; lra. }
  assert (L3 : Tt2 s <= Tt3 s) by (rewrite T3; nra).
  assert (K2 : Rpower (Pt2 s / P0 e) k = Tt2 s / T0 e).
  { rewrite (pr_temp (gc e) (M0 e)); [|lra|]. rewrite c4, c1; field; lra. rewrite c5, c2, i3. field. lra. }
  assert (T9 : 0 < t9) by (unfold t9; apply Rdiv_lt_0_compat; [apply Rmult_lt_0_compat; lra|lra]).
  assert (Pp4 : Pt4 s = OPR e * Pt2 s) by (rewrite c8, c6, i4; ring).
  assert (Pp4p : 0 < Pt4 s) by (rewrite Pp4; apply Rmult_lt_0_compat; lra).
  assert (K45 : Rpower (Pt45 s / P0 e) k = Tt45 s / t9).
  { replace (Pt45 s / P0 e) with (Pt45 s / Pt4 s * (OPR e * (Pt2 s / P0 e))) by (rewrite Pp4; field; repeat split; lra).
    rewrite <- Rpower_mult_distr; [|apply Rdiv_lt_0_compat; lra|apply Rmult_lt_0_compat; [lra|apply Rdiv_lt_0_compat; lra]].
    rewrite <- Rpower_mult_distr; [|lra|apply Rdiv_lt_0_compat; lra].
    rewrite K2, <- E3. unfold expansion in c10.
    replace ((gh e - 1) * eT e / gh e) with k in c10 by (unfold k; rewrite i1, i6; field; lra). rewrite <- c10.
    unfold t9. field. repeat split; lra. }
  assert (S1 : (1 + far s) * Tt45 s = (1 + far s) * Tt4 e - Tt3 s + Tt2 s).
  { unfold shaft_balance in c9. rewrite C, i7 in c9. fold c in c9. apply Rmult_eq_reg_l with c; [|lra]. lra. }
  assert (B1 : far s * Pci e = c * ((1 + far s) * Tt4 e - Tt3 s)).
  { unfold burner in Bu. rewrite C, i4 in Bu. fold c in Bu. lra. }
  assert (F0 : 0 < far s).
  { rewrite C, i4 in g15. rewrite <- X3 in r2. assert (E : far s * (Pci e - c * Tt4 e) = c * (Tt4 e - Tt3 s)) by lra.
    assert (0 < c * (Tt4 e - Tt3 s)) by (apply Rmult_lt_0_compat; lra). nra. }
  assert (Vp : 0 <= gc e * rc e * T0 e) by (left; repeat apply Rmult_lt_0_compat; lra).
  assert (VV : V0 s ^ 2 = 2 * c * (Tt2 s - T0 e)).
  { rewrite c3, Rpow_mult_distr, sq_sqrt by exact Vp. rewrite c4, c1. unfold c, cpc, cp_of, temp_ratio. field. lra. }
  assert (V00 : 0 <= V0 s) by (rewrite c3; apply Rmult_le_pos; [lra|apply sqrt_pos]).
  assert (L9 : t9 <= Tt45 s).
  { apply Rmult_le_reg_l with ((1 + far s) * Tt3 s); [apply Rmult_lt_0_compat; lra|].
    replace ((1 + far s) * Tt3 s * t9) with ((1 + far s) * Tt4 e * T0 e) by (unfold t9; field; lra).
    replace ((1 + far s) * Tt3 s * Tt45 s) with (Tt3 s * ((1 + far s) * Tt45 s)) by ring. rewrite S1, <- X3 in *.
    assert (Tt3 s <= (1 + far s) * Tt4 e) by nra.
    assert (0 <= (Tt3 s - T0 e) * ((1 + far s) * Tt4 e - Tt3 s)) by (apply Rmult_le_pos; lra).
    assert (0 <= Tt3 s * (Tt2 s - T0 e)) by (apply Rmult_le_pos; lra). nra. }
  assert (Ptt2 : 0 < Tt2 s) by lra.
  repeat (split; [assumption|]). assumption.
Qed.

(** a jet of air of total conditions (t, p), expanded to the ambient pressure *)
Lemma id_jet pt tt m v a : 0 < pt -> 0 < tt -> 0 < a -> Rpower (pt / P0 e) k = tt / a -> nozzle (gc e) (rc e) pt tt (P0 e) m v -> 
  v ^ 2 = 2 * c * (tt - a) /\ 0 <= v.
Proof.
  intros Hp Ht Ha Hk (n1 & n2 & n3 & n4). destruct Rg as (g1 & g2 & g3 & _).
  apply pr_temp in n2; [|exact g3]. fold k in n2. rewrite n2 in Hk. split; [|exact n4]. rewrite n3, Hk. unfold c, cpc. f_equal. field. lra.
Qed.
End Core.

(** energy of the ideal turbofan *)
Lemma ideal_turbofan o e bpr fr : described o e -> has o "xi_nozzle" 1 -> has o "bpr" bpr -> has o "fanpower_ratio" fr ->
  has o "etapolTBP" 1 -> has o "etapolfan" 1 -> in_range e -> ideal e -> running e -> 0 < bpr -> 0 <= fr <= 1 ->
  exists o' f v9 v19 v0, run tf_update o = Some o' /\ described o' e /\ has o' "bpr" bpr /\
  has o' "far" f /\ has o' "V9" v9 /\ has o' "V19" v19 /\ has o' "V0" v0 /\ has o' "Tt3" (compressor_exit e) /\
  0 < f /\ 0 <= v9 /\ 0 <= v19 /\ 0 <= v0 /\
  f * Pci e = cpc e * ((1 + f) * Tt4 e - compressor_exit e) /\
  v0 ^ 2 = 2 * cpc e * (inlet_temp e - T0 e) /\
  (let d := (1 + f) * Tt4 e * brayton e - (compressor_exit e - inlet_temp e) in
   0 <= d /\ (1 + f) * v9 ^ 2 = 2 * cpc e * ((1 - fr) * d) /\
   bpr * v19 ^ 2 = 2 * cpc e * (bpr * (inlet_temp e - T0 e) + fr * d)) /\
  eval o' tf_norm_thrust = Some (Some ((1 + f) * v9 - v0 + bpr * (v19 - v0))) /\
  eval o' tf_spec_thrust = Some (Some (((1 + f) * v9 - v0 + bpr * (v19 - v0)) / (1 + bpr))) /\
  eval o' tf_Wsp_kinEn = Some (Some (((1 + f) * v9 ^ 2 - v0 ^ 2 + bpr * (v19 ^ 2 - v0 ^ 2)) / 2)) /\
  eval o' Wsp_cc = Some (Some (f * Pci e)).
Proof.
  intros D Hx Hb Hf HB HF Rg Id Ru Pb Pfr.
  pose proof (feasible_ideal e Rg Id Ru) as Fe.
  pose proof Id as (i1 & i2 & i3 & i4 & i5 & i6 & i7). pose proof Rg as (g1 & g2 & g3 & g4 & g5 & g6 & g7 & g8 & g9 & g10 & g11 & g12 & g13 & g14 & g15).
  destruct (turbofan o e 1 bpr fr 1 1 D Hx Hb Hf HB HF Rg Fe) as (o' & s & R1 & D' & Sh & Cy & Bu & Pf & P45 & Pp45 & K); try lra.
  { rewrite i3. assert (PR : 1 <= pres_ratio (gc e) (M0 e)); [|clear - PR g13; nra]. unfold pres_ratio.
    apply Rle_trans with (Rpower 1 (gc e / (gc e - 1))); [rewrite Rpower_one; lra|]. apply Rle_Rpower_l; [left; apply Rdiv_lt_0_compat; lra|].
    unfold temp_ratio. pose proof (sq_nonneg (M0 e)). nra. }
  destruct (id_facts e s Rg Id Ru Cy Bu Pf Pp45) as (C & Pc & P2 & Pp2 & X3 & L0 & L2 & K2 & K45 & S1 & B1 & F0 & VV & V00 & T9 & L9).
  set (k := (gc e - 1) / gc e) in *. set (t9 := Tt4 e * T0 e / Tt3 s) in *.
  assert (Kp : 0 < k) by (unfold k; apply Rdiv_lt_0_compat; lra).
  assert (Kinv : forall x, 0 < x -> 1 <= Rpower x k -> 1 <= x).
  { intros x Hx' H. destruct (Rle_or_lt 1 x) as [|N]; [assumption|]. exfalso.
    assert (Rpower x k < Rpower 1 k) by (apply Rlt_Rpower_l; lra). rewrite Rpower_one in *. lra. }
  assert (PP : P0 e <= Pt45 s * 1).
  { assert (1 <= Pt45 s / P0 e).
    { apply Kinv; [apply Rdiv_lt_0_compat; lra|]. rewrite K45. apply Rmult_le_reg_r with t9; [exact T9|]. replace (Tt45 s / t9 * t9) with (Tt45 s) by (field; lra). lra. }
    assert (1 * P0 e <= Pt45 s / P0 e * P0 e) by (apply Rmult_le_compat_r; lra). replace (Pt45 s / P0 e * P0 e) with (Pt45 s) in * by (field; lra). lra. }
  destruct (K PP) as (t5 & p5 & m9 & v9 & t17 & p17 & m19 & v19 & h1 & h2 & h3 & h4 & h5 & h6 & h7 & h8 & w1 & w2 & w3 & w4 & _ & w6 & _ & w8 & w9 & w10 & w11).
  cbv zeta in *. rewrite i7 in *. rewrite C in *.
  replace ((gh e - 1) * 1 / gh e) with k in w1 by (unfold k; rewrite i1; field; lra).
  assert (E1 : Tt45 s * Rpower (P0 e / (1 * Pt45 s)) k = t9).
  { rewrite Rmult_1_l, Rpower_div by lra. rewrite Rpower_div in K45 by lra.
    pose proof (Rpower_pos (Pt45 s) k). pose proof (Rpower_pos (P0 e) k).
    assert (H1 : Rpower (Pt45 s) k = Tt45 s / t9 * Rpower (P0 e) k) by (rewrite <- K45; field; lra). rewrite H1. field. repeat split; lra. }
  assert (A1 : Tt45 s - t5 = fr * (Tt45 s - t9)).
  { apply Rmult_eq_reg_l with ((1 + far s) * cpc e); [|apply Rgt_not_eq, Rmult_lt_0_compat; lra]. rewrite w1.
    replace (fr * ((1 + far s) * cpc e * Tt45 s * (1 - Rpower (P0 e / (1 * Pt45 s)) k)))
      with ((1 + far s) * cpc e * (fr * (Tt45 s - Tt45 s * Rpower (P0 e / (1 * Pt45 s)) k))) by ring. rewrite E1. ring. }
  assert (A2 : t5 - t9 = (1 - fr) * (Tt45 s - t9)) by lra.
  assert (P5 : 0 < t5) by nra.
  assert (Pp5 : 0 < p5).
  { destruct w6 as (_ & w6 & _). rewrite Rmult_1_r in w6. replace p5 with (p5 / P0 e * P0 e) by (field; lra). apply Rmult_lt_0_compat; [|lra]. rewrite w6. apply Rpower_pos. }
  assert (Pp17 : 0 < p17).
  { destruct w8 as (_ & w8 & _). rewrite Rmult_1_r in w8. replace p17 with (p17 / P0 e * P0 e) by (field; lra). apply Rmult_lt_0_compat; [|lra]. rewrite w8. apply Rpower_pos. }
  assert (K5 : Rpower (p5 * 1 / P0 e) k = t5 / t9).
  { unfold expansion in w2. replace ((gh e - 1) * 1 / gh e) with k in w2 by (unfold k; rewrite i1; field; lra).
    replace (p5 * 1 / P0 e) with (p5 / Pt45 s * (Pt45 s / P0 e)) by (field; lra).
    rewrite <- Rpower_mult_distr by (apply Rdiv_lt_0_compat; lra). rewrite <- w2, K45. field. lra. }
  assert (A3 : bpr * (t17 - Tt2 s) = (1 + far s) * (fr * (Tt45 s - t9))).
  { apply Rmult_eq_reg_l with (cpc e); [|lra]. rewrite <- A1. lra. }
  assert (P17 : 0 < t17).
  { assert (0 <= (1 + far s) * (fr * (Tt45 s - t9))) by (apply Rmult_le_pos; [lra|apply Rmult_le_pos; lra]). nra. }
  assert (K17 : Rpower (p17 * 1 / P0 e) k = t17 / T0 e).
  { unfold compression in w4. replace ((gc e - 1) / (gc e * 1)) with k in w4 by (unfold k; field; lra).
    replace (p17 * 1 / P0 e) with (p17 / Pt2 s * (Pt2 s / P0 e)) by (field; lra).
    rewrite <- Rpower_mult_distr by (apply Rdiv_lt_0_compat; lra). rewrite <- w4, K2. field. lra. }
  rewrite i1, i2 in w6.
  destruct (id_jet e Rg (p5 * 1) t5 m9 v9 t9) as [J1 J2]; try assumption; try lra.
  destruct (id_jet e Rg (p17 * 1) t17 m19 v19 (T0 e)) as [J3 J4]; try assumption; try lra.
  assert (I2 : Tt2 s = inlet_temp e). { destruct Cy as (c1 & _ & _ & c4 & _). rewrite c4, c1. reflexivity. }
  assert (Dd : (1 + far s) * (Tt45 s - t9) = (1 + far s) * Tt4 e * brayton e - (compressor_exit e - inlet_temp e)).
  { rewrite Rmult_minus_distr_l, S1, I2. unfold t9, brayton. rewrite X3 in *. field. lra. }
  destruct Sh as (s1 & s2 & s3 & s4 & s5 & s6 & s7 & s8 & s9 & s10 & s11).
  exists o', (far s), v9, v19, (V0 s). rewrite X3, I2 in *. cbv zeta. rewrite <- Dd.
  split; [exact R1|]. split; [exact D'|]. split.
  { unfold has in *. rewrite <- Hb. apply (run_frame _ _ _ "bpr"%string R1). intros J. apply mem_in in J. discriminate J. }
  do 3 (split; [assumption|]). split; [exact s3|]. split; [exact s6|]. do 4 (split; [assumption|]). split; [exact B1|]. split; [exact VV|].
  split; [split; [apply Rmult_le_pos; lra|]; split|].
  - rewrite J1, A2. ring.
  - rewrite J3. replace (bpr * (2 * cpc e * (t17 - T0 e))) with (2 * cpc e * (bpr * (inlet_temp e - T0 e) + bpr * (t17 - inlet_temp e))) by ring. rewrite A3. ring.
  - do 3 (split; [assumption|]). unfold Wsp_cc. cbn [eval]. unfold described in D'. split_and. hasrw. reflexivity.
Qed.

(*@P C107_turbofan: The ideal turbofan (no losses, same gas in every component; any gamma, gas constant, fuel, pressure ratio >= 1, turbine temperature above the compressor exit, flight condition, by-pass ratio > 0, fan power ratio in [0, 1]; any earlier history of the object): update succeeds, and thermal_efficiency is that of the Brayton cycle, 1 - T0/Tt3 with Tt3 the compressor exit temperature - whatever the by-pass ratio, the fan power ratio, the turbine temperature and the fuel; it lies in [0, 1). *)
Lemma ideal_turbofan_brayton : forall o e bpr fr, described o e -> has o "xi_nozzle" 1 -> has o "bpr" bpr -> has o "fanpower_ratio" fr ->
  has o "etapolTBP" 1 -> has o "etapolfan" 1 -> in_range e -> ideal e -> running e -> 0 < bpr -> 0 <= fr <= 1 ->
  exists o' t3, run tf_update o = Some o' /\ has o' "Tt3" t3 /\ t3 = T0 e * temp_ratio (gc e) (M0 e) * Rpower (OPR e) ((gc e - 1) / gc e) /\
  eval o' (thermal_efficiency tf_Wsp_kinEn) = Some (Some (1 - T0 e / t3)) /\ 0 <= 1 - T0 e / t3 < 1.
Proof.
  intros o e bpr fr D Hx Hb Hf HB HF Rg Id Ru Pb Pfr.
  destruct (ideal_turbofan o e bpr fr D Hx Hb Hf HB HF Rg Id Ru Pb Pfr) as
    (o' & f & v9 & v19 & v0 & R1 & D' & _ & k1 & k2 & k3 & k4 & k5 & p1 & p2 & p3 & p4 & B & E0 & (Pd & E9 & E19) & n1 & n2 & n3 & n4).
  pose proof Rg as (g1 & g2 & g3 & g4 & g5 & g6 & g7 & g8 & g9 & g10 & g11 & g12 & g13 & g14 & g15). destruct Ru as [r1 r2].
  assert (Pc : 0 < cpc e). { unfold cpc, cp_of. apply Rdiv_lt_0_compat; [apply Rmult_lt_0_compat; lra|lra]. }
  assert (I0 : T0 e <= inlet_temp e). { unfold inlet_temp, temp_ratio. pose proof (sq_nonneg (M0 e)) as Q. assert (0 <= (gc e - 1) / 2 * M0 e ^ 2) by (apply Rmult_le_pos; lra). nra. }
  assert (O1 : 1 <= Rpower (OPR e) ((gc e - 1) / (gc e * eC e))).
  { destruct Id as (_ & _ & _ & _ & i5 & _). rewrite i5. apply Rle_trans with (Rpower 1 ((gc e - 1) / (gc e * 1))); [rewrite Rpower_one; lra|].
    apply Rle_Rpower_l; [left; apply Rdiv_lt_0_compat; lra|lra]. }
  assert (I3 : inlet_temp e <= compressor_exit e). { unfold compressor_exit. fold (inlet_temp e). nra. }
  exists o', (compressor_exit e). split; [exact R1|]. split; [exact k5|]. split.
  { unfold compressor_exit. destruct Id as (_ & _ & _ & _ & i5 & _). rewrite i5, Rmult_1_r. reflexivity. }
  split; [|split].
  - unfold thermal_efficiency. cbn [eval]. rewrite n3, n4. cbn [ndiv].
    assert (W : 0 < f * Pci e). { rewrite B. apply Rmult_lt_0_compat; [exact Pc|]. assert (0 < f * Tt4 e) by (apply Rmult_lt_0_compat; lra). lra. }
    change (Some (ndiv (Some (((1 + f) * v9 ^ 2 - v0 ^ 2 + bpr * (v19 ^ 2 - v0 ^ 2)) / 2)) (Some (f * Pci e))) = Some (Some (1 - T0 e / compressor_exit e))).
    rewrite ndiv_Some by lra. do 2 f_equal.
    replace ((1 + f) * v9 ^ 2 - v0 ^ 2 + bpr * (v19 ^ 2 - v0 ^ 2)) with ((1 + f) * v9 ^ 2 - v0 ^ 2 + (bpr * v19 ^ 2 - bpr * v0 ^ 2)) by ring.
    rewrite E9, E19, E0, B in *. unfold brayton in *. field. split; [lra|]. split; [|lra].
    intros Z. rewrite Z in W. lra.
  - assert (T0 e / compressor_exit e <= 1); [|lra]. apply Rmult_le_reg_r with (compressor_exit e); [lra|].
    replace (T0 e / compressor_exit e * compressor_exit e) with (T0 e) by (field; lra). lra.
  - assert (0 < T0 e / compressor_exit e) by (apply Rdiv_lt_0_compat; lra). lra.
Qed.

(*@P C107_turbojet: The ideal turbojet, in the same generality: update succeeds, the nozzle discharges above ambient pressure (the floor on Pt9 is not needed), and thermal_efficiency is 1 - T0/Tt3: the same as that of every ideal turbofan built on the same core. *)
Lemma ideal_turbojet_brayton : forall o e, described o e -> has o "xi_nozzle" 1 -> in_range e -> ideal e -> running e ->
  exists o' t3 p45 p9, run tj_update o = Some o' /\ has o' "Tt3" t3 /\ t3 = T0 e * temp_ratio (gc e) (M0 e) * Rpower (OPR e) ((gc e - 1) / gc e) /\
  has o' "Pt45" p45 /\ has o' "Pt9" p9 /\ p9 = p45 /\ P0 e <= p9 /\
  eval o' (thermal_efficiency tj_Wsp_kinEn) = Some (Some (1 - T0 e / t3)).
Proof.
  intros o e D Hx Rg Id Ru. pose proof (feasible_ideal e Rg Id Ru) as Fe.
  pose proof Id as (i1 & i2 & i3 & i4 & i5 & i6 & i7). pose proof Rg as (g1 & g2 & g3 & g4 & g5 & g6 & g7 & g8 & g9 & g10 & g11 & g12 & g13 & g14 & g15).
  destruct (turbojet o e 1 D Hx Rg Fe) as (o' & s & m9 & v9 & R1 & D' & _ & Sh & Cy & Bu & Pf & P45 & Pp45 & q1 & q2 & q3 & q4 & n1 & n2 & n3 & n4).
  destruct (id_facts e s Rg Id Ru Cy Bu Pf Pp45) as (C & Pc & P2 & Pp2 & X3 & L0 & L2 & K2 & K45 & S1 & B1 & F0 & VV & V00 & T9 & L9).
  set (k := (gc e - 1) / gc e) in *. set (t9 := Tt4 e * T0 e / Tt3 s) in *.
  assert (Kp : 0 < k) by (unfold k; apply Rdiv_lt_0_compat; lra).
  assert (PP : P0 e <= Pt45 s).
  { assert (1 <= Pt45 s / P0 e).
    { destruct (Rle_or_lt 1 (Pt45 s / P0 e)) as [|N]; [assumption|]. exfalso.
      assert (0 < Pt45 s / P0 e) by (apply Rdiv_lt_0_compat; lra).
      assert (H1 : Rpower (Pt45 s / P0 e) k < Rpower 1 k) by (apply Rlt_Rpower_l; lra). rewrite Rpower_one, K45 in H1.
      assert (Tt45 s / t9 * t9 < 1 * t9) by (apply Rmult_lt_compat_r; lra). replace (Tt45 s / t9 * t9) with (Tt45 s) in * by (field; lra). lra. }
    assert (1 * P0 e <= Pt45 s / P0 e * P0 e) by (apply Rmult_le_compat_r; lra). replace (Pt45 s / P0 e * P0 e) with (Pt45 s) in * by (field; lra). lra. }
  rewrite Rmult_1_r, Rmax_left in q1, q4 by exact PP.
  rewrite i1, i2 in q4. destruct (id_jet e Rg (Pt45 s) (Tt45 s) m9 v9 t9) as [J1 J2]; try assumption.
  destruct Sh as (s1 & s2 & s3 & s4 & s5 & s6 & s7 & s8 & s9 & s10 & s11).
  exists o', (Tt3 s), (Pt45 s), (Pt45 s). split; [exact R1|]. split; [exact s6|]. split; [rewrite X3; unfold compressor_exit; now rewrite i5, Rmult_1_r|].
  split; [exact s11|]. split; [exact q1|]. split; [reflexivity|]. split; [exact PP|].
  unfold thermal_efficiency. cbn [eval]. rewrite n3, n4.
  destruct Ru as [r1 r2]. rewrite <- X3 in r2.
  assert (W : 0 < far s * Pci e). { rewrite B1. apply Rmult_lt_0_compat; [exact Pc|]. assert (0 < far s * Tt4 e) by (apply Rmult_lt_0_compat; lra). lra. }
  rewrite ndiv_Some by lra. do 2 f_equal.
  assert (E : (1 + far s) * v9 ^ 2 - V0 s ^ 2 = 2 * cpc e * (((1 + far s) * Tt4 e - Tt3 s) * (1 - T0 e / Tt3 s))).
  { rewrite J1, VV. replace ((1 + far s) * (2 * cpc e * (Tt45 s - t9)) - 2 * cpc e * (Tt2 s - T0 e)) with (2 * cpc e * ((1 + far s) * Tt45 s - (1 + far s) * t9 - Tt2 s + T0 e)) by ring.
    rewrite S1. unfold t9. field. lra. }
  rewrite E, B1 in *. field. split; [lra|]. split; [|lra]. intros Z. rewrite Z in W. lra.
Qed.

(*@P C107_optimum: The best fan of the ideal turbofan: take two such engines that differ only in their fan power ratio. If the second one has equal jet velocities (V9 = V19) then the first has at most its thrust, and the same thrust only if its own jets are equal too. *)
Lemma ideal_optimum : forall o1 o2 e bpr fr1 fr2, ideal_fan o1 e bpr fr1 -> ideal_fan o2 e bpr fr2 ->
  exists o1' o2' F1 F2 u9 u19 v9 v19, run tf_update o1 = Some o1' /\ run tf_update o2 = Some o2' /\
  has o1' "V9" u9 /\ has o1' "V19" u19 /\ has o2' "V9" v9 /\ has o2' "V19" v19 /\
  eval o1' tf_spec_thrust = Some (Some F1) /\ eval o2' tf_spec_thrust = Some (Some F2) /\
  (v9 = v19 -> F1 <= F2 /\ (F1 = F2 -> u9 = u19)).
Proof.
  intros o1 o2 e bpr fr1 fr2 (D & Hx & Hb & Hf & HB & HF & Rg & Id & Ru & Pb & Pfr) (D2 & Hx2 & Hb2 & Hf2 & HB2 & HF2 & _ & _ & _ & _ & Pfr2).
  destruct (ideal_turbofan o1 e bpr fr1 D Hx Hb Hf HB HF Rg Id Ru Pb Pfr) as
    (o1' & f & u9 & u19 & v0 & R1 & D' & _ & k1 & k2 & k3 & k4 & k5 & p1 & p2 & p3 & p4 & B & E0 & (Pd & E9 & E19) & n1 & n2 & _).
  destruct (ideal_turbofan o2 e bpr fr2 D2 Hx2 Hb2 Hf2 HB2 HF2 Rg Id Ru Pb Pfr2) as
    (o2' & f' & v9 & v19 & v0' & R1' & D2' & _ & k1' & k2' & k3' & k4' & k5' & p1' & p2' & p3' & p4' & B' & E0' & (Pd' & E9' & E19') & n1' & n2' & _).
  assert (Ef : f' = f).
  { destruct Rg as (g1 & g2 & g3 & g4 & g5 & g6 & g7 & g8 & g9 & g10 & g11 & g12 & g13 & g14 & g15). destruct Id as (i1 & i2 & i3 & i4 & _).
    rewrite i4 in g15. unfold cph in g15. rewrite i1, i2 in g15. fold (cpc e) in g15.
    apply Rmult_eq_reg_r with (Pci e - cpc e * Tt4 e); lra. }
  subst f'. assert (Ev : v0' = v0).
  { rewrite <- E0 in E0'. assert (H : (v0' - v0) * (v0' + v0) = 0) by (ring_simplify; lra). apply Rmult_integral in H. destruct H; lra. }
  subst v0'.
  exists o1', o2', (((1 + f) * u9 - v0 + bpr * (u19 - v0)) / (1 + bpr)), (((1 + f) * v9 - v0 + bpr * (v19 - v0)) / (1 + bpr)), u9, u19, v9, v19.
  do 8 (split; [assumption|]). intros Ev. subst v19.
  set (d := (1 + f) * Tt4 e * brayton e - (compressor_exit e - inlet_temp e)) in *.
  assert (EE : (1 + f) * u9 ^ 2 + bpr * u19 ^ 2 = (1 + f + bpr) * v9 ^ 2).
  { replace ((1 + f + bpr) * v9 ^ 2) with ((1 + f) * v9 ^ 2 + bpr * v9 ^ 2) by ring. rewrite E9, E19, E9', E19'. ring. }
  assert (CS : ((1 + f) * u9 + bpr * u19) ^ 2 + (1 + f) * bpr * (u9 - u19) ^ 2 = ((1 + f + bpr) * v9) ^ 2).
  { replace (((1 + f + bpr) * v9) ^ 2) with ((1 + f + bpr) * ((1 + f + bpr) * v9 ^ 2)) by ring. rewrite <- EE. ring. }
  assert (Pq : 0 < (1 + f) * bpr) by (apply Rmult_lt_0_compat; lra).
  pose proof (sq_nonneg (u9 - u19)) as Sq.
  set (x := (1 + f) * u9 + bpr * u19) in *. set (y := (1 + f + bpr) * v9) in *.
  assert (Hx' : 0 <= x) by (unfold x; apply Rplus_le_le_0_compat; apply Rmult_le_pos; lra).
  assert (Hy' : 0 <= y) by (unfold y; apply Rmult_le_pos; lra).
  assert (0 <= (1 + f) * bpr * (u9 - u19) ^ 2) by (apply Rmult_le_pos; lra).
  replace ((1 + f) * u9 - v0 + bpr * (u19 - v0)) with (x - (1 + bpr) * v0) by (unfold x; ring).
  replace ((1 + f) * v9 - v0 + bpr * (v9 - v0)) with (y - (1 + bpr) * v0) by (unfold y; ring).
  assert (Iv : 0 < / (1 + bpr)) by (apply Rinv_0_lt_compat; lra).
  split.
  - unfold Rdiv. apply Rmult_le_compat_r; [lra|]. assert (x <= y); [|lra]. apply Rnot_lt_le. intros N. nra.
  - unfold Rdiv. intros E. apply Rmult_eq_reg_r in E; [|lra]. assert (Exy : x = y) by lra. rewrite Exy in CS.
    assert (Z : (1 + f) * bpr * (u9 - u19) ^ 2 = 0) by lra. apply Rmult_integral in Z. destruct Z as [Z|Z]; [lra|].
    assert (u9 - u19 = 0); [|lra]. apply Rsqr_0_uniq. unfold Rsqr. lra.
Qed.

(*@P C107_optimal_fan: That optimum is reached: for every ideal core in flight whose turbojet jet is faster than the flight, and every by-pass ratio, some fan power ratio in [0, 1] makes both jets of the turbofan equally fast. *)
Lemma ideal_optimal_fan : forall o e v9 v0, described o e -> has o "xi_nozzle" 1 -> in_range e -> ideal e -> running e ->
  (exists o', run tj_update o = Some o' /\ has o' "V9" v9 /\ has o' "V0" v0) -> v0 < v9 ->
  forall bpr, 0 < bpr -> exists fr, 0 <= fr <= 1 /\ 
  forall o1, ideal_fan o1 e bpr fr -> exists o1' u, run tf_update o1 = Some o1' /\ has o1' "V9" u /\ has o1' "V19" u.
Proof.
  intros o e v9 v0 D Hx Rg Id Ru (oj & Rj & Hj9 & Hj0) Lt bpr Pb.
  pose proof (feasible_ideal e Rg Id Ru) as Fe.
  pose proof Id as (i1 & i2 & i3 & i4 & i5 & i6 & i7). pose proof Rg as (g1 & g2 & g3 & g4 & g5 & g6 & g7 & g8 & g9 & g10 & g11 & g12 & g13 & g14 & g15).
  destruct (turbojet o e 1 D Hx Rg Fe) as (o' & s & m9 & v9' & R1 & D' & _ & Sh & Cy & Bu & Pf & P45 & Pp45 & q1 & q2 & q3 & q4 & _).
  rewrite R1 in Rj. apply Some_inj in Rj. subst oj.
  destruct (id_facts e s Rg Id Ru Cy Bu Pf Pp45) as (C & Pc & P2 & Pp2 & X3 & L0 & L2 & K2 & K45 & S1 & B1 & F0 & VV & V00 & T9 & L9).
  unfold has in q3, Hj9. rewrite q3 in Hj9. apply Some_inj, Some_inj in Hj9. subst v9'.
  destruct Sh as (_ & _ & s3 & _ & _ & _ & _ & _ & s9 & _). unfold has in s3, Hj0. rewrite s3 in Hj0. apply Some_inj, Some_inj in Hj0. subst v0.
  set (k := (gc e - 1) / gc e) in *. set (t9 := Tt4 e * T0 e / Tt3 s) in *.
  assert (Kp : 0 < k) by (unfold k; apply Rdiv_lt_0_compat; lra).
  assert (PP : P0 e <= Pt45 s).
  { assert (1 <= Pt45 s / P0 e).
    { destruct (Rle_or_lt 1 (Pt45 s / P0 e)) as [|N]; [assumption|]. exfalso.
      assert (0 < Pt45 s / P0 e) by (apply Rdiv_lt_0_compat; lra).
      assert (H1 : Rpower (Pt45 s / P0 e) k < Rpower 1 k) by (apply Rlt_Rpower_l; lra). rewrite Rpower_one, K45 in H1.
      assert (Tt45 s / t9 * t9 < 1 * t9) by (apply Rmult_lt_compat_r; lra). replace (Tt45 s / t9 * t9) with (Tt45 s) in * by (field; lra). lra. }
    assert (1 * P0 e <= Pt45 s / P0 e * P0 e) by (apply Rmult_le_compat_r; lra). replace (Pt45 s / P0 e * P0 e) with (Pt45 s) in * by (field; lra). lra. }
  rewrite Rmult_1_r, Rmax_left in q4 by exact PP.
  rewrite i1, i2 in q4. destruct (id_jet e Rg (Pt45 s) (Tt45 s) m9 v9 t9) as [J1 J2]; try assumption.
  assert (I2 : Tt2 s = inlet_temp e). { destruct Cy as (c1 & _ & _ & c4 & _). rewrite c4, c1. reflexivity. }
  assert (Dd : (1 + far s) * (Tt45 s - t9) = (1 + far s) * Tt4 e * brayton e - (compressor_exit e - inlet_temp e)).
  { rewrite Rmult_minus_distr_l, S1, I2. unfold t9, brayton. rewrite X3 in *. field. lra. }
  set (d := Tt45 s - t9) in *. set (w := Tt2 s - T0 e) in *. set (f := far s) in *.
  assert (Wp : 0 <= w) by (unfold w; lra).
  assert (Wd : w < d). { assert (V0 s ^ 2 < v9 ^ 2) by nra. rewrite J1, VV in *. apply Rmult_lt_reg_l with (2 * cpc e); lra. }
  set (fr := (d - w) * bpr / (d * (1 + f + bpr))).
  assert (Pden : 0 < d * (1 + f + bpr)) by (apply Rmult_lt_0_compat; lra).
  assert (Fr : 0 <= fr <= 1).
  { unfold fr. split; [apply Rmult_le_pos; [apply Rmult_le_pos; lra|left; now apply Rinv_0_lt_compat]|].
    apply Rmult_le_reg_r with (d * (1 + f + bpr)); [exact Pden|]. replace ((d - w) * bpr / (d * (1 + f + bpr)) * (d * (1 + f + bpr))) with ((d - w) * bpr) by (field; lra).
    nra. }
  exists fr. split; [exact Fr|]. intros o1 (D1 & Hx1 & Hb & Hf & HB & HF & _ & _ & _ & _ & _).
  destruct (ideal_turbofan o1 e bpr fr D1 Hx1 Hb Hf HB HF Rg Id Ru Pb Fr) as
    (o1' & f1 & u9 & u19 & u0 & R1' & D1' & _ & k1 & k2 & k3 & k4 & k5 & p1 & p2 & p3 & p4 & B & E0 & (Pd & E9 & E19) & _).
  assert (Ef : f1 = f).
  { rewrite i4 in g15. unfold cph in g15. rewrite i1, i2 in g15. fold (cpc e) in g15. rewrite X3 in B1. apply Rmult_eq_reg_r with (Pci e - cpc e * Tt4 e); lra. }
  subst f1. rewrite <- Dd in E9, E19. rewrite <- I2 in E19. fold w in E19.
  assert (A9 : u9 ^ 2 = 2 * cpc e * ((1 - fr) * d)).
  { apply Rmult_eq_reg_l with (1 + f); [|lra]. rewrite E9. ring. }
  assert (A19 : u19 ^ 2 = 2 * cpc e * (w + fr * (1 + f) * d / bpr)).
  { apply Rmult_eq_reg_l with bpr; [|lra]. rewrite E19. field. lra. }
  assert (EE : u9 ^ 2 = u19 ^ 2). { rewrite A9, A19. unfold fr. field. repeat split; lra. }
  assert (Eu : u9 = u19). { assert (H : (u9 - u19) * (u9 + u19) = 0) by (ring_simplify; lra). apply Rmult_integral in H. destruct H; lra. }
  subst u19. exists o1', u9. split; [exact R1'|]. split; [exact k2|exact k3].
Qed.
