(** * C108: no engine beats the Brayton cycle *)
From Coq Require Import String.
From Verif Require Import Num L_Num M_Isentropic M_Obj L_Obj M_Engine EngineSpec IdealSpec L_Engine L_Engine2 L_Ideal.
Open Scope R_scope.

Lemma Rpower_ge_1 x a : 1 <= x -> 0 <= a -> 1 <= Rpower x a.
Proof. intros X A. apply Rle_trans with (Rpower x 0); [rewrite Rpower_O; lra|]. apply Rle_Rpower; lra. Qed.
Lemma Rpower_le_base x a : 0 < x <= 1 -> 1 <= a -> Rpower x a <= x.
Proof.
  intros [X0 X1] A. rewrite <- (Rpower_1 x) at 2 by exact X0. unfold Rpower. assert (ln x <= 0). { rewrite <- ln_1. destruct X1 as [X1| ->]; [left; now apply ln_increasing|right; reflexivity]. }
  destruct (Req_dec (a * ln x) (1 * ln x)) as [->|N]; [right; reflexivity|]. left. apply exp_increasing. nra.
Qed.
Lemma inv_ge_1 x : 0 < x <= 1 -> 1 <= / x.
Proof. intros [X0 X1]. rewrite <- Rinv_1. apply Rinv_le_contravar; lra. Qed.

Section Losses.
Variables (e : gas_generator) (s : stations).
Hypotheses (Rg : in_range e) (Pa : passive e) (Bg : burning e) (Cy : cycle e s)
  (Bu : burner (cpc e) (cph e) (xi_cc e) (Pci e) (far s) (Tt3 s) (Tt4 e)) (Pf : 0 < 1 + far s) (P45 : 0 < Tt45 s) (Pp45 : 0 < Pt45 s).
Let kc := (gc e - 1) / gc e.
Let kh := (gh e - 1) / gh e.
Let t9 := Tt4 e * T0 e / Tt3 s.

Lemma sl_facts : 0 < cpc e /\ 0 < cph e /\ 0 < kh /\ kh <= kc /\ 0 < Tt2 s /\ 0 < Pt2 s /\ Tt3 s = compressor_exit e /\ T0 e <= Tt2 s /\ Tt2 s <= Tt3 s /\
  Rpower (Pt2 s / P0 e) kc <= Tt2 s / T0 e /\ Rpower (Pt45 s / P0 e) kh <= Tt45 s / t9 /\ 0 < t9 /\
  (1 + far s) * cph e * Tt45 s <= (1 + far s) * cph e * Tt4 e - cpc e * (Tt3 s - Tt2 s) /\
  xi_cc e * (far s * Pci e) = (1 + far s) * cph e * Tt4 e - cpc e * Tt3 s /\ 0 < far s /\ 0 < Pci e /\
  V0 s ^ 2 = 2 * cpc e * (Tt2 s - T0 e) /\ 0 <= V0 s.
Proof.
  destruct Pa as (i1 & i3 & i4 & i5 & i6 & i7).
  destruct Cy as (c1 & c2 & c3 & c4 & c5 & c6 & c7 & c8 & c9 & c10).
  destruct Rg as (g1 & g2 & g3 & g4 & g5 & g6 & g7 & g8 & g9 & g10 & g11 & g12 & g13 & g14 & g15).
  destruct Bg as [r1 r2].
  assert (P : 0 < cpc e). { unfold cpc, cp_of. apply Rdiv_lt_0_compat; [apply Rmult_lt_0_compat; lra|lra]. }
  assert (Ph : 0 < cph e). { unfold cph, cp_of. apply Rdiv_lt_0_compat; [apply Rmult_lt_0_compat; lra|lra]. }
  pose proof (temp_ratio_pos (gc e) (M0 e) g3) as tr.
  assert (tr1 : 1 <= temp_ratio (gc e) (M0 e)). { unfold temp_ratio. pose proof (sq_nonneg (M0 e)). nra. }
  assert (I : T0 e <= Tt2 s) by (rewrite c4, c1; nra).
  assert (Ptt2 : 0 < Tt2 s) by lra.
  assert (Pp0 : 0 < Pt0 s). { rewrite c2. apply Rmult_lt_0_compat; [lra|apply Rpower_pos]. }
  assert (Pp2 : 0 < Pt2 s) by (rewrite c5; apply Rmult_lt_0_compat; lra).
  assert (Kh : 0 < kh) by (unfold kh; apply Rdiv_lt_0_compat; lra).
  assert (Kc : kh <= kc).
  { unfold kh, kc. replace ((gh e - 1) / gh e) with (1 - / gh e) by (field; lra). replace ((gc e - 1) / gc e) with (1 - / gc e) by (field; lra).
    assert (/ gc e <= / gh e) by (apply Rinv_le_contravar; lra). lra. }
  assert (E3 : Tt3 s / Tt2 s = Rpower (OPR e) (kc / eC e)).
  { unfold compression in c7. rewrite c7. f_equal; [rewrite c6; field; lra|unfold kc; field; lra]. }
  assert (T3 : Tt3 s = Tt2 s * Rpower (OPR e) (kc / eC e)) by (rewrite <- E3; field; lra).
  assert (X3 : Tt3 s = compressor_exit e).
  { rewrite T3. unfold compressor_exit. rewrite c4, c1. f_equal. f_equal. unfold kc. field. lra. }
  assert (O2 : Rpower (OPR e) kc <= Rpower (OPR e) (kc / eC e)).
  { apply Rle_Rpower; [exact r1|]. pose proof (inv_ge_1 (eC e) (conj g9 i5)). unfold Rdiv. nra. }
  assert (O1 : 1 <= Rpower (OPR e) kc) by (apply Rpower_ge_1; lra).
  assert (L3 : Tt2 s <= Tt3 s) by (rewrite T3; nra).
  assert (K0 : Rpower (Pt0 s / P0 e) kc = Tt2 s / T0 e).
  { unfold kc. rewrite (pr_temp (gc e) (M0 e)); [|lra|]. rewrite c4, c1; field; lra. rewrite c2. field. lra. }
  assert (R0 : 1 <= Pt0 s / P0 e).
  { rewrite c2. replace (P0 e * pres_ratio (gc e) (M0 e) / P0 e) with (pres_ratio (gc e) (M0 e)) by (field; lra).
    unfold pres_ratio. apply Rpower_ge_1; [exact tr1|]. left. apply Rdiv_lt_0_compat; lra. }
  assert (Q2 : Pt2 s / P0 e <= Pt0 s / P0 e).
  { unfold Rdiv. apply Rmult_le_compat_r; [left; apply Rinv_0_lt_compat; lra|]. rewrite c5. nra. }
  assert (K2 : Rpower (Pt2 s / P0 e) kc <= Tt2 s / T0 e).
  { rewrite <- K0. apply Rle_Rpower_l; [lra|]. split; [apply Rdiv_lt_0_compat; lra|exact Q2]. }
  assert (T9 : 0 < t9) by (unfold t9; apply Rdiv_lt_0_compat; [apply Rmult_lt_0_compat; lra|lra]).
  assert (Pp3 : 0 < Pt3 s) by (rewrite c6; apply Rmult_lt_0_compat; lra).
  assert (Pp4 : 0 < Pt4 s) by (rewrite c8; apply Rmult_lt_0_compat; lra).
  assert (B1 : xi_cc e * (far s * Pci e) = (1 + far s) * cph e * Tt4 e - cpc e * Tt3 s) by (unfold burner in Bu; lra).
  assert (F0 : 0 < far s).
  { rewrite <- X3 in r2. assert (E : far s * (xi_cc e * Pci e - cph e * Tt4 e) = cph e * Tt4 e - cpc e * Tt3 s) by lra.
    assert (0 < cph e * Tt4 e - cpc e * Tt3 s) by lra. nra. }
  assert (PPc : 0 < Pci e). { assert (0 < cph e * Tt4 e) by (apply Rmult_lt_0_compat; lra). nra. }
  assert (S0 : (1 + far s) * cph e * (Tt4 e - Tt45 s) = cpc e * (Tt3 s - Tt2 s) / eS e).
  { unfold shaft_balance in c9. rewrite <- c9. field. lra. }
  assert (W0 : 0 <= cpc e * (Tt3 s - Tt2 s)) by (apply Rmult_le_pos; lra).
  assert (S1 : cpc e * (Tt3 s - Tt2 s) <= cpc e * (Tt3 s - Tt2 s) / eS e).
  { pose proof (inv_ge_1 (eS e) (conj g11 i7)). unfold Rdiv. nra. }
  assert (L45 : Tt45 s <= Tt4 e).
  { assert (Pm : 0 < (1 + far s) * cph e) by (apply Rmult_lt_0_compat; lra). apply Rnot_lt_le. intros N. nra. }
  assert (K4 : Rpower (Pt4 s / P0 e) kh <= Tt3 s / T0 e).
  { assert (1 <= OPR e * (Pt0 s / P0 e)) by nra.
    apply Rle_trans with (Rpower (OPR e * (Pt0 s / P0 e)) kh).
    - apply Rle_Rpower_l; [lra|]. split; [apply Rdiv_lt_0_compat; lra|]. rewrite c8, c6.
      replace (xi_cc e * (OPR e * Pt2 s) / P0 e) with (OPR e * (xi_cc e * (Pt2 s / P0 e))) by (field; lra). apply Rmult_le_compat_l; [lra|].
      assert (0 < Pt2 s / P0 e) by (apply Rdiv_lt_0_compat; lra). nra.
    - apply Rle_trans with (Rpower (OPR e * (Pt0 s / P0 e)) kc); [apply Rle_Rpower; assumption|].
      rewrite <- Rpower_mult_distr by lra. rewrite K0. replace (Tt3 s / T0 e) with (Tt3 s / Tt2 s * (Tt2 s / T0 e)) by (field; lra).
      apply Rmult_le_compat_r; [left; apply Rdiv_lt_0_compat; lra|]. rewrite E3. exact O2. }
  assert (K45 : Rpower (Pt45 s / P0 e) kh <= Tt45 s / t9).
  { replace (Pt45 s / P0 e) with (Pt45 s / Pt4 s * (Pt4 s / P0 e)) by (field; lra).
    rewrite <- Rpower_mult_distr by (apply Rdiv_lt_0_compat; lra).
    replace (Tt45 s / t9) with (Tt45 s / Tt4 e * (Tt3 s / T0 e)) by (unfold t9; field; repeat split; lra).
    apply Rmult_le_compat; [left; apply Rpower_pos|left; apply Rpower_pos| |exact K4].
    unfold expansion in c10. assert (Q : Rpower (Pt45 s / Pt4 s) kh = Rpower (Tt45 s / Tt4 e) (/ eT e)).
    { rewrite c10, Rpower_mult. f_equal. unfold kh. field. lra. }
    rewrite Q. apply Rpower_le_base; [|apply inv_ge_1; lra]. split; [apply Rdiv_lt_0_compat; lra|].
    apply Rmult_le_reg_r with (Tt4 e); [lra|]. replace (Tt45 s / Tt4 e * Tt4 e) with (Tt45 s) by (field; lra). lra. }
  assert (Vp : 0 <= gc e * rc e * T0 e) by (left; repeat apply Rmult_lt_0_compat; lra).
  assert (VV : V0 s ^ 2 = 2 * cpc e * (Tt2 s - T0 e)).
  { rewrite c3, Rpow_mult_distr, sq_sqrt by exact Vp. rewrite c4, c1. unfold cpc, cp_of, temp_ratio. field. lra. }
  assert (V00 : 0 <= V0 s) by (rewrite c3; apply Rmult_le_pos; [lra|apply sqrt_pos]).
  assert (S2 : (1 + far s) * cph e * Tt45 s <= (1 + far s) * cph e * Tt4 e - cpc e * (Tt3 s - Tt2 s)) by lra.
  repeat (split; [assumption|]). assumption.
Qed.
End Losses.

(** a jet from (pt, tt) down to p0 leaves with at most the energy of the drop to the temperature [a] *)
Lemma sl_jet g r pt tt p0 m v a : 1 < g -> 0 < r -> 0 < tt -> 0 < a -> nozzle g r pt tt p0 m v -> Rpower (pt / p0) ((g - 1) / g) <= tt / a ->
  v ^ 2 <= 2 * cp_of g r * (tt - a).
Proof.
  intros Hg Hr Ht Ha (n1 & n2 & n3 & n4) Hk. apply pr_temp in n2; [|exact Hg]. rewrite n2 in Hk. rewrite n3.
  pose proof (temp_ratio_pos g m Hg) as P.
  assert (C : 0 < cp_of g r). { unfold cp_of. apply Rdiv_lt_0_compat; [apply Rmult_lt_0_compat; lra|lra]. }
  apply Rmult_le_compat_l; [lra|]. assert (a <= tt / temp_ratio g m); [|lra].
  apply Rmult_le_reg_r with (temp_ratio g m); [exact P|]. replace (tt / temp_ratio g m * temp_ratio g m) with tt by (field; lra).
  apply Rmult_le_compat_l with (r := a) in Hk; [|lra]. replace (a * (tt / a)) with tt in Hk by (field; lra). exact Hk.
Qed.

(*@P C108_turbojet: No turbojet beats the Brayton cycle: for every engine in the operating range whose efficiencies and pressure recoveries (nozzle included) are at most 1, whose hot gas has a gamma not above that of the air (the gas constants are free), whose compressor compresses and whose combustor heats, at every flight condition and after any history: update succeeds and thermal_efficiency is at most xi_cc (1 - T0/Tt3), with Tt3 the compressor exit temperature; in particular it is below 1. *)
Lemma sl_turbojet : forall o e xn, described o e -> has o "xi_nozzle" xn -> in_range e -> feasible e (xi_cc e) -> passive e -> burning e -> xn <= 1 ->
  exists o' t3 eta, run tj_update o = Some o' /\ has o' "Tt3" t3 /\ T0 e <= t3 /\
  eval o' (thermal_efficiency tj_Wsp_kinEn) = Some (Some eta) /\ eta <= xi_cc e * (1 - T0 e / t3) /\ eta < 1.
Proof.
  intros o e xn D Hx Rg Fe Pa Bg Hn. pose proof Rg as (g1 & g2 & g3 & g4 & g5 & g6 & g7 & g8 & g9 & g10 & g11 & g12 & g13 & g14 & g15).
  destruct (turbojet o e xn D Hx Rg Fe) as (o' & s & m9 & v9 & R1 & D' & _ & Sh & Cy & Bu & Pf & P45 & Pp45 & q1 & q2 & q3 & q4 & n1 & n2 & n3 & n4).
  destruct (sl_facts e s Rg Pa Bg Cy Bu Pf P45 Pp45) as (Pc & Ph & Kh & Kc & P2 & Pp2 & X3 & L0 & L2 & K2 & K45 & T9 & S1 & B1 & F0 & PPc & VV & V00).
  set (t9 := Tt4 e * T0 e / Tt3 s) in *.
  destruct Sh as (s1 & s2 & s3 & s4 & s5 & s6 & s7 & s8 & s9 & s10 & s11).
  assert (W : 0 < far s * Pci e) by (apply Rmult_lt_0_compat; lra).
  assert (P3 : 0 < Tt3 s) by lra.
  assert (Z : 0 < T0 e / Tt3 s <= 1).
  { split; [apply Rdiv_lt_0_compat; lra|]. apply Rmult_le_reg_r with (Tt3 s); [exact P3|]. replace (T0 e / Tt3 s * Tt3 s) with (T0 e) by (field; lra). lra. }
  assert (J : (1 + far s) * v9 ^ 2 <= Rmax 0 (2 * ((1 + far s) * cph e * (Tt45 s - t9)))).
  { destruct (Rle_or_lt (P0 e) (Pt45 s * xn)) as [Hp|Hp].
    - rewrite Rmax_left in q4 by exact Hp. apply Rle_trans with (2 * ((1 + far s) * cph e * (Tt45 s - t9))); [|apply Rmax_r].
      assert (v9 ^ 2 <= 2 * cp_of (gh e) (rh e) * (Tt45 s - t9)).
      { apply (sl_jet _ _ _ _ _ _ _ _ g4 g6 P45 T9 q4). eapply Rle_trans; [|exact K45]. apply Rle_Rpower_l; [lra|].
        split; [apply Rdiv_lt_0_compat; lra|]. unfold Rdiv. apply Rmult_le_compat_r; [left; apply Rinv_0_lt_compat; lra|]. nra. }
      fold (cph e) in H. apply Rmult_le_compat_l with (r := 1 + far s) in H; [|lra]. lra.
    - rewrite Rmax_right in q4 by lra. apply nozzle_closed in q4; [|lra|lra]. subst v9. eapply Rle_trans; [|apply Rmax_l]. right. ring. }
  exists o', (Tt3 s), (((1 + far s) * v9 ^ 2 - V0 s ^ 2) / 2 / (far s * Pci e)).
  split; [exact R1|]. split; [exact s6|]. split; [lra|]. split.
  { unfold thermal_efficiency. cbn [eval]. rewrite n3, n4. now rewrite ndiv_Some by lra. }
  assert (M : ((1 + far s) * v9 ^ 2 - V0 s ^ 2) / 2 <= xi_cc e * (1 - T0 e / Tt3 s) * (far s * Pci e)).
  { replace (xi_cc e * (1 - T0 e / Tt3 s) * (far s * Pci e)) with ((1 - T0 e / Tt3 s) * (xi_cc e * (far s * Pci e))) by ring.
    assert (N0 : 0 <= (1 - T0 e / Tt3 s) * (xi_cc e * (far s * Pci e))) by (apply Rmult_le_pos; [lra|apply Rmult_le_pos; lra]).
    rewrite VV. assert (0 <= 2 * cpc e * (Tt2 s - T0 e)) by (apply Rmult_le_pos; lra).
    unfold Rmax in J. destruct (Rle_dec 0 (2 * ((1 + far s) * cph e * (Tt45 s - t9)))) as [Hd|Hd]; [|lra].
    rewrite B1. replace ((1 - T0 e / Tt3 s) * ((1 + far s) * cph e * Tt4 e - cpc e * Tt3 s)) with
      ((1 + far s) * cph e * Tt4 e - cpc e * Tt3 s - (1 + far s) * cph e * t9 + cpc e * T0 e) by (unfold t9; field; lra). lra. }
  assert (Y : ((1 + far s) * v9 ^ 2 - V0 s ^ 2) / 2 / (far s * Pci e) <= xi_cc e * (1 - T0 e / Tt3 s)).
  { apply Rmult_le_reg_r with (far s * Pci e); [exact W|].
    replace (((1 + far s) * v9 ^ 2 - V0 s ^ 2) / 2 / (far s * Pci e) * (far s * Pci e)) with (((1 + far s) * v9 ^ 2 - V0 s ^ 2) / 2) by (field; split; lra). exact M. }
  split; [exact Y|]. destruct Pa as (_ & _ & i4 & _). nra.
Qed.

(*@P C108_turbofan: Nor does any turbofan: the same bound for the turbofan with any by-pass ratio > 0 and fan power ratio in [0, 1], whose fan and low pressure turbine efficiencies are at most 1 and whose two nozzles discharge above ambient pressure. *)
Lemma sl_turbofan : forall o e xn bpr fr eB eF, described o e -> has o "xi_nozzle" xn -> has o "bpr" bpr -> has o "fanpower_ratio" fr ->
  has o "etapolTBP" eB -> has o "etapolfan" eF -> in_range e -> feasible e (xi_cc e) -> passive e -> burning e ->
  0 < xn <= 1 -> 0 < bpr -> 0 <= fr <= 1 -> 0 < eB <= 1 -> 0 < eF <= 1 -> P0 e <= xn * (xi_inlet e * (P0 e * pres_ratio (gc e) (M0 e))) ->
  exists o' t3 p45, run tf_update o = Some o' /\ has o' "Tt3" t3 /\ T0 e <= t3 /\ has o' "Pt45" p45 /\
  (P0 e <= p45 * xn -> exists eta, eval o' (thermal_efficiency tf_Wsp_kinEn) = Some (Some eta) /\ eta <= xi_cc e * (1 - T0 e / t3) /\ eta < 1).
Proof.
  intros o e xn bpr fr eB eF D Hx Hb Hf HB HF Rg Fe Pa Bg Hn Pb Pfr PB PF Hp0.
  pose proof Rg as (g1 & g2 & g3 & g4 & g5 & g6 & g7 & g8 & g9 & g10 & g11 & g12 & g13 & g14 & g15).
  destruct (turbofan o e xn bpr fr eB eF D Hx Hb Hf HB HF Rg Fe) as (o' & s & R1 & D' & Sh & Cy & Bu & Pf & P45 & Pp45 & K); try lra; try tauto.
  destruct (sl_facts e s Rg Pa Bg Cy Bu Pf P45 Pp45) as (Pc & Ph & Kh & Kc & P2 & Pp2 & X3 & L0 & L2 & K2 & K45 & T9 & S1 & B1 & F0 & PPc & VV & V00).
  set (t9 := Tt4 e * T0 e / Tt3 s) in *.
  destruct Sh as (s1 & s2 & s3 & s4 & s5 & s6 & s7 & s8 & s9 & s10 & s11).
  exists o', (Tt3 s), (Pt45 s). split; [exact R1|]. split; [exact s6|]. split; [lra|]. split; [exact s11|]. intros PP.
  destruct (K PP) as (t5 & p5 & m9 & v9 & t17 & p17 & m19 & v19 & h1 & h2 & h3 & h4 & h5 & h6 & h7 & h8 & w1 & w2 & w3 & w4 & _ & w6 & _ & w8 & w9 & w10 & w11).
  clear K. cbv zeta in *.
  set (kh := (gh e - 1) / gh e) in *. set (kc := (gc e - 1) / gc e) in *.
  assert (W : 0 < far s * Pci e) by (apply Rmult_lt_0_compat; lra).
  assert (P3 : 0 < Tt3 s) by lra.
  assert (Z : 0 < T0 e / Tt3 s <= 1).
  { split; [apply Rdiv_lt_0_compat; lra|]. apply Rmult_le_reg_r with (Tt3 s); [exact P3|]. replace (T0 e / Tt3 s * Tt3 s) with (T0 e) by (field; lra). lra. }
  assert (Pm : 0 < (1 + far s) * cph e) by (apply Rmult_lt_0_compat; lra).
  set (ex := Rpower (P0 e / (xn * Pt45 s)) ((gh e - 1) * eB / gh e)) in *.
  assert (Hex : 0 < ex <= 1).
  { split; [apply Rpower_pos|]. unfold ex. apply Rle_trans with (Rpower 1 ((gh e - 1) * eB / gh e)); [|rewrite Rpower_one; lra].
    assert (0 < xn * Pt45 s) by (apply Rmult_lt_0_compat; lra).
    apply Rle_Rpower_l; [left; apply Rdiv_lt_0_compat; [apply Rmult_lt_0_compat; lra|lra]|]. split; [apply Rdiv_lt_0_compat; lra|].
    apply Rmult_le_reg_r with (xn * Pt45 s); [lra|]. replace (P0 e / (xn * Pt45 s) * (xn * Pt45 s)) with (P0 e) by (field; lra). lra. }
  assert (A1 : Tt45 s - t5 = fr * (Tt45 s * (1 - ex))).
  { apply Rmult_eq_reg_l with ((1 + far s) * cph e); [|lra]. rewrite w1. ring. }
  assert (L5 : t5 <= Tt45 s). { assert (0 <= fr * (Tt45 s * (1 - ex))) by (apply Rmult_le_pos; [lra|apply Rmult_le_pos; lra]). lra. }
  assert (P5 : 0 < t5).
  { assert (fr * (Tt45 s * (1 - ex)) <= 1 * (Tt45 s * (1 - ex))) by (apply Rmult_le_compat_r; [apply Rmult_le_pos; lra|lra]). assert (0 < Tt45 s * ex) by (apply Rmult_lt_0_compat; lra). lra. }
  assert (Pp5 : 0 < p5).
  { destruct w6 as (_ & w6 & _). assert (0 < p5 * xn). { replace (p5 * xn) with (P0 e * (p5 * xn / P0 e)) by (field; lra). rewrite w6. apply Rmult_lt_0_compat; [lra|apply Rpower_pos]. } clear - H Hn. nra. }
  assert (Pp17 : 0 < p17).
  { destruct w8 as (_ & w8 & _). assert (0 < p17 * xn). { replace (p17 * xn) with (P0 e * (p17 * xn / P0 e)) by (field; lra). rewrite w8. apply Rmult_lt_0_compat; [lra|apply Rpower_pos]. } clear - H Hn. nra. }
  assert (L17 : Tt2 s <= t17).
  { assert (0 <= eS e * ((1 + far s) * cph e * (Tt45 s - t5))) by (apply Rmult_le_pos; [lra|apply Rmult_le_pos; lra]).
    apply Rnot_lt_le. intros N. assert (0 < bpr * cpc e) by (apply Rmult_lt_0_compat; lra). assert (bpr * cpc e * (t17 - Tt2 s) < 0) by (clear - N H0; nra). lra. }
  (* core *)
  assert (J9 : v9 ^ 2 <= 2 * cph e * (t5 - t9)).
  { unfold cph. apply (sl_jet _ _ _ _ _ _ _ _ g4 g6 P5 T9 w6). fold kh.
    apply Rle_trans with (Rpower (p5 / Pt45 s * (Pt45 s / P0 e)) kh).
    - apply Rle_Rpower_l; [lra|]. split; [apply Rdiv_lt_0_compat; [apply Rmult_lt_0_compat|]; lra|].
      replace (p5 / Pt45 s * (Pt45 s / P0 e)) with (p5 / P0 e) by (field; lra). unfold Rdiv. apply Rmult_le_compat_r; [left; apply Rinv_0_lt_compat; lra|]. clear - Pp5 Hn. nra.
    - rewrite <- Rpower_mult_distr by (apply Rdiv_lt_0_compat; lra). replace (t5 / t9) with (t5 / Tt45 s * (Tt45 s / t9)) by (field; lra).
      apply Rmult_le_compat; [left; apply Rpower_pos|left; apply Rpower_pos| |exact K45].
      unfold expansion in w2. assert (Q : Rpower (p5 / Pt45 s) kh = Rpower (t5 / Tt45 s) (/ eB)). { rewrite w2, Rpower_mult. f_equal. unfold kh. field. lra. }
      rewrite Q. apply Rpower_le_base; [|apply inv_ge_1; lra]. split; [apply Rdiv_lt_0_compat; lra|].
      apply Rmult_le_reg_r with (Tt45 s); [lra|]. replace (t5 / Tt45 s * Tt45 s) with t5 by (field; lra). lra. }
  (* fan *)
  assert (J19 : v19 ^ 2 <= 2 * cpc e * (t17 - T0 e)).
  { assert (P17 : 0 < t17) by lra. unfold cpc. apply (sl_jet _ _ _ _ _ _ _ _ g3 g5 P17 g12 w8). fold kc.
    apply Rle_trans with (Rpower (p17 / Pt2 s * (Pt2 s / P0 e)) kc).
    - apply Rle_Rpower_l; [lra|]. split; [apply Rdiv_lt_0_compat; [apply Rmult_lt_0_compat|]; lra|].
      replace (p17 / Pt2 s * (Pt2 s / P0 e)) with (p17 / P0 e) by (field; lra). unfold Rdiv. apply Rmult_le_compat_r; [left; apply Rinv_0_lt_compat; lra|]. clear - Pp17 Hn. nra.
    - rewrite <- Rpower_mult_distr by (apply Rdiv_lt_0_compat; lra). replace (t17 / T0 e) with (t17 / Tt2 s * (Tt2 s / T0 e)) by (field; lra).
      apply Rmult_le_compat; [left; apply Rpower_pos|left; apply Rpower_pos| |exact K2].
      unfold compression in w4. assert (Q : Rpower (p17 / Pt2 s) kc = Rpower (t17 / Tt2 s) eF). { rewrite w4, Rpower_mult. f_equal. unfold kc. field. lra. }
      rewrite Q. assert (Q1 : 1 <= t17 / Tt2 s). { apply Rmult_le_reg_r with (Tt2 s); [lra|]. replace (t17 / Tt2 s * Tt2 s) with t17 by (field; lra). lra. }
      rewrite <- (Rpower_1 (t17 / Tt2 s)) at 2 by lra. apply Rle_Rpower; lra. }
  assert (EV : eval o' Wsp_cc = Some (Some (far s * Pci e))). { unfold Wsp_cc. cbn [eval]. unfold described in D'. split_and. hasrw. reflexivity. }
  set (ke := ((1 + far s) * v9 ^ 2 - V0 s ^ 2 + bpr * (v19 ^ 2 - V0 s ^ 2)) / 2) in *.
  exists (ke / (far s * Pci e)). split.
  { unfold thermal_efficiency. cbn [eval]. rewrite w11, EV. now rewrite ndiv_Some by lra. }
  assert (M : ke <= xi_cc e * (1 - T0 e / Tt3 s) * (far s * Pci e)).
  { replace (xi_cc e * (1 - T0 e / Tt3 s) * (far s * Pci e)) with ((1 - T0 e / Tt3 s) * (xi_cc e * (far s * Pci e))) by ring.
    rewrite B1. replace ((1 - T0 e / Tt3 s) * ((1 + far s) * cph e * Tt4 e - cpc e * Tt3 s)) with
      ((1 + far s) * cph e * Tt4 e - cpc e * Tt3 s - (1 + far s) * cph e * t9 + cpc e * T0 e) by (unfold t9; field; lra).
    assert (Y1 : (1 + far s) * v9 ^ 2 <= 2 * ((1 + far s) * cph e * (t5 - t9))).
    { apply Rmult_le_compat_l with (r := 1 + far s) in J9; [|lra]. lra. }
    assert (Y2 : bpr * (v19 ^ 2 - V0 s ^ 2) <= 2 * (bpr * cpc e * (t17 - Tt2 s))).
    { rewrite VV. apply Rle_trans with (bpr * (2 * cpc e * (t17 - T0 e) - 2 * cpc e * (Tt2 s - T0 e))); [apply Rmult_le_compat_l; lra|right; ring]. }
    assert (Y3 : bpr * cpc e * (t17 - Tt2 s) <= (1 + far s) * cph e * (Tt45 s - t5)).
    { rewrite w3. destruct Pa as (_ & _ & _ & _ & _ & i7). assert (0 <= (1 + far s) * cph e * (Tt45 s - t5)) by (apply Rmult_le_pos; lra). clear - H i7. nra. }
    unfold ke. rewrite VV in *. clear - Y1 Y2 Y3 S1. lra. }
  assert (Y : ke / (far s * Pci e) <= xi_cc e * (1 - T0 e / Tt3 s)).
  { apply Rmult_le_reg_r with (far s * Pci e); [exact W|]. replace (ke / (far s * Pci e) * (far s * Pci e)) with ke by (field; split; lra). exact M. }
  split; [exact Y|]. destruct Pa as (_ & _ & i4 & _). clear - Y i4 g8 Z. nra.
Qed.

(*@P C108_overall: Whatever the state of the object - turbojet or turbofan with a by-pass ratio >= 0, computed or assigned values: when fuel is burnt (far, Pci > 0), the thermopropulsive efficiency exceeds the thermal efficiency at most by the kinetic energy V0^2/2 that the fuel brings on board per unit of its heating value, so that with the bounds above no engine delivers more thrust power than the Brayton cycle and the motion of its fuel provide. *)
Lemma sl_overall : forall o f pci v0 v9, has o "far" f -> has o "Pci" pci -> has o "V0" v0 -> has o "V9" v9 -> 0 < f -> 0 < pci ->
  (exists eth ethp, eval o (thermal_efficiency tj_Wsp_kinEn) = Some (Some eth) /\ eval o (thermoprop_efficiency tj_norm_thrust) = Some (Some ethp) /\
   ethp <= eth + v0 ^ 2 / 2 / pci) /\
  (forall bpr v19, has o "bpr" bpr -> has o "V19" v19 -> 0 <= bpr ->
   exists eth ethp, eval o (thermal_efficiency tf_Wsp_kinEn) = Some (Some eth) /\ eval o (thermoprop_efficiency tf_norm_thrust) = Some (Some ethp) /\
   ethp <= eth + v0 ^ 2 / 2 / pci).
Proof.
  intros o f pci v0 v9 Hf Hp H0 H9 F P. assert (W : 0 < f * pci) by (apply Rmult_lt_0_compat; lra).
  assert (G : forall k t, t * v0 - k <= f * v0 ^ 2 / 2 -> t * v0 / (f * pci) <= k / (f * pci) + v0 ^ 2 / 2 / pci).
  { intros k t H. apply Rmult_le_reg_r with (f * pci); [exact W|]. replace (t * v0 / (f * pci) * (f * pci)) with (t * v0) by (field; split; lra).
    replace ((k / (f * pci) + v0 ^ 2 / 2 / pci) * (f * pci)) with (k + f * v0 ^ 2 / 2) by (field; split; lra). lra. }
  split.
  - unfold thermal_efficiency, thermoprop_efficiency, tj_Wsp_kinEn, tj_norm_thrust, Wsp_cc, one. cbn [eval]. hasrw. cbn [nmul nsub nadd npowi].
    rewrite !ndiv_Some by lra. eexists. eexists. split; [reflexivity|]. split; [reflexivity|]. apply G. pose proof (sq_nonneg (v9 - v0)) as S.
    assert (0 <= (1 + f) * (v9 - v0) ^ 2) by (apply Rmult_le_pos; lra). lra.
  - intros bpr v19 Hb H19 Pb.
    unfold thermal_efficiency, thermoprop_efficiency, tf_Wsp_kinEn, tf_norm_thrust, Wsp_cc, one. cbn [eval]. hasrw. cbn [nmul nsub nadd npowi].
    rewrite !ndiv_Some by lra. eexists. eexists. split; [reflexivity|]. split; [reflexivity|]. apply G. pose proof (sq_nonneg (v9 - v0)) as S. pose proof (sq_nonneg (v19 - v0)) as S'.
    assert (0 <= (1 + f) * (v9 - v0) ^ 2) by (apply Rmult_le_pos; lra). assert (0 <= bpr * (v19 - v0) ^ 2) by (apply Rmult_le_pos; lra). lra.
Qed.

(*@E C108_example: The turbofan of C60_example (with losses in every component) meets the hypotheses of both theorems: it is passive, its compressor compresses and its combustor heats, and it discharges above ambient pressure. *)
Lemma sl_example : exists o o' s, run ex_tf_body empty_obj = Some o /\ described o ex_engine /\ has o "xi_nozzle" (97 / 100) /\ has o "bpr" 5 /\
  has o "fanpower_ratio" (1 / 2) /\ has o "etapolTBP" (9 / 10) /\ has o "etapolfan" (9 / 10) /\ in_range ex_engine /\ feasible ex_engine (xi_cc ex_engine) /\
  passive ex_engine /\ burning ex_engine /\ run tf_update o = Some o' /\ shows o' s /\ P0 ex_engine <= Pt45 s * (97 / 100).
Proof.
  destruct tf_example as (o & o' & s & a1 & a2 & a3 & a4 & a5 & a6 & a7 & a8 & a9 & a10 & a11 & a12 & a13).
  exists o, o', s. do 9 (split; [assumption|]). split; [|split; [|tauto]].
  - unfold passive, ex_engine. cbn [OPR Tt4 gc gh rc rh xi_inlet xi_cc Pci eC eT eS T0 P0 M0]. lra.
  - unfold burning. rewrite ex_exit. split; [|unfold cpc, cph, cp_of, ex_engine; cbn [OPR Tt4 gc gh rc rh]; lra].
    unfold ex_engine. cbn [OPR]. apply Rpower_ge_1; lra.
Qed.
