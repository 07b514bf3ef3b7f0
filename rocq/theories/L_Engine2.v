(** * C60: turbojet and turbofan *)
From Coq Require Import String.
From Verif Require Import Num L_Num M_Isentropic M_Obj L_Obj M_Engine EngineSpec L_Engine.
Open Scope R_scope.

Lemma Some_inj {A} (x y : A) : Some x = Some y -> x = y.
Proof. congruence. Qed.
(*@P C60_efficiencies: On any object of either class, in any state: when the thermal and propulsive efficiencies are defined, so is the thermopropulsive one, and it is their product. *)
Lemma efficiencies : forall o Wk Nt eth eprop, eval o (thermal_efficiency Wk) = Some (Some eth) ->
  eval o (propulsive_efficiency Wk Nt) = Some (Some eprop) ->
  eval o (thermoprop_efficiency Nt) = Some (Some (eth * eprop)).
Proof.
  intros o Wk Nt eth eprop. unfold thermal_efficiency, propulsive_efficiency, thermoprop_efficiency, Wsp_cc. cbn [eval].
  destruct (eval o Wk) as [w|]; [|discriminate]. destruct (o "far"%string) as [f|]; [|discriminate]. destruct (o "Pci"%string) as [p|]; [|discriminate].
  destruct (eval o Nt) as [n|]; [|discriminate]. destruct (o "V0"%string) as [v|]; [|discriminate].
  intros A B. apply Some_inj in A. apply Some_inj in B. f_equal.
  destruct w as [w|]; [|discriminate]. destruct f as [f|], p as [p|]; try discriminate. cbn [nmul ndiv] in *.
  destruct (Req_EM_T (f * p) 0) as [|N1]; [discriminate|]. apply Some_inj in A.
  destruct n as [n|], v as [v|]; try discriminate. cbn [nmul ndiv] in *.
  destruct (Req_EM_T w 0) as [|N2]; [discriminate|]. apply Some_inj in B. destruct (Req_EM_T (f * p) 0); [contradiction|]. apply (f_equal (@Some R)). subst. field. apply Rmult_neq_0_reg in N1. tauto.
Qed.

Lemma Mach_PtPs_spec g q : 1 < g -> 1 <= q -> exists m, Mach_PtPs (Some q) (Some g) = Some m /\ 0 <= m /\ q = pres_ratio g m.
Proof.
  intros Hg Hq. unfold Mach_PtPs. cbn [nsub]. rewrite ndiv_Some by lra. rewrite npow_Some by lra. cbn [nsub nmul]. rewrite ndiv_Some by lra.
  set (w := Rpower q ((g - 1) / g)).
  assert (Hw : 1 <= w). { unfold w. apply Rle_trans with (Rpower q 0); [rewrite Rpower_O by lra; lra|]. apply Rle_Rpower; [lra|]. apply Rmult_le_pos; [lra|]. left. apply Rinv_0_lt_compat. lra. }
  assert (Hz : 0 <= (w - 1) * 2 / (g - 1)). { apply Rmult_le_pos; [lra|]. left. apply Rinv_0_lt_compat. lra. }
  rewrite nsqrt_Some by exact Hz. eexists. split; [reflexivity|]. split; [apply sqrt_pos|].
  unfold pres_ratio, temp_ratio. rewrite sq_sqrt by exact Hz. replace (1 + (g - 1) / 2 * ((w - 1) * 2 / (g - 1))) with w by (field; lra).
  unfold w. rewrite Rpower_mult. replace ((g - 1) / g * (g / (g - 1))) with 1 by (field; lra). now rewrite Rpower_1 by lra.
Qed.
Lemma Velocity_spec g r m tt : 1 < g -> 0 < r -> 0 < tt -> 0 <= m ->
  exists v, Velocity_MachTi (Some m) (Some tt) (Some r) (Some g) = Some v /\ 0 <= v /\ v ^ 2 = 2 * cp_of g r * (tt - tt / temp_ratio g m).
Proof.
  intros Hg Hr Ht Hm. unfold Velocity_MachTi, Velocity_MachTt. rewrite TtTs_spec. pose proof (temp_ratio_pos g m Hg) as P. cbn [nmul].
  rewrite ndiv_Some by lra.
  assert (Z : 0 <= g * r * tt / temp_ratio g m). { left. apply Rdiv_lt_0_compat; [|exact P]. apply Rmult_lt_0_compat; nra. }
  rewrite nsqrt_Some by exact Z. eexists. split; [reflexivity|]. split; [apply Rmult_le_pos; [exact Hm|apply sqrt_pos]|].
  rewrite Rpow_mult_distr, sq_sqrt by exact Z. unfold cp_of, temp_ratio in *. field. split; [lra|]. nra.
Qed.
Lemma nozzle_spec o a b g r pt tt p0 : 1 < g -> 0 < r -> 0 < tt -> 0 < p0 -> p0 <= pt ->
  o a = Some (Mach_PtPs (ndiv (Some pt) (Some p0)) (Some g)) ->
  (forall m, has o a m -> o b = Some (Velocity_MachTi (Some m) (Some tt) (Some r) (Some g))) ->
  exists m v, has o a m /\ has o b v /\ nozzle g r pt tt p0 m v.
Proof.
  intros Hg Hr Ht Hp Hq A B. rewrite ndiv_Some in A by lra.
  destruct (Mach_PtPs_spec g (pt / p0) Hg) as (m & E & M1 & M2).
  { apply Rmult_le_reg_r with p0; [exact Hp|]. unfold Rdiv. rewrite Rmult_assoc, Rinv_l by lra. lra. }
  rewrite E in A. destruct (Velocity_spec g r m tt Hg Hr Ht M1) as (v & F & V1 & V2).
  exists m, v. split; [exact A|]. split; [unfold has; rewrite (B m A), F; reflexivity|]. unfold nozzle. tauto.
Qed.

Definition tj_inputs : list string := "xi_nozzle"%string :: gg_inputs.
Lemma holds_app p q o : holds (p ++ q) o -> holds p o /\ holds q o.
Proof. unfold holds. apply List.Forall_app. Qed.

(*@P C60_turbojet: For every object with parameters in the operating range, whatever happened to it before, update gives the stations of C59 and an adapted nozzle: Pt9 = max(xi_nozzle Pt45, P0), isentropic expansion from (Pt9, Tt45) to P0, jet velocity V9 from the enthalpy drop; the thrust per unit air flow is (1+far) V9 - V0 and the kinetic energy ((1+far) V9^2 - V0^2)/2. *)
Lemma turbojet : forall o e xn, described o e -> has o "xi_nozzle" xn -> in_range e -> feasible e (xi_cc e) ->
  exists o' s M9 V9, run tj_update o = Some o' /\ described o' e /\ has o' "xi_nozzle" xn /\ shows o' s /\ cycle e s /\
  burner (cpc e) (cph e) (xi_cc e) (Pci e) (far s) (Tt3 s) (Tt4 e) /\ 0 < 1 + far s /\ 0 < Tt45 s /\ 0 < Pt45 s /\
  has o' "Pt9" (Rmax (Pt45 s * xn) (P0 e)) /\ has o' "M9" M9 /\ has o' "V9" V9 /\
  nozzle (gh e) (rh e) (Rmax (Pt45 s * xn) (P0 e)) (Tt45 s) (P0 e) M9 V9 /\
  eval o' tj_norm_thrust = Some (Some ((1 + far s) * V9 - V0 s)) /\
  eval o' tj_spec_thrust = Some (Some ((1 + far s) * V9 - V0 s)) /\
  eval o' tj_Wsp_kinEn = Some (Some (((1 + far s) * V9 ^ 2 - V0 s ^ 2) / 2)) /\
  eval o' Wsp_cc = Some (Some (far s * Pci e)).
Proof.
  intros o e xn D X Rg Fe.
  assert (Pr : forall a, In a tj_inputs -> o a <> None).
  { intros a [<-|I]; [unfold has in X; congruence|now apply (described_present o e D)]. }
  destruct (run_total tj_update tj_inputs o eq_refl Pr) as [o' Rn].
  pose proof (described_frame tj_update o o' e eq_refl Rn D) as D'.
  assert (X' : has o' "xi_nozzle" xn). { unfold has in *. rewrite (run_frame _ _ _ _ Rn); [exact X|]. rewrite <- mem_in. discriminate. }
  pose proof (run_lasting _ _ _ Rn) as Eq. change (holds tj_update o') in Eq. unfold tj_update in Eq. apply holds_app in Eq. destruct Eq as [E1 E2].
  destruct (gg_from_equations o' e D' Rg Fe E1) as (s & S1 & S2 & S3 & P1 & P2 & P3 & _).
  unfold holds in E2. unpackF E2. clear E2.
  assert (H1 : has o' "Pt9" (Rmax (Pt45 s * xn) (P0 e))).
  { unfold has. rewrite Q. cbn [eval]. unfold described, shows in *. split_and. hasrw. reflexivity. }
  unfold in_range in Rg.
  destruct (nozzle_spec o' "M9" "V9" (gh e) (rh e) (Rmax (Pt45 s * xn) (P0 e)) (Tt45 s) (P0 e)) as (m & v & N1 & N2 & N3); try tauto.
  { apply Rmax_r. }
  { rewrite Q0. cbn [eval]. unfold described, shows in *. split_and. hasrw. reflexivity. }
  { intros m Hm. rewrite Q1. cbn [eval]. unfold described, shows in *. split_and. hasrw. reflexivity. }
  exists o', s, m, v. repeat (split; [assumption|]).
  unfold tj_spec_thrust, tj_norm_thrust, tj_Wsp_kinEn, Wsp_cc, one. cbn [eval].
  unfold described, shows in *. split_and. hasrw. cbn [nmul nadd nsub npowi].
  repeat split; try reflexivity. do 2 f_equal. field.
Qed.

Definition tf_inputs : list string := ("bpr" :: "fanpower_ratio" :: "etapolTBP" :: "etapolfan" :: tj_inputs)%string.
Definition tf_own : prog := Eval cbv [skipn tf_update tj_update app gg_update] in skipn 14 tf_update.
Lemma tf_lasting o : holds (lasting tf_update) o -> holds gg_update o /\ holds tf_own o.
Proof. change (lasting tf_update) with (gg_update ++ tf_own). apply holds_app. Qed.
Lemma Rpower_ratio_le x y a : 0 < x -> x <= y -> 0 <= a -> Rpower x a <= Rpower y a.
Proof. intros Hx Hy Ha. apply Rle_Rpower_l; [exact Ha|lra]. Qed.

(*@P C60_turbofan: For every object with parameters in the operating range (fan power ratio between 0 and 1, positive by-pass ratio, nozzle loss and efficiencies) whose low pressure turbine and fan discharge above ambient pressure: after update the turbine gives the fraction fanpower_ratio of the work of a full expansion (efficiency etapolTBP) to ambient pressure, expands polytropically, its power times eta_shaft drives the fan, which compresses polytropically; both nozzles have the pressure loss xi_nozzle and expand isentropically to P0; thrust and kinetic energy are the sums over the two streams, the specific thrust is per unit of total flow. *)
Lemma turbofan : forall o e xn bpr fr eB eF, described o e -> has o "xi_nozzle" xn -> has o "bpr" bpr -> has o "fanpower_ratio" fr ->
  has o "etapolTBP" eB -> has o "etapolfan" eF -> in_range e -> feasible e (xi_cc e) -> 
  0 < xn -> 0 < bpr -> 0 <= fr <= 1 -> 0 < eB -> 0 < eF -> P0 e <= xn * (xi_inlet e * (P0 e * pres_ratio (gc e) (M0 e))) ->
  exists o' s, run tf_update o = Some o' /\ described o' e /\ shows o' s /\ cycle e s /\
  burner (cpc e) (cph e) (xi_cc e) (Pci e) (far s) (Tt3 s) (Tt4 e) /\ 0 < 1 + far s /\ 0 < Tt45 s /\ 0 < Pt45 s /\
  (P0 e <= Pt45 s * xn -> 
   exists Tt5 Pt5 M9 V9 Tt17 Pt17 M19 V19,
   let power := (1 + far s) * cph e * (Tt45 s - Tt5) in
   has o' "Tt5" Tt5 /\ has o' "Pt5" Pt5 /\ has o' "M9" M9 /\ has o' "V9" V9 /\ has o' "Tt17" Tt17 /\ has o' "Pt17" Pt17 /\
   has o' "M19" M19 /\ has o' "V19" V19 /\
   power = fr * ((1 + far s) * cph e * Tt45 s * (1 - Rpower (P0 e / (xn * Pt45 s)) ((gh e - 1) * eB / gh e))) /\
   expansion (gh e) eB (Pt45 s) (Tt45 s) Pt5 Tt5 /\
   bpr * cpc e * (Tt17 - Tt2 s) = eS e * power /\
   compression (gc e) eF (Pt2 s) (Tt2 s) Pt17 Tt17 /\
   has o' "Pt9" (Pt5 * xn) /\ nozzle (gh e) (rh e) (Pt5 * xn) Tt5 (P0 e) M9 V9 /\
   has o' "Pt19" (Pt17 * xn) /\ nozzle (gc e) (rc e) (Pt17 * xn) Tt17 (P0 e) M19 V19 /\
   eval o' tf_norm_thrust = Some (Some ((1 + far s) * V9 - V0 s + bpr * (V19 - V0 s))) /\
   eval o' tf_spec_thrust = Some (Some (((1 + far s) * V9 - V0 s + bpr * (V19 - V0 s)) / (1 + bpr))) /\
   eval o' tf_Wsp_kinEn = Some (Some (((1 + far s) * V9 ^ 2 - V0 s ^ 2 + bpr * (V19 ^ 2 - V0 s ^ 2)) / 2))).
Proof.
  intros o e xn bpr fr eB eF D X B Fr EB EF Rg Fe Hx Hb Hf HB HF Hi.
  assert (Pr : forall a, In a tf_inputs -> o a <> None).
  { unfold has in *. intros a [<-|[<-|[<-|[<-|[<-|I]]]]]; try congruence. now apply (described_present o e D). }
  destruct (run_total tf_update tf_inputs o eq_refl Pr) as [o' Rn].
  pose proof (described_frame tf_update o o' e eq_refl Rn D) as D'.
  assert (K : forall a v, mem a (writes tf_update) = false -> has o a v -> has o' a v).
  { intros a v N Hv. unfold has in *. rewrite (run_frame _ _ _ _ Rn); [exact Hv|]. rewrite <- mem_in. congruence. }
  apply K in X; [|reflexivity]. apply K in B; [|reflexivity]. apply K in Fr; [|reflexivity]. apply K in EB; [|reflexivity]. apply K in EF; [|reflexivity].
  pose proof (run_lasting _ _ _ Rn) as Eq. apply tf_lasting in Eq. destruct Eq as [E1 E2].
  destruct (gg_from_equations o' e D' Rg Fe E1) as (s & S1 & S2 & S3 & P1 & P2 & P3 & P4 & P5 & _).
  exists o', s. split; [exact Rn|]. split; [exact D'|]. split; [exact S1|]. split; [exact S2|]. do 4 (split; [assumption|]). intros Hp.
  pose proof (cp_cold_spec o' e D') as CC. pose proof (cp_hot_spec o' e D') as CH.
  assert (Rg' := Rg). unfold in_range in Rg'. destruct Rg' as (g1 & g2 & g3 & g4 & g5 & g6 & g7 & g8 & g9 & g10 & g11 & g12 & g13 & g14 & g15).
  specialize (CC g3). specialize (CH g4).
  assert (Pcc : 0 < cpc e). { unfold cpc, cp_of. apply Rdiv_lt_0_compat; nra. }
  assert (Pch : 0 < cph e). { unfold cph, cp_of. apply Rdiv_lt_0_compat; nra. }
  unfold holds, tf_own in E2. unpackF E2. clear E2.
  assert (D'' := D'). assert (S1' := S1). unfold described in D''. unfold shows in S1'.
  destruct D'' as (d1 & d2 & d3 & d4 & d5 & d6 & d7 & d8 & d9 & d10 & d11 & d12 & d13 & d14 & d15).
  destruct S1' as (s1 & s2 & s3 & s4 & s5 & s6 & s7 & s8 & s9 & s10 & s11).
  set (q := Pt45 s / P0 e * xn).
  assert (Hq : 1 <= q).
  { unfold q. apply Rmult_le_reg_r with (P0 e); [lra|]. replace (Pt45 s / P0 e * xn * P0 e) with (Pt45 s * xn) by (field; lra). lra. }
  set (al := (gh e - 1) * eB / gh e). assert (Hal : 0 < al) by (unfold al; apply Rdiv_lt_0_compat; nra).
  set (x := Rpower q (- al)).
  assert (Hx1 : 0 < x <= 1). { split; [apply Rpower_pos|]. unfold x. rewrite Rpower_Ropp. apply Rle_trans with (/ 1); [|rewrite Rinv_1; lra]. apply Rinv_le_contravar; [lra|].
    apply Rle_trans with (Rpower q 0); [rewrite Rpower_O by lra; lra|]. apply Rle_Rpower; lra. }
  assert (W : eval o' Wsp_mono = Some (Some ((1 - x) * Tt45 s * cph e * (1 + far s)))).
  { unfold Wsp_mono, one. cbn [eval]. rewrite CH. hasrw. cbn [nmul nsub nadd nopp]. rewrite (ndiv_Some (Pt45 s)) by lra. rewrite (ndiv_Some _ (gh e)) by lra.
    cbn [nmul]. fold q. rewrite npow_Some by lra. cbn [nsub nmul].
    replace (- (gh e - 1) * eB / gh e) with (- al) by (unfold al; field; lra). reflexivity. }
  set (t5 := Tt45 s * (1 - fr * (1 - x))).
  assert (Z5 : x <= 1 - fr * (1 - x) <= 1) by nra.
  assert (Pt5p : 0 < t5) by (unfold t5; apply Rmult_lt_0_compat; lra).
  assert (h5 : has o' "Tt5" t5).
  { unfold has. rewrite Q. unfold one. cbn [eval]. rewrite W, CH. hasrw. cbn [nmul nsub nadd]. rewrite ndiv_Some by lra. rewrite ndiv_Some by lra. cbn [nsub].
    do 2 f_equal. unfold t5. field. lra. }
  set (z := t5 / Tt45 s). assert (Ez : z = 1 - fr * (1 - x)) by (unfold z, t5; field; lra).
  set (p5 := Pt45 s * Rpower z (gh e / ((gh e - 1) * eB))).
  assert (Pe : 0 < (gh e - 1) * eB) by (apply Rmult_lt_0_compat; lra).
  assert (h5p : has o' "Pt5" p5).
  { unfold has. rewrite Q0. unfold one. cbn [eval]. hasrw. cbn [nmul nsub]. rewrite !ndiv_Some by lra. fold z. rewrite npow_Some by lra. reflexivity. }
  assert (I5 : P0 e <= p5 * xn).
  { assert (L1 : Rpower x (gh e / ((gh e - 1) * eB)) <= Rpower z (gh e / ((gh e - 1) * eB))).
    { apply Rpower_ratio_le; [lra|lra|]. left. apply Rdiv_lt_0_compat; lra. }
    unfold x in L1 at 1. rewrite Rpower_mult in L1. replace (- al * (gh e / ((gh e - 1) * eB))) with (- (1)) in L1 by (unfold al; field; lra).
    rewrite Rpower_Ropp, Rpower_1 in L1 by lra.
    assert (L2 : P0 e = Pt45 s * xn * / q) by (unfold q; field; lra).
    rewrite L2. unfold p5. replace (Pt45 s * Rpower z (gh e / ((gh e - 1) * eB)) * xn) with (Pt45 s * xn * Rpower z (gh e / ((gh e - 1) * eB))) by ring.
    apply Rmult_le_compat_l; [|exact L1]. left. apply Rmult_lt_0_compat; lra. }
  assert (h9p : has o' "Pt9" (p5 * xn)). { unfold has. rewrite Q1. cbn [eval]. hasrw. reflexivity. }
  destruct (nozzle_spec o' "M9" "V9" (gh e) (rh e) (p5 * xn) t5 (P0 e)) as (m9 & v9 & N1 & N2 & N3); try lra.
  { rewrite Q2. cbn [eval]. hasrw. reflexivity. }
  { intros m Hm. rewrite Q3. cbn [eval]. hasrw. reflexivity. }
  set (t17 := Tt2 s + eS e * ((1 - x) * Tt45 s * cph e * (1 + far s)) * fr / (bpr * cpc e)).
  assert (Pbc : 0 < bpr * cpc e) by (apply Rmult_lt_0_compat; lra).
  assert (h17 : has o' "Tt17" t17).
  { unfold has. rewrite Q4. cbn [eval]. rewrite W, CC. hasrw. cbn [nmul nsub nadd]. rewrite ndiv_Some by lra. reflexivity. }
  assert (Hw : 0 <= (1 - x) * Tt45 s * cph e * (1 + far s)). { apply Rmult_le_pos; [apply Rmult_le_pos; [apply Rmult_le_pos|]|]; lra. }
  assert (G17 : Tt2 s <= t17).
  { unfold t17. assert (0 <= eS e * ((1 - x) * Tt45 s * cph e * (1 + far s)) * fr / (bpr * cpc e)); [|lra].
    apply Rmult_le_pos; [|left; now apply Rinv_0_lt_compat]. apply Rmult_le_pos; [|lra]. apply Rmult_le_pos; lra. }
  set (k := gc e * eF / (gc e - 1)).
  assert (Hk : 0 < k) by (unfold k; apply Rdiv_lt_0_compat; nra).
  set (p17 := Pt2 s * Rpower (t17 / Tt2 s) k).
  assert (Hr : 1 <= t17 / Tt2 s). { apply Rmult_le_reg_r with (Tt2 s); [lra|]. unfold Rdiv. rewrite Rmult_assoc, Rinv_l by lra. lra. }
  assert (h17p : has o' "Pt17" p17).
  { unfold has. rewrite Q5. unfold one. cbn [eval]. hasrw. cbn [nmul nsub]. rewrite !ndiv_Some by lra. rewrite npow_Some by lra. reflexivity. }
  assert (h19t : has o' "Tt19" t17). { unfold has. rewrite Q6. cbn [eval]. hasrw. reflexivity. }
  assert (h19p : has o' "Pt19" (p17 * xn)). { unfold has. rewrite Q7. cbn [eval]. hasrw. reflexivity. }
  assert (I17 : P0 e <= p17 * xn).
  { assert (E2 : Pt2 s = xi_inlet e * (P0 e * pres_ratio (gc e) (M0 e))).
    { destruct S2 as (c1 & c2 & c3 & c4 & c5 & _). rewrite c5, c2. reflexivity. }
    rewrite <- E2 in Hi. eapply Rle_trans; [exact Hi|]. rewrite Rmult_comm. apply Rmult_le_compat_r; [lra|].
    unfold p17. rewrite <- (Rmult_1_r (Pt2 s)) at 1. apply Rmult_le_compat_l; [lra|].
    apply Rle_trans with (Rpower (t17 / Tt2 s) 0); [rewrite Rpower_O by lra; lra|]. apply Rle_Rpower; lra. }
  destruct (nozzle_spec o' "M19" "V19" (gc e) (rc e) (p17 * xn) t17 (P0 e)) as (m19 & v19 & U1 & U2 & U3); try lra.
  { rewrite Q8. cbn [eval]. hasrw. reflexivity. }
  { intros m Hm. rewrite Q9. cbn [eval]. hasrw. reflexivity. }
  exists t5, p5, m9, v9, t17, p17, m19, v19. cbv zeta.
  repeat (split; [assumption|]).
  assert (Xq : x = Rpower (P0 e / (xn * Pt45 s)) al).
  { unfold x. replace (P0 e / (xn * Pt45 s)) with (/ q) by (unfold q; field; lra).
    unfold Rpower. rewrite ln_Rinv by lra. f_equal. ring. }
  rewrite <- Xq. split; [unfold t5; ring|]. split.
  { unfold expansion. fold z. unfold p5. replace (Pt45 s * Rpower z (gh e / ((gh e - 1) * eB)) / Pt45 s) with (Rpower z (gh e / ((gh e - 1) * eB))) by (field; lra).
    rewrite Rpower_mult. replace (gh e / ((gh e - 1) * eB) * ((gh e - 1) * eB / gh e)) with 1 by (field; lra). rewrite Rpower_1; lra. }
  split. { unfold t17, t5. field. lra. }
  split. { unfold compression, p17. replace (Pt2 s * Rpower (t17 / Tt2 s) k / Pt2 s) with (Rpower (t17 / Tt2 s) k) by (field; lra).
    rewrite Rpower_mult. replace (k * ((gc e - 1) / (gc e * eF))) with 1 by (unfold k; field; lra). rewrite Rpower_1; lra. }
  split; [assumption|]. split; [assumption|]. split; [assumption|]. split; [assumption|].
  unfold tf_spec_thrust, tf_norm_thrust, tf_Wsp_kinEn, one. cbn [eval]. hasrw. cbn [nmul nadd nsub npowi]. rewrite ndiv_Some by lra.
  split; [reflexivity|]. split; [reflexivity|]. do 2 f_equal. field.
Qed.

Lemma nozzle_unique g r pt tt p0 m v m' v' : 1 < g -> nozzle g r pt tt p0 m v -> nozzle g r pt tt p0 m' v' -> m = m' /\ v = v'.
Proof.
  intros Hg (A1 & A2 & A3 & A4) (B1 & B2 & B3 & B4).
  assert (E : m = m').
  { assert (T : temp_ratio g m = temp_ratio g m').
    { pose proof (temp_ratio_pos g m Hg). pose proof (temp_ratio_pos g m' Hg).
      rewrite A2 in B2. unfold pres_ratio in B2.
      rewrite <- (Rpower_1 (temp_ratio g m)), <- (Rpower_1 (temp_ratio g m')) by assumption.
      replace 1 with (g / (g - 1) * ((g - 1) / g)) by (field; lra). rewrite <- !Rpower_mult. now rewrite B2. }
    unfold temp_ratio in T. assert (m ^ 2 = m' ^ 2) by nra. rewrite <- (sqrt_sq m), <- (sqrt_sq m') by assumption. now f_equal. }
  split; [exact E|]. subst m'. rewrite <- (sqrt_sq v), <- (sqrt_sq v') by assumption. f_equal. now rewrite A3, B3.
Qed.
Lemma nozzle_closed g r tt p0 m v : 1 < g -> 0 < p0 -> nozzle g r p0 tt p0 m v -> v = 0.
Proof.
  intros Hg Hp N. destruct (nozzle_unique g r p0 tt p0 m v 0 0 Hg N) as [_ E]; [|exact E].
  unfold nozzle, pres_ratio, temp_ratio. replace (1 + (g - 1) / 2 * 0 ^ 2) with 1 by ring. rewrite Rpower_one.
  repeat split; try lra; field; lra.
Qed.

(*@P C60_fan_extremes: For every turbofan of C60_turbofan: with fanpower_ratio = 0 the core is the turbojet of the same parameters (no temperature drop, no pressure drop, same M9 and V9) and the fan leaves the by-pass air at inlet conditions; with fanpower_ratio = 1 the core jet has no velocity left, for every turbine efficiency and nozzle loss. *)
Lemma fan_extremes : forall o e xn bpr fr eB eF, described o e -> has o "xi_nozzle" xn -> has o "bpr" bpr -> has o "fanpower_ratio" fr ->
  has o "etapolTBP" eB -> has o "etapolfan" eF -> in_range e -> feasible e (xi_cc e) -> 
  0 < xn -> 0 < bpr -> 0 < eB -> 0 < eF -> P0 e <= xn * (xi_inlet e * (P0 e * pres_ratio (gc e) (M0 e))) ->
  exists o' oj s, run tf_update o = Some o' /\ run tj_update o = Some oj /\ shows o' s /\ shows oj s /\
  (P0 e <= Pt45 s * xn ->
   (fr = 0 -> has o' "Tt5" (Tt45 s) /\ has o' "Pt5" (Pt45 s) /\ has o' "Tt17" (Tt2 s) /\ has o' "Pt17" (Pt2 s) /\ o' "M9"%string = oj "M9"%string /\ o' "V9"%string = oj "V9"%string) /\
   (fr = 1 -> has o' "V9" 0)).
Proof.
  intros o e xn bpr fr eB eF D X B Fr EB EF Rg Fe Hx Hb HB HF Hi.
  assert (H01 : (0 <= fr <= 1) \/ ~ (0 <= fr <= 1)) by (destruct (Rle_dec 0 fr), (Rle_dec fr 1); tauto).
  destruct (turbojet o e xn D X Rg Fe) as (oj & s & M9 & V9 & J1 & J2 & J3 & J4 & J5 & J6 & K1 & K2 & K3 & J7 & J8 & J9 & J10 & _).
  assert (RT : exists o', run tf_update o = Some o').
  { destruct (run_total tf_update tf_inputs o eq_refl) as [o' Rn]; [|eauto].
    unfold has in *. intros a [<-|[<-|[<-|[<-|[<-|I]]]]]; try congruence. now apply (described_present o e D). }
  destruct RT as [o' RT].
  assert (SS : shows o' s).
  { assert (RT' := RT). change tf_update with (tj_update ++ tf_own) in RT'. rewrite run_app, J1 in RT'.
    unfold shows, has in *. rewrite !(run_frame _ _ _ _ RT') by (rewrite <- mem_in; discriminate). exact J4. }
  exists o', oj, s. split; [exact RT|]. split; [exact J1|]. split; [exact SS|]. split; [exact J4|]. intros Hp.
  destruct H01 as [H01|N]; [|split; intros ->; exfalso; apply N; lra].
  destruct (turbofan o e xn bpr fr eB eF D X B Fr EB EF Rg Fe Hx Hb H01 HB HF Hi) as (o2 & s2 & T1 & T2 & T3 & T4 & T5 & T6 & T7 & T8 & T9).
  assert (o2 = o') by congruence. subst o2.
  assert (s2 = s).
  { unfold shows, has in *. destruct s as [a0 a1 a2 a3 a4 a5 a6 a7 a8 a9 a10], s2 as [b0 b1 b2 b3 b4 b5 b6 b7 b8 b9 b10]. cbn [Tt0 Pt0 V0 Tt2 Pt2 Tt3 Pt3 Pt4 far Tt45 Pt45] in *. split_and. f_equal; congruence. }
  subst s2. specialize (T9 Hp). destruct T9 as (t5 & p5 & m9 & v9 & t17 & p17 & m19 & v19 & T9). cbv zeta in T9.
  destruct T9 as (h1 & h2 & h3 & h4 & h5 & h6 & h7 & h8 & w1 & w2 & w3 & w4 & w5 & w6 & w7 & w8 & _).
  assert (Rg' := Rg). unfold in_range in Rg'. destruct Rg' as (g1 & g2 & g3 & g4 & g5 & g6 & g7 & g8 & g9 & g10 & g11 & g12 & g13 & g14 & g15).
  assert (Pcc : 0 < cpc e). { unfold cpc, cp_of. apply Rdiv_lt_0_compat; nra. }
  assert (Pch : 0 < cph e). { unfold cph, cp_of. apply Rdiv_lt_0_compat; nra. }
  assert (P2 : 0 < Tt2 s /\ 0 < Pt2 s).
  { destruct J5 as (c1 & c2 & c3 & c4 & c5 & _). rewrite c4, c1, c5, c2. pose proof (temp_ratio_pos (gc e) (M0 e) g3).
    split; [nra|]. apply Rmult_lt_0_compat; [lra|]. apply Rmult_lt_0_compat; [lra|apply Rpower_pos]. }
  (* pressure from temperature, for a ratio of 1 or of a known power *)
  assert (Pos5 : 0 < p5).
  { destruct w6 as (_ & w6 & _). assert (0 < p5 * xn). { replace (p5 * xn) with (P0 e * (p5 * xn / P0 e)) by (field; lra). rewrite w6. apply Rmult_lt_0_compat; [lra|apply Rpower_pos]. } nra. }
  assert (Pos17 : 0 < p17).
  { destruct w8 as (_ & w8 & _). assert (0 < p17 * xn). { replace (p17 * xn) with (P0 e * (p17 * xn / P0 e)) by (field; lra). rewrite w8. apply Rmult_lt_0_compat; [lra|apply Rpower_pos]. } nra. }
  assert (RI : forall a b c, 0 < a -> 0 < b -> 0 < c -> Rpower a c = Rpower b c -> a = b).
  { intros a b c Ha Hb' Hc E. rewrite <- (Rpower_1 a), <- (Rpower_1 b) by assumption. replace 1 with (c * / c) by (field; lra).
    rewrite <- !Rpower_mult. now rewrite E. }
  set (al := (gh e - 1) * eB / gh e) in *. assert (Hal : 0 < al) by (unfold al; apply Rdiv_lt_0_compat; nra).
  assert (Hcf : 0 < (1 + far s) * cph e) by (apply Rmult_lt_0_compat; lra).
  split; intros ->.
  - assert (E5 : t5 = Tt45 s). { rewrite Rmult_0_l in w1. apply Rmult_integral in w1. destruct w1; lra. }
    assert (E5p : p5 = Pt45 s).
    { unfold expansion in w2. fold al in w2. rewrite E5 in w2. replace (Tt45 s / Tt45 s) with (Rpower 1 al) in w2 by (rewrite Rpower_one; field; lra).
      apply RI in w2; [|lra|apply Rdiv_lt_0_compat; lra|exact Hal]. apply Rmult_eq_reg_r with (/ Pt45 s); [|apply Rinv_neq_0_compat; lra]. rewrite Rinv_r by lra. symmetry. exact w2. }
    assert (E17 : t17 = Tt2 s).
    { rewrite E5 in w3. replace (eS e * ((1 + far s) * cph e * (Tt45 s - Tt45 s))) with 0 in w3 by ring. apply Rmult_integral in w3.
      destruct w3 as [w3|w3]; [apply Rmult_integral in w3; destruct w3; lra|lra]. }
    assert (E17p : p17 = Pt2 s).
    { unfold compression in w4. rewrite E17 in w4. replace (Tt2 s / Tt2 s) with (Rpower 1 ((gc e - 1) / (gc e * eF))) in w4 by (rewrite Rpower_one; field; lra).
      apply RI in w4; [|lra|apply Rdiv_lt_0_compat; lra|apply Rdiv_lt_0_compat; nra]. apply Rmult_eq_reg_r with (/ Pt2 s); [|apply Rinv_neq_0_compat; lra]. rewrite Rinv_r by lra. symmetry. exact w4. }
    subst t5 p5 t17 p17. do 4 (split; [assumption|]).
    rewrite Rmax_left in J10 by exact Hp.
    destruct (nozzle_unique _ _ _ _ _ _ _ _ _ g4 w6 J10) as [EM EV]. unfold has in *. rewrite h3, h4, J8, J9, EM, EV. split; reflexivity.
  - assert (E5 : t5 / Tt45 s = Rpower (P0 e / (xn * Pt45 s)) al).
    { apply Rmult_eq_reg_l with ((1 + far s) * cph e * Tt45 s); [|apply Rgt_not_eq; apply Rmult_lt_0_compat; lra].
      replace ((1 + far s) * cph e * Tt45 s * (t5 / Tt45 s)) with ((1 + far s) * cph e * t5) by (field; lra). lra. }
    assert (Hq : 0 < xn * Pt45 s) by (apply Rmult_lt_0_compat; lra).
    unfold expansion in w2. fold al in w2. rewrite E5 in w2. apply RI in w2; [|apply Rdiv_lt_0_compat; lra|apply Rdiv_lt_0_compat; lra|exact Hal].
    assert (E9 : p5 * xn = P0 e).
    { replace (p5 * xn) with (p5 / Pt45 s * (xn * Pt45 s)) by (field; lra). rewrite <- w2. field. lra. }
    rewrite E9 in w6. apply nozzle_closed in w6; [|lra|lra]. subst v9. exact h4.
Qed.

(*@P C60_constructor: For all constructor arguments, defined or not, and whatever the object held: every attribute of a turbofan holds the argument of its name (eta_cc is not stored, and xi_nozzle is 1: see C60_nozzle_loss_refuted), and no other attribute is touched. *)
Lemma tf_constructor : forall opr tt4 gamc gamh rcold rhot xin xnoz xcc etacc pci ec et es bpr fr eB eF o,
  let p := {| a_core := {| a_OPR := opr; a_Tt4 := tt4; a_gam_cold := gamc; a_gam_hot := gamh; a_r_cold := rcold; a_r_hot := rhot; a_xi_inlet := xin;
                a_xi_nozzle := xnoz; a_xi_cc := xcc; a_eta_cc := etacc; a_Pci := pci; a_etapolCHP := ec; a_etapolTHP := et; a_eta_shaft := es |};
              a_bpr := bpr; a_fanpower_ratio := fr; a_etapolTBP := eB; a_etapolfan := eF |} in
  exists o', run (tf_init_body p) o = Some o' /\
  (o' "OPR" = Some opr /\ o' "Tt4" = Some tt4 /\ o' "gam_cold" = Some gamc /\ o' "gam_hot" = Some gamh /\ o' "r_cold" = Some rcold /\
   o' "r_hot" = Some rhot /\ o' "xi_inlet" = Some xin /\ o' "xi_cc" = Some xcc /\ o' "Pci" = Some pci /\ o' "etapolCHP" = Some ec /\
   o' "etapolTHP" = Some et /\ o' "eta_shaft" = Some es /\ o' "xi_nozzle" = Some (Some 1) /\ o' "bpr" = Some bpr /\
   o' "fanpower_ratio" = Some fr /\ o' "etapolTBP" = Some eB /\ o' "etapolfan" = Some eF)%string /\
  (forall a, ~ In a ["OPR"; "Tt4"; "gam_cold"; "gam_hot"; "r_cold"; "r_hot"; "xi_inlet"; "xi_cc"; "Pci"; "etapolCHP"; "etapolTHP"; "eta_shaft";
    "xi_nozzle"; "bpr"; "fanpower_ratio"; "etapolTBP"; "etapolfan"]%string -> o' a = o a).
Proof.
  intros. eexists. split; [reflexivity|]. split; [repeat split; reflexivity|].
  intros a Na. cbn [In] in Na. unfold upd.
  repeat match goal with |- context [String.eqb ?x ?y] => destruct (String.eqb_spec x y); [exfalso; apply Na; subst; tauto|] end.
  reflexivity.
Qed.

Definition tf_with_nozzle (p : tf_args) (x : num) : tf_args :=
  {| a_core := with_xi_nozzle (a_core p) x; a_bpr := a_bpr p; a_fanpower_ratio := a_fanpower_ratio p; a_etapolTBP := a_etapolTBP p; a_etapolfan := a_etapolfan p |}.
(*@P C60_nozzle_loss_refuted: The turbofan constructor drops its xi_nozzle argument: whatever value is passed, the object built is the one for xi_nozzle = 1 and its nozzles have no pressure loss; the turbojet constructor keeps it. *)
Lemma nozzle_loss_refuted : 
  (forall p x o, run (tf_init_body (tf_with_nozzle p x)) o = run (tf_init_body (tf_with_nozzle p (Some 1))) o) /\
  (forall p o o', run (tf_init_body p) o = Some o' -> has o' "xi_nozzle" 1) /\
  (forall p o o', run (tj_init_body p) o = Some o' -> o' "xi_nozzle"%string = Some (a_xi_nozzle p)).
Proof.
  split; [reflexivity|]. split; intros p o o' H; cbn in H; apply Some_inj in H; subst; reflexivity.
Qed.

(*@P C60_ideal_power_refuted: The specific power of an ideal low pressure turbine expanding from (Pt45, Tt45) to P19 is (1+far) cp Tt45 (1 - (P19/Pt45)^((g-1)/g)); Wsp_TBP_ideal returns minus that power divided by (g-1): with far > -1, Tt45 > 0 and P19 < Pt45 the result is negative, hence so is thermal_efficiency of the gas generator with far, Pci > 0. *)
Lemma ideal_power_refuted : forall o f g r t p p19 pci P, has o "far" f -> has o "gam_hot" g -> has o "r_hot" r -> has o "Tt45" t -> has o "Pt45" p -> has o "Pci" pci ->
  eval o P = Some (Some p19) -> 1 < g -> 0 < r -> -1 < f -> 0 < t -> 0 < p19 < p ->
  let ideal := (1 + f) * cp_of g r * t * (1 - Rpower (p19 / p) ((g - 1) / g)) in
  0 < ideal /\ eval o (Wsp_TBP_ideal P) = Some (Some (- ideal / (g - 1))) /\ - ideal / (g - 1) < 0 /\
  (0 < f -> 0 < pci -> has o "P0" p19 -> exists eta, eval o gg_thermal_efficiency = Some (Some eta) /\ eta < 0).
Proof.
  intros o f g r t p p19 pci P Hf Hg Hr Ht Hp Hpc HP G Rp Fp Tp Pp ideal.
  assert (Rr : 0 < p19 / p < 1). { split; [apply Rdiv_lt_0_compat; lra|]. apply Rmult_lt_reg_r with p; [lra|]. unfold Rdiv. rewrite Rmult_assoc, Rinv_l by lra. lra. }
  assert (W1 : Rpower (p19 / p) ((g - 1) / g) < 1).
  { apply Rlt_le_trans with (Rpower 1 ((g - 1) / g)); [|rewrite Rpower_one; lra]. apply Rlt_Rpower_l; [|lra]. apply Rdiv_lt_0_compat; lra. }
  assert (PI : 0 < ideal).
  { unfold ideal, cp_of. apply Rmult_lt_0_compat; [|lra]. apply Rmult_lt_0_compat; [|lra]. apply Rmult_lt_0_compat; [lra|]. apply Rdiv_lt_0_compat; nra. }
  assert (N : - ideal / (g - 1) < 0). { unfold Rdiv. assert (0 < / (g - 1)) by (apply Rinv_0_lt_compat; lra). nra. }
  assert (EV : forall P, eval o P = Some (Some p19) -> eval o (Wsp_TBP_ideal P) = Some (Some (- ideal / (g - 1)))).
  { intros P' HP'. unfold Wsp_TBP_ideal, one. cbn [eval]. rewrite HP'. hasrw. cbn [nmul nsub nadd]. rewrite !(ndiv_Some g) by lra. cbn [nmul].
    rewrite !ndiv_Some; try lra. 2:{ apply Rgt_not_eq. apply Rdiv_lt_0_compat; lra. }
    rewrite npow_Some by lra. cbn [nmul nsub]. replace (1 / (g / (g - 1))) with ((g - 1) / g) by (field; lra).
    do 2 f_equal. unfold ideal, cp_of. field. lra. }
  split; [exact PI|]. split; [now apply EV|]. split; [exact N|]. intros F0 Pc0 HP0.
  unfold gg_thermal_efficiency. cbn [eval]. rewrite (EV (V "P0")) by exact HP0. unfold Wsp_cc. cbn [eval]. hasrw. cbn [nmul].
  assert (0 < f * pci) by (apply Rmult_lt_0_compat; lra).
  rewrite ndiv_Some by lra. eexists. split; [reflexivity|]. unfold Rdiv at 1. assert (0 < / (f * pci)) by (now apply Rinv_0_lt_compat). nra.
Qed.

(*@P C60_propulsive: Propulsive efficiency of the turbojet (after any history): where the kinetic energy gain is positive, it is at most 1 exactly when (1+far)(V9-V0)^2 >= far V0^2; in particular always when far = 0, where it is Froude's 2 V0/(V9+V0). The jet efficiency can exceed 1 because the fuel's own momentum is counted. *)
Lemma propulsive : forall o f v9 v0, has o "far" f -> has o "V9" v9 -> has o "V0" v0 -> 0 < (1 + f) * v9 ^ 2 - v0 ^ 2 ->
  exists eta, eval o (propulsive_efficiency tj_Wsp_kinEn tj_norm_thrust) = Some (Some eta) /\
  (eta <= 1 <-> f * v0 ^ 2 <= (1 + f) * (v9 - v0) ^ 2) /\
  (f = 0 -> 0 <= v0 -> 0 < v9 -> eta = 2 * v0 / (v9 + v0)).
Proof.
  intros o f v9 v0 Hf H9 H0 P. unfold propulsive_efficiency, tj_Wsp_kinEn, tj_norm_thrust, one. cbn [eval]. hasrw. cbn [nmul nsub nadd npowi].
  rewrite ndiv_Some by lra. eexists. split; [reflexivity|]. set (k := (1 + f) * v9 ^ 2 - v0 ^ 2) in *. split.
  - split; intros H.
    + assert (((1 + f) * v9 - v0) * v0 <= 1 / 2 * k).
      { apply Rmult_le_reg_r with (/ (1 / 2 * k)); [apply Rinv_0_lt_compat; lra|]. rewrite Rinv_r by lra. exact H. }
      unfold k in *. nra.
    + apply Rmult_le_reg_r with (1 / 2 * k); [lra|]. unfold Rdiv at 1. rewrite Rmult_assoc, Rinv_l by lra. unfold k in *. nra.
  - intros -> V00 V9p. unfold k in *. field; repeat split; nra.
Qed.

(*@P C60_sfc: On any object of either class, in any state with a positive thrust: the specific consumption is the fuel flow per unit of thrust, and the thermopropulsive efficiency is V0 / (consumption * Pci). *)
Lemma sfc_thrust : forall o nt f t, nt = tj_norm_thrust \/ nt = tf_norm_thrust -> has o "far" f -> eval o nt = Some (Some t) -> 0 < t ->
  exists c, eval o (Sfc nt) = Some (Some c) /\ c * t = f /\
  (forall v0 pci, has o "V0" v0 -> has o "Pci" pci -> 0 < f * pci ->
   exists eta, eval o (thermoprop_efficiency nt) = Some (Some eta) /\ eta = v0 / (c * pci)).
Proof.
  intros o nt f t _ Hf Ht Pt. unfold Sfc. cbn [eval]. rewrite Ht. hasrw. rewrite ndiv_Some by lra. eexists. split; [reflexivity|]. split; [field; lra|].
  intros v0 pci H0 Hp P. unfold thermoprop_efficiency, Wsp_cc. cbn [eval]. rewrite Ht. hasrw. cbn [nmul]. rewrite ndiv_Some by lra. eexists. split; [reflexivity|].
  field. split; [|split]; try lra; intros ->; lra.
Qed.

Lemma ex_pressure s : cycle ex_engine s -> burner (cpc ex_engine) (cph ex_engine) (xi_cc ex_engine) (Pci ex_engine) (far s) (Tt3 s) (Tt4 ex_engine) ->
  0 < Pt45 s -> P0 ex_engine <= Pt45 s * (97 / 100).
Proof.
  intros (c1 & c2 & c3 & c4 & c5 & c6 & c7 & c8 & c9 & c10) B Pp.
  unfold burner, shaft_balance, compression, expansion, cpc, cph, cp_of, temp_ratio, ex_engine in *. cbn [OPR Tt4 gc gh rc rh xi_inlet xi_cc Pci eC eT eS T0 P0 M0] in *.
  assert (PR : 1 <= pres_ratio (14 / 10) 1).
  { unfold pres_ratio, temp_ratio. apply Rle_trans with (Rpower (1 + (14 / 10 - 1) / 2 * 1 ^ 2) 0); [rewrite Rpower_O; lra|]. apply Rle_Rpower; lra. }
  assert (T2 : Tt2 s = 240) by lra.
  assert (PP2 : 0 < Pt2 s) by (rewrite c5, c2; nra).
  assert (T3 : Tt3 s = 480).
  { replace (Pt3 s / Pt2 s) with (Rpower 2 (7 / 2)) in c7 by (rewrite c6; field; lra).
    rewrite Rpower_mult in c7. replace (7 / 2 * ((14 / 10 - 1) / (14 / 10 * 1))) with 1 in c7 by field. rewrite Rpower_1 in c7 by lra.
    replace (Tt3 s) with (Tt3 s / Tt2 s * Tt2 s) by (field; lra). rewrite c7, T2. lra. }
  rewrite T2, T3 in *.
  assert (F : 0 <= far s) by lra.
  assert (T45 : 1280 <= Tt45 s). { apply Rnot_lt_le. intros C. nra. }
  set (e := (14 / 10 - 1) * (9 / 10) / (14 / 10)) in *.
  assert (PP4 : 0 < Pt4 s). { rewrite c8, c6. pose proof (Rpower_pos 2 (7 / 2)). nra. }
  assert (Q : (8 / 10) ^ 4 <= Pt45 s / Pt4 s).
  { set (x := Pt45 s / Pt4 s) in *. assert (Px : 0 < x) by (apply Rdiv_lt_0_compat; assumption).
    assert (Ex : x = Rpower (Tt45 s / 1600) (/ e)). { rewrite c10, Rpower_mult. replace (e * / e) with 1 by (unfold e; field). now rewrite Rpower_1. }
    rewrite <- Rpower_pow by lra. rewrite Ex. 
    assert (I : / e <= INR 4). { unfold e. simpl INR. lra. }
    apply Rle_trans with (Rpower (8 / 10) (/ e)).
    - unfold Rpower. assert (Ln : ln (8 / 10) < 0) by (rewrite <- ln_1; apply ln_increasing; lra).
      assert (INR 4 * ln (8 / 10) <= / e * ln (8 / 10)) by nra.
      destruct (Rle_lt_or_eq_dec _ _ H) as [H'|H']; [left; now apply exp_increasing|right; now rewrite H'].
    - apply Rle_Rpower_l; [unfold e; lra|lra]. }
  assert (P2 : 8 <= Rpower 2 (7 / 2)). { apply Rle_trans with (Rpower 2 (INR 3)); [rewrite Rpower_pow by lra; lra|]. apply Rle_Rpower; [lra|]. simpl INR. lra. }
  assert (A1 : 19600 <= Pt2 s) by (rewrite c5, c2; nra).
  assert (A2 : 8 * 19600 <= Pt3 s) by (rewrite c6; nra).
  assert (A3 : 148960 <= Pt4 s) by lra.
  assert (A4 : (8 / 10) ^ 4 * Pt4 s <= Pt45 s). { replace (Pt45 s) with (Pt45 s / Pt4 s * Pt4 s) by (field; lra). apply Rmult_le_compat_r; lra. }
  lra.
Qed.
Definition ex_tf_body : prog :=
  (tf_init_body {| a_core := ex_args (97 / 100); a_bpr := Some 5; a_fanpower_ratio := Some (1 / 2); a_etapolTBP := Some (9 / 10); a_etapolfan := Some (9 / 10) |} ++
   (("xi_nozzle"%string, L (Some (97 / 100))) :: nil) ++ flight_conditions (Some 200) (Some 20000) (Some 1))%list.
(*@E C60_example: A turbofan built by its constructor, given its nozzle loss by assignment (see C60_nozzle_loss_refuted) and flight conditions at Mach 1: all hypotheses of C60_turbojet, C60_turbofan and C60_fan_extremes hold and the turbine discharges above ambient pressure. *)
Lemma tf_example : exists o o' s, run ex_tf_body empty_obj = Some o /\ in_range ex_engine /\ feasible ex_engine (xi_cc ex_engine) /\
  described o ex_engine /\ has o "xi_nozzle" (97 / 100) /\ has o "bpr" 5 /\ has o "fanpower_ratio" (1 / 2) /\ has o "etapolTBP" (9 / 10) /\ has o "etapolfan" (9 / 10) /\
  P0 ex_engine <= 97 / 100 * (xi_inlet ex_engine * (P0 ex_engine * pres_ratio (gc ex_engine) (M0 ex_engine))) /\
  run tf_update o = Some o' /\ shows o' s /\ P0 ex_engine <= Pt45 s * (97 / 100).
Proof.
  destruct (run ex_tf_body empty_obj) as [o|] eqn:E; [|discriminate].
  assert (D : described o ex_engine /\ has o "xi_nozzle" (97 / 100) /\ has o "bpr" 5 /\ has o "fanpower_ratio" (1 / 2) /\ has o "etapolTBP" (9 / 10) /\ has o "etapolfan" (9 / 10)).
  { cbn in E. apply Some_inj in E. subst o. unfold described, has, ex_engine. cbn [OPR Tt4 gc gh rc rh xi_inlet xi_cc Pci eC eT eS T0 P0 M0]. repeat split; reflexivity. }
  destruct D as (D & d1 & d2 & d3 & d4 & d5).
  assert (PR : P0 ex_engine <= 97 / 100 * (xi_inlet ex_engine * (P0 ex_engine * pres_ratio (gc ex_engine) (M0 ex_engine)))).
  { unfold ex_engine. cbn [OPR Tt4 gc gh rc rh xi_inlet xi_cc Pci eC eT eS T0 P0 M0].
    assert (12 / 10 <= pres_ratio (14 / 10) 1); [|lra]. unfold pres_ratio, temp_ratio.
    apply Rle_trans with (Rpower (1 + (14 / 10 - 1) / 2 * 1 ^ 2) 1); [rewrite Rpower_1; lra|]. apply Rle_Rpower; lra. }
  destruct (turbofan o ex_engine (97 / 100) 5 (1 / 2) (9 / 10) (9 / 10) D d1 d2 d3 d4 d5 ex_range ex_feasible) as (o' & s & R1 & R2 & R3 & R4 & R5 & R6 & R7 & R8 & _); try lra.
  exists o, o', s. split; [reflexivity|]. split; [apply ex_range|]. split; [apply ex_feasible|]. repeat (split; [assumption|]). now apply ex_pressure.
Qed.
