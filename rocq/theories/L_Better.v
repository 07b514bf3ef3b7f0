(** * C119: better components make a better engine *)
From Coq Require Import String Psatz.
From Verif Require Import Num L_Num M_Isentropic M_Obj L_Obj M_Engine EngineSpec L_Engine L_Engine2 L_Ideal BetterSpec.
Open Scope R_scope.

Lemma Rpower_exp_down r y z : 0 < r <= 1 -> z <= y -> Rpower r y <= Rpower r z.
Proof.
  intros [P L] H. unfold Rpower. assert (Ln : ln r <= 0). { rewrite <- ln_1. destruct (Req_dec r 1) as [->|N]; [lra|]. left. apply ln_increasing; lra. }
  assert (y * ln r <= z * ln r) by nra. destruct (Rle_lt_or_eq_dec _ _ H0) as [A|A]; [left; now apply exp_increasing|right; now rewrite A].
Qed.
Lemma Rpower_inv_exp x y z : 0 < x -> z * y = 1 -> Rpower (Rpower x y) z = x.
Proof. intros P E. rewrite Rpower_mult. rewrite Rmult_comm in E. rewrite E. now apply Rpower_1. Qed.
Lemma temp_pos g m : 1 < g -> 1 <= temp_ratio g m.
Proof. intro G. unfold temp_ratio. assert (0 <= m ^ 2) by (cbn; nra). nra. Qed.
Lemma pres_pos g m : 0 < pres_ratio g m.
Proof. apply exp_pos. Qed.

(** the core: what a cycle says once the stations are eliminated *)
Record core := { k_t2 : R; k_t3 : R; k_a : R; k_r : R; k_p45 : R }.
Lemma core_of e s : in_range e -> 1 <= OPR e -> cycle e s -> burner (cpc e) (cph e) (xi_cc e) (Pci e) (far s) (Tt3 s) (Tt4 e) -> 0 < 1 + far s -> 0 < Tt45 s -> 0 < Pt45 s ->
  let t2 := T0 e * temp_ratio (gc e) (M0 e) in
  Tt2 s = t2 /\ 0 < t2 /\ Tt3 s = t2 * Rpower (OPR e) ((gc e - 1) / (gc e * eC e)) /\ t2 <= Tt3 s /\
  (1 + far s) * (xi_cc e * Pci e - cph e * Tt4 e) = xi_cc e * Pci e - cpc e * Tt3 s /\
  (eS e * cph e * (1 + far s) * Tt4 e) * (1 - Tt45 s / Tt4 e) = cpc e * (Tt3 s - t2) /\ 0 < Tt45 s / Tt4 e <= 1 /\
  Pt45 s = xi_cc e * (OPR e * (xi_inlet e * (P0 e * pres_ratio (gc e) (M0 e)))) * Rpower (Tt45 s / Tt4 e) (gh e / ((gh e - 1) * eT e)) /\ V0 s = M0 e * sqrt (gc e * rc e * T0 e).
Proof.
  intros (p1 & p2 & p3 & p4 & p5 & p6 & p7 & p8 & p9 & p10 & p11 & p12 & p13 & p14 & p15) O (c1 & c2 & c3 & c4 & c5 & c6 & c7 & c8 & c9 & c10) B A T P. cbv zeta.
  assert (Hcp : 0 < cpc e) by (unfold cpc, cp_of; apply Rdiv_lt_0_compat; [apply Rmult_lt_0_compat|]; lra).
  assert (Hch : 0 < cph e) by (unfold cph, cp_of; apply Rdiv_lt_0_compat; [apply Rmult_lt_0_compat|]; lra).
  assert (T1 := temp_pos (gc e) (M0 e) p3). assert (P1 := pres_pos (gc e) (M0 e)).
  set (t2 := T0 e * temp_ratio (gc e) (M0 e)). assert (Ht2 : 0 < t2) by (apply Rmult_lt_0_compat; lra).
  assert (E2 : Tt2 s = t2) by (rewrite c4, c1; reflexivity).
  assert (HP0 : 0 < Pt0 s) by (rewrite c2; now apply Rmult_lt_0_compat). assert (HP2 : 0 < Pt2 s) by (rewrite c5; now apply Rmult_lt_0_compat).
  unfold compression in c7. rewrite c6, E2 in c7. replace (OPR e * Pt2 s / Pt2 s) with (OPR e) in c7 by (field; lra).
  assert (E3 : Tt3 s = t2 * Rpower (OPR e) ((gc e - 1) / (gc e * eC e))). { rewrite <- c7. field. lra. }
  assert (R1 : 1 <= Rpower (OPR e) ((gc e - 1) / (gc e * eC e))).
  { rewrite <- (Rpower_O (OPR e)) at 1 by lra. apply Rle_Rpower; [assumption|]. left. apply Rdiv_lt_0_compat; [lra|]. apply Rmult_lt_0_compat; lra. }
  assert (L3 : t2 <= Tt3 s) by (rewrite E3; nra).
  unfold burner in B. unfold shaft_balance in c9. rewrite E2 in c9.
  assert (HB : (eS e * cph e * (1 + far s) * Tt4 e) * (1 - Tt45 s / Tt4 e) = cpc e * (Tt3 s - t2)). { rewrite <- c9. field. lra. }
  assert (Q : 0 < eS e * cph e * (1 + far s) * Tt4 e) by (repeat (assumption || apply Rmult_lt_0_compat)).
  assert (W : 0 <= cpc e * (Tt3 s - t2)) by (apply Rmult_le_pos; lra).
  assert (HR : 0 < Tt45 s / Tt4 e) by (now apply Rdiv_lt_0_compat).
  assert (HP4 : 0 < Pt4 s) by (rewrite c8, c6; repeat (assumption || apply Rmult_lt_0_compat)).
  split; [assumption|]. split; [assumption|]. split; [assumption|]. split; [assumption|]. split; [|split; [assumption|split; [split; [assumption|]|split; [|assumption]]]].
  - lra.
  - destruct (Rle_dec (Tt45 s / Tt4 e) 1) as [|N]; [assumption|]. exfalso. rewrite <- HB in W. assert (0 < Tt45 s / Tt4 e - 1) by lra. nra.
  - unfold expansion in c10. rewrite c10. rewrite Rpower_inv_exp; [|now apply Rdiv_lt_0_compat|field; lra].
    rewrite <- c2, <- c5, <- c6, <- c8. field. lra.
Qed.

Lemma better_core e f s t : in_range e -> in_range f -> 1 <= OPR e -> at_least_as_good e f ->
  cycle e s -> burner (cpc e) (cph e) (xi_cc e) (Pci e) (far s) (Tt3 s) (Tt4 e) -> 0 < 1 + far s -> 0 < Tt45 s -> 0 < Pt45 s ->
  cycle f t -> burner (cpc f) (cph f) (xi_cc f) (Pci f) (far t) (Tt3 t) (Tt4 f) -> 0 < 1 + far t -> 0 < Tt45 t -> 0 < Pt45 t ->
  far s <= far t /\ Tt45 s <= Tt45 t /\ Pt45 s <= Pt45 t /\ V0 s = V0 t /\ (Tt4 e = Tt4 f -> eC e = eC f -> far s = far t).
Proof.
  intros Re Rf O (g1 & g2 & g3 & g4 & g5 & g6 & g7 & g8 & g9 & g10 & h1 & h2 & h3 & h4 & h5) C1 B1 a1 t1 q1 C2 B2 a2 t2 q2.
  destruct (core_of e s Re O C1 B1 a1 t1 q1) as (A & Ht & A3 & L1 & AF & AB & AR & AP & AV).
  assert (O2 : 1 <= OPR f) by (now rewrite g7).
  destruct (core_of f t Rf O2 C2 B2 a2 t2 q2) as (B & _ & B3 & L2 & BF & BB & BR & BP & BV).
  assert (Ec : cpc f = cpc e) by (unfold cpc; now rewrite g1, g3). assert (Eh : cph f = cph e) by (unfold cph; now rewrite g2, g4).
  rewrite g1, g8, g10 in *. rewrite g2, g5, g6, g7, g9, Ec, Eh in *.
  set (x := T0 e * temp_ratio (gc e) (M0 e)) in *.
  destruct Re as (p1 & p2 & p3 & p4 & p5 & p6 & p7 & p8 & p9 & p10 & p11 & p12 & p13 & p14 & p15).
  destruct Rf as (r1 & r2 & r3 & r4 & r5 & r6 & r7 & r8 & r9 & r10 & r11 & r12 & r13 & r14 & r15).
  rewrite Eh, ?g5, ?g6 in r15.
  assert (Hcp : 0 < cpc e) by (unfold cpc, cp_of; apply Rdiv_lt_0_compat; [apply Rmult_lt_0_compat|]; lra).
  assert (Hch : 0 < cph e) by (unfold cph, cp_of; apply Rdiv_lt_0_compat; [apply Rmult_lt_0_compat|]; lra).
  assert (L3 : Tt3 t <= Tt3 s).
  { rewrite A3, B3. apply Rmult_le_compat_l; [lra|]. apply Rle_Rpower; [assumption|]. unfold Rdiv. apply Rmult_le_compat_l; [lra|]. apply Rinv_le_contravar; [apply Rmult_lt_0_compat; lra|]. apply Rmult_le_compat_l; lra. }
  set (X := xi_cc e * Pci e) in *.
  assert (F : 1 + far s <= 1 + far t).
  { apply Rmult_le_reg_r with (X - cph e * Tt4 e); [lra|]. apply Rle_trans with ((1 + far t) * (X - cph e * Tt4 f)).
    - rewrite AF, BF. assert (cpc e * Tt3 t <= cpc e * Tt3 s) by (apply Rmult_le_compat_l; lra). lra.
    - apply Rmult_le_compat_l; [lra|]. assert (cph e * Tt4 e <= cph e * Tt4 f) by (apply Rmult_le_compat_l; lra). lra. }
  assert (K : eS e * cph e * (1 + far s) * Tt4 e <= eS f * cph e * (1 + far t) * Tt4 f).
  { apply Rmult_le_compat; [|lra| |assumption].
    - repeat (lra || apply Rmult_le_pos).
    - apply Rmult_le_compat; [apply Rmult_le_pos; lra|lra| |assumption]. apply Rmult_le_compat_r; lra. }
  assert (Q : 0 < eS e * cph e * (1 + far s) * Tt4 e) by (repeat (assumption || apply Rmult_lt_0_compat)).
  set (k1 := eS e * cph e * (1 + far s) * Tt4 e) in *. set (k2 := eS f * cph e * (1 + far t) * Tt4 f) in *.
  set (u := Tt45 s / Tt4 e) in *. set (v := Tt45 t / Tt4 f) in *.
  assert (RR : u <= v).
  { assert (cpc e * (Tt3 t - x) <= cpc e * (Tt3 s - x)) by (apply Rmult_le_compat_l; lra).
    assert (k1 * (1 - v) <= k2 * (1 - v)) by (apply Rmult_le_compat_r; lra).
    assert (1 - v <= 1 - u); [|lra]. apply Rmult_le_reg_l with k1; lra. }
  assert (P1 := pres_pos (gc e) (M0 e)).
  split; [lra|]. split; [|split; [|split]].
  - replace (Tt45 s) with (u * Tt4 e) by (unfold u; field; lra). replace (Tt45 t) with (v * Tt4 f) by (unfold v; field; lra). apply Rmult_le_compat; lra.
  - rewrite AP, BP. apply Rmult_le_compat.
    + left. repeat (assumption || apply Rmult_lt_0_compat).
    + left. apply exp_pos.
    + apply Rmult_le_compat_l; [lra|]. apply Rmult_le_compat_l; [lra|]. apply Rmult_le_compat_r; [|assumption]. left. now apply Rmult_lt_0_compat.
    + apply Rle_trans with (Rpower v (gh e / ((gh e - 1) * eT e))).
      * apply Rle_Rpower_l; [|lra]. left. apply Rdiv_lt_0_compat; [lra|]. apply Rmult_lt_0_compat; lra.
      * apply Rpower_exp_down; [assumption|]. unfold Rdiv. apply Rmult_le_compat_l; [lra|]. apply Rinv_le_contravar; [apply Rmult_lt_0_compat; lra|]. apply Rmult_le_compat_l; lra.
  - rewrite AV, BV, ?g3. reflexivity.
  - intros E1 E2. assert (E3 : Tt3 s = Tt3 t) by (rewrite A3, B3, E2; reflexivity). apply Rplus_eq_reg_l with 1. apply Rmult_eq_reg_r with (X - cph e * Tt4 e); [|lra]. rewrite AF, E3, <- BF, E1. reflexivity.
Qed.
Lemma nozzle_mono g r p0 q1 q2 t1 t2 m1 m2 v1 v2 : 1 < g -> 0 < r -> 0 < p0 -> p0 <= q1 -> q1 <= q2 -> 0 < t1 -> t1 <= t2 ->
  nozzle g r q1 t1 p0 m1 v1 -> nozzle g r q2 t2 p0 m2 v2 -> v1 <= v2.
Proof.
  intros G Rr P Q1 Q2 T1 T2 (A1 & B1 & C1 & D1) (A2 & B2 & C2 & D2).
  assert (X1 := pr_temp g m1 _ G B1). assert (X2 := pr_temp g m2 _ G B2).
  assert (Y1 := temp_pos g m1 G). assert (Y2 := temp_pos g m2 G).
  assert (L : temp_ratio g m1 <= temp_ratio g m2).
  { rewrite <- X1, <- X2. apply Rle_Rpower_l; [left; apply Rdiv_lt_0_compat; lra|]. split; [apply Rdiv_lt_0_compat; lra|]. apply Rmult_le_compat_r; [|assumption]. left. now apply Rinv_0_lt_compat. }
  assert (Hc : 0 < cp_of g r) by (unfold cp_of; apply Rdiv_lt_0_compat; [apply Rmult_lt_0_compat|]; lra).
  assert (I : / temp_ratio g m2 <= / temp_ratio g m1) by (apply Rinv_le_contravar; lra).
  assert (I1 : / temp_ratio g m1 <= 1) by (rewrite <- Rinv_1; apply Rinv_le_contravar; lra).
  assert (S : t1 - t1 / temp_ratio g m1 <= t2 - t2 / temp_ratio g m2).
  { unfold Rdiv. replace (t1 - t1 * / temp_ratio g m1) with (t1 * (1 - / temp_ratio g m1)) by ring. replace (t2 - t2 * / temp_ratio g m2) with (t2 * (1 - / temp_ratio g m2)) by ring. apply Rmult_le_compat; lra. }
  assert (V : v1 ^ 2 <= v2 ^ 2) by (rewrite C1, C2; apply Rmult_le_compat_l; lra).
  apply Rsqr_incr_0; [|assumption|assumption]. unfold Rsqr. cbn in V. lra.
Qed.

(*@P C119_turbojet: For all pairs of turbojets with the same gases, fuel, combustor, overall pressure ratio (at least 1) and flight conditions, whatever happened to the objects before: if turbine inlet temperature and every component efficiency (inlet, compressor, turbine, shaft, nozzle) of the second are at least those of the first, then after update the second burns at least as much fuel per unit air and has at least the turbine exit temperature and pressure, the jet velocity, the specific thrust and the kinetic energy of the first. *)
Lemma better_turbojet : forall o1 o2 e f xn yn, described o1 e -> has o1 "xi_nozzle" xn -> described o2 f -> has o2 "xi_nozzle" yn -> in_range e -> in_range f ->
  feasible e (xi_cc e) -> feasible f (xi_cc f) -> 1 <= OPR e -> at_least_as_good e f -> xn <= yn ->
  exists o1' o2' s t v1 v2 F1 F2 K1 K2, run tj_update o1 = Some o1' /\ run tj_update o2 = Some o2' /\ shows o1' s /\ shows o2' t /\
  has o1' "V9" v1 /\ has o2' "V9" v2 /\ eval o1' tj_norm_thrust = Some (Some F1) /\ eval o2' tj_norm_thrust = Some (Some F2) /\
  eval o1' tj_Wsp_kinEn = Some (Some K1) /\ eval o2' tj_Wsp_kinEn = Some (Some K2) /\
  far s <= far t /\ Tt45 s <= Tt45 t /\ Pt45 s <= Pt45 t /\ v1 <= v2 /\ F1 <= F2 /\ K1 <= K2 /\
  (Tt4 e = Tt4 f -> eC e = eC f -> far s = far t /\
   (0 < far s -> 0 < F1 -> exists c1 c2 h1 h2, eval o1' (Sfc tj_norm_thrust) = Some (Some c1) /\ eval o2' (Sfc tj_norm_thrust) = Some (Some c2) /\ c2 <= c1 /\
    eval o1' (thermal_efficiency tj_Wsp_kinEn) = Some (Some h1) /\ eval o2' (thermal_efficiency tj_Wsp_kinEn) = Some (Some h2) /\ h1 <= h2)).
Proof.
  intros o1 o2 e f xn yn D1 X1 D2 X2 R1 R2 F1 F2 O G XY.
  destruct (turbojet o1 e xn D1 X1 R1 F1) as (o1' & s & m1 & v1 & U1 & _ & _ & S1 & C1 & B1 & a1 & t1 & q1 & _ & _ & V1 & N1 & T1 & _ & K1 & W1).
  destruct (turbojet o2 f yn D2 X2 R2 F2) as (o2' & t & m2 & v2 & U2 & _ & _ & S2 & C2 & B2 & a2 & t2 & q2 & _ & _ & V2 & N2 & T2 & _ & K2 & W2).
  destruct (better_core e f s t R1 R2 O G C1 B1 a1 t1 q1 C2 B2 a2 t2 q2) as (I1 & I2 & I3 & I4 & I5).
  assert (PP : 0 < P0 e /\ 1 < gh e /\ 0 < rh e) by (unfold in_range in R1; tauto). destruct PP as (PP & PG & PR).
  assert (GG : gh f = gh e /\ rh f = rh e /\ P0 f = P0 e /\ Pci f = Pci e) by (unfold at_least_as_good in G; tauto). destruct GG as (G1 & G2 & G3 & G4). rewrite G1, G2, G3 in N2.
  assert (M : Rmax (Pt45 s * xn) (P0 e) <= Rmax (Pt45 t * yn) (P0 e)).
  { apply Rmax_lub; [|apply Rmax_r]. destruct (Rle_dec 0 xn) as [Z|Z].
    - apply Rle_trans with (Pt45 t * yn); [apply Rmult_le_compat; lra|apply Rmax_l].
    - apply Rle_trans with (P0 e); [|apply Rmax_r]. assert (Pt45 s * xn <= 0) by nra. lra. }
  assert (VV : v1 <= v2).
  { apply (nozzle_mono (gh e) (rh e) (P0 e) (Rmax (Pt45 s * xn) (P0 e)) (Rmax (Pt45 t * yn) (P0 e)) (Tt45 s) (Tt45 t) m1 m2); try assumption. apply Rmax_r. }
  assert (V0' : 0 <= v1) by apply N1.
  assert (TH : (1 + far s) * v1 - V0 s <= (1 + far t) * v2 - V0 t) by (rewrite I4; assert ((1 + far s) * v1 <= (1 + far t) * v2) by (apply Rmult_le_compat; lra); lra).
  assert (KK : ((1 + far s) * v1 ^ 2 - V0 s ^ 2) / 2 <= ((1 + far t) * v2 ^ 2 - V0 t ^ 2) / 2).
  { rewrite I4. assert (v1 ^ 2 <= v2 ^ 2) by (apply pow_incr; lra). assert (0 <= v1 ^ 2) by (cbn; nra). assert ((1 + far s) * v1 ^ 2 <= (1 + far t) * v2 ^ 2) by (apply Rmult_le_compat; lra). lra. }
  exists o1', o2', s, t, v1, v2. do 4 eexists. repeat (split; [eassumption|]).
  intros E1 E2. specialize (I5 E1 E2). split; [assumption|]. intros FP TP.
  assert (PC : 0 < Pci e). { unfold in_range in R1. assert (0 < xi_cc e) by tauto. assert (0 < cph e * Tt4 e). { unfold cph, cp_of. apply Rmult_lt_0_compat; [|tauto]. apply Rdiv_lt_0_compat; [apply Rmult_lt_0_compat|]; tauto || lra. }
    assert (cph e * Tt4 e < xi_cc e * Pci e) by tauto. nra. }
  assert (Fs : o1' "far"%string = Some (Some (far s))) by (unfold shows, has in S1; tauto). assert (Ft : o2' "far"%string = Some (Some (far t))) by (unfold shows, has in S2; tauto).
  set (A1 := (1 + far s) * v1 - V0 s) in *. set (A2 := (1 + far t) * v2 - V0 t) in *. set (Y1 := ((1 + far s) * v1 ^ 2 - V0 s ^ 2) / 2) in *. set (Y2 := ((1 + far t) * v2 ^ 2 - V0 t ^ 2) / 2) in *.
  assert (DV : forall a b, 0 < b -> ndiv (Some a) (Some b) = Some (a / b)) by (intros a b Z; cbn; destruct (Req_EM_T b 0); [lra|reflexivity]).
  exists (far s / A1), (far t / A2), (Y1 / (far s * Pci e)), (Y2 / (far t * Pci f)).
  unfold Sfc, thermal_efficiency. cbn [eval]. rewrite Fs, Ft, T1, T2, K1, K2, W1, W2.
  rewrite !DV by (try lra; try (apply Rmult_lt_0_compat; lra)). rewrite G4, <- I5.
  repeat split; try reflexivity.
  - unfold Rdiv. apply Rmult_le_compat_l; [lra|]. apply Rinv_le_contravar; lra.
  - unfold Rdiv. apply Rmult_le_compat_r; [|assumption]. left. apply Rinv_0_lt_compat, Rmult_lt_0_compat; lra.
Qed.

(*@P C119_turbofan: For all pairs of turbofans as in C119_turbojet with the same by-pass ratio and fraction of power sent to the fan, whose low pressure turbine and fan discharge above ambient pressure: if the efficiencies of the fan and of the low pressure turbine of the second are at least those of the first too, the second sends at least the power to its fan and has at least the fan exit temperature and pressure and the by-pass jet velocity of the first; if they differ in the fan efficiency only, the core jet is the same and thrust and kinetic energy are at least those of the first. *)
Lemma better_turbofan : forall o1 o2 e f xn yn bpr fr eB1 eB2 eF1 eF2, described o1 e -> has o1 "xi_nozzle" xn -> has o1 "bpr" bpr -> has o1 "fanpower_ratio" fr -> has o1 "etapolTBP" eB1 -> has o1 "etapolfan" eF1 ->
  described o2 f -> has o2 "xi_nozzle" yn -> has o2 "bpr" bpr -> has o2 "fanpower_ratio" fr -> has o2 "etapolTBP" eB2 -> has o2 "etapolfan" eF2 ->
  in_range e -> in_range f -> feasible e (xi_cc e) -> feasible f (xi_cc f) -> 1 <= OPR e -> at_least_as_good e f ->
  0 < xn <= yn -> 0 < bpr -> 0 <= fr <= 1 -> 0 < eB1 <= eB2 -> 0 < eF1 <= eF2 -> P0 e <= xn * (xi_inlet e * (P0 e * pres_ratio (gc e) (M0 e))) ->
  exists o1' o2' s t, run tf_update o1 = Some o1' /\ run tf_update o2 = Some o2' /\ shows o1' s /\ shows o2' t /\
  far s <= far t /\ Tt45 s <= Tt45 t /\ Pt45 s <= Pt45 t /\
  (P0 e <= Pt45 s * xn -> exists x1 x2 p1 p2 T1 T2 P1 P2 v1 v2 c1 c2 F1 F2 K1 K2, 
   has o1' "Tt5" x1 /\ has o2' "Tt5" x2 /\ has o1' "Pt5" p1 /\ has o2' "Pt5" p2 /\
   has o1' "Tt17" T1 /\ has o2' "Tt17" T2 /\ has o1' "Pt17" P1 /\ has o2' "Pt17" P2 /\ has o1' "V19" v1 /\ has o2' "V19" v2 /\ has o1' "V9" c1 /\ has o2' "V9" c2 /\
   eval o1' tf_norm_thrust = Some (Some F1) /\ eval o2' tf_norm_thrust = Some (Some F2) /\ eval o1' tf_Wsp_kinEn = Some (Some K1) /\ eval o2' tf_Wsp_kinEn = Some (Some K2) /\
   (1 + far s) * cph e * (Tt45 s - x1) <= (1 + far t) * cph f * (Tt45 t - x2) /\ T1 <= T2 /\ P1 <= P2 /\ v1 <= v2 /\
   (e = f -> xn = yn -> eB1 = eB2 -> x1 = x2 /\ p1 = p2 /\ c1 = c2 /\ F1 <= F2 /\ K1 <= K2)).
Proof.
  intros o1 o2 e f xn yn bpr fr eB1 eB2 eF1 eF2 D1 X1 b1 f1 y1 z1 D2 X2 b2 f2 y2 z2 R1 R2 Fe1 Fe2 O G XY Hb Hf HB HF Hi.
  pose proof G as (g1 & g2 & g3 & g4 & g5 & g6 & g7 & g8 & g9 & g10 & h1 & h2 & h3 & h4 & h5).
  assert (Pp := pres_pos (gc e) (M0 e)).
  pose proof R1 as (p1 & p2 & p3 & p4 & p5 & p6 & p7 & p8 & p9 & p10 & p11 & p12 & p13 & p14 & p15).
  assert (Hi2 : P0 f <= yn * (xi_inlet f * (P0 f * pres_ratio (gc f) (M0 f)))).
  { rewrite g1, g9, g10. apply Rle_trans with (1 := Hi). apply Rmult_le_compat; [lra| |lra|].
    - left. repeat (assumption || apply Rmult_lt_0_compat).
    - apply Rmult_le_compat_r; [|assumption]. left. now apply Rmult_lt_0_compat. }
  destruct (turbofan o1 e xn bpr fr eB1 eF1 D1 X1 b1 f1 y1 z1 R1 Fe1 ltac:(lra) Hb Hf ltac:(lra) ltac:(lra) Hi) as (o1' & s & U1 & _ & S1 & C1 & B1 & a1 & t1 & q1 & Z1).
  destruct (turbofan o2 f yn bpr fr eB2 eF2 D2 X2 b2 f2 y2 z2 R2 Fe2 ltac:(lra) Hb Hf ltac:(lra) ltac:(lra) Hi2) as (o2' & t & U2 & _ & S2 & C2 & B2 & a2 & t2 & q2 & Z2).
  destruct (better_core e f s t R1 R2 O G C1 B1 a1 t1 q1 C2 B2 a2 t2 q2) as (I1 & I2 & I3 & I4 & I5).
  exists o1', o2', s, t. repeat (split; [assumption|]). intro A.
  assert (A2 : P0 f <= Pt45 t * yn). { rewrite g9. apply Rle_trans with (1 := A). apply Rmult_le_compat; lra. }
  destruct (Z1 A) as (x1 & r1 & m1 & c1 & T1 & P1 & n1 & v1 & E). clear Z1. cbv zeta in E. destruct E as (e1 & e2 & e3 & e4 & e5 & e6 & e7 & e8 & e9 & e10 & e11 & e12 & e13 & e14 & e15 & e16 & e17 & _ & e18).
  destruct (Z2 A2) as (x2 & r2 & m2 & c2 & T2 & P2 & n2 & v2 & E). clear Z2. cbv zeta in E. destruct E as (k1 & k2 & k3 & k4 & k5 & k6 & k7 & k8 & k9 & k10 & k11 & k12 & k13 & k14 & k15 & k16 & k17 & _ & k18).
  exists x1, x2, r1, r2, T1, T2, P1, P2, v1, v2, c1, c2. do 4 eexists. repeat (split; [eassumption|]).
  assert (Ec : cpc f = cpc e) by (unfold cpc; now rewrite g1, g3). assert (Eh : cph f = cph e) by (unfold cph; now rewrite g2, g4).
  rewrite Ec, Eh, ?g1, ?g2, ?g3, ?g4, ?g9 in *.
  assert (Hcp : 0 < cpc e) by (unfold cpc, cp_of; apply Rdiv_lt_0_compat; [apply Rmult_lt_0_compat|]; lra).
  assert (Hch : 0 < cph e) by (unfold cph, cp_of; apply Rdiv_lt_0_compat; [apply Rmult_lt_0_compat|]; lra).
  assert (HX1 : 0 < xn * Pt45 s) by (apply Rmult_lt_0_compat; lra). assert (HX2 : xn * Pt45 s <= yn * Pt45 t) by (apply Rmult_le_compat; lra).
  assert (B0 : 0 < P0 e / (yn * Pt45 t)) by (apply Rdiv_lt_0_compat; lra).
  assert (BB : P0 e / (yn * Pt45 t) <= P0 e / (xn * Pt45 s)) by (unfold Rdiv; apply Rmult_le_compat_l; [lra|]; apply Rinv_le_contravar; assumption).
  assert (B1' : P0 e / (xn * Pt45 s) <= 1) by (apply Rmult_le_reg_r with (xn * Pt45 s); [assumption|]; unfold Rdiv; rewrite Rmult_assoc, Rinv_l by lra; lra).
  set (W1 := Rpower (P0 e / (xn * Pt45 s)) ((gh e - 1) * eB1 / gh e)) in *. set (W2 := Rpower (P0 e / (yn * Pt45 t)) ((gh e - 1) * eB2 / gh e)) in *.
  assert (WW : W2 <= W1 <= 1).
  { split.
    - apply Rle_trans with (Rpower (P0 e / (yn * Pt45 t)) ((gh e - 1) * eB1 / gh e)).
      + apply Rpower_exp_down; [lra|]. unfold Rdiv. apply Rmult_le_compat_r; [left; apply Rinv_0_lt_compat; lra|]. apply Rmult_le_compat_l; lra.
      + apply Rle_Rpower_l; [|lra]. left. apply Rdiv_lt_0_compat; [apply Rmult_lt_0_compat; lra|lra].
    - unfold W1. rewrite <- (Rpower_O (P0 e / (xn * Pt45 s))) at 2 by lra. apply Rpower_exp_down; [lra|]. left. apply Rdiv_lt_0_compat; [apply Rmult_lt_0_compat; lra|lra]. }
  assert (PW : (1 + far s) * cph e * (Tt45 s - x1) <= (1 + far t) * cph e * (Tt45 t - x2)).
  { rewrite e9, k9. apply Rmult_le_compat_l; [lra|]. apply Rmult_le_compat; [|lra| |lra].
    - repeat (lra || apply Rmult_le_pos).
    - apply Rmult_le_compat; [apply Rmult_le_pos; lra|lra| |assumption]. apply Rmult_le_compat_r; lra. }
  assert (PW0 : 0 <= (1 + far s) * cph e * (Tt45 s - x1)).
  { rewrite e9. apply Rmult_le_pos; [lra|]. apply Rmult_le_pos; [|lra]. repeat (lra || apply Rmult_le_pos). }
  assert (C2' : Tt2 s = Tt2 t /\ 0 < Tt2 s /\ Pt2 s <= Pt2 t /\ 0 < Pt2 s).
  { destruct C1 as (w1 & w2 & _ & w4 & w5 & _). destruct C2 as (u1 & u2 & _ & u4 & u5 & _). rewrite w4, w5, u4, u5, w1, w2, u1, u2, g1, g8, g9, g10.
    assert (TP := temp_pos (gc e) (M0 e) p3).
    split; [reflexivity|]. split; [apply Rmult_lt_0_compat; lra|]. assert (0 < P0 e * pres_ratio (gc e) (M0 e)) by (now apply Rmult_lt_0_compat). split; [apply Rmult_le_compat_r; lra|now apply Rmult_lt_0_compat]. }
  destruct C2' as (Q1 & Q2 & Q3 & Q4). rewrite <- Q1 in *.
  assert (HBC : 0 < bpr * cpc e) by (now apply Rmult_lt_0_compat).
  assert (TT : Tt2 s <= T1 <= T2).
  { split.
    - apply Rmult_le_reg_l with (bpr * cpc e); [assumption|]. assert (0 <= bpr * cpc e * (T1 - Tt2 s)) by (rewrite e11; apply Rmult_le_pos; lra). lra.
    - apply Rmult_le_reg_l with (bpr * cpc e); [assumption|]. assert (bpr * cpc e * (T1 - Tt2 s) <= bpr * cpc e * (T2 - Tt2 s)); [|lra]. rewrite e11, k11. apply Rmult_le_compat; lra. }
  assert (RI : forall P T p t eF, nozzle (gc e) (rc e) (P * p) T (P0 e) t eF -> 0 < p -> 0 < P).
  { intros P T p tt eF (_ & N & _) Hp. assert (0 < P * p / P0 e) by (rewrite N; apply pres_pos). destruct (Rlt_dec 0 P) as [|NP]; [assumption|]. exfalso. assert (P * p <= 0) by nra. assert (P * p / P0 e <= 0); [|lra]. unfold Rdiv. assert (0 < / P0 e) by (now apply Rinv_0_lt_compat). nra. }
  assert (HP1 := RI _ _ _ _ _ e16 ltac:(lra)). assert (HP2 := RI _ _ _ _ _ k16 ltac:(lra)).
  unfold compression in e12, k12.
  assert (V1 : P1 = Pt2 s * Rpower (T1 / Tt2 s) (gc e * eF1 / (gc e - 1))) by (rewrite e12, Rpower_inv_exp; [field; lra|now apply Rdiv_lt_0_compat|field; lra]).
  assert (V2 : P2 = Pt2 t * Rpower (T2 / Tt2 s) (gc e * eF2 / (gc e - 1))) by (rewrite k12, Rpower_inv_exp; [field; lra|apply Rdiv_lt_0_compat; lra|field; lra]).
  assert (TR : 1 <= T1 / Tt2 s <= T2 / Tt2 s).
  { assert (IP : 0 < / Tt2 s) by (now apply Rinv_0_lt_compat). split; [|unfold Rdiv; apply Rmult_le_compat_r; lra]. replace 1 with (Tt2 s * / Tt2 s) by (field; lra). unfold Rdiv. apply Rmult_le_compat_r; lra. }
  assert (HP : P1 <= P2).
  { rewrite V1, V2. apply Rmult_le_compat; [lra|left; apply exp_pos|assumption|]. apply Rle_trans with (Rpower (T2 / Tt2 s) (gc e * eF1 / (gc e - 1))).
    - apply Rle_Rpower_l; [|lra]. left. apply Rdiv_lt_0_compat; [apply Rmult_lt_0_compat|]; lra.
    - apply Rle_Rpower; [lra|]. unfold Rdiv. apply Rmult_le_compat_r; [left; apply Rinv_0_lt_compat; lra|]. apply Rmult_le_compat_l; lra. }
  assert (HQ : P0 e <= P1 * xn).
  { apply Rle_trans with (1 := Hi). rewrite Rmult_comm. apply Rmult_le_compat_r; [lra|]. destruct C1 as (_ & w2 & _ & _ & w5 & _). rewrite <- w2, <- w5. rewrite V1. rewrite <- (Rmult_1_r (Pt2 s)) at 1. apply Rmult_le_compat_l; [lra|].
    rewrite <- (Rpower_O (T1 / Tt2 s)) at 1 by lra. apply Rle_Rpower; [lra|]. left. apply Rdiv_lt_0_compat; [apply Rmult_lt_0_compat|]; lra. }
  assert (HV : v1 <= v2).
  { apply (nozzle_mono (gc e) (rc e) (P0 e) (P1 * xn) (P2 * yn) T1 T2 n1 n2); try assumption; try lra. apply Rmult_le_compat; lra. }
  split; [assumption|]. split; [lra|]. split; [assumption|]. split; [assumption|].
  intros E1 E2 E3. subst f yn eB2.
  assert (G' : at_least_as_good e e) by (unfold at_least_as_good; repeat split; lra).
  destruct (better_core e e t s R1 R1 O G' C2 B2 a2 t2 q2 C1 B1 a1 t1 q1) as (J1 & J2 & J3 & _ & _).
  assert (Y1 : far t = far s) by lra. assert (Y2 : Tt45 t = Tt45 s) by lra. assert (Y3 : Pt45 t = Pt45 s) by lra.
  rewrite Y1, Y2, Y3 in *. rewrite <- I4.
  assert (EX : x1 = x2).
  { assert ((1 + far s) * cph e * (Tt45 s - x1) = (1 + far s) * cph e * (Tt45 s - x2)) by (rewrite e9, k9; unfold W1, W2; rewrite Y3; reflexivity).
    apply Rmult_eq_reg_l in H; [lra|]. apply Rgt_not_eq. now apply Rmult_lt_0_compat. }
  subst x2.
  assert (RH : forall P T p t eF, nozzle (gh e) (rh e) (P * p) T (P0 e) t eF -> 0 < p -> 0 < P).
  { intros P T p tt eF (_ & N & _) Hp. assert (0 < P * p / P0 e) by (rewrite N; apply pres_pos). destruct (Rlt_dec 0 P) as [|NP]; [assumption|]. exfalso. assert (P * p <= 0) by nra. assert (P * p / P0 e <= 0); [|lra]. unfold Rdiv. assert (0 < / P0 e) by (now apply Rinv_0_lt_compat). nra. }
  assert (HR1 := RH _ _ _ _ _ e14 ltac:(lra)). assert (HR2 := RH _ _ _ _ _ k14 ltac:(lra)).
  unfold expansion in e10, k10.
  assert (ER : r1 = r2).
  { assert (r1 / Pt45 s = r2 / Pt45 s).
    { rewrite <- (Rpower_inv_exp (r1 / Pt45 s) ((gh e - 1) * eB1 / gh e) (gh e / ((gh e - 1) * eB1))); [|now apply Rdiv_lt_0_compat|field; lra].
      rewrite <- (Rpower_inv_exp (r2 / Pt45 s) ((gh e - 1) * eB1 / gh e) (gh e / ((gh e - 1) * eB1))); [|now apply Rdiv_lt_0_compat|field; lra]. now rewrite <- e10, <- k10. }
    apply Rmult_eq_reg_r with (/ Pt45 s); [assumption|]. apply Rgt_not_eq. now apply Rinv_0_lt_compat. }
  subst r2.
  assert (EM : temp_ratio (gh e) m1 = temp_ratio (gh e) m2).
  { destruct e14 as (_ & w1 & _). destruct k14 as (_ & w2 & _). now rewrite <- (pr_temp _ _ _ p4 w1), <- (pr_temp _ _ _ p4 w2). }
  assert (EV : c1 = c2).
  { destruct e14 as (_ & _ & w1 & w2). destruct k14 as (_ & _ & w3 & w4). rewrite EM in w1. assert (c1 ^ 2 = c2 ^ 2) by (rewrite w1, w3; reflexivity). apply Rsqr_inj; [assumption|assumption|]. unfold Rsqr. cbn in H. lra. }
  subst c2. split; [reflexivity|]. split; [reflexivity|]. split; [reflexivity|].
  assert (0 <= v1) by apply e16. assert (v1 ^ 2 <= v2 ^ 2) by (apply pow_incr; lra).
  assert (bpr * (v1 - V0 s) <= bpr * (v2 - V0 s)) by (apply Rmult_le_compat_l; lra). assert (bpr * (v1 ^ 2 - V0 s ^ 2) <= bpr * (v2 ^ 2 - V0 s ^ 2)) by (apply Rmult_le_compat_l; lra).
  split; lra.
Qed.
Definition ex_better : gas_generator :=
  {| OPR := Rpower 2 (7 / 2); Tt4 := 1600; gc := 14 / 10; gh := 14 / 10; rc := 2871 / 10; rh := 2871 / 10; xi_inlet := 99 / 100; xi_cc := 95 / 100;
     Pci := 42800000; eC := 1; eT := 95 / 100; eS := 98 / 100; T0 := 200; P0 := 20000; M0 := 1 |}.
Definition ex_better_args : gg_args :=
  {| a_OPR := Some (Rpower 2 (7 / 2)); a_Tt4 := Some 1600; a_gam_cold := Some (14 / 10); a_gam_hot := Some (14 / 10);
     a_r_cold := Some (2871 / 10); a_r_hot := Some (2871 / 10); a_xi_inlet := Some (99 / 100); a_xi_nozzle := Some (98 / 100); a_xi_cc := Some (95 / 100);
     a_eta_cc := Some (99 / 100); a_Pci := Some 42800000; a_etapolCHP := Some 1; a_etapolTHP := Some (95 / 100); a_eta_shaft := Some (98 / 100) |}.
(*@E C119_example: Two turbojets built by their constructors and flown at Mach 1, the second with better inlet, turbine and nozzle, meet the hypotheses of C119_turbojet, and so do the turbofans of C60_example and one differing in its fan efficiency those of C119_turbofan, turbines discharging above ambient pressure. *)
Lemma better_example : (exists o1 o2, run (tj_init_body (ex_args (97 / 100)) ++ flight_conditions (Some 200) (Some 20000) (Some 1))%list empty_obj = Some o1 /\
    run (tj_init_body ex_better_args ++ flight_conditions (Some 200) (Some 20000) (Some 1))%list empty_obj = Some o2 /\
    described o1 ex_engine /\ has o1 "xi_nozzle" (97 / 100) /\ described o2 ex_better /\ has o2 "xi_nozzle" (98 / 100)) /\
  in_range ex_engine /\ in_range ex_better /\ feasible ex_engine (xi_cc ex_engine) /\ feasible ex_better (xi_cc ex_better) /\ 1 <= OPR ex_engine /\ at_least_as_good ex_engine ex_better /\
  at_least_as_good ex_engine ex_engine /\ xi_inlet ex_engine < xi_inlet ex_better /\ eT ex_engine < eT ex_better /\
  (exists o o' s, run ex_tf_body empty_obj = Some o /\ described o ex_engine /\ has o "xi_nozzle" (97 / 100) /\ has o "bpr" 5 /\ has o "fanpower_ratio" (1 / 2) /\ has o "etapolTBP" (9 / 10) /\ has o "etapolfan" (9 / 10) /\
    P0 ex_engine <= 97 / 100 * (xi_inlet ex_engine * (P0 ex_engine * pres_ratio (gc ex_engine) (M0 ex_engine))) /\ run tf_update o = Some o' /\ shows o' s /\ P0 ex_engine <= Pt45 s * (97 / 100)) /\
  (exists o, run (ex_tf_body ++ (("etapolfan"%string, L (Some (95 / 100))) :: nil))%list empty_obj = Some o /\ described o ex_engine /\ has o "xi_nozzle" (97 / 100) /\ has o "bpr" 5 /\ has o "fanpower_ratio" (1 / 2) /\
    has o "etapolTBP" (9 / 10) /\ has o "etapolfan" (95 / 100)).
Proof.
  assert (O : 1 <= Rpower 2 (7 / 2)) by (rewrite <- (Rpower_O 2) by lra; apply Rle_Rpower; lra).
  assert (FE := ex_feasible).
  split.
  { do 2 eexists. split; [reflexivity|]. split; [reflexivity|]. unfold described, has, ex_engine, ex_better. cbn [OPR Tt4 gc gh rc rh xi_inlet xi_cc Pci eC eT eS T0 P0 M0]. repeat split; reflexivity. }
  split; [exact ex_range|]. split.
  { unfold in_range, cph, cp_of, ex_better. cbn [OPR Tt4 gc gh rc rh xi_inlet xi_cc Pci eC eT eS T0 P0 M0]. repeat split; lra. }
  split; [exact FE|]. split; [exact FE|]. split; [exact O|]. split.
  { unfold at_least_as_good, ex_engine, ex_better. cbn [OPR Tt4 gc gh rc rh xi_inlet xi_cc Pci eC eT eS T0 P0 M0]. repeat split; lra. }
  split; [unfold at_least_as_good; repeat split; lra|]. split; [unfold ex_engine, ex_better; cbn; lra|]. split; [unfold ex_engine, ex_better; cbn; lra|]. split.
  { destruct tf_example as (o & o' & s & E1 & _ & _ & E2 & E3 & E4 & E5 & E6 & E7 & E8 & E9 & E10 & E11). exists o, o', s. tauto. }
  eexists. split; [reflexivity|]. unfold described, has, ex_engine. cbn [OPR Tt4 gc gh rc rh xi_inlet xi_cc Pci eC eT eS T0 P0 M0]. repeat split; reflexivity.
Qed.
