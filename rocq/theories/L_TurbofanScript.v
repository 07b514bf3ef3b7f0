(** * C107: examples/turbofan.py *)
From Coq Require Import String ZArith.
From Verif Require Import Num L_Num M_Isentropic M_Obj L_Obj M_Engine M_TurbofanScript EngineSpec IdealSpec L_Engine L_Engine2 L_Ideal.
Open Scope R_scope.

Lemma arange_in a b s x : 0 < s -> In x (arange a b s) <-> exists i : nat, x = a + INR i * s /\ x < b.
Proof.
  intros Hs. unfold arange. rewrite in_map_iff.
  assert (K : forall i : nat, (i < Z.to_nat (ceil ((b - a) / s)))%nat <-> a + INR i * s < b).
  { intros i. unfold ceil. destruct (archimed (- ((b - a) / s))) as [A1 A2]. set (u := up (- ((b - a) / s))) in *.
    assert (E : a + INR i * s < b <-> INR i < (b - a) / s).
    { split; intros H.
      - apply Rmult_lt_reg_r with s; [exact Hs|]. replace ((b - a) / s * s) with (b - a) by (field; lra). lra.
      - apply Rmult_lt_compat_r with (r := s) in H; [|exact Hs]. replace ((b - a) / s * s) with (b - a) in H by (field; lra). lra. }
    rewrite E, INR_IZR_INZ. split; intros H.
    - assert (Z.of_nat i < 1 - u)%Z by lia. assert (L : (Z.of_nat i <= - u)%Z) by lia. apply IZR_le in L. rewrite opp_IZR in L. lra.
    - assert (L : IZR (Z.of_nat i) < IZR (1 - u)). { rewrite minus_IZR. lra. } apply lt_IZR in L. lia. }
  split.
  - intros (i & <- & I). apply in_seq in I. exists i. split; [reflexivity|]. apply K. lia.
  - intros (i & -> & H). exists i. split; [reflexivity|]. apply in_seq. apply K in H. lia.
Qed.
Lemma s_Tt0_val : s_Tt0 = Some 210.
Proof. unfold s_Tt0, s_T0, s_M0, dgamma. rewrite TtTs_spec. cbn [nmul]. f_equal. unfold temp_ratio. lra. Qed.
Lemma s_Tt3_in y : In y s_Tt3 <-> exists i : nat, y = Some (252 + INR i * 50) /\ 252 + INR i * 50 < 800.
Proof.
  unfold s_Tt3. rewrite s_Tt0_val. unfold s_Ttmax. cbn [nmul narange]. rewrite in_map_iff.
  replace (12 / 10 * 210) with 252 by lra. replace (5 / 10 * 1600) with 800 by lra. split.
  - intros (x & <- & I). apply arange_in in I; [|lra]. destruct I as (i & -> & H). exists i. tauto.
  - intros (i & -> & H). eexists. split; [reflexivity|]. apply arange_in; [lra|]. exists i. tauto.
Qed.
Lemma s_Bpr_in y : In y s_Bpr <-> exists i : nat, y = Some (2 / 10 + INR i * (2 / 10)) /\ 2 / 10 + INR i * (2 / 10) < 10.
Proof.
  unfold s_Bpr. cbn [narange]. rewrite in_map_iff. split.
  - intros (x & <- & I). apply arange_in in I; [|lra]. destruct I as (i & -> & H). exists i. tauto.
  - intros (i & -> & H). eexists. split; [reflexivity|]. apply arange_in; [lra|]. exists i. tauto.
Qed.

Definition s_engine (y : R) : gas_generator :=
  {| OPR := Rpower (y / 210) (32 / 10); Tt4 := 1600; gc := 14 / 10; gh := 14 / 10; rc := 2871 / 10; rh := 2871 / 10; xi_inlet := 1; xi_cc := 1;
     Pci := 42800000; eC := 1; eT := 1; eS := 1; T0 := 200; P0 := 20000; M0 := 1 / 2 |}.
Lemma s_exit y : 252 <= y -> compressor_exit (s_engine y) = 210 * Rpower (y / 210) (32 / 35) /\ 240 <= compressor_exit (s_engine y) /\ compressor_exit (s_engine y) < y.
Proof.
  intros H. assert (Q : 12 / 10 <= y / 210). { apply Rmult_le_reg_r with 210; [lra|]. replace (y / 210 * 210) with y by field. lra. }
  assert (E : compressor_exit (s_engine y) = 210 * Rpower (y / 210) (32 / 35)).
  { unfold compressor_exit, s_engine, temp_ratio. cbn [OPR Tt4 gc gh rc rh xi_inlet xi_cc Pci eC eT eS T0 P0 M0]. rewrite Rpower_mult. f_equal; [lra|]. f_equal. field. }
  split; [exact E|]. rewrite E. split.
  - assert (8 / 7 <= Rpower (y / 210) (32 / 35)); [|lra].
    apply Rle_trans with (Rpower (12 / 10) (4 / 5)).
    + rewrite <- (Rpower_1 (8 / 7)) by lra. replace 1 with (INR 5 * / INR 5) by (field; simpl; lra). rewrite <- Rpower_mult, Rpower_pow by lra.
      replace (4 / 5) with (INR 4 * / INR 5) by (simpl; field). rewrite <- Rpower_mult, Rpower_pow by lra. apply Rle_Rpower_l; [simpl; lra|]. split; lra.
    + apply Rle_trans with (Rpower (12 / 10) (32 / 35)); [apply Rle_Rpower; lra|]. apply Rle_Rpower_l; lra.
  - assert (Rpower (y / 210) (32 / 35) < y / 210); [|lra]. rewrite <- (Rpower_1 (y / 210)) at 2 by lra. apply Rpower_lt; lra.
Qed.

Lemma s_run i j : 252 + INR i * 50 < 800 -> 2 / 10 + INR j * (2 / 10) < 10 ->
  let y := 252 + INR i * 50 in let b := 2 / 10 + INR j * (2 / 10) in
  exists o, run (s_model (opr_of (Some y)) (Some b)) empty_obj = run tf_update o /\ ideal_fan o (s_engine y) b (b / (2 + b)).
Proof.
  intros Hy Hb y b. pose proof (pos_INR i) as Pi. pose proof (pos_INR j) as Pj.
  assert (Ly : 252 <= y) by (unfold y; lra). assert (Lb : 2 / 10 <= b) by (unfold b; lra).
  assert (Q : 0 < y / 210) by (apply Rdiv_lt_0_compat; lra).
  unfold opr_of. rewrite s_Tt0_val. rewrite ndiv_Some by lra. rewrite npow_Some by exact Q.
  unfold s_model. rewrite app_assoc, run_app. cbn [nadd]. rewrite ndiv_Some by lra.
  match goal with |- exists o, match ?r with _ => _ end = _ /\ _ => destruct r as [o|] eqn:E; [|discriminate E] end.
  exists o. split; [reflexivity|].
  cbn in E. apply Some_inj in E. subst o. 
  destruct (s_exit y Ly) as (X1 & X2 & X3).
  assert (O1 : 1 <= Rpower (y / 210) (32 / 10)).
  { apply Rle_trans with (Rpower 1 (32 / 10)); [rewrite Rpower_one; lra|]. apply Rle_Rpower_l; [lra|]. split; [lra|].
    apply Rmult_le_reg_r with 210; [lra|]. replace (y / 210 * 210) with y by field. lra. }
  unfold ideal_fan. split; [unfold described, has; cbn [s_engine OPR Tt4 gc gh rc rh xi_inlet xi_cc Pci eC eT eS T0 P0 M0]; repeat split; reflexivity|].
  do 5 (split; [reflexivity|]). split; [|split; [|split; [|split; [lra|]]]].
  - unfold in_range, cph, cp_of. cbn [s_engine OPR Tt4 gc gh rc rh xi_inlet xi_cc Pci eC eT eS T0 P0 M0]. repeat split; lra.
  - unfold ideal. cbn [s_engine OPR Tt4 gc gh rc rh xi_inlet xi_cc Pci eC eT eS T0 P0 M0]. repeat split; reflexivity.
  - unfold running. split; [exact O1|]. change (Tt4 (s_engine y)) with 1600. unfold y in *. lra.
  - split; [left; apply Rdiv_lt_0_compat; lra|]. apply Rmult_le_reg_r with (2 + b); [lra|]. replace (b / (2 + b) * (2 + b)) with b by (field; lra). lra.
Qed.

(*@P C107_script: examples/turbofan.py, at every point of its grid (every pressure ratio and every by-pass ratio of its two arrays): the model can be built, updated and plotted - no undefined value; both jets are faster than the flight, the specific thrust is positive, and the thermopropulsive efficiency lies strictly between 0 and the Brayton efficiency 1 - T0/Tt3 of the point, itself below 1: every point falls within the range of the contour levels. *)
Lemma s_script : forall opr bpr, In opr s_Opr -> In bpr s_Bpr ->
  exists o t3 v0 v9 v19 F eta, run (s_model opr bpr) empty_obj = Some o /\ has o "Tt3" t3 /\ has o "V0" v0 /\ has o "V9" v9 /\ has o "V19" v19 /\
  0 < v0 < v9 /\ v0 < v19 /\
  s_point opr bpr = Some (opr, Some F, Some eta) /\ 0 < F /\ 0 < eta < 1 - 200 / t3 /\ 200 < t3 < 800.
Proof.
  intros opr bpr Io Ib. unfold s_Opr in Io. apply in_map_iff in Io. destruct Io as (y' & <- & Iy).
  apply s_Tt3_in in Iy. destruct Iy as (i & -> & Hy). apply s_Bpr_in in Ib. destruct Ib as (j & -> & Hb).
  destruct (s_run i j Hy Hb) as (o0 & Ro & (D & Hx & H1 & H2 & H3 & H4 & Rg & Id & Ru & Pb & Pfr)).
  pose proof (pos_INR i) as Pi. pose proof (pos_INR j) as Pj.
  set (y := 252 + INR i * 50) in *. set (b := 2 / 10 + INR j * (2 / 10)) in *. set (e := s_engine y) in *.
  destruct (s_exit y) as (_ & X2 & X3); [unfold y; lra|].
  destruct (ideal_turbofan o0 e b (b / (2 + b)) D Hx H1 H2 H3 H4 Rg Id Ru Pb Pfr) as
    (o' & f & v9 & v19 & v0 & R1 & D' & hb & k1 & k2 & k3 & k4 & k5 & p1 & p2 & p3 & p4 & B & E0 & (Pd & E9 & E19) & n1 & n2 & n3 & n4).
  rewrite R1 in Ro. fold e in X2, X3. set (x := compressor_exit e) in *.
  assert (C : cpc e = 100485 / 100) by (unfold cpc, cp_of, e, s_engine; cbn [gc rc]; lra).
  assert (I0 : inlet_temp e = 210) by (unfold inlet_temp, temp_ratio, e, s_engine; cbn [gc M0 T0]; lra).
  change (T0 e) with 200 in *. change (Tt4 e) with 1600 in *. change (Pci e) with 42800000 in *. unfold brayton in *. change (T0 e) with 200 in *. fold x in E9, E19, Pd.
  rewrite I0 in *. set (d := (1 + f) * 1600 * (1 - 200 / x) - (x - 210)) in *.
  assert (Xi : 200 / x * x = 200) by (field; lra). set (z := 200 / x) in *.
  assert (Zp : 0 < z < 1). { split; [unfold z; apply Rdiv_lt_0_compat; lra|]. apply Rmult_lt_reg_r with x; lra. }
  assert (Dd : 200 <= d).
  { apply Rle_trans with (1600 * (1 - z) - (x - 210)).
    - apply Rmult_le_reg_r with x; [lra|]. replace ((1600 * (1 - z) - (x - 210)) * x) with (1600 * (x - z * x) - (x - 210) * x) by ring. rewrite Xi.
      assert (0 <= (x - 240) * (800 - x)) by (apply Rmult_le_pos; lra). nra.
    - unfold d. assert (0 <= f * 1600 * (1 - z)) by (apply Rmult_le_pos; lra). nra. }
  assert (Lb : 2 / 10 <= b) by (unfold b; lra).
  assert (F4 : f < 4 / 100). { rewrite C in B. nra. }
  assert (Hc : 0 < cpc e) by (rewrite C; lra). set (c := cpc e) in *.
  assert (V0p : 0 < v0). { destruct p4 as [|Z]; [assumption|]. rewrite <- Z in E0. cbn [pow] in E0. lra. }
  assert (G9 : 3 * v0 ^ 2 <= v9 ^ 2).
  { apply Rmult_le_reg_l with (1 + f); [lra|]. rewrite E9, E0. replace (1 - b / (2 + b)) with (2 / (2 + b)) by (field; lra).
    assert (32 <= 2 / (2 + b) * d).
    { apply Rmult_le_reg_r with (2 + b); [lra|]. replace (2 / (2 + b) * d * (2 + b)) with (2 * d) by (field; lra). lra. }
    clear - Hc H F4 p1. nra. }
  assert (L9 : 17 / 10 * v0 <= v9). { apply Rnot_lt_le. intros N. nra. }
  assert (G19 : v0 ^ 2 < v19 ^ 2).
  { apply Rmult_lt_reg_l with b; [lra|]. rewrite E19, E0. replace (b * (2 * c * (210 - 200))) with (2 * c * (b * (210 - 200))) by ring. apply Rmult_lt_compat_l; [lra|].
    assert (0 < b / (2 + b) * d) by (apply Rmult_lt_0_compat; [apply Rdiv_lt_0_compat; lra|lra]). lra. }
  assert (L19 : v0 < v19). { apply Rnot_le_lt. intros N. nra. }
  set (F := (1 + f) * v9 - v0 + b * (v19 - v0)) in *.
  assert (PF : 0 < F). { unfold F. assert (0 < b * (v19 - v0)) by (apply Rmult_lt_0_compat; lra). assert (0 < f * v9) by (apply Rmult_lt_0_compat; lra). lra. }
  assert (W : 0 < f * 42800000) by lra.
  exists o', x, v0, v9, v19, (F / (1 + b)), (F * v0 / (f * 42800000)).
  split; [exact Ro|]. do 4 (split; [assumption|]). split; [lra|]. split; [exact L19|]. split; [|split; [apply Rdiv_lt_0_compat; lra|split; [|lra]]].
  - unfold s_point. rewrite Ro, n2. unfold thermoprop_efficiency. cbn [eval]. rewrite n1, n4. unfold has in k4. rewrite k4. cbn [nmul].
    rewrite ndiv_Some by lra. reflexivity.
  - split; [apply Rdiv_lt_0_compat; [apply Rmult_lt_0_compat; lra|lra]|].
    apply Rmult_lt_reg_r with (f * 42800000); [exact W|]. replace (F * v0 / (f * 42800000) * (f * 42800000)) with (F * v0) by (field; lra).
    assert (KE : ((1 + f) * v9 ^ 2 - v0 ^ 2 + b * (v19 ^ 2 - v0 ^ 2)) / 2 = (1 - z) * (f * 42800000)).
    { rewrite B. replace ((1 + f) * v9 ^ 2 - v0 ^ 2 + b * (v19 ^ 2 - v0 ^ 2)) with ((1 + f) * v9 ^ 2 - v0 ^ 2 + (b * v19 ^ 2 - b * v0 ^ 2)) by ring.
      rewrite E9, E19, E0.
      replace ((1 - z) * (c * ((1 + f) * 1600 - x))) with (c * ((1 - z) * ((1 + f) * 1600) - x + z * x)) by ring. rewrite Xi.
      replace ((1 - z) * ((1 + f) * 1600) - x + 200) with (d - 10) by (unfold d; ring). field. lra. }
    fold z. rewrite <- KE. unfold F. assert (H5 : f * v0 ^ 2 < (1 + f) * (v9 - v0) ^ 2).
    { assert (49 / 100 * v0 ^ 2 <= (v9 - v0) ^ 2) by nra. assert (0 < v0 ^ 2) by nra. assert (0 <= f * (v9 - v0) ^ 2) by (apply Rmult_le_pos; nra). nra. }
    assert (0 <= b * (v19 - v0) ^ 2) by (apply Rmult_le_pos; nra). nra.
Qed.

(*@P C107_grid: The grid of the script: its compressor exit temperatures are 252, 302, 352, ... by steps of 50 K, below half the turbine temperature (800 K), its by-pass ratios 0.2, 0.4, ... below 10, and its pressure ratios those of the temperatures: the ratio to the flight total temperature 210 K, to the power 3.2. *)
Lemma s_grid : forall y, (In y s_Tt3 <-> exists i : nat, y = Some (252 + INR i * 50) /\ 252 + INR i * 50 < 800)
  /\ (In y s_Bpr <-> exists j : nat, y = Some (2 / 10 + INR j * (2 / 10)) /\ 2 / 10 + INR j * (2 / 10) < 10)
  /\ (In y s_Opr <-> exists t, In (Some t) s_Tt3 /\ y = Some (Rpower (t / 210) (32 / 10))).
Proof.
  intros y. split; [apply s_Tt3_in|]. split; [apply s_Bpr_in|]. unfold s_Opr. rewrite in_map_iff.
  assert (E : forall i, 0 < 252 + INR i * 50 -> opr_of (Some (252 + INR i * 50)) = Some (Rpower ((252 + INR i * 50) / 210) (32 / 10))).
  { intros i H. unfold opr_of. rewrite s_Tt0_val. ncbn. rewrite ndiv_Some by lra. apply npow_Some. apply Rdiv_lt_0_compat; lra. }
  split.
  - intros (x & <- & I). pose proof I as J. apply s_Tt3_in in J. destruct J as (i & -> & _). exists (252 + INR i * 50). split; [exact I|]. apply E. pose proof (pos_INR i). lra.
  - intros (t & I & ->). exists (Some t). split; [|exact I]. apply s_Tt3_in in I. destruct I as (i & Q & _). injection Q as ->. apply E. pose proof (pos_INR i). lra.
Qed.
(*@P C107_target_refuted: The temperatures Tt3 from which the script derives its pressure ratios are not those of the engines it draws: at every point of the grid the compressor exit temperature of the model is lower than the one chosen (the script raises the ratio to the power 3.2, while the model, left at its default efficiency 1, compresses with the power 3.5). *)
Lemma s_target_refuted : forall tt3 bpr, In tt3 s_Tt3 -> In bpr s_Bpr ->
  exists o t t', tt3 = Some t /\ In (opr_of tt3) s_Opr /\ run (s_model (opr_of tt3) bpr) empty_obj = Some o /\ has o "Tt3" t' /\ t' < t.
Proof.
  intros tt3 bpr Io Ib. pose proof Io as Iy. apply s_Tt3_in in Iy. destruct Iy as (i & Ei & Hy). apply s_Bpr_in in Ib. destruct Ib as (j & -> & Hb).
  destruct (s_run i j Hy Hb) as (o0 & Ro & (D & Hx & H1 & H2 & H3 & H4 & Rg & Id & Ru & Pb & Pfr)).
  destruct (ideal_turbofan o0 _ _ _ D Hx H1 H2 H3 H4 Rg Id Ru Pb Pfr) as (o' & f & v9 & v19 & v0 & R1 & D' & hb & k1 & k2 & k3 & k4 & k5 & _).
  pose proof (pos_INR i) as Pi. destruct (s_exit (252 + INR i * 50)) as (_ & _ & X3); [lra|].
  exists o', (252 + INR i * 50), (compressor_exit (s_engine (252 + INR i * 50))). split; [exact Ei|]. split; [now apply in_map|].
  rewrite Ei. split; [rewrite Ro; exact R1|]. split; [exact k5|exact X3].
Qed.

(*@E C107_example: The grid holds among others the temperatures 252 K and 752 K and the by-pass ratios 0.2 and 9.8, and the object the script builds there is an ideal turbofan of the kind the other theorems speak of; its core is one whose turbojet jet is faster than the flight. *)
Lemma s_example : In (Some 252) s_Tt3 /\ In (Some 752) s_Tt3 /\ In (Some (2 / 10)) s_Bpr /\ In (Some (98 / 10)) s_Bpr /\
  (exists o, run (s_model (opr_of (Some 752)) (Some (98 / 10))) empty_obj = run tf_update o /\ ideal_fan o (s_engine 752) (98 / 10) (98 / 118)) /\
  (exists o o' v0 v9, described o (s_engine 752) /\ has o "xi_nozzle" 1 /\ in_range (s_engine 752) /\ ideal (s_engine 752) /\ running (s_engine 752) /\
   run tj_update o = Some o' /\ has o' "V9" v9 /\ has o' "V0" v0 /\ v0 < v9).
Proof.
  assert (A : exists o, run (s_model (opr_of (Some 752)) (Some (98 / 10))) empty_obj = run tf_update o /\ ideal_fan o (s_engine 752) (98 / 10) (98 / 118)).
  { destruct (s_run 10 48) as (o & R1 & R2); [simpl; lra|simpl; lra|]. exists o.
    replace (252 + INR 10 * 50) with 752 in * by (simpl; lra). replace (2 / 10 + INR 48 * (2 / 10)) with (98 / 10) in * by (simpl; lra).
    replace (98 / 10 / (2 + 98 / 10)) with (98 / 118) in R2 by lra. split; assumption. }
  split; [apply s_Tt3_in; exists 0%nat; simpl; split; [f_equal|]; lra|]. split; [apply s_Tt3_in; exists 10%nat; simpl; split; [f_equal|]; lra|].
  split; [apply s_Bpr_in; exists 0%nat; simpl; split; [f_equal|]; lra|]. split; [apply s_Bpr_in; exists 48%nat; simpl; split; [f_equal|]; lra|].
  split; [exact A|]. destruct A as (o & _ & (D & Hx & _ & _ & _ & _ & Rg & Id & Ru & _ & _)).
  destruct (turbojet o (s_engine 752) 1 D Hx Rg (feasible_ideal _ Rg Id Ru)) as (o' & s & m9 & v9 & R1 & D' & _ & Sh & Cy & Bu & Pf & P45 & Pp45 & q1 & q2 & q3 & q4 & n1 & n2 & n3 & n4).
  destruct (ideal_turbojet_brayton o (s_engine 752) D Hx Rg Id Ru) as (o2 & t3 & p45 & p9 & R2 & h3 & e3 & h45 & h9 & e9 & L9 & eth).
  rewrite R1 in R2. apply Some_inj in R2. subst o2.
  destruct (id_facts _ s Rg Id Ru Cy Bu Pf Pp45) as (C & Pc & P2 & Pp2 & X3 & L0 & L2 & K2 & K45 & S1 & B1 & F0 & VV & V00 & T9 & L9').
  destruct Sh as (_ & _ & s3 & _ & _ & s6 & _). 
  exists o, o', (V0 s), v9. do 5 (split; [assumption|]). split; [exact R1|]. split; [exact q3|]. split; [exact s3|].
  destruct (s_exit 752) as (_ & X2 & X4); [lra|]. set (x := compressor_exit (s_engine 752)) in *.
  assert (Et : t3 = x). { unfold has in h3, s6. rewrite s6 in h3. apply Some_inj, Some_inj in h3. rewrite <- h3. exact X3. }
  unfold thermal_efficiency in eth. cbn [eval] in eth. rewrite n3, n4 in eth.
  change (Pci (s_engine 752)) with 42800000 in *. change (T0 (s_engine 752)) with 200 in *. change (Tt4 (s_engine 752)) with 1600 in *.
  rewrite ndiv_Some in eth by lra. apply Some_inj, Some_inj in eth. rewrite Et in eth.
  assert (Cc : cpc (s_engine 752) = 100485 / 100) by (unfold cpc, cp_of, s_engine; cbn [gc rc]; lra).
  assert (I2 : Tt2 s = 210). { destruct Cy as (c1 & _ & _ & c4 & _). rewrite c4, c1. unfold temp_ratio, s_engine. cbn [gc M0 T0]. lra. }
  rewrite Cc, X3 in *. rewrite I2 in VV.
  assert (KE : ((1 + far s) * v9 ^ 2 - V0 s ^ 2) / 2 = (1 - 200 / x) * (far s * 42800000)). { rewrite <- eth. field. lra. }
  rewrite B1, VV in KE. assert (Xi : 200 / x * x = 200) by (field; lra). set (z := 200 / x) in *.
  assert (Zp : 0 < z <= 5 / 6). { split; [unfold z; apply Rdiv_lt_0_compat; lra|]. apply Rmult_le_reg_r with x; lra. }
  assert (F4 : far s < 4 / 100) by nra.
  assert (Q : 848 <= (1 + far s) * 1600 - x) by nra.
  assert (H5 : 848 / 6 <= (1 - z) * ((1 + far s) * 1600 - x)) by nra.
  assert (V9p : 0 <= v9) by (destruct q4 as (_ & _ & _ & q); exact q).
  assert (V0 s ^ 2 < v9 ^ 2) by (rewrite VV; nra). apply Rnot_le_lt. intros N. nra.
Qed.
