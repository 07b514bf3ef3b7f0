(** * C98: the shock tube notebook *)
From Verif Require Import L_Num Spec NumSpec M_Isentropic M_MassFlow M_Model1D M_Unsteady1D M_Riemann M_ShockTube ShockTubeSpec L_Isentropic L_Shock L_Model1D L_Unsteady L_Riemann1 L_Riemann2 L_GuideVane.
Open Scope R_scope.

Lemma fK_sgn_le g q p : 1 < g -> positive_state q -> 0 < p -> (p <= f_p q -> fK g q p <= 0) /\ (f_p q <= p -> 0 <= fK g q p).
Proof.
  intros Hg Hq Hp. destruct (fK_sgn g q p Hg Hq Hp) as [A B]. pose proof (fK_zero g q Hg Hq) as Z.
  split; intros [H|H]; [specialize (A H); lra|subst p; lra|specialize (B H); lra|rewrite <- H; lra].
Qed.
Lemma no_vac2 gL gR qL qR : 1 < gL -> 1 < gR -> positive_state qL -> positive_state qR -> f_u qR <= f_u qL -> no_vacuum gL gR qL qR.
Proof.
  intros HgL HgR HL HR H. unfold no_vacuum. pose proof (sound_pos gL qL ltac:(lra) HL). pose proof (sound_pos gR qR ltac:(lra) HR).
  assert (0 < 2 * flow_sound gL qL / (gL - 1)) by pos. assert (0 < 2 * flow_sound gR qR / (gR - 1)) by pos. lra.
Qed.
Lemma mirror_pos q : positive_state q -> positive_state (mirror q). Proof. intros [A B]. split; assumption. Qed.
Lemma fK_mirror g q p : fK g (mirror q) p = fK g q p.
Proof. destruct q as [r u P]. apply fK_u. Qed.

(** ** the four problems *)
Definition qa (P pr T r1 : R) := mkflow (P * pr / (r1 * T)) 0 (P * pr).
Definition qb (P T r1 : R) := mkflow (P / (r1 * T)) 0 P.
Record facts (P pr T r1 r2 g1 g2 p1 p2 p3 p4 : R) : Prop := mk_facts {
  fp1 : P < p1 < P * pr; fp2 : P < p2; fp3 : p2 < p3; fp4 : p2 < p4;
  fd1 : duR g1 g1 (qa P pr T r1) (qb P T r1) p1 = 0;
  fd2 : duR g1 g2 (sq 1 g1 (qb P T r1) p1) (qb P T r2) p2 = 0;
  fd3 : duR g2 g2 (sq 1 g2 (qb P T r2) p2) (mirror (sq 1 g2 (qb P T r2) p2)) p3 = 0;
  fd4 : duR g1 g2 (sq (-1) g1 (sq 1 g1 (qb P T r1) p1) p2) (sq (-1) g2 (sq 1 g2 (qb P T r2) p2) p3) p4 = 0 }.

Section TUBE.
Context (P pr T r1 r2 g1 g2 : R) (HP : 0 < P) (Hpr : 1 < pr) (HT : 0 < T) (Hr1 : 0 < r1) (Hr2 : 0 < r2) (Hg1 : 1 < g1) (Hg2 : 1 < g2).
Notation Q20 := (qa P pr T r1). Notation Q10 := (qb P T r1). Notation Q00 := (qb P T r2).
Lemma PQ20 : positive_state Q20. Proof. split; cbn; pos. Qed.
Lemma PQ10 : positive_state Q10. Proof. split; cbn; pos. Qed.
Lemma PQ00 : positive_state Q00. Proof. split; cbn; pos. Qed.
Lemma step1 p1 : 0 < p1 -> duR g1 g1 Q20 Q10 p1 = 0 -> P < p1 < P * pr /\ 0 < fK g1 Q10 p1.
Proof.
  intros H E. unfold duR in E. cbn [f_u qa qb] in E. pose proof PQ20 as A. pose proof PQ10 as B.
  destruct (fK_sgn g1 Q20 p1 Hg1 A H) as [A1 A2]. destruct (fK_sgn g1 Q10 p1 Hg1 B H) as [B1 B2].
  destruct (fK_sgn_le g1 Q20 p1 Hg1 A H) as [A3 A4]. destruct (fK_sgn_le g1 Q10 p1 Hg1 B H) as [B3 B4]. cbn [f_p qa qb] in *.
  assert (P < P * pr) by nra.
  assert (P < p1) by (apply Rnot_le_lt; intros K; specialize (A1 ltac:(lra)); specialize (B3 K); lra).
  assert (p1 < P * pr) by (apply Rnot_le_lt; intros K; specialize (A4 ltac:(lra)); specialize (B2 ltac:(lra)); lra).
  split; [lra|]. apply B2. lra.
Qed.
Context (p1 : R) (Hp1 : P < p1) (U1 : 0 < fK g1 Q10 p1).
Notation Q11 := (sq 1 g1 Q10 p1).
Lemma PQ11 : positive_state Q11. Proof. apply sq_pos; [exact Hg1|apply PQ10|lra]. Qed.
Lemma step2 p2 : 0 < p2 -> duR g1 g2 Q11 Q00 p2 = 0 -> P < p2 /\ 0 < fK g2 Q00 p2.
Proof.
  intros H E. unfold duR in E. cbn [f_u qb sq] in E.
  destruct (fK_sgn g1 Q11 p2 Hg1 PQ11 H) as [A1 A2]. destruct (fK_sgn_le g2 Q00 p2 Hg2 PQ00 H) as [B3 B4]. destruct (fK_sgn g2 Q00 p2 Hg2 PQ00 H) as [B1 B2]. cbn [f_p qb sq] in *.
  assert (P < p2) by (apply Rnot_le_lt; intros K; specialize (A1 ltac:(lra)); specialize (B3 K); lra).
  split; [assumption|]. apply B2. lra.
Qed.
Context (p2 : R) (Hp2 : P < p2) (D2 : duR g1 g2 Q11 Q00 p2 = 0) (U2 : 0 < fK g2 Q00 p2).
Notation Q01 := (sq 1 g2 Q00 p2). Notation Q12 := (sq (-1) g1 Q11 p2).
Lemma PQ01 : positive_state Q01. Proof. apply sq_pos; [exact Hg2|apply PQ00|lra]. Qed.
Lemma PQ12 : positive_state Q12. Proof. apply sq_pos; [exact Hg1|apply PQ11|lra]. Qed.
Lemma u01 : f_u Q01 = fK g2 Q00 p2. Proof. cbn [f_u sq qb]. ring. Qed.
Lemma u12 : f_u Q12 = f_u Q01.
Proof. rewrite u01. change (f_u Q12) with (f_u Q11 + -1 * fK g1 Q11 p2). unfold duR in D2. change (f_u Q00) with 0 in D2. lra. Qed.
Lemma step3 p3 : 0 < p3 -> duR g2 g2 Q01 (mirror Q01) p3 = 0 -> p2 < p3 /\ f_u (sq (-1) g2 Q01 p3) = 0.
Proof.
  intros H E. unfold duR in E. rewrite fK_mirror in E. change (f_u (mirror Q01)) with (- f_u Q01) in E. pose proof u01 as U.
  destruct (fK_sgn_le g2 Q01 p3 Hg2 PQ01 H) as [A3 A4]. change (f_p Q01) with p2 in *.
  split.
  - apply Rnot_le_lt. intros K. specialize (A3 K). lra.
  - change (f_u (sq (-1) g2 Q01 p3)) with (f_u Q01 + -1 * fK g2 Q01 p3). lra.
Qed.
Context (p3 : R) (Hp3 : p2 < p3) (U3 : f_u (sq (-1) g2 Q01 p3) = 0).
Notation Q02 := (sq (-1) g2 Q01 p3).
Lemma PQ02 : positive_state Q02. Proof. apply sq_pos; [exact Hg2|apply PQ01|lra]. Qed.
Lemma step4 p4 : 0 < p4 -> duR g1 g2 Q12 Q02 p4 = 0 -> p2 < p4.
Proof.
  intros H E. unfold duR in E. rewrite U3, u12, u01 in E.
  destruct (fK_sgn_le g1 Q12 p4 Hg1 PQ12 H) as [A3 A4]. destruct (fK_sgn g2 Q02 p4 Hg2 PQ02 H) as [B1 B2]. change (f_p Q12) with p2 in *. change (f_p Q02) with p3 in *.
  apply Rnot_le_lt. intros K. specialize (A3 K). specialize (B1 ltac:(lra)). lra.
Qed.
End TUBE.

Definition the_tube P pr T r1 r2 g1 g2 p1 p2 p3 p4 : shocktube :=
  let q20 := qa P pr T r1 in let q10 := qb P T r1 in let q00 := qb P T r2 in
  let q11 := sq 1 g1 q10 p1 in let q01 := sq 1 g2 q00 p2 in let q12 := sq (-1) g1 q11 p2 in let q02 := sq (-1) g2 q01 p3 in
  let sol gL gR qL qR p := mk_riemann (obj gL qL) (obj gR qR) (Some p) (Some (f_u qL - fK gL qL p))
      (obj gL (sq (-1) gL qL p)) (obj gR (sq 1 gR qR p))
      (Some (wout (-1) gL qL p)) (Some (win (-1) gL qL p)) (Some (f_u qL - fK gL qL p))
      (Some (win 1 gR qR p)) (Some (wout 1 gR qR p)) in
  mk_tube (obj g1 q20) (obj g1 q10) (sol g1 g1 q20 q10 p1) (obj g2 q00) (sol g1 g2 q11 q00 p2) (sol g2 g2 q01 (mirror q01) p3) (sol g1 g2 q12 q02 p4).
Lemma init_a P pr T r g : 0 < P -> 0 < r -> 0 < T ->
  state_init (ndiv (nmul (Some P) (Some pr)) (nmul (Some r) (Some T))) (Some 0) (nmul (Some P) (Some pr)) (Some (Some g)) = obj g (qa P pr T r).
Proof. intros. unfold state_init, obj, qa. ncbn. rewrite ndiv_Some by (apply Rgt_not_eq; pos). reflexivity. Qed.
Lemma init_b P T r g : 0 < P -> 0 < r -> 0 < T ->
  state_init (ndiv (Some P) (nmul (Some r) (Some T))) (Some 0) (Some P) (Some (Some g)) = obj g (qb P T r).
Proof. intros. unfold state_init, obj, qb. ncbn. rewrite ndiv_Some by (apply Rgt_not_eq; pos). reflexivity. Qed.
Lemma cells_eval newton P pr T r1 r2 g1 g2 S : solves 0 newton -> 0 < P -> 1 < pr -> 0 < T -> 0 < r1 -> 0 < r2 -> 1 < g1 -> 1 < g2 ->
  shocktube_cells newton (Some P) (Some pr) (Some T) (Some r1) (Some r2) (Some g1) (Some g2) = Some S ->
  exists p1 p2 p3 p4, facts P pr T r1 r2 g1 g2 p1 p2 p3 p4 /\ S = the_tube P pr T r1 r2 g1 g2 p1 p2 p3 p4.
Proof.
  intros Hn HP Hpr HT Hr1 Hr2 Hg1 Hg2 E. unfold shocktube_cells in E.
  rewrite init_a, !init_b in E by assumption.
  pose proof (PQ20 P pr T r1 HP Hpr HT Hr1) as A20. pose proof (PQ10 P T r1 HP HT Hr1) as A10. pose proof (PQ00 P T r2 HP HT Hr2) as A00.
  destruct (riemann_pb newton (obj g1 (qa P pr T r1)) (obj g1 (qb P T r1))) as [S1|] eqn:E1; [|discriminate].
  destruct (riemann_eval newton g1 g1 _ _ S1 Hn Hg1 Hg1 A20 A10 (no_vac2 g1 g1 _ _ Hg1 Hg1 A20 A10 (Rle_refl 0)) E1) as (p1 & K1 & D1 & F1).
  destruct (step1 P pr T r1 g1 HP Hpr HT Hr1 Hg1 p1 K1 D1) as [L1 U1].
  pose proof (PQ11 P T r1 g1 HP HT Hr1 Hg1 p1 ltac:(lra)) as A11.
  replace (r_qsR S1) with (obj g1 (sq 1 g1 (qb P T r1) p1)) in E by (now rewrite F1).
  destruct (riemann_pb newton (obj g1 (sq 1 g1 (qb P T r1) p1)) (obj g2 (qb P T r2))) as [S2|] eqn:E2; [|discriminate].
  assert (V2 : f_u (qb P T r2) <= f_u (sq 1 g1 (qb P T r1) p1)) by (cbn [f_u sq qb]; lra).
  destruct (riemann_eval newton g1 g2 _ _ S2 Hn Hg1 Hg2 A11 A00 (no_vac2 g1 g2 _ _ Hg1 Hg2 A11 A00 V2) E2) as (p2 & K2 & D2 & F2).
  destruct (step2 P T r1 r2 g1 g2 HP HT Hr1 Hr2 Hg1 Hg2 p1 ltac:(lra) U1 p2 K2 D2) as [L2 U2].
  pose proof (PQ01 P T r2 g2 HP HT Hr2 Hg2 p2 ltac:(lra)) as A01. pose proof (PQ12 P T r1 g1 HP HT Hr1 Hg1 p1 ltac:(lra) p2 ltac:(lra)) as A12.
  replace (r_qsR S2) with (obj g2 (sq 1 g2 (qb P T r2) p2)) in E by (now rewrite F2).
  replace (r_qsL S2) with (obj g1 (sq (-1) g1 (sq 1 g1 (qb P T r1) p1) p2)) in E by (now rewrite F2).
  rewrite copysym_obj in E.
  pose proof (u01 P T r2 g2 p2) as W1.
  destruct (riemann_pb newton (obj g2 (sq 1 g2 (qb P T r2) p2)) _) as [S3|] eqn:E3; [|discriminate].
  assert (V3 : f_u (mirror (sq 1 g2 (qb P T r2) p2)) <= f_u (sq 1 g2 (qb P T r2) p2)) by (change (f_u (mirror ?q)) with (- f_u q); lra).
  destruct (riemann_eval newton g2 g2 _ _ S3 Hn Hg2 Hg2 A01 (mirror_pos _ A01) (no_vac2 g2 g2 _ _ Hg2 Hg2 A01 (mirror_pos _ A01) V3) E3) as (p3 & K3 & D3 & F3).
  destruct (step3 P T r2 g2 HP HT Hr2 Hg2 p2 L2 U2 p3 K3 D3) as [L3 U3].
  pose proof (PQ02 P T r2 g2 HP HT Hr2 Hg2 p2 L2 p3 L3) as A02.
  replace (r_qsL S3) with (obj g2 (sq (-1) g2 (sq 1 g2 (qb P T r2) p2) p3)) in E by (now rewrite F3).
  destruct (riemann_pb newton (obj g1 (sq (-1) g1 _ p2)) _) as [S4|] eqn:E4; [|discriminate].
  pose proof (u12 P T r1 r2 g1 g2 p1 p2 D2) as W2.
  assert (V4 : f_u (sq (-1) g2 (sq 1 g2 (qb P T r2) p2) p3) <= f_u (sq (-1) g1 (sq 1 g1 (qb P T r1) p1) p2)) by (rewrite U3, W2, W1; lra).
  destruct (riemann_eval newton g1 g2 _ _ S4 Hn Hg1 Hg2 A12 A02 (no_vac2 g1 g2 _ _ Hg1 Hg2 A12 A02 V4) E4) as (p4 & K4 & D4 & F4).
  pose proof (step4 P T r1 r2 g1 g2 HP HT Hr1 Hr2 Hg1 Hg2 p1 ltac:(lra) p2 L2 D2 U2 p3 L3 U3 p4 K4 D4) as L4.
  exists p1, p2, p3, p4. split; [split; assumption|]. apply Some_inj in E. rewrite <- E, F1, F2, F3, F4. reflexivity.
Qed.

Lemma shock_RH s g q p : 1 < g -> positive_state q -> f_p q < p -> s = 1 \/ s = -1 -> rankine_hugoniot g (wout s g q p) q (sq s g q p).
Proof.
  intros Hg Hq Hp Hs. assert (H0 : 0 < p) by (destruct Hq; lra).
  destruct (joined s g q p Hg Hq H0 Hs) as [(_ & _ & R)|(L & _)]; [exact R|]. cbn [f_p sq] in L. lra.
Qed.
(*@P C98_states: For every initial pressure, driver ratio > 1, temperature, gas constants and gammas, and an exact root finder: when the cells run, the driver gas expands isentropically, the incident wave in the driven gas, the wave transmitted through the interface to the second gas, the wave reflected by the wall and the wave sent back into the first gas at the second passage are all Rankine-Hugoniot shocks (at the speeds used by the diagram), each raising the pressure; pressure and velocity are equal on both sides of every contact, the incident gas and the interface move to the right, the gas at the wall is at rest, the reflected shock moves to the left, and each shock overtakes the gas behind it. *)
Lemma tube_states : forall newton P pr T r1 r2 g1 g2 S, solves 0 newton -> 0 < P -> 1 < pr -> 0 < T -> 0 < r1 -> 0 < r2 -> 1 < g1 -> 1 < g2 ->
  shocktube_cells newton (Some P) (Some pr) (Some T) (Some r1) (Some r2) (Some g1) (Some g2) = Some S ->
  exists q21 q11 q12 q01 q02 q13 q03 w1 w2 w3 w4,
    let q20 := mkflow (P * pr / (r1 * T)) 0 (P * pr) in
    let q10 := mkflow (P / (r1 * T)) 0 P in
    let q00 := mkflow (P / (r2 * T)) 0 P in
    t_q20 S = obj g1 q20 /\ t_q10 S = obj g1 q10 /\ t_q00 S = obj g2 q00 /\
    t_q21 S = obj g1 q21 /\ t_q11 S = obj g1 q11 /\ t_q12 S = obj g1 q12 /\ t_q01 S = obj g2 q01 /\ t_q02 S = obj g2 q02 /\
    t_q13 S = obj g1 q13 /\ t_q03 S = obj g2 q03 /\
    (positive_state q21 /\ positive_state q11 /\ positive_state q12 /\ positive_state q01 /\ positive_state q02 /\ positive_state q13 /\ positive_state q03) /\
    right_fastest (t_pb1 S) = Some w1 /\ right_fastest (t_pb2 S) = Some w2 /\ left_fastest (t_pbw S) = Some w3 /\ left_fastest (t_pb3 S) = Some w4 /\
    (rankine_hugoniot g1 w1 q10 q11 /\ P < f_p q11 < P * pr /\ 0 < f_u q11 < w1) /\
    (entropy_fn g1 q21 = entropy_fn g1 q20 /\ riemann_invariant (-1) g1 q21 = riemann_invariant (-1) g1 q20 /\ f_p q21 = f_p q11 /\ f_u q21 = f_u q11) /\
    (rankine_hugoniot g2 w2 q00 q01 /\ P < f_p q01 /\ 0 < f_u q01 < w2 /\ f_p q12 = f_p q01 /\ f_u q12 = f_u q01) /\
    (rankine_hugoniot g2 w3 q01 q02 /\ f_p q01 < f_p q02 /\ f_u q02 = 0 /\ w3 < 0) /\
    (rankine_hugoniot g1 w4 q12 q13 /\ f_p q12 < f_p q13 /\ w4 < f_u q13 /\ f_p q03 = f_p q13 /\ f_u q03 = f_u q13).
Proof.
  intros newton P pr T r1 r2 g1 g2 S Hn HP Hpr HT Hr1 Hr2 Hg1 Hg2 E.
  destruct (cells_eval newton P pr T r1 r2 g1 g2 S Hn HP Hpr HT Hr1 Hr2 Hg1 Hg2 E) as (p1 & p2 & p3 & p4 & [L1 L2 L3 L4 D1 D2 D3 D4] & ES).
  pose proof (PQ20 P pr T r1 HP Hpr HT Hr1) as A20. pose proof (PQ10 P T r1 HP HT Hr1) as A10. pose proof (PQ00 P T r2 HP HT Hr2) as A00.
  destruct (step1 P pr T r1 g1 HP Hpr HT Hr1 Hg1 p1 ltac:(lra) D1) as [_ U1].
  pose proof (PQ11 P T r1 g1 HP HT Hr1 Hg1 p1 ltac:(lra)) as A11.
  destruct (step2 P T r1 r2 g1 g2 HP HT Hr1 Hr2 Hg1 Hg2 p1 ltac:(lra) U1 p2 ltac:(lra) D2) as [_ U2].
  pose proof (PQ01 P T r2 g2 HP HT Hr2 Hg2 p2 ltac:(lra)) as A01. pose proof (PQ12 P T r1 g1 HP HT Hr1 Hg1 p1 ltac:(lra) p2 ltac:(lra)) as A12.
  pose proof (u01 P T r2 g2 p2) as W1. pose proof (u12 P T r1 r2 g1 g2 p1 p2 D2) as W2.
  destruct (step3 P T r2 g2 HP HT Hr2 Hg2 p2 L2 U2 p3 ltac:(lra) D3) as [_ U3].
  pose proof (PQ02 P T r2 g2 HP HT Hr2 Hg2 p2 L2 p3 L3) as A02.
  set (q20 := qa P pr T r1) in *. set (q10 := qb P T r1) in *. set (q00 := qb P T r2) in *.
  set (q11 := sq 1 g1 q10 p1) in *. set (q01 := sq 1 g2 q00 p2) in *. set (q12 := sq (-1) g1 q11 p2) in *. set (q02 := sq (-1) g2 q01 p3) in *.
  destruct (lax 1 g1 q10 p1 Hg1 A10 ltac:(cbn; lra) (or_introl eq_refl)) as (X1 & X2 & X3). fold q11 in X2, X3.
  destruct (lax 1 g2 q00 p2 Hg2 A00 ltac:(cbn; lra) (or_introl eq_refl)) as (Y1 & Y2 & Y3). fold q01 in Y2, Y3.
  destruct (lax (-1) g2 q01 p3 Hg2 A01 ltac:(cbn; lra) (or_intror eq_refl)) as (Z1 & Z2 & Z3). fold q02 in Z2, Z3.
  destruct (lax (-1) g1 q12 p4 Hg1 A12 ltac:(cbn; lra) (or_intror eq_refl)) as (V1 & V2 & V3).
  assert (J : f_u (sq 1 g2 q02 p4) = f_u (sq (-1) g1 q12 p4)) by (unfold duR in D4; cbn [f_u sq]; lra).
  assert (J1 : f_u (sq (-1) g1 q20 p1) = f_u q11) by (unfold duR in D1; unfold q11; cbn [f_u sq]; lra).
  assert (J2 : f_u q11 = fK g1 q10 p1) by (unfold q11, q10; cbn [f_u sq qb]; ring).
  exists (sq (-1) g1 q20 p1), q11, q12, q01, q02, (sq (-1) g1 q12 p4), (sq 1 g2 q02 p4), (wout 1 g1 q10 p1), (wout 1 g2 q00 p2), (wout (-1) g2 q01 p3), (wout (-1) g1 q12 p4).
  cbv zeta. change (mkflow (P * pr / (r1 * T)) 0 (P * pr)) with q20. change (mkflow (P / (r1 * T)) 0 P) with q10. change (mkflow (P / (r2 * T)) 0 P) with q00.
  rewrite ES. do 10 (split; [reflexivity|]).
  split. { split; [apply sq_pos; [exact Hg1|exact A20|lra]|]. do 4 (split; [assumption|]). split; apply sq_pos; try assumption; lra. }
  do 4 (split; [reflexivity|]).
  split. { split; [apply shock_RH; [exact Hg1|exact A10|cbn; lra|now left]|]. split; [exact L1|]. change (f_u q10) with 0 in X1. lra. }
  split. { destruct (joined (-1) g1 q20 p1 Hg1 A20 ltac:(lra) (or_intror eq_refl)) as [(B & _)|(_ & B1 & B2 & _)]; [cbn in B; lra|]. split; [exact B1|]. split; [exact B2|]. split; [reflexivity|exact J1]. }
  split. { split; [apply shock_RH; [exact Hg2|exact A00|cbn; lra|now left]|]. split; [exact L2|]. split; [lra|]. split; [reflexivity|exact W2]. }
  split. { split; [apply shock_RH; [exact Hg2|exact A01|cbn; lra|now right]|]. split; [exact L3|]. split; [exact U3|]. lra. }
  split; [apply shock_RH; [exact Hg1|exact A12|cbn; lra|now right]|]. split; [exact L4|]. split; [lra|]. split; [reflexivity|exact J].
Qed.

(** ** the diagram *)
Lemma intersect_eval x1 t1 u1 x2 t2 u2 : u2 < u1 ->
  let ti := (x2 - x1 + t1 * u1 - t2 * u2) / (u1 - u2) in
  xt_intersect (Some x1) (Some t1) (Some u1) (Some x2) (Some t2) (Some u2) = (Some (x1 + u1 * (ti - t1)), Some ti).
Proof.
  intros H ti. unfold xt_intersect. ncbn. rewrite ndiv_Some by lra. ncbn.
  replace ((- x2 + x1 + t2 * u2 - t1 * u1) / (u2 - u1)) with ti by (unfold ti; field; lra). reflexivity.
Qed.
(*@P C98_intersect: Two fronts at different speeds: xt_intersect returns the only point of the (x,t) plane lying on both lines. *)
Lemma intersect_point : forall x1 t1 u1 x2 t2 u2, u1 <> u2 ->
  exists x t, xt_intersect (Some x1) (Some t1) (Some u1) (Some x2) (Some t2) (Some u2) = (Some x, Some t) /\
    x = x1 + u1 * (t - t1) /\ x = x2 + u2 * (t - t2) /\
    forall x' t', x' = x1 + u1 * (t' - t1) -> x' = x2 + u2 * (t' - t2) -> x' = x /\ t' = t.
Proof.
  intros x1 t1 u1 x2 t2 u2 H. unfold xt_intersect. ncbn. rewrite ndiv_Some by lra. ncbn.
  set (ti := (- x2 + x1 + t2 * u2 - t1 * u1) / (u2 - u1)). exists (x1 + u1 * (ti - t1)), ti.
  split; [reflexivity|]. split; [reflexivity|].
  assert (E : ti * (u2 - u1) = - x2 + x1 + t2 * u2 - t1 * u1) by (unfold ti; field; lra).
  split; [nra|]. intros x' t' A B.
  assert (t' = ti). { apply (Rmult_eq_reg_r (u2 - u1)); [|lra]. nra. }
  subst t'. split; [exact A|reflexivity].
Qed.
(*@P C98_diagram: For an interface at 0 < x_int < x_Rwall: the drawn shock is a broken line through the origin, the interface, the wall and the second encounter with the interface, whose times increase and whose four segments have exactly the speeds of the incident, transmitted, reflected and returning shocks; the drawn interface stays at x_int until the shock arrives, then moves with the gas on both sides to the same second encounter, then with the gas behind the returning shock; the encounter is strictly between the interface and the wall. *)
Lemma tube_diagram : forall newton P pr T r1 r2 g1 g2 S xi xR, solves 0 newton -> 0 < P -> 1 < pr -> 0 < T -> 0 < r1 -> 0 < r2 -> 1 < g1 -> 1 < g2 ->
  shocktube_cells newton (Some P) (Some pr) (Some T) (Some r1) (Some r2) (Some g1) (Some g2) = Some S -> 0 < xi < xR ->
  exists w1 w2 w3 w4 u12 u13 t1 t2 x3 t3 x4 y4 t4,
    right_fastest (t_pb1 S) = Some w1 /\ right_fastest (t_pb2 S) = Some w2 /\ left_fastest (t_pbw S) = Some w3 /\ left_fastest (t_pb3 S) = Some w4 /\
    st_u (t_q12 S) = Some u12 /\ st_u (t_q13 S) = Some u13 /\ st_u (t_q01 S) = Some u12 /\ st_u (t_q03 S) = Some u13 /\
    drawn_shocks S (Some xi) (Some xR) = (Some 0, Some 0) :: (Some xi, Some t1) :: (Some xR, Some t2) :: (Some x3, Some t3) :: (Some x4, Some t4) :: nil /\
    travels w1 (0, 0) (xi, t1) /\ travels w2 (xi, t1) (xR, t2) /\ travels w3 (xR, t2) (x3, t3) /\ travels w4 (x3, t3) (x4, t4) /\
    drawn_interface S (Some xi) (Some xR) = (Some xi, Some 0) :: (Some xi, Some t1) :: (Some x3, Some t3) :: (Some y4, Some t4) :: nil /\
    travels 0 (xi, 0) (xi, t1) /\ travels u12 (xi, t1) (x3, t3) /\ travels u13 (x3, t3) (y4, t4) /\ xi < x3 < xR.
Proof.
  intros newton P pr T r1 r2 g1 g2 S xi xR Hn HP Hpr HT Hr1 Hr2 Hg1 Hg2 E Hx.
  destruct (tube_states newton P pr T r1 r2 g1 g2 S Hn HP Hpr HT Hr1 Hr2 Hg1 Hg2 E) as (q21 & q11 & q12 & q01 & q02 & q13 & q03 & w1 & w2 & w3 & w4 & K). cbv zeta in K.
  destruct K as (_ & _ & _ & _ & _ & E12 & E01 & _ & E13 & E03 & _ & F1 & F2 & F3 & F4 & (_ & _ & W1) & _ & (_ & _ & W2 & _ & V12) & (_ & _ & _ & W3) & (_ & _ & W4 & _ & V13)).
  set (t1 := xi / w1). set (t2 := (xR - xi) / w2 + t1). set (u := f_u q01) in *.
  assert (H1 : 0 < t1) by (unfold t1; pos). assert (H2 : t1 < t2) by (unfold t2; assert (0 < (xR - xi) / w2) by pos; lra).
  set (t3 := (xR - xi + t1 * u - t2 * w3) / (u - w3)).
  set (x3 := xi + u * (t3 - t1)). set (t4 := 12/10 * t3).
  assert (R2 : xR - xi = w2 * (t2 - t1)) by (unfold t2; field; lra).
  assert (R3 : t3 * (u - w3) = xR - xi + t1 * u - t2 * w3) by (unfold t3; field; lra).
  assert (H3 : t2 < t3).
  { apply (Rmult_lt_reg_r (u - w3)); [lra|]. rewrite R3, R2. nra. }
  assert (X3 : x3 - xR = w3 * (t3 - t2)) by (unfold x3; lra).
  assert (H4 : t3 < t4) by (unfold t4; lra).
  assert (Ere : reshock S (Some xi) (Some xR) = (Some x3, Some t3) /\ t_shock_int S (Some xi) = Some t1 /\ t_shock_wall S (Some xi) (Some xR) = Some t2 /\ t_max S (Some xi) (Some xR) = Some t4).
  { assert (Et1 : t_shock_int S (Some xi) = Some t1) by (unfold t_shock_int; rewrite F1, ndiv_Some by lra; reflexivity).
    assert (Et2 : t_shock_wall S (Some xi) (Some xR) = Some t2) by (unfold t_shock_wall; rewrite F2, Et1; ncbn; rewrite ndiv_Some by lra; reflexivity).
    assert (Er : reshock S (Some xi) (Some xR) = (Some x3, Some t3)).
    { unfold reshock. rewrite Et1, Et2, F3, E12. cbn [obj st_u]. rewrite V12. rewrite intersect_eval by lra. reflexivity. }
    split; [exact Er|]. split; [exact Et1|]. split; [exact Et2|]. unfold t_max. rewrite Er. reflexivity. }
  destruct Ere as (Er & Et1 & Et2 & Et4).
  exists w1, w2, w3, w4, u, (f_u q13), t1, t2, x3, t3, (x3 + w4 * (t4 - t3)), (x3 + f_u q13 * (t4 - t3)), t4.
  do 4 (split; [assumption|]). rewrite E12, E13, E01, E03. cbn [obj st_u]. rewrite V12, V13. do 4 (split; [reflexivity|]).
  split. { unfold drawn_shocks. rewrite Er, Et1, Et2, Et4, F4. reflexivity. }
  unfold travels. cbn [fst snd].
  split; [split; [lra|unfold t1; field; lra]|]. split; [split; [lra|exact R2]|]. split; [split; [lra|exact X3]|]. split; [split; [lra|ring]|].
  split. { unfold drawn_interface. rewrite Er, Et1, Et4, E13. reflexivity. }
  split; [split; [lra|ring]|]. split; [split; [lra|unfold x3; ring]|]. split; [split; [lra|ring]|].
  split; [unfold x3; nra|]. nra.
Qed.
Lemma left_acoustic_eval g q : 0 < g -> positive_state q -> left_acoustic (obj g q) = Some (f_u q - flow_sound g q).
Proof.
  intros Hg Hq. pose proof (asound_eval g q Hg Hq) as E. unfold left_acoustic. unfold asound in E. rewrite E. reflexivity.
Qed.
(*@P C98_expansion: For a left wall at x_Lwall < 0: the head of the expansion is drawn to the wall at a positive time, at the speed of sound of the driver gas; the tail is drawn at the acoustic speed u - a of the expanded gas, at a positive time exactly when the expanded gas is subsonic (otherwise the tail never meets the wall, and the drawn time is negative or undefined). *)
Lemma tube_expansion : forall newton P pr T r1 r2 g1 g2 S xL, solves 0 newton -> 0 < P -> 1 < pr -> 0 < T -> 0 < r1 -> 0 < r2 -> 1 < g1 -> 1 < g2 ->
  shocktube_cells newton (Some P) (Some pr) (Some T) (Some r1) (Some r2) (Some g1) (Some g2) = Some S -> xL < 0 ->
  exists a th u21 a21, asound (t_q20 S) = Some a /\ 0 < a /\ st_u (t_q21 S) = Some u21 /\ asound (t_q21 S) = Some a21 /\ 0 < u21 /\
    drawn_head S (Some xL) = (Some 0, Some 0) :: (Some xL, Some th) :: nil /\ travels (- a) (0, 0) (xL, th) /\
    (u21 < a21 -> exists tt, drawn_tail S (Some xL) = (Some 0, Some 0) :: (Some xL, Some tt) :: nil /\ travels (u21 - a21) (0, 0) (xL, tt) /\ th < tt) /\
    (a21 < u21 -> exists tt, drawn_tail S (Some xL) = (Some 0, Some 0) :: (Some xL, Some tt) :: nil /\ tt < 0).
Proof.
  intros newton P pr T r1 r2 g1 g2 S xL Hn HP Hpr HT Hr1 Hr2 Hg1 Hg2 E Hx.
  destruct (tube_states newton P pr T r1 r2 g1 g2 S Hn HP Hpr HT Hr1 Hr2 Hg1 Hg2 E) as (q21 & q11 & q12 & q01 & q02 & q13 & q03 & w1 & w2 & w3 & w4 & K). cbv zeta in K.
  destruct K as (E20 & _ & _ & E21 & _ & _ & _ & _ & _ & _ & (P21 & _) & _ & _ & _ & _ & (_ & Hp & W1) & (Hs & Hi & Vp & Vu) & _).
  set (q20 := mkflow (P * pr / (r1 * T)) 0 (P * pr)) in *. assert (P20 : positive_state q20) by (split; cbn; pos).
  pose proof (sound_pos g1 q20 ltac:(lra) P20) as Ha. pose proof (sound_pos g1 q21 ltac:(lra) P21) as Ha1.
  set (a := flow_sound g1 q20) in *. set (a1 := flow_sound g1 q21) in *.
  exists a, (xL / - a), (f_u q21), a1. rewrite E20, E21, !asound_eval by (lra || assumption).
  split; [reflexivity|]. split; [exact Ha|]. split; [reflexivity|]. split; [reflexivity|]. split; [lra|].
  assert (Th : 0 < xL / - a) by (replace (xL / - a) with (- xL / a) by (field; lra); pos).
  unfold riemann_invariant in Hi. fold a a1 in Hi. change (f_u q20) with 0 in Hi.
  assert (Ku : (g1 - 1) * f_u q21 = 2 * (a - a1)).
  { assert (Ku1 : f_u q21 + 2 / (g1 - 1) * a1 = 2 / (g1 - 1) * a) by lra.
    replace (2 * (a - a1)) with ((g1 - 1) * (2 / (g1 - 1) * a - 2 / (g1 - 1) * a1)) by (field; lra). rewrite <- Ku1. ring. }
  assert (Ga : a1 < a) by nra.
  split. { unfold drawn_head. rewrite E20, left_acoustic_eval by (lra || assumption). change (f_u q20) with 0. fold a. replace (0 - a) with (- a) by ring. rewrite ndiv_Some by lra. reflexivity. }
  split. { split; cbn [fst snd]; [exact Th|field; lra]. }
  unfold drawn_tail. rewrite E21, left_acoustic_eval by (lra || assumption). fold a1. split; intros H; (rewrite ndiv_Some by lra); eexists; (split; [reflexivity|]).
  - assert (Hu : 0 < f_u q21) by lra. split.
    + split; cbn [fst snd]; [|field; lra]. replace (xL / (f_u q21 - a1)) with (- xL / (a1 - f_u q21)) by (field; lra). assert (0 < a1 - f_u q21) by lra. pos.
    + replace (xL / (f_u q21 - a1)) with (- xL * / (a1 - f_u q21)) by (field; lra). replace (xL / - a) with (- xL * / a) by (field; lra).
      apply Rmult_lt_compat_l; [lra|]. apply Rinv_lt_contravar; [apply Rmult_lt_0_compat|]; lra.
  - replace (xL / (f_u q21 - a1)) with (- (- xL / (f_u q21 - a1))) by (field; lra). assert (0 < f_u q21 - a1) by lra. assert (0 < - xL / (f_u q21 - a1)) by pos. lra.
Qed.
(*@P C98_incident_mach_partial: The printed Mach number of the incident shock is the Mach number of the shock relative to the gas ahead, and is higher than 1. Missing: the same for the reflected shock (C98_reflected_mach_refuted). *)
Lemma tube_mach : forall newton P pr T r1 r2 g1 g2 S, solves 0 newton -> 0 < P -> 1 < pr -> 0 < T -> 0 < r1 -> 0 < r2 -> 1 < g1 -> 1 < g2 ->
  shocktube_cells newton (Some P) (Some pr) (Some T) (Some r1) (Some r2) (Some g1) (Some g2) = Some S ->
  exists u w a m, st_u (t_q10 S) = Some u /\ right_fastest (t_pb1 S) = Some w /\ asound (t_q10 S) = Some a /\
    printed_mach1 S = Some m /\ m = (w - u) / a /\ 1 < m.
Proof.
  intros newton P pr T r1 r2 g1 g2 S Hn HP Hpr HT Hr1 Hr2 Hg1 Hg2 E.
  destruct (cells_eval newton P pr T r1 r2 g1 g2 S Hn HP Hpr HT Hr1 Hr2 Hg1 Hg2 E) as (p1 & p2 & p3 & p4 & [L1 L2 L3 L4 D1 D2 D3 D4] & ->).
  pose proof (PQ10 P T r1 HP HT Hr1) as A10. pose proof (sound_pos g1 _ ltac:(lra) A10) as Ha.
  destruct (lax 1 g1 (qb P T r1) p1 Hg1 A10 ltac:(cbn; lra) (or_introl eq_refl)) as (X1 & _). change (f_u (qb P T r1)) with 0 in X1.
  unfold printed_mach1, right_fastest, the_tube. cbv zeta. cbn [t_q10 t_pb1 r_w4]. rewrite asound_eval by (lra || assumption).
  set (w := wout 1 g1 (qb P T r1) p1) in *. set (a := flow_sound g1 (qb P T r1)) in *.
  exists 0, w, a, (w / a). split; [reflexivity|]. split; [reflexivity|]. split; [reflexivity|]. rewrite ndiv_Some by lra.
  split; [reflexivity|]. split; [field; lra|]. apply (Rmult_lt_reg_r a); [exact Ha|]. replace (w / a * a) with w by (field; lra). lra.
Qed.
(*@P C98_reflected_mach_refuted: The number printed as the Mach number of the shock reflected by the wall is not one: it is negative for every choice of gases and pressures, while the Mach number of that shock relative to the gas ahead (moving towards the wall) is higher than 1. *)
Lemma tube_mach_refuted : forall newton P pr T r1 r2 g1 g2 S, solves 0 newton -> 0 < P -> 1 < pr -> 0 < T -> 0 < r1 -> 0 < r2 -> 1 < g1 -> 1 < g2 ->
  shocktube_cells newton (Some P) (Some pr) (Some T) (Some r1) (Some r2) (Some g1) (Some g2) = Some S ->
  exists u w a m, st_u (t_q01 S) = Some u /\ left_fastest (t_pbw S) = Some w /\ asound (t_q01 S) = Some a /\
    printed_machw S = Some m /\ m < 0 /\ 0 < u /\ 1 < (u - w) / a.
Proof.
  intros newton P pr T r1 r2 g1 g2 S Hn HP Hpr HT Hr1 Hr2 Hg1 Hg2 E.
  destruct (tube_states newton P pr T r1 r2 g1 g2 S Hn HP Hpr HT Hr1 Hr2 Hg1 Hg2 E) as (q21 & q11 & q12 & q01 & q02 & q13 & q03 & w1 & w2 & w3 & w4 & K). cbv zeta in K.
  destruct K as (_ & _ & _ & _ & _ & _ & E01 & _ & _ & _ & (_ & _ & _ & P01 & _) & _ & _ & F3 & _ & _ & _ & (_ & _ & W2 & _) & (_ & _ & _ & W3) & _).
  pose proof (sound_pos g2 q01 ltac:(lra) P01) as Ha.
  destruct (cells_eval newton P pr T r1 r2 g1 g2 S Hn HP Hpr HT Hr1 Hr2 Hg1 Hg2 E) as (p1 & p2 & p3 & p4 & [L1 L2 L3 L4 D1 D2 D3 D4] & ES).
  assert (Eq : q01 = sq 1 g2 (qb P T r2) p2).
  { rewrite ES in E01. unfold t_q01, the_tube in E01. cbv zeta in E01. cbn [t_pb2 r_qsR] in E01. unfold obj in E01.
    pose proof (f_equal st_rho E01) as X1. pose proof (f_equal st_u E01) as X2. pose proof (f_equal st_p E01) as X3. cbn [st_rho st_u st_p] in X1, X2, X3.
    apply Some_inj in X1. apply Some_inj in X2. apply Some_inj in X3. destruct q01 as [a b c]. cbn [f_rho f_u f_p] in X1, X2, X3. rewrite <- X1, <- X2, <- X3. reflexivity. }
  assert (Ew : w3 = wout (-1) g2 q01 p3).
  { rewrite ES in F3. unfold left_fastest, the_tube in F3. cbv zeta in F3. cbn [t_pbw r_w0] in F3. apply Some_inj in F3. rewrite Eq. symmetry. exact F3. }
  destruct (lax (-1) g2 q01 p3 Hg2 P01 ltac:(rewrite Eq; cbn; lra) (or_intror eq_refl)) as (Z1 & _). rewrite <- Ew in Z1.
  exists (f_u q01), w3, (flow_sound g2 q01), (w3 / flow_sound g2 q01). unfold printed_machw. rewrite E01, F3, asound_eval by (lra || assumption).
  split; [reflexivity|]. split; [reflexivity|]. split; [reflexivity|]. rewrite ndiv_Some by lra. split; [reflexivity|].
  set (a := flow_sound g2 q01) in *. split; [|split; [lra|]].
  - replace (w3 / a) with (- (- w3 / a)) by (field; lra). assert (0 < - w3) by lra. assert (0 < - w3 / a) by pos. lra.
  - apply (Rmult_lt_reg_r a); [exact Ha|]. replace ((f_u q01 - w3) / a * a) with (f_u q01 - w3) by (field; lra). lra.
Qed.

(** ** an exact root finder for which all the cells run *)
Fixpoint pick (l : list R) (f : num -> num) (x0 : num) : num :=
  match l with nil => None | p :: l' => match f (Some p) with Some e => if Req_EM_T e 0 then Some p else pick l' f x0 | None => pick l' f x0 end end.
Lemma pick_solves l : solves 0 (pick l).
Proof.
  intros f x0 r H. induction l as [|p l IH]; [discriminate|]. cbn [pick] in H.
  destruct (f (Some p)) as [e|] eqn:E; [|now apply IH]. destruct (Req_EM_T e 0) as [Z|_]; [|now apply IH].
  apply Some_inj in H. subst r. exists e. split; [exact E|]. rewrite Z, Rabs_R0. lra.
Qed.
Lemma pick_eval l f x0 p : In p l -> (forall r, In r l -> 0 < r) -> f (Some p) = Some 0 -> (forall r, 0 < r -> f (Some r) = Some 0 -> r = p) -> pick l f x0 = Some p.
Proof.
  intros Hi Hl Hf Hu. induction l as [|r l IH]; [destruct Hi|]. cbn [pick].
  assert (IH' : In p l -> pick l f x0 = Some p) by (intros K; apply IH; [exact K|intros; apply Hl; now right]).
  destruct (f (Some r)) as [e|] eqn:E.
  - destruct (Req_EM_T e 0) as [Z|Z].
    + f_equal. apply Hu; [apply Hl; now left|]. now rewrite E, Z.
    + apply IH'. destruct Hi as [->|K]; [|exact K]. rewrite E in Hf. apply Some_inj in Hf. contradiction.
  - apply IH'. destruct Hi as [->|K]; [congruence|exact K].
Qed.
Lemma riemann_run l gL gR qL qR p : 1 < gL -> 1 < gR -> positive_state qL -> positive_state qR -> 0 < p -> duR gL gR qL qR p = 0 ->
  In p l -> (forall r, In r l -> 0 < r) ->
  riemann_pb (pick l) (obj gL qL) (obj gR qR) = Some (mk_riemann (obj gL qL) (obj gR qR) (Some p) (Some (f_u qL - fK gL qL p))
      (obj gL (sq (-1) gL qL p)) (obj gR (sq 1 gR qR p))
      (Some (wout (-1) gL qL p)) (Some (win (-1) gL qL p)) (Some (f_u qL - fK gL qL p))
      (Some (win 1 gR qR p)) (Some (wout 1 gR qR p))).
Proof.
  intros HgL HgR HL HR Hp Hd Hi Hl. unfold riemann_pb, uq_copy.
  rewrite (pick_eval l _ _ p Hi Hl).
  2:{ rewrite riemann_du_eval by assumption. now rewrite Hd. }
  2:{ intros r Hr E. rewrite riemann_du_eval in E by assumption. apply Some_inj in E. apply (duR_unique gL gR qL qR r p); assumption. }
  unfold duR in Hd.
  assert (Eu : ustar_from_pstar (obj gL qL) (obj gR qR) (Some p) = Some (f_u qL - fK gL qL p)).
  { unfold ustar_from_pstar. rewrite !delta_uK_eval by assumption. cbn [obj st_u]; ncbn. f_equal. lra. }
  rewrite Eu.
  assert (E1 : f_u qL - fK gL qL p = f_u qL + -1 * fK gL qL p) by lra.
  assert (E2 : f_u qL - fK gL qL p = f_u qR + 1 * fK gR qR p) by lra.
  pose proof (star_side_eval (-1) gL qL p HgL HL Hp (or_intror eq_refl)) as SL.
  pose proof (star_side_eval 1 gR qR p HgR HR Hp (or_introl eq_refl)) as SR.
  rewrite <- E1 in SL. rewrite <- E2 in SR. rewrite SL, SR. reflexivity.
Qed.
Lemma root_ex gL gR qL qR : 1 < gL -> 1 < gR -> positive_state qL -> positive_state qR -> f_u qR <= f_u qL -> exists p, 0 < p /\ duR gL gR qL qR p = 0.
Proof.
  intros HgL HgR HL HR H. destruct (star_pressure gL gR qL qR HgL HgR HL HR) as [[_ K] _].
  destruct (K (no_vac2 gL gR qL qR HgL HgR HL HR H)) as (p & Hp & E). exists p. split; [exact Hp|].
  rewrite riemann_du_eval in E by assumption. now apply Some_inj in E.
Qed.
(*@P C98_runs: None of the four problems meets a vacuum: for every initial pressure, driver ratio > 1, temperature, gas constants and gammas there is an exact root finder with which all the cells run. *)
Lemma tube_runs : forall P pr T r1 r2 g1 g2, 0 < P -> 1 < pr -> 0 < T -> 0 < r1 -> 0 < r2 -> 1 < g1 -> 1 < g2 ->
  exists newton S, solves 0 newton /\ shocktube_cells newton (Some P) (Some pr) (Some T) (Some r1) (Some r2) (Some g1) (Some g2) = Some S.
Proof.
  intros P pr T r1 r2 g1 g2 HP Hpr HT Hr1 Hr2 Hg1 Hg2.
  pose proof (PQ20 P pr T r1 HP Hpr HT Hr1) as A20. pose proof (PQ10 P T r1 HP HT Hr1) as A10. pose proof (PQ00 P T r2 HP HT Hr2) as A00.
  destruct (root_ex g1 g1 _ _ Hg1 Hg1 A20 A10 (Rle_refl 0)) as (p1 & K1 & D1).
  destruct (step1 P pr T r1 g1 HP Hpr HT Hr1 Hg1 p1 K1 D1) as [L1 U1].
  pose proof (PQ11 P T r1 g1 HP HT Hr1 Hg1 p1 ltac:(lra)) as A11.
  destruct (root_ex g1 g2 _ _ Hg1 Hg2 A11 A00 ltac:(cbn [f_u sq qb]; lra)) as (p2 & K2 & D2).
  destruct (step2 P T r1 r2 g1 g2 HP HT Hr1 Hr2 Hg1 Hg2 p1 ltac:(lra) U1 p2 K2 D2) as [L2 U2].
  pose proof (PQ01 P T r2 g2 HP HT Hr2 Hg2 p2 ltac:(lra)) as A01. pose proof (PQ12 P T r1 g1 HP HT Hr1 Hg1 p1 ltac:(lra) p2 ltac:(lra)) as A12.
  pose proof (u01 P T r2 g2 p2) as W1.
  assert (V3 : f_u (mirror (sq 1 g2 (qb P T r2) p2)) <= f_u (sq 1 g2 (qb P T r2) p2)) by (change (f_u (mirror ?q)) with (- f_u q); lra).
  destruct (root_ex g2 g2 _ _ Hg2 Hg2 A01 (mirror_pos _ A01) V3) as (p3 & K3 & D3).
  destruct (step3 P T r2 g2 HP HT Hr2 Hg2 p2 L2 U2 p3 K3 D3) as [L3 U3].
  pose proof (PQ02 P T r2 g2 HP HT Hr2 Hg2 p2 L2 p3 L3) as A02. pose proof (u12 P T r1 r2 g1 g2 p1 p2 D2) as W2.
  assert (V4 : f_u (sq (-1) g2 (sq 1 g2 (qb P T r2) p2) p3) <= f_u (sq (-1) g1 (sq 1 g1 (qb P T r1) p1) p2)) by (rewrite U3, W2, W1; lra).
  destruct (root_ex g1 g2 _ _ Hg1 Hg2 A12 A02 V4) as (p4 & K4 & D4).
  set (l := p1 :: p2 :: p3 :: p4 :: nil).
  assert (Hl : forall r, In r l -> 0 < r) by (intros r [<-|[<-|[<-|[<-|[]]]]]; assumption).
  exists (pick l), (the_tube P pr T r1 r2 g1 g2 p1 p2 p3 p4). split; [apply pick_solves|].
  unfold shocktube_cells. rewrite init_a, !init_b by assumption.
  rewrite (riemann_run l g1 g1 _ _ p1) by (try assumption; now left). cbv zeta. cbn [r_qsR].
  rewrite (riemann_run l g1 g2 _ _ p2) by (try assumption; right; now left). cbn [r_qsR r_qsL]. rewrite copysym_obj.
  rewrite (riemann_run l g2 g2 _ _ p3) by first [assumption | now apply mirror_pos | (right; right; now left)]. cbn [r_qsR r_qsL].
  rewrite (riemann_run l g1 g2 _ _ p4) by (try assumption; right; right; right; now left). reflexivity.
Qed.
(*@E C98_example: the values of the notebooks (air and helium, ratio 2.38, interface at 2.5, walls at -1 and 3) meet the hypotheses, with an exact root finder for which the cells run. *)
Lemma tube_ex98 : 1 < 238/100 /\ 0 < 25/10 < 3 /\ -1 < 0 /\ 1 < 5/3 /\
  exists newton S, solves 0 newton /\
    shocktube_cells newton (Some 100000) (Some (238/100)) (Some (29315/100)) (Some (2871/10)) (Some 2078) (Some (14/10)) (Some (5/3)) = Some S.
Proof. do 4 (split; [lra|]). apply tube_runs; lra. Qed.
