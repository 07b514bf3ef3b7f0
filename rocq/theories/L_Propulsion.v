(** * C69: the thrust function *)
From Verif Require Import L_Num Spec DuctSpec NumSpec M_Isentropic M_MassFlow M_IterSolve M_Propulsion L_Isentropic L_MassFlow L_Shock L_Model1D L_Secant.
Open Scope R_scope.

Definition thr (g M : R) : R := sig g M / Rpower (tt g M) (g / (g - 1)) * (1 + g * M ^ 2).
Lemma thrust_eval g M : 1 < g -> 0 < M -> ThrustFunction (Some M) (Some g) = Some (thr g M).
Proof. intros Hg HM. unfold ThrustFunction. rewrite Sigma_eval, PtPs_eval by assumption. rewrite ndiv_Some by (apply pos_nz, Rpower_pos). reflexivity. Qed.
Definition C (g : R) : R := Rpower (2 / (g + 1)) (sexp g).
Lemma C_pos g : 0 < C g.
Proof. apply Rpower_pos. Qed.
Lemma thr_form g M : 1 < g -> 0 < M -> thr g M = C g * ((1 + g * M ^ 2) / (M * sqrt (tt g M))).
Proof.
  intros Hg HM. pose proof (tt_pos g M Hg) as Ht. unfold thr, C. rewrite sig_form by assumption. rewrite Rpower_mult_base by (apply two_gp1_pos || assumption; assumption).
  assert (E : Rpower (tt g M) (sexp g) = Rpower (tt g M) (g / (g - 1)) / sqrt (tt g M)).
  { rewrite <- Rpower_sqrt by assumption. replace (Rpower (tt g M) (g / (g - 1)) / Rpower (tt g M) (/ 2)) with (Rpower (tt g M) (g / (g - 1)) * / Rpower (tt g M) (/ 2)) by reflexivity. rewrite <- Rpower_Ropp, <- Rpower_plus. f_equal. unfold sexp. field. lra. }
  rewrite E. pose proof (Rpower_pos (tt g M) (g / (g - 1))). assert (0 < sqrt (tt g M)) by now apply sqrt_lt_R0. field. lra.
Qed.
(** square of the thrust function, in terms of the square of the Mach number *)
Definition sqf (g X : R) : R := (1 + g * X) ^ 2 / (X * (1 + (g - 1) / 2 * X)).
Lemma thr_pos g M : 1 < g -> 0 < M -> 0 < thr g M.
Proof.
  intros Hg HM. rewrite thr_form by assumption. pose proof (tt_pos g M Hg) as Ht. assert (0 < sqrt (tt g M)) by now apply sqrt_lt_R0. pose proof (C_pos g). pos.
Qed.
Lemma thr_sq g M : 1 < g -> 0 < M -> thr g M ^ 2 = C g ^ 2 * sqf g (M ^ 2).
Proof.
  intros Hg HM. rewrite thr_form by assumption. pose proof (tt_pos g M Hg) as Ht. assert (0 < sqrt (tt g M)) by now apply sqrt_lt_R0.
  unfold sqf. replace (M ^ 2 * (1 + (g - 1) / 2 * M ^ 2)) with (M ^ 2 * sqrt (tt g M) ^ 2) by (rewrite sq_sqrt by lra; unfold tt; field). field. lra.
Qed.
Lemma sqf_diff g X Y : 1 < g -> 0 < X -> 0 < Y ->
  sqf g Y - sqf g X = (Y - X) * (X * Y - 1 + (g - 1) / 2 * (X * (Y - 1) + Y * (X - 1))) / (X * (1 + (g - 1) / 2 * X) * (Y * (1 + (g - 1) / 2 * Y))).
Proof. intros Hg HX HY. unfold sqf. assert (0 < (g - 1) * X) by nra. assert (0 < (g - 1) * Y) by nra. field. repeat split; lra. Qed.
Lemma sq_lt_pos a b : 0 < b -> a ^ 2 < b ^ 2 -> a < b.
Proof. intros. nra. Qed.
Lemma den_pos g X Y : 1 < g -> 0 < X -> 0 < Y -> 0 < X * (1 + (g - 1) / 2 * X) * (Y * (1 + (g - 1) / 2 * Y)).
Proof. intros. pos. Qed.
Lemma thr_decr g x y : 1 < g -> 0 < x -> x < y -> y <= 1 -> thr g y < thr g x.
Proof.
  intros Hg Hx Hxy Hy. apply sq_lt_pos; [apply thr_pos; lra|]. rewrite !thr_sq by lra. pose proof (C_pos g). apply Rmult_lt_compat_l; [nra|].
  assert (0 < x ^ 2) by nra. assert (x ^ 2 < y ^ 2) by nra. assert (y ^ 2 <= 1) by nra. set (X := x ^ 2) in *. set (Y := y ^ 2) in *. clearbody X Y.
  pose proof (sqf_diff g X Y Hg ltac:(lra) ltac:(lra)) as E. pose proof (den_pos g X Y Hg ltac:(lra) ltac:(lra)) as D.
  assert (N : (Y - X) * (X * Y - 1 + (g - 1) / 2 * (X * (Y - 1) + Y * (X - 1))) < 0).
  { assert (X * Y - 1 + (g - 1) / 2 * (X * (Y - 1) + Y * (X - 1)) < 0); [|nra].
    assert (X * Y < 1) by nra. assert (X * (Y - 1) + Y * (X - 1) <= 0) by nra. nra. }
  set (n := (Y - X) * _) in *. set (d := X * (1 + (g - 1) / 2 * X) * _) in *. clearbody n d.
  assert (n / d < 0) by (apply (Rlt_div_l n 0 d); lra). lra.
Qed.
Lemma thr_incr g x y : 1 < g -> 1 <= x -> x < y -> thr g x < thr g y.
Proof.
  intros Hg Hx Hxy. apply sq_lt_pos; [apply thr_pos; lra|]. rewrite !thr_sq by lra. pose proof (C_pos g). apply Rmult_lt_compat_l; [nra|].
  assert (1 <= x ^ 2) by nra. assert (x ^ 2 < y ^ 2) by nra. set (X := x ^ 2) in *. set (Y := y ^ 2) in *. clearbody X Y.
  pose proof (sqf_diff g X Y Hg ltac:(lra) ltac:(lra)) as E. pose proof (den_pos g X Y Hg ltac:(lra) ltac:(lra)) as D.
  assert (N : 0 < (Y - X) * (X * Y - 1 + (g - 1) / 2 * (X * (Y - 1) + Y * (X - 1)))).
  { assert (0 < X * Y - 1 + (g - 1) / 2 * (X * (Y - 1) + Y * (X - 1))); [|nra].
    assert (1 < X * Y) by nra. assert (0 <= X * (Y - 1) + Y * (X - 1)) by nra. nra. }
  set (n := (Y - X) * _) in *. set (d := X * (1 + (g - 1) / 2 * X) * _) in *. clearbody n d.
  assert (0 < n / d) by (apply Rdiv_lt_0_compat; lra). lra.
Qed.
(*@P C69_minimum: For every gamma > 1 the thrust function is defined and positive for M > 0, strictly decreases on (0,1], strictly increases on [1,inf), so it is minimal exactly at M = 1. *)
Lemma thrust_minimum : forall g, 1 < g ->
  decr_on (fun M => 0 < M <= 1) (fun M => ThrustFunction M (Some g)) /\ incr_on (fun M => 1 <= M) (fun M => ThrustFunction M (Some g)) /\
  exists f1, ThrustFunction (Some 1) (Some g) = Some f1 /\ 0 < f1 /\
    forall M, 0 < M -> exists f, ThrustFunction (Some M) (Some g) = Some f /\ f1 <= f /\ (f = f1 <-> M = 1).
Proof.
  intros g Hg. split; [|split].
  - intros x y Hx Hy Hxy. exists (thr g x), (thr g y). rewrite !thrust_eval by lra. repeat split. apply thr_decr; lra.
  - intros x y Hx Hy Hxy. exists (thr g x), (thr g y). rewrite !thrust_eval by lra. repeat split. apply thr_incr; lra.
  - exists (thr g 1). rewrite thrust_eval by lra. split; [reflexivity|]. split; [apply thr_pos; lra|]. intros M HM. exists (thr g M). rewrite thrust_eval by assumption. split; [reflexivity|].
    destruct (Rtotal_order M 1) as [h|[h|h]].
    + pose proof (thr_decr g M 1 Hg HM h ltac:(lra)). split; [lra|]. split; intros; lra.
    + subst. split; [lra|tauto].
    + pose proof (thr_incr g 1 M Hg ltac:(lra) h). split; [lra|]. split; intros; lra.
Qed.

(** ** the thrust function from the conservation laws *)
Lemma stagnation g q q0 M : 1 < g -> positive_state q -> brought_to_rest g q q0 -> f_u q = M * flow_sound g q ->
  f_rho q = f_rho q0 * Rpower (tt g M) (- (1 / (g - 1))) /\ f_p q = f_p q0 * Rpower (tt g M) (- (g / (g - 1))) /\
  flow_sound g q = flow_sound g q0 * Rpower (tt g M) (- (1 / 2)).
Proof.
  intros Hg [Hr Hp] ([Hr0 Hp0] & U & H & S) EM. pose proof (tt_pos g M Hg) as Ht.
  assert (T : f_p q / f_rho q * tt g M = f_p q0 / f_rho q0).
  { unfold tot_enthalpy in H. rewrite U, EM in H.
    assert (Ha : flow_sound g q ^ 2 = g * (f_p q / f_rho q)) by (unfold flow_sound; rewrite sq_sqrt; [field; lra|pos]).
    replace ((M * flow_sound g q) ^ 2) with (M ^ 2 * flow_sound g q ^ 2) in H by ring. rewrite Ha in H.
    unfold tt. set (t := f_p q / f_rho q) in *. set (t0 := f_p q0 / f_rho q0) in *. clearbody t t0.
    apply (Rmult_eq_reg_l (g / (g - 1))); [|apply pos_nz; pos]. 
    replace (g / (g - 1) * (t * (1 + 1 / 2 * (g - 1) * M ^ 2))) with (g / (g - 1) * t + M ^ 2 * (g * t) / 2) by (field; lra). lra. }
  assert (LT : ln (f_p q) - ln (f_rho q) + ln (tt g M) = ln (f_p q0) - ln (f_rho q0)).
  { rewrite <- !ln_div by assumption. rewrite <- ln_mult by (assumption || (apply Rdiv_lt_0_compat; assumption)). now rewrite T. }
  assert (LS : ln (f_p q) - g * ln (f_rho q) = ln (f_p q0) - g * ln (f_rho q0)).
  { unfold entropy_fn in S. assert (X : forall p r, 0 < p -> 0 < r -> ln p - g * ln r = ln (p / Rpower r g)).
    { intros p r P R. rewrite ln_div by (assumption || apply Rpower_pos). unfold Rpower. rewrite ln_exp. reflexivity. }
    rewrite !X by assumption. now rewrite S. }
  assert (Lr : ln (f_rho q) = ln (f_rho q0) - 1 / (g - 1) * ln (tt g M)).
  { apply (Rmult_eq_reg_l (g - 1)); [|lra]. replace ((g - 1) * (ln (f_rho q0) - 1 / (g - 1) * ln (tt g M))) with ((g - 1) * ln (f_rho q0) - ln (tt g M)) by (field; lra). lra. }
  assert (Lp : ln (f_p q) = ln (f_p q0) - g / (g - 1) * ln (tt g M)).
  { replace (g / (g - 1)) with (1 + 1 / (g - 1)) by (field; lra). lra. }
  assert (X : forall x x0 a, 0 < x -> 0 < x0 -> ln x = ln x0 - a * ln (tt g M) -> x = x0 * Rpower (tt g M) (- a)).
  { intros x x0 a Hx Hx0 L. rewrite <- (exp_ln x) by assumption. rewrite L. unfold Rpower. rewrite <- (exp_ln x0) at 2 by assumption. rewrite <- exp_plus. f_equal. ring. }
  split; [now apply X|]. split; [now apply X|].
  apply X; [apply sound_pos; [lra|split; assumption]|apply sound_pos; [lra|split; assumption]|].
  unfold flow_sound. assert (P : 0 < g * f_p q / f_rho q) by pos. assert (P0 : 0 < g * f_p q0 / f_rho q0) by pos.
  rewrite <- !Rpower_sqrt by assumption. unfold Rpower. rewrite !ln_exp.
  assert (L3 : forall p r, 0 < p -> 0 < r -> ln (g * p / r) = ln g + ln p - ln r).
  { intros p r P1 P2. rewrite ln_div by (assumption || (apply Rmult_lt_0_compat; lra)). rewrite ln_mult by lra. reflexivity. }
  rewrite !L3 by assumption. lra.
Qed.
(*@P C69_momentum: For every stream of perfect gas that passes without losses through a sonic throat of area At and through a section of area A at Mach number M, and whose total pressure (that of the gas brought to rest) is Pt, ThrustFunction(M) is the momentum flux through the section, A (p + rho u^2), divided by At Pt. *)
Lemma thrust_momentum : forall g A q At qt q0 M, 1 < g -> 0 < M -> same_stream g A q At qt -> brought_to_rest g q q0 -> f_u q = M * flow_sound g q ->
  ThrustFunction (Some M) (Some g) = Some (A * (f_p q + f_rho q * f_u q ^ 2) / (At * f_p q0)).
Proof.
  intros g A q At qt q0 M Hg HM (HA & HAt & Hq & Hqt & Ut & Em & Eh & Es) B EM.
  assert (Bt : brought_to_rest g qt q0) by (destruct B as (B1 & B2 & B3 & B4); split; [exact B1|]; split; [exact B2|]; split; [now rewrite B3|now rewrite B4]).
  destruct (stagnation g q q0 M Hg Hq B EM) as (R1 & P1 & S1). destruct (stagnation g qt q0 1 Hg Hqt Bt ltac:(lra)) as (Rt & Pt & St).
  rewrite thrust_eval by assumption. f_equal.
  pose proof Hq as [Hr Hp]. pose proof Hqt as [Hrt Hpt]. destruct B as ([Hr0 Hp0] & _).
  pose proof (sound_pos g q ltac:(lra) Hq) as Ha. pose proof (sound_pos g qt ltac:(lra) Hqt) as Hat.
  pose proof (sound_pos g q0 ltac:(lra) (conj Hr0 Hp0)) as Ha0.
  assert (EA : A = sig g M * At).
  { rewrite EM, Ut in Em. apply (Rmult_eq_reg_l (f_rho q * (M * flow_sound g q))); [|apply pos_nz; pos]. rewrite Em, R1, Rt, S1, St.
    rewrite sig_form by assumption. rewrite sonic_tt by assumption. rewrite Rpower_mult_base by (apply two_gp1_pos || apply tt_pos; assumption).
    assert (X1 : Rpower (2 / (g + 1)) (sexp g) = Rpower ((g + 1) / 2) (- (1 / (g - 1))) * Rpower ((g + 1) / 2) (- (1 / 2))).
    { rewrite <- Rpower_plus. replace (2 / (g + 1)) with (/ ((g + 1) / 2)) by (field; lra). unfold Rpower. rewrite ln_Rinv by lra. f_equal. unfold sexp. field. lra. }
    assert (X2 : Rpower (tt g M) (sexp g) * (Rpower (tt g M) (- (1 / (g - 1))) * Rpower (tt g M) (- (1 / 2))) = 1).
    { rewrite <- !Rpower_plus. replace (sexp g + (- (1 / (g - 1)) + - (1 / 2))) with 0 by (unfold sexp; field; lra). apply Rpower_O. now apply tt_pos. }
    rewrite X1. set (a := Rpower ((g + 1) / 2) (- (1 / (g - 1)))). set (b := Rpower ((g + 1) / 2) (- (1 / 2))).
    set (c := Rpower (tt g M) (- (1 / (g - 1)))) in *. set (d := Rpower (tt g M) (- (1 / 2))) in *. set (e := Rpower (tt g M) (sexp g)) in *. clearbody a b c d e.
    replace (f_rho q0 * c * (M * (flow_sound g q0 * d)) * (a * b * e / M * At)) with (f_rho q0 * a * (flow_sound g q0 * b) * At * (e * (c * d))) by (field; lra).
    rewrite X2. ring. }
  assert (Em2 : f_rho q * f_u q ^ 2 = g * M ^ 2 * f_p q).
  { rewrite EM. replace ((M * flow_sound g q) ^ 2) with (M ^ 2 * flow_sound g q ^ 2) by ring. unfold flow_sound. rewrite sq_sqrt by pos. field. lra. }
  rewrite Em2, P1, EA. unfold thr. replace (Rpower (tt g M) (- (g / (g - 1)))) with (/ Rpower (tt g M) (g / (g - 1))) by (symmetry; apply Rpower_Ropp).
  pose proof (Rpower_pos (tt g M) (g / (g - 1))). field. lra.
Qed.

(** ** inversion *)
Lemma thr_continuous g M : 1 < g -> 0 < M -> continuous (thr g) M.
Proof.
  intros Hg HM. pose proof (tt_pos g M Hg) as Ht. apply (ex_derive_continuous (K := R_AbsRing) (V := R_NormedModule)).
  unfold thr, sig, lsig, Rpower, tt in *. generalize (sexp g). intros s. auto_derive. repeat split; try lra. apply pos_nz, exp_pos.
Qed.
Definition tlim (g : R) : R := C g * g / sqrt ((g - 1) / 2).
Lemma tlim_sq g : 1 < g -> tlim g ^ 2 = C g ^ 2 * (g ^ 2 / ((g - 1) / 2)).
Proof. intros Hg. unfold tlim. assert (0 < sqrt ((g - 1) / 2)) by (apply sqrt_lt_R0; lra). replace (C g ^ 2 * (g ^ 2 / ((g - 1) / 2))) with (C g ^ 2 * (g ^ 2 / (sqrt ((g - 1) / 2) ^ 2))) by (rewrite sq_sqrt by lra; reflexivity). field. lra. Qed.
Lemma tlim_gap g X : 1 < g -> 0 < X -> g ^ 2 / ((g - 1) / 2) - sqf g X = (g * X - (g - 1) / 2) / ((g - 1) / 2 * (X * (1 + (g - 1) / 2 * X))).
Proof. intros Hg HX. unfold sqf. assert (0 < (g - 1) * X) by nra. field. repeat split; lra. Qed.
Lemma tlim_pos g : 1 < g -> 0 < tlim g.
Proof. intros Hg. unfold tlim. pose proof (C_pos g). assert (0 < sqrt ((g - 1) / 2)) by (apply sqrt_lt_R0; lra). pos. Qed.
Lemma thr_below g M : 1 < g -> 1 <= M -> thr g M < tlim g.
Proof.
  intros Hg HM. apply sq_lt_pos; [now apply tlim_pos|]. rewrite thr_sq, tlim_sq by lra. pose proof (C_pos g). apply Rmult_lt_compat_l; [nra|].
  assert (HX : 1 <= M ^ 2) by nra. set (X := M ^ 2) in *. clearbody X. pose proof (tlim_gap g X Hg ltac:(lra)) as E.
  assert (0 < (g * X - (g - 1) / 2) / ((g - 1) / 2 * (X * (1 + (g - 1) / 2 * X)))); [|lra]. apply Rdiv_lt_0_compat; [nra|pos].
Qed.
Lemma thr_sup g t : 1 < g -> thr g 1 < t < tlim g -> exists M, 1 < M /\ thr g M = t.
Proof.
  intros Hg [H1 H2]. pose proof (thr_pos g 1 Hg ltac:(lra)) as H0. pose proof (C_pos g) as HC. set (k := (g - 1) / 2). assert (Hk : 0 < k) by (unfold k; lra).
  set (d := (tlim g ^ 2 - t ^ 2) / C g ^ 2). assert (Hd : 0 < d) by (unfold d; apply Rdiv_lt_0_compat; nra).
  set (X := g / (k ^ 2 * d) + 1). assert (HX : 1 < X) by (unfold X; assert (0 < g / (k ^ 2 * d)) by (apply Rdiv_lt_0_compat; [lra|pos]); lra).
  set (b := sqrt X). assert (Hb : b ^ 2 = X) by (unfold b; apply sq_sqrt; lra). assert (Hb1 : 1 < b) by (unfold b; rewrite <- sqrt_1; apply sqrt_lt_1; lra).
  assert (Ht : t < thr g b).
  { apply sq_lt_pos; [apply thr_pos; lra|]. rewrite thr_sq by lra. rewrite Hb. pose proof (tlim_gap g X Hg ltac:(lra)) as E. fold k in E.
    assert (G : g ^ 2 / k - sqf g X < d).
    { rewrite E. apply Rle_lt_trans with (g * X / (k * (k * X ^ 2))).
      - unfold Rdiv. apply Rmult_le_compat; [unfold k; nra|left; apply Rinv_0_lt_compat; pos|lra|apply Rinv_le_contravar; [pos|nra]].
      - replace (g * X / (k * (k * X ^ 2))) with (g / (k ^ 2) / X) by (field; lra). apply (Rlt_div_l _ d X); [lra|].
        unfold X. replace (d * (g / (k ^ 2 * d) + 1)) with (g / k ^ 2 + d) by (field; lra). lra. }
    assert (Et : tlim g ^ 2 - C g ^ 2 * d = t ^ 2) by (unfold d; field; lra). rewrite <- Et, tlim_sq by assumption. fold k. assert (0 < C g ^ 2) by nra. clear - G H. set (c2 := C g ^ 2) in *. set (z := g ^ 2 / k) in *. clearbody c2 z. nra. }
  destruct (IVT_value (thr g) 1 b t Hb1) as (M & HM & E).
  - intros x Hx. apply thr_continuous; lra.
  - lra.
  - exists M. split; [|exact E]. destruct (proj1 HM) as [h|h]; [exact h|subst; lra].
Qed.
Lemma thr_sub g t : 1 < g -> thr g 1 < t -> exists M, 0 < M < 1 /\ thr g M = t.
Proof.
  intros Hg H. pose proof (C_pos g) as HC. pose proof (thr_pos g 1 Hg ltac:(lra)) as H0. assert (Hs1 : 0 < sqrt (tt g 1)) by (apply sqrt_lt_R0, tt_pos; assumption).
  set (a := Rmin (1/2) (C g / (t * sqrt (tt g 1)))). assert (Ha : 0 < a <= 1/2) by (unfold a; split; [apply Rmin_glb_lt; [lra|pos]|apply Rmin_l]).
  assert (Hat : t <= thr g a).
  { rewrite thr_form by lra. assert (Hs : 0 < sqrt (tt g a) <= sqrt (tt g 1)).
    { split; [apply sqrt_lt_R0, tt_pos; assumption|]. apply sqrt_le_1_alt. unfold tt. assert (a ^ 2 <= 1 ^ 2) by nra. clear - Hg H1. nra. }
    assert (A2 : a <= C g / (t * sqrt (tt g 1))) by apply Rmin_r.
    replace (C g * ((1 + g * a ^ 2) / (a * sqrt (tt g a)))) with (C g * (1 + g * a ^ 2) / (a * sqrt (tt g a))) by (field; lra).
    assert (P : 0 < a * sqrt (tt g a)) by (apply Rmult_lt_0_compat; lra). apply (Rle_div_r t _ _ P).
    assert (a * (t * sqrt (tt g 1)) <= C g) by (apply (Rle_div_r a (C g)); [pos|exact A2]).
    assert (t * (a * sqrt (tt g a)) <= t * (a * sqrt (tt g 1))) by (apply Rmult_le_compat_l; [lra|]; apply Rmult_le_compat_l; lra).
    assert (C g <= C g * (1 + g * a ^ 2)) by (assert (0 <= g * a ^ 2) by nra; nra). replace (t * (a * sqrt (tt g 1))) with (a * (t * sqrt (tt g 1))) in * by ring. lra. }
  destruct (IVT_value (fun x => - thr g x) a 1 (- t) ltac:(lra)) as (M & HM & E).
  - intros x Hx. apply (continuous_opp (V := R_NormedModule)). apply thr_continuous; lra.
  - lra.
  - exists M. assert (thr g M = t) by lra. split; [|assumption]. split; [lra|]. destruct (proj2 HM) as [h|h]; [exact h|subst; lra].
Qed.
(*@P C69_branches: Every thrust above that of Mach 1 is given by exactly one subsonic Mach number; by exactly one supersonic one if it is below the limit g (2/(g+1))^((g+1)/(2(g-1))) / sqrt((g-1)/2), and by no supersonic one otherwise. *)
Lemma thrust_branches : forall g t f1, 1 < g -> ThrustFunction (Some 1) (Some g) = Some f1 -> f1 < t ->
  (exists M, (0 < M < 1 /\ ThrustFunction (Some M) (Some g) = Some t) /\ forall M', 0 < M' < 1 -> ThrustFunction (Some M') (Some g) = Some t -> M' = M) /\
  let limit := g * Rpower (2 / (g + 1)) ((g + 1) / (2 * (g - 1))) / sqrt ((g - 1) / 2) in
  (t < limit -> exists M, (1 < M /\ ThrustFunction (Some M) (Some g) = Some t) /\ forall M', 1 < M' -> ThrustFunction (Some M') (Some g) = Some t -> M' = M) /\
  (limit <= t -> forall M, 1 < M -> ThrustFunction (Some M) (Some g) <> Some t).
Proof.
  intros g t f1 Hg E1 Ht. rewrite thrust_eval in E1 by lra. apply Some_inj in E1. subst f1. split.
  - destruct (thr_sub g t Hg Ht) as (M & HM & E). exists M. split; [split; [exact HM|rewrite thrust_eval by lra; now rewrite E]|].
    intros M' HM' E'. rewrite thrust_eval in E' by lra. apply Some_inj in E'. destruct (Rtotal_order M' M) as [h|[h|h]]; [|exact h|].
    + pose proof (thr_decr g M' M Hg ltac:(lra) h ltac:(lra)). lra.
    + pose proof (thr_decr g M M' Hg ltac:(lra) h ltac:(lra)). lra.
  - assert (EL : g * Rpower (2 / (g + 1)) ((g + 1) / (2 * (g - 1))) / sqrt ((g - 1) / 2) = tlim g).
    { unfold tlim, C, sexp. replace (1 / 2 * (g + 1) / (g - 1)) with ((g + 1) / (2 * (g - 1))) by (field; lra). unfold Rdiv. ring. }
    cbv zeta. rewrite EL. split.
    + intros HL. destruct (thr_sup g t Hg (conj Ht HL)) as (M & HM & E). exists M. split; [split; [exact HM|rewrite thrust_eval by lra; now rewrite E]|].
      intros M' HM' E'. rewrite thrust_eval in E' by lra. apply Some_inj in E'. destruct (Rtotal_order M' M) as [h|[h|h]]; [|exact h|].
      * pose proof (thr_incr g M' M Hg ltac:(lra) h). lra.
      * pose proof (thr_incr g M M' Hg ltac:(lra) h). lra.
    + intros HL M HM E. rewrite thrust_eval in E by lra. apply Some_inj in E. pose proof (thr_below g M Hg ltac:(lra)). lra.
Qed.
(*@E C69_example: gamma = 3, a throat of area 1 with rho = 1, u = 1, p = 1/3: the hypotheses of the momentum theorem hold there, the gas brought to rest has density sqrt 2, and the thrust function is 4/sqrt 2^3. *)
Lemma thrust_example : let q := mkflow 1 1 (1/3) in let q0 := mkflow (sqrt 2) 0 (sqrt 2 ^ 3 / 3) in
  same_stream 3 1 q 1 q /\ brought_to_rest 3 q q0 /\ f_u q = 1 * flow_sound 3 q /\ ThrustFunction (Some 1) (Some 3) = Some (4 / sqrt 2 ^ 3).
Proof.
  intros q q0. assert (H2 : 0 < sqrt 2) by (apply sqrt_lt_R0; lra). assert (S2 : sqrt 2 ^ 2 = 2) by (apply sq_sqrt; lra).
  assert (Sq : flow_sound 3 q = 1) by (unfold flow_sound, q; cbn [f_p f_rho]; replace (3 * (1 / 3) / 1) with 1 by lra; apply sqrt_1).
  assert (Hq : positive_state q) by (split; cbn; lra).
  assert (A : same_stream 3 1 q 1 q).
  { split; [lra|]. split; [lra|]. split; [exact Hq|]. split; [exact Hq|]. split; [rewrite Sq; reflexivity|]. auto. }
  assert (B : brought_to_rest 3 q q0).
  { split; [split; cbn [q0 f_rho f_p]; [exact H2|pos]|]. split; [reflexivity|]. split.
    - unfold tot_enthalpy, q, q0; cbn [f_p f_rho f_u]. replace (sqrt 2 ^ 3 / 3 / sqrt 2) with (sqrt 2 ^ 2 / 3) by (field; lra). rewrite S2. field.
    - unfold entropy_fn, q, q0; cbn [f_p f_rho f_u]. assert (X : Rpower (sqrt 2) 3 = sqrt 2 ^ 3) by (rewrite <- Rpower_pow by lra; f_equal; cbn; lra). rewrite X, Rpower_one. field. lra. }
  split; [exact A|]. split; [exact B|]. split; [rewrite Sq; cbn; lra|].
  rewrite (thrust_momentum 3 1 q 1 q q0 1); [|lra|lra|exact A|exact B|rewrite Sq; cbn; lra]. f_equal. unfold q, q0; cbn [f_p f_rho f_u]. field. lra.
Qed.

(** ** the inverse *)
Definition lthr (g M : R) : R := ln (C g) + ln (1 + g * M ^ 2) - ln M - 1 / 2 * ln (1 + 1 / 2 * (g - 1) * M ^ 2).
Lemma thr_exp g M : 1 < g -> 0 < M -> thr g M = exp (lthr g M).
Proof.
  intros Hg HM. rewrite thr_form by assumption. pose proof (tt_pos g M Hg) as Ht. unfold lthr. fold (tt g M). assert (0 < 1 + g * M ^ 2) by pos.
  unfold Rminus. rewrite !exp_plus, !exp_Ropp, !exp_ln by (assumption || apply C_pos).
  replace (exp (1 / 2 * ln (tt g M))) with (sqrt (tt g M)).
  2:{ rewrite <- Rpower_sqrt by assumption. unfold Rpower. f_equal. field. }
  assert (0 < sqrt (tt g M)) by now apply sqrt_lt_R0. field. lra.
Qed.
Lemma lthr_derive g M : 1 < g -> 0 < M -> is_derive (lthr g) M ((M ^ 2 - 1) / (M * (1 + g * M ^ 2) * tt g M)).
Proof.
  intros Hg HM. assert (H1 : 0 < 1 + g * M ^ 2) by pos. assert (H2 : 0 < 1 + 1 / 2 * (g - 1) * M ^ 2) by (apply (tt_pos g M Hg)).
  unfold lthr, tt. generalize (ln (C g)). intros c. auto_derive; [repeat split; cbn [pow] in *; lra|]. field. repeat split; nra.
Qed.
Lemma thr_lip g a b : 1 < g -> 1 <= a -> 1 <= b -> Rabs (thr g a - thr g b) <= tlim g * Rabs (a - b).
Proof.
  intros Hg. assert (G : forall x y, 1 <= x -> x < y -> thr g y - thr g x <= tlim g * (y - x)).
  { intros x y Hx Hxy. destruct (MVT_cor2 (fun M => exp (lthr g M)) (fun M => exp (lthr g M) * ((M ^ 2 - 1) / (M * (1 + g * M ^ 2) * tt g M))) x y Hxy) as (c & E & Hc).
    { intros c Hc. apply is_derive_Reals. rewrite Rmult_comm. apply (is_derive_comp exp (lthr g)); [apply is_derive_exp|apply lthr_derive; lra]. }
    rewrite !thr_exp by lra. rewrite E. apply Rmult_le_compat_r; [lra|]. rewrite <- thr_exp by lra.
    pose proof (thr_below g c Hg ltac:(lra)) as B. pose proof (thr_pos g c Hg ltac:(lra)) as P. pose proof (tt_ge_1 g c Hg) as T.
    assert (Q : 0 <= (c ^ 2 - 1) / (c * (1 + g * c ^ 2) * tt g c) <= 1).
    { assert (D : 0 < c * (1 + g * c ^ 2) * tt g c) by (apply Rmult_lt_0_compat; [apply Rmult_lt_0_compat; [lra|nra]|lra]).
      split; [apply (Rle_div_r 0 _ _ D); nra|]. apply (Rle_div_l _ 1 _ D). 
      assert (c ^ 2 <= 1 + g * c ^ 2) by nra. assert (1 * (1 + g * c ^ 2) <= c * (1 + g * c ^ 2)) by (apply Rmult_le_compat_r; nra).
      assert (c * (1 + g * c ^ 2) * 1 <= c * (1 + g * c ^ 2) * tt g c) by (apply Rmult_le_compat_l; nra). lra. }
    apply Rle_trans with (thr g c * 1); [apply Rmult_le_compat_l; lra|lra]. }
  intros Ha Hb. destruct (Rtotal_order a b) as [h|[h|h]].
  - pose proof (thr_incr g a b Hg Ha h). pose proof (G a b Ha h). rewrite !Rabs_left by lra. lra.
  - subst. rewrite !Rminus_eq_0, Rabs_R0. lra.
  - pose proof (thr_incr g b a Hg Hb h). pose proof (G b a Hb h). rewrite !Rabs_right by lra. lra.
Qed.
Lemma inverse_is_secant : Mach_ThrustFunction = fun t M g => secant_solve (fun m => ThrustFunction m g) t M.
Proof. reflexivity. Qed.
Lemma residual_default f (D : R -> Prop) L y x r : 0 <= L ->
  (forall a b u v, D a -> D b -> f (Some a) = Some u -> f (Some b) = Some v -> Rabs (u - v) <= L * Rabs (a - b)) ->
  (forall a, In (Some a) (s_evals (secant_run_of f (Some y) (Some x) secant_tol)) -> D a) ->
  s_warned (secant_run_of f (Some y) (Some x) secant_tol) = false -> secant_solve f (Some y) (Some x) = Some r -> 1/100 < Rabs x ->
  forall w, D r -> f (Some r) = Some w -> Rabs (w - y) <= 2 * L * Rmax (1/100000) (1/100000 * Rabs r).
Proof.
  intros HL HLip HD HW HR Hx w Dr Hw. rewrite secant_solve_run in HR. pose proof (proj2 (secant_start f (Some y) x) Hx) as HE.
  destruct (secant_residual f D L y x (1 / 100000) r HL HLip HD HW HR HE) as (b & v & _ & _ & _ & G). exact (G w Dr Hw).
Qed.
(*@P C69_inverse_partial: For every gamma > 1, target thrust and supersonic start: if the secant iteration of Mach_ThrustFunction ends without its warning, and neither its iterates nor its answer r leave the supersonic range, the thrust function at r is within 2e-5 max(1, r) times the limit thrust of the target. PARTIAL: nothing keeps the iterates supersonic, and the iteration may be cut off after 20 evaluations. *)
Lemma thrust_inverse : forall g t M0 r, 1 < g -> 1 <= M0 -> Mach_ThrustFunction (Some t) (Some M0) (Some g) = Some r ->
  let run := secant_run_of (fun m => ThrustFunction m (Some g)) (Some t) (Some M0) secant_tol in
  (forall a, In (Some a) (s_evals run) -> 1 <= a) -> 1 <= r -> s_warned run = false ->
  exists f, ThrustFunction (Some r) (Some g) = Some f /\
    Rabs (f - t) <= 2 / 100000 * r * (g * Rpower (2 / (g + 1)) ((g + 1) / (2 * (g - 1))) / sqrt ((g - 1) / 2)).
Proof.
  intros g t M0 r Hg HM E run HD Hr HW. exists (thr g r). rewrite thrust_eval by lra. split; [reflexivity|].
  assert (EL : g * Rpower (2 / (g + 1)) ((g + 1) / (2 * (g - 1))) / sqrt ((g - 1) / 2) = tlim g).
  { unfold tlim, C, sexp. replace (1 / 2 * (g + 1) / (g - 1)) with ((g + 1) / (2 * (g - 1))) by (field; lra). unfold Rdiv. ring. }
  rewrite EL. pose proof (tlim_pos g Hg).
  assert (HL : forall a c u v, 1 <= a -> 1 <= c -> ThrustFunction (Some a) (Some g) = Some u -> ThrustFunction (Some c) (Some g) = Some v -> Rabs (u - v) <= tlim g * Rabs (a - c)).
  { intros a c u v Ha Hc Ea Ec. rewrite thrust_eval in Ea, Ec by lra. apply Some_inj in Ea, Ec. subst u v. now apply thr_lip. }
  assert (HX : 1/100 < Rabs M0) by (rewrite Rabs_right; lra).
  assert (HT : ThrustFunction (Some r) (Some g) = Some (thr g r)) by (apply thrust_eval; lra).
  rewrite inverse_is_secant in E. subst run. assert (H0 : 0 <= tlim g) by lra.
  pose proof (residual_default (fun m => ThrustFunction m (Some g)) (fun a => 1 <= a) (tlim g) t M0 r H0 HL HD HW E HX (thr g r) Hr HT) as W.
  rewrite (Rabs_right r), Rmax_right in W by lra. lra.
Qed.
