(** * C35: moving shocks and simple waves *)
From Verif Require Import L_Num Spec NumSpec M_Isentropic M_ShockWave M_Model1D M_Unsteady1D L_Isentropic L_Shock L_Model1D.
Open Scope R_scope.

Lemma sound_gal g v q : flow_sound g (galilean v q) = flow_sound g q.
Proof. reflexivity. Qed.
Lemma pos_gal v q : positive_state (galilean v q) <-> positive_state q.
Proof. unfold positive_state; cbn; tauto. Qed.
Lemma rh_gal g w v q0 q1 :
  rankine_hugoniot g w q0 q1 -> rankine_hugoniot g (w + v) (galilean v q0) (galilean v q1).
Proof.
  unfold rankine_hugoniot, mass_flux, momentum_flux, frame_enthalpy; cbn.
  replace (f_u q0 + v - (w + v)) with (f_u q0 - w) by ring.
  replace (f_u q1 + v - (w + v)) with (f_u q1 - w) by ring. auto.
Qed.

(** the moving jump is the steady jump seen from the shock *)
Lemma ushock_steady g w q : 1 < g -> positive_state q -> f_u q <> w ->
  exists q', state_RH (obj g (galilean (- w) q)) = obj g q' /\
    rankinehugoniot_from_ushock (obj g q) (Some w) = obj g (galilean w q').
Proof.
  intros Hg Hq Hu.
  destruct (state_RH_eval g (galilean (- w) q)) as [E HR];
    [assumption|now apply pos_gal|cbn; lra|].
  eexists; split; [exact E|].
  unfold rankinehugoniot_from_ushock, state_init. rewrite asound_eval by (assumption || lra).
  rewrite sound_gal in *. cbn [galilean f_u f_rho f_p obj st_g st_rho st_u st_p] in *.
  pose proof (sound_pos g q ltac:(lra) Hq). ncbn. rewrite (ndiv_Some (f_u q - w)) by lra.
  replace ((f_u q + - w) / flow_sound g q) with ((f_u q - w) / flow_sound g q) in * by (unfold Rminus; reflexivity).
  rewrite Rho_eval, Ps_eval by assumption. ncbn. rewrite ndiv_Some by lra. ncbn.
  unfold obj; cbn [f_rho f_u f_p galilean]. f_equal. f_equal. unfold Rminus; ring.
Qed.

(*@P C35_moving_shock: For every state and every shock speed other than the flow velocity, _rankinehugoniot_from_ushock returns a state of the same gas satisfying the Rankine-Hugoniot relations in the frame of the shock. *)
Lemma moving_shock : forall g w q, 1 < g -> positive_state q -> f_u q <> w ->
  exists q', rankinehugoniot_from_ushock (obj g q) (Some w) = obj g q' /\ 0 < f_rho q' /\
    rankine_hugoniot g w q q'.
Proof.
  intros g w q Hg Hq Hu. destruct (ushock_steady g w q Hg Hq Hu) as (q' & E1 & E2).
  exists (galilean w q'); split; [exact E2|].
  destruct (state_RH_conserves g (galilean (- w) q)) as (q2 & E3 & Hr & H);
    [assumption|now apply pos_gal|cbn; lra|].
  assert (q2 = q').
  { rewrite E1 in E3. unfold obj in E3. injection E3; destruct q2, q'; cbn; intros; congruence. }
  subst q2. split; [exact Hr|].
  apply (rh_gal g 0 w) in H. rewrite Rplus_0_l in H.
  replace (galilean w (galilean (- w) q)) with q in H; [exact H|].
  destruct q; unfold galilean; cbn; f_equal; ring.
Qed.

(*@P C35_galilean: The moving shock commutes with every change of inertial frame. *)
Lemma moving_shock_galilean : forall g w v q, 1 < g -> positive_state q -> f_u q <> w ->
  exists q', rankinehugoniot_from_ushock (obj g q) (Some w) = obj g q' /\
    rankinehugoniot_from_ushock (obj g (galilean v q)) (Some (w + v)) = obj g (galilean v q').
Proof.
  intros g w v q Hg Hq Hu. destruct (ushock_steady g w q Hg Hq Hu) as (q' & E1 & E2).
  destruct (ushock_steady g (w + v) (galilean v q)) as (q2 & E3 & E4);
    [assumption|now apply pos_gal|cbn; lra|].
  exists (galilean w q'). split; [exact E2|]. rewrite E4. f_equal.
  assert (Hg2 : galilean (- (w + v)) (galilean v q) = galilean (- w) q)
    by (destruct q; unfold galilean; cbn; f_equal; ring).
  rewrite Hg2, E1 in E3.
  assert (q2 = q') by (unfold obj in E3; injection E3; destruct q2, q'; cbn; intros; congruence).
  subst q2. destruct q'; unfold galilean; cbn; f_equal; ring.
Qed.

(*@P C35_standing_front_none: With a shock speed equal to the flow velocity there is no finite jump state. *)
Lemma standing_front : forall g q, 1 < g -> positive_state q ->
  st_u (rankinehugoniot_from_ushock (obj g q) (Some (f_u q))) = None.
Proof.
  intros g q Hg Hq. unfold rankinehugoniot_from_ushock, state_init.
  rewrite asound_eval by (assumption || lra). pose proof (sound_pos g q ltac:(lra) Hq).
  cbn [obj st_g st_rho st_u st_p]; ncbn. rewrite (ndiv_Some (f_u q - f_u q)) by lra.
  rewrite Rho_eval by assumption. ncbn. rewrite ndiv_zero; [reflexivity|].
  unfold rhor. replace ((f_u q - f_u q) / flow_sound g q) with 0 by (unfold Rdiv; ring).
  unfold Rdiv; rewrite pow_ne_zero by lia; ring.
Qed.

(** ** given pressure *)
Definition shD (g : R) (q : flow) (p : R) : R := (g + 1) * p + (g - 1) * f_p q.
Definition shrho (g : R) (q : flow) (p : R) : R :=
  let m := (g - 1) / (g + 1) in f_rho q * (p / f_p q + m) / (1 + m * (p / f_p q)).
Definition shdu (g : R) (q : flow) (p : R) : R := (p - f_p q) * sqrt (2 / f_rho q / shD g q p).
(** mass flux through the shock *)
Definition shj (g : R) (q : flow) (p : R) : R := sqrt (f_rho q * shD g q p / 2).

Lemma shD_pos g q p : 1 < g -> positive_state q -> 0 < p -> 0 < shD g q p.
Proof. intros Hg [Hr Hp] H; unfold shD; pos. Qed.
Lemma shj_pos g q p : 1 < g -> positive_state q -> 0 < p -> 0 < shj g q p.
Proof. intros Hg Hq H; pose proof (shD_pos g q p Hg Hq H); destruct Hq; unfold shj; pos. Qed.
Lemma shj_sq g q p : 1 < g -> positive_state q -> 0 < p -> shj g q p ^ 2 = f_rho q * shD g q p / 2.
Proof. intros Hg Hq H; pose proof (shD_pos g q p Hg Hq H); destruct Hq; unfold shj; apply sq_sqrt; pos. Qed.
Lemma shdu_j g q p : 1 < g -> positive_state q -> 0 < p -> shdu g q p = (p - f_p q) / shj g q p.
Proof.
  intros Hg Hq H. pose proof (shj_pos g q p Hg Hq H) as Hj. pose proof (shj_sq g q p Hg Hq H) as Hj2.
  pose proof (shD_pos g q p Hg Hq H) as HD. destruct Hq as [Hr Hp].
  unfold shdu. change ((p - f_p q) / shj g q p) with ((p - f_p q) * / shj g q p). apply Rmult_eq_compat_l. apply Rsqr_inj; [pos|left; pos|].
  rewrite !Rsqr_pow2. rewrite sq_sqrt by pos. rewrite pow_inv, Hj2. field; lra.
Qed.
Lemma delta_u_shock_eval g q p : 1 < g -> positive_state q -> 0 < p ->
  delta_u_shock (obj g q) (Some p) = Some (shdu g q p).
Proof.
  intros Hg Hq H. pose proof (shD_pos g q p Hg Hq H) as HD. destruct Hq as [Hr Hp].
  unfold delta_u_shock; cbn [obj st_g st_p st_rho]; ncbn. rewrite (ndiv_Some 2) by lra.
  fold (shD g q p). rewrite ndiv_Some by lra. rewrite nsqrt_Some by pos. reflexivity.
Qed.
Lemma shrho_den g q p : 1 < g -> positive_state q -> 0 < p ->
  0 < 1 + (g - 1) / (g + 1) * (p / f_p q).
Proof. intros Hg [Hr Hp] H. assert (0 < (g - 1) / (g + 1) * (p / f_p q)) by pos. lra. Qed.
Lemma rho_through_shock_eval g q p : 1 < g -> positive_state q -> 0 < p ->
  rho_through_shock (obj g q) (Some p) = Some (shrho g q p).
Proof.
  intros Hg Hq H. pose proof (shrho_den g q p Hg Hq H). destruct Hq as [Hr Hp].
  unfold rho_through_shock; cbn [obj st_g st_p st_rho]; ncbn.
  rewrite (ndiv_Some (g - 1)) by lra. rewrite (ndiv_Some p) by lra. ncbn. now rewrite ndiv_Some by lra.
Qed.
Lemma shrho_pos g q p : 1 < g -> positive_state q -> 0 < p -> 0 < shrho g q p.
Proof.
  intros Hg Hq H. pose proof (shrho_den g q p Hg Hq H). destruct Hq as [Hr Hp]. unfold shrho; cbv zeta.
  assert (0 < (g - 1) / (g + 1)) by pos. pos.
Qed.
Lemma shrho_alt g q p : 1 < g -> positive_state q -> 0 < p ->
  shrho g q p = f_rho q * shD g q p / ((g + 1) * f_p q + (g - 1) * p).
Proof.
  intros Hg [Hr Hp] H. unfold shrho, shD. field. repeat split; try lra; try nra.
Qed.
(** any shock of the pressure family satisfies Rankine-Hugoniot *)
Lemma shock_family_RH g q p s : 1 < g -> positive_state q -> 0 < p -> s = 1 \/ s = -1 ->
  rankine_hugoniot g (f_u q + s * shj g q p / f_rho q) q
    (mkflow (shrho g q p) (f_u q + s * shdu g q p) p).
Proof.
  intros Hg Hq H Hs. pose proof (shj_pos g q p Hg Hq H) as Hj. pose proof (shj_sq g q p Hg Hq H) as Hj2.
  pose proof (shD_pos g q p Hg Hq H) as HD. rewrite (shdu_j g q p) by assumption.
  rewrite (shrho_alt g q p) by assumption. destruct Hq as [Hr Hp].
  assert (HD2 : 0 < (g + 1) * f_p q + (g - 1) * p) by pos.
  set (j := shj g q p) in *. clearbody j. destruct q as [r u p0]; cbn [f_rho f_u f_p] in *.
  assert (Hs2 : s ^ 2 = 1) by (destruct Hs; subst; ring).
  assert (HDe : shD g (mkflow r u p0) p = 2 * j ^ 2 / r) by (rewrite Hj2; field; lra).
  assert (Ep : (g + 1) * p + (g - 1) * p0 = 2 * j ^ 2 / r) by (rewrite <- HDe; reflexivity).
  assert (Ep' : p = (2 * j ^ 2 / r - (g - 1) * p0) / (g + 1)) by (rewrite <- Ep; field; lra).
  rewrite HDe. unfold rankine_hugoniot, mass_flux, momentum_flux, frame_enthalpy; cbn [f_rho f_u f_p].
  set (D2 := (g + 1) * p0 + (g - 1) * p) in *.
  assert (ED2 : D2 = (g + 1) * p0 + (g - 1) * p) by reflexivity. clearbody D2.
  set (r1 := r * (2 * j ^ 2 / r) / D2).
  assert (Er1 : r1 = 2 * j ^ 2 / D2) by (unfold r1; field; split; lra).
  assert (Ev : u + s * ((p - p0) / j) - (u + s * j / r) = - s * (D2 / (2 * j))).
  { rewrite ED2. replace (u + s * ((p - p0) / j) - (u + s * j / r)) with (s * ((p - p0) / j - j / r)) by (field; lra).
    replace (j / r) with ((2 * j ^ 2 / r) / (2 * j)) by (field; lra). rewrite <- Ep. field; lra. }
  rewrite Ev.
  assert (Ev0 : u - (u + s * j / r) = - s * (j / r)) by (field; lra).
  rewrite Ev0, Er1.
  assert (ED3 : D2 = 2 * j ^ 2 / r - 2 * (p - p0)) by (rewrite ED2, <- Ep; ring).
  replace ((- s * (j / r)) ^ 2) with (s ^ 2 * (j / r) ^ 2) by ring.
  replace ((- s * (D2 / (2 * j))) ^ 2) with (s ^ 2 * (D2 / (2 * j)) ^ 2) by ring. rewrite Hs2.
  split; [field; repeat split; lra|]. split.
  - replace (2 * j ^ 2 / D2 * (1 * (D2 / (2 * j)) ^ 2)) with (D2 / 2) by (field; lra).
    rewrite ED3. field. lra.
  - replace (p / (2 * j ^ 2 / D2)) with (p * D2 / (2 * j ^ 2)) by (field; lra).
    assert (Hj3 : 2 * j ^ 2 = r * ((g + 1) * p + (g - 1) * p0)) by (rewrite Ep; field; lra).
    replace ((j / r) ^ 2) with ((2 * j ^ 2) / (2 * r ^ 2)) by (field; lra).
    replace ((D2 / (2 * j)) ^ 2) with (D2 ^ 2 / (2 * (2 * j ^ 2))) by (field; lra).
    rewrite Hj3, ED2. field. repeat split; try lra; try nra.
Qed.

(*@P C35_shock_functions: For every pressure p > 0 and either direction s, delta_u_shock and rho_through_shock describe the jump of one and the same moving shock: with speed w = u + s a Mn_Ps_ratio(p/p0), _rankinehugoniot_from_ushock gives pressure p, the density rho_through_shock(p) and the velocity u + s delta_u_shock(p); the jump satisfies Rankine-Hugoniot. *)
Lemma shock_functions : forall g q p s, 1 < g -> positive_state q -> 0 < p -> s = 1 \/ s = -1 ->
  exists M w q', Mn_Ps_ratio (Some (p / f_p q)) (Some g) = Some M /\
    w = f_u q + s * flow_sound g q * M /\
    rankinehugoniot_from_ushock (obj g q) (Some w) = obj g q' /\
    f_p q' = p /\ rho_through_shock (obj g q) (Some p) = Some (f_rho q') /\
    delta_u_shock (obj g q) (Some p) = Some (s * (f_u q' - f_u q)) /\
    rankine_hugoniot g w q q'.
Proof.
  intros g q p s Hg Hq H Hs.
  pose proof (shj_pos g q p Hg Hq H) as Hj. pose proof (shj_sq g q p Hg Hq H) as Hj2.
  pose proof (shD_pos g q p Hg Hq H) as HD. pose proof (sound_pos g q ltac:(lra) Hq) as Ha.
  pose proof (sound_sq g q ltac:(lra) Hq) as Ha2. pose proof Hq as [Hr Hp].
  assert (Hs2 : s ^ 2 = 1) by (destruct Hs; subst; ring).
  set (m2 := 1 + (p / f_p q - 1) * (g + 1) / (2 * g)).
  assert (Em2 : m2 = shD g q p / (2 * g * f_p q)) by (unfold m2, shD; field; lra).
  assert (Hm2 : 0 < m2) by (rewrite Em2; pos).
  assert (HM : 0 < sqrt m2) by pos. assert (HM2 : sqrt m2 ^ 2 = m2) by (apply sq_sqrt; lra).
  exists (sqrt m2), (f_u q + s * flow_sound g q * sqrt m2).
  exists (mkflow (shrho g q p) (f_u q + s * shdu g q p) p).
  assert (EaM : flow_sound g q * sqrt m2 = shj g q p / f_rho q).
  { apply Rsqr_inj; [nra|left; pos|]. rewrite !Rsqr_pow2.
    replace ((flow_sound g q * sqrt m2) ^ 2) with (flow_sound g q ^ 2 * sqrt m2 ^ 2) by ring.
    replace ((shj g q p / f_rho q) ^ 2) with (shj g q p ^ 2 / f_rho q ^ 2) by (field; lra).
    rewrite Ha2, HM2, Hj2, Em2. field. lra. }
  assert (Ew : f_u q + s * flow_sound g q * sqrt m2 = f_u q + s * shj g q p / f_rho q).
  { rewrite Rmult_assoc, EaM. field; lra. }
  split; [unfold Mn_Ps_ratio; ncbn; rewrite ndiv_Some by lra; ncbn; rewrite nsqrt_Some by (fold m2; lra); reflexivity|].
  split; [reflexivity|].
  split.
  - unfold rankinehugoniot_from_ushock, state_init. rewrite asound_eval by (assumption || lra).
    cbn [obj st_g st_rho st_u st_p]. ncbn.
    rewrite ndiv_Some by lra.
    replace ((f_u q - (f_u q + s * flow_sound g q * sqrt m2)) / flow_sound g q) with (- s * sqrt m2) by (field; lra).
    assert (Hne : - s * sqrt m2 <> 0) by (destruct Hs; subst; lra).
    rewrite Rho_eval, Ps_eval by assumption. pose proof (rhor_pos g _ Hg Hne) as HR.
    ncbn. rewrite ndiv_Some by lra. ncbn.
    assert (Esq : (- s * sqrt m2) ^ 2 = m2).
    { replace ((- s * sqrt m2) ^ 2) with (s ^ 2 * sqrt m2 ^ 2) by ring. rewrite Hs2, HM2; ring. }
    assert (ER : rhor g (- s * sqrt m2) = shrho g q p / f_rho q).
    { unfold rhor. rewrite Esq, Em2. rewrite shrho_alt by assumption. unfold shD.
      assert (HX : 0 < (g + 1) * f_p q + (g - 1) * p) by pos.
      assert (HY : 0 < (g + 1) * ((g + 1) * f_p q + (g - 1) * p)) by pos.
      field. repeat split; lra. }
    assert (EP : psr g (- s * sqrt m2) = p / f_p q).
    { unfold psr. rewrite Esq. unfold m2. field. lra. }
    rewrite ER, EP. pose proof (shrho_pos g q p Hg Hq H) as Hr1.
    unfold obj; cbn [f_rho f_u f_p]. f_equal; f_equal; [field; lra| |field; lra].
    rewrite Ew. rewrite (shdu_j g q p), (shrho_alt g q p) by assumption.
    set (j := shj g q p) in *. clearbody j. 
    assert (HDe : shD g q p = 2 * j ^ 2 / f_rho q) by (rewrite Hj2; field; lra).
    assert (Ep : (g + 1) * p + (g - 1) * f_p q = 2 * j ^ 2 / f_rho q) by (rewrite <- HDe; reflexivity).
    rewrite HDe. assert (HD2 : 0 < (g + 1) * f_p q + (g - 1) * p) by pos.
    replace (f_u q + s * j / f_rho q +
      (f_u q - (f_u q + s * j / f_rho q)) /
      (f_rho q * (2 * j ^ 2 / f_rho q) / ((g + 1) * f_p q + (g - 1) * p) / f_rho q)) with
      (f_u q + s * ((2 * j ^ 2 / f_rho q - ((g + 1) * f_p q + (g - 1) * p)) / (2 * j)))
      by (field; repeat split; lra).
    rewrite <- Ep. field. lra.
  - split; [reflexivity|]. split; [now apply rho_through_shock_eval|].
    split; [rewrite delta_u_shock_eval by assumption; f_equal; cbn [f_u];
      replace (s * (f_u q + s * shdu g q p - f_u q)) with (s ^ 2 * shdu g q p) by ring; rewrite Hs2; ring|].
    rewrite Ew. now apply shock_family_RH.
Qed.

(** ** simple waves *)
Definition exdu (g : R) (q : flow) (p : R) : R :=
  flow_sound g q / (1/2 * (g - 1)) * (Rpower (p / f_p q) (1/2 * (g - 1) / g) - 1).
Definition isrho (g : R) (q : flow) (p : R) : R := f_rho q * Rpower (p / f_p q) (1 / g).
Lemma delta_u_expansion_eval g q p : 1 < g -> positive_state q -> 0 < p ->
  delta_u_expansion (obj g q) (Some p) = Some (exdu g q p).
Proof.
  intros Hg Hq H. unfold delta_u_expansion. rewrite asound_eval by (assumption || lra).
  pose proof Hq as [Hr Hp]. cbn [obj st_g st_p]; ncbn. rewrite !ndiv_Some by lra.
  assert (0 < p / f_p q) by pos. rewrite npow_Some by assumption. reflexivity.
Qed.
Lemma rho_through_isentropic_eval g q p : 1 < g -> positive_state q -> 0 < p ->
  rho_through_isentropic (obj g q) (Some p) = Some (isrho g q p).
Proof.
  intros Hg Hq H. unfold rho_through_isentropic. pose proof Hq as [Hr Hp].
  cbn [obj st_g st_p st_rho]; ncbn. rewrite !ndiv_Some by lra.
  assert (0 < p / f_p q) by pos. rewrite npow_Some by assumption. reflexivity.
Qed.
Lemma isrho_pos g q p : positive_state q -> 0 < isrho g q p.
Proof. intros [Hr Hp]; unfold isrho; pos. Qed.
(** sound speed along the isentrope *)
Lemma iso_sound g q p u : 1 < g -> positive_state q -> 0 < p ->
  flow_sound g (mkflow (isrho g q p) u p) = flow_sound g q * Rpower (p / f_p q) (1/2 * (g - 1) / g).
Proof.
  intros Hg Hq H. pose proof Hq as [Hr Hp]. assert (Hx : 0 < p / f_p q) by pos.
  unfold flow_sound; cbn [f_p f_rho].
  set (x := p / f_p q) in *.
  assert (E : g * p / isrho g q p = g * f_p q / f_rho q * Rpower x (1/2 * (g - 1) / g) ^ 2).
  { unfold isrho. fold x. replace p with (f_p q * x) by (unfold x; field; lra).
    rewrite <- (Rpower_pow 2) by apply Rpower_pos. rewrite Rpower_mult.
    replace (1/2 * (g - 1) / g * INR 2) with (1 - 1 / g) by (simpl; field; lra).
    unfold Rminus. rewrite Rpower_plus, Rpower_Ropp, Rpower_1 by assumption.
    pose proof (Rpower_pos x (1 / g)). field. repeat split; lra. }
  rewrite E. rewrite sqrt_mult by (pos || (left; pos)). f_equal. apply sqrt_sq. left; apply Rpower_pos.
Qed.

(*@P C35_simple_wave: For every pressure p > 0 and either direction s, the state with pressure p, density rho_through_isentropic(p) and velocity u + s delta_u_expansion(p) has the same entropy and the same Riemann invariant u - s 2a/(gamma-1) as the initial state. *)
Lemma simple_wave : forall g q p s, 1 < g -> positive_state q -> 0 < p -> s = 1 \/ s = -1 ->
  exists r1 du, rho_through_isentropic (obj g q) (Some p) = Some r1 /\ 0 < r1 /\
    delta_u_expansion (obj g q) (Some p) = Some du /\
    let q1 := mkflow r1 (f_u q + s * du) p in
    entropy_fn g q1 = entropy_fn g q /\ riemann_invariant s g q1 = riemann_invariant s g q.
Proof.
  intros g q p s Hg Hq H Hs. exists (isrho g q p), (exdu g q p).
  split; [now apply rho_through_isentropic_eval|]. split; [now apply isrho_pos|].
  split; [now apply delta_u_expansion_eval|]. cbv zeta. pose proof Hq as [Hr Hp].
  assert (Hx : 0 < p / f_p q) by pos. split.
  - unfold entropy_fn; cbn [f_p f_rho]. unfold isrho.
    rewrite Rpower_mult_base by (assumption || apply Rpower_pos). rewrite Rpower_mult.
    replace (1 / g * g) with 1 by (field; lra). rewrite Rpower_1 by assumption.
    pose proof (Rpower_pos (f_rho q) g). field. lra.
  - unfold riemann_invariant; cbn [f_u]. rewrite iso_sound by assumption. unfold exdu.
    field. lra.
Qed.

(*@E C35_example: the Mach 2 shock running at speed -2 into gas at rest (gamma = 1.4, rho = 1.4, p = 1) *)
Lemma C35_example_lemma :
  let q := mkflow (14/10) 0 1 in positive_state q /\ f_u q <> -2 /\
  rankinehugoniot_from_ushock (obj (14/10) q) (Some (-2)) = obj (14/10) (mkflow (14/10 * (8/3)) (-5/4) (9/2)).
Proof.
  cbv zeta. assert (Hq : positive_state (mkflow (14/10) 0 1)) by (split; cbn; lra).
  split; [exact Hq|]. split; [cbn; lra|].
  destruct (ushock_steady (14/10) (-2) (mkflow (14/10) 0 1)) as (q' & E1 & E2); [lra|exact Hq|cbn; lra|].
  rewrite E2. replace (galilean (- -2) (mkflow (14/10) 0 1)) with (mkflow (14/10) 2 1) in E1
    by (unfold galilean; cbn; f_equal; lra).
  rewrite (proj2 (proj2 C34_example_lemma)) in E1. unfold obj in *; cbn [f_rho f_u f_p] in *.
  injection E1 as A B C. destruct q' as [r1 u1 p1]; cbn [f_rho f_u f_p galilean] in *; subst.
  f_equal; f_equal; lra.
Qed.
