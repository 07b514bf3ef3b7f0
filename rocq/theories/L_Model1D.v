(** * C32, C33, C34: one-dimensional states *)
From Verif Require Import L_Num Spec NumSpec M_Isentropic M_ShockWave M_Model1D M_Unsteady1D L_Isentropic L_Shock.
Open Scope R_scope.

(** the state object holding the plain real values of [q], with the gas [g] *)
Definition obj (g : R) (q : flow) : state :=
  mk_state (Some g) (Some (f_rho q)) (Some (f_u q)) (Some (f_p q)).

Lemma asound_eval g q : 0 < g -> positive_state q -> asound (obj g q) = Some (flow_sound g q).
Proof.
  intros Hg [Hr Hp]; unfold asound, obj, flow_sound; cbn [st_g st_p st_rho]; ncbn.
  rewrite ndiv_Some by lra. rewrite nsqrt_Some; [reflexivity|pos].
Qed.
Lemma sound_pos g q : 0 < g -> positive_state q -> 0 < flow_sound g q.
Proof. intros Hg [Hr Hp]; unfold flow_sound; pos. Qed.
Lemma sound_sq g q : 0 < g -> positive_state q -> flow_sound g q ^ 2 = g * f_p q / f_rho q.
Proof. intros Hg [Hr Hp]; unfold flow_sound; apply sq_sqrt; pos. Qed.
Lemma Mach_eval g q : 0 < g -> positive_state q ->
  M_Model1D.Mach (obj g q) = Some (f_u q / flow_sound g q).
Proof.
  intros Hg Hq; unfold M_Model1D.Mach; rewrite asound_eval by assumption.
  pose proof (sound_pos g q Hg Hq). cbn [obj st_u]; now rewrite ndiv_Some by lra.
Qed.
Lemma rTtot_eval g q : 0 < g -> positive_state q ->
  rTtot (obj g q) = Some (f_p q / f_rho q + 1/2 * (g - 1) / g * f_u q ^ 2).
Proof.
  intros Hg [Hr Hp]; unfold rTtot; cbn [obj st_g st_rho st_u st_p]; ncbn.
  rewrite !ndiv_Some by lra; ncbn; reflexivity.
Qed.
Lemma Ptot_eval g q : 1 < g -> positive_state q ->
  Ptot (obj g q) = Some (f_p q * Rpower (tt g (f_u q / flow_sound g q)) (g / (g - 1))).
Proof.
  intros Hg Hq; unfold Ptot; rewrite Mach_eval by (assumption || lra).
  cbn [obj st_g st_p]; rewrite PtPs_eval by assumption; reflexivity.
Qed.
Lemma Some_inj {A} (x y : A) : Some x = Some y -> x = y.
Proof. congruence. Qed.
(** rTtot through the Mach number *)
Lemma rTt_tt g q : 1 < g -> positive_state q ->
  f_p q / f_rho q + 1/2 * (g - 1) / g * f_u q ^ 2 = f_p q / f_rho q * tt g (f_u q / flow_sound g q).
Proof.
  intros Hg Hq; pose proof (sound_pos g q ltac:(lra) Hq) as Ha.
  pose proof (sound_sq g q ltac:(lra) Hq) as H2. destruct Hq as [Hr Hp].
  unfold tt. replace ((f_u q / flow_sound g q) ^ 2) with (f_u q ^ 2 / flow_sound g q ^ 2) by (field; lra).
  rewrite H2. field. repeat split; lra.
Qed.

(*@P C33_consistency: Speed of sound, acoustic speeds, Mach number, mass flow, total pressure and total temperature of one state are mutually consistent: a^2 = gamma p / rho, left/right acoustic = u -/+ a, Mach a = u, massflow = rho u, Ptot = p PtPs_Mach(Mach), rTtot = (p/rho) TtTs_Mach(Mach) and rTtot is (gamma-1)/gamma times the total enthalpy. *)
Lemma state_consistency : forall g q, 1 < g -> positive_state q ->
  exists a M Pt rTt T P,
    asound (obj g q) = Some a /\ 0 < a /\ a ^ 2 = g * f_p q / f_rho q /\
    left_acoustic (obj g q) = Some (f_u q - a) /\ right_acoustic (obj g q) = Some (f_u q + a) /\
    M_Model1D.Mach (obj g q) = Some M /\ M * a = f_u q /\
    massflow (obj g q) = Some (mass_flux 0 q) /\
    PtPs_Mach (Some M) (Some g) = Some P /\ Ptot (obj g q) = Some Pt /\ Pt = f_p q * P /\
    TtTs_Mach (Some M) (Some g) = Some T /\ rTtot (obj g q) = Some rTt /\ rTt = f_p q / f_rho q * T /\
    rTt = (g - 1) / g * tot_enthalpy g q.
Proof.
  intros g q Hg Hq. pose proof (sound_pos g q ltac:(lra) Hq) as Ha.
  pose proof (sound_sq g q ltac:(lra) Hq) as H2.
  assert (Hs : nsqrt (ndiv (Some (g * f_p q)) (Some (f_rho q))) = Some (flow_sound g q)).
  { destruct Hq as [Hr Hp]; rewrite ndiv_Some by lra; apply nsqrt_Some; pos. }
  eexists _, _, _, _, _, _.
  split; [apply asound_eval; [lra|assumption]|]. split; [exact Ha|]. split; [exact H2|].
  split; [unfold left_acoustic; cbn [obj st_g st_p st_rho st_u]; ncbn; rewrite Hs; reflexivity|].
  split; [unfold right_acoustic; cbn [obj st_g st_p st_rho st_u]; ncbn; rewrite Hs; reflexivity|].
  split; [apply Mach_eval; [lra|assumption]|]. split; [field; lra|].
  split; [unfold massflow, mass_flux; cbn [obj st_rho st_u]; ncbn; f_equal; ring|].
  split; [apply PtPs_eval; lra|]. split; [apply Ptot_eval; assumption|]. split; [reflexivity|].
  split; [apply TtTs_eval|]. split; [apply rTtot_eval; [lra|assumption]|].
  split; [apply rTt_tt; assumption|].
  unfold tot_enthalpy; destruct Hq; field; lra.
Qed.

(** the values computed from total pressure, total rT and Mach *)
Definition tq (g pt rtt M : R) : flow :=
  let ps := pt / Rpower (tt g M) (g / (g - 1)) in
  let rts := rtt / tt g M in mkflow (ps / rts) (M * sqrt (g * rts)) ps.
Lemma tq_pos g pt rtt M : 1 < g -> 0 < pt -> 0 < rtt -> positive_state (tq g pt rtt M).
Proof.
  intros Hg H1 H2; pose proof (tt_pos g M Hg); unfold tq; split; cbn; pos.
Qed.
Lemma tq_sound g pt rtt M : 1 < g -> 0 < pt -> 0 < rtt ->
  flow_sound g (tq g pt rtt M) = sqrt (g * (rtt / tt g M)).
Proof.
  intros Hg H1 H2; pose proof (tt_pos g M Hg) as Ht. unfold flow_sound, tq; cbn [f_p f_rho].
  f_equal. set (E := Rpower (tt g M) (g / (g - 1))). assert (0 < E) by apply Rpower_pos.
  field. repeat split; lra.
Qed.
Lemma tq_Mach g pt rtt M : 1 < g -> 0 < pt -> 0 < rtt ->
  f_u (tq g pt rtt M) / flow_sound g (tq g pt rtt M) = M.
Proof.
  intros Hg H1 H2; rewrite tq_sound by assumption. cbn [tq f_u].
  pose proof (tt_pos g M Hg) as Ht.
  assert (0 < sqrt (g * (rtt / tt g M))) by pos. field; lra.
Qed.
Lemma tq_total g pt rtt M : 1 < g -> 0 < pt -> 0 < rtt ->
  M_Model1D.Mach (obj g (tq g pt rtt M)) = Some M /\
  Ptot (obj g (tq g pt rtt M)) = Some pt /\ rTtot (obj g (tq g pt rtt M)) = Some rtt.
Proof.
  intros Hg H1 H2. pose proof (tq_pos g pt rtt M Hg H1 H2) as Hq.
  pose proof (tt_pos g M Hg) as Ht. pose proof (Rpower_pos (tt g M) (g / (g - 1))).
  rewrite Mach_eval, Ptot_eval, rTtot_eval, rTt_tt by (assumption || lra).
  rewrite tq_Mach by assumption.
  split; [reflexivity|]; split; f_equal; unfold tq; cbn; field; lra.
Qed.
Lemma compute_M_eval g rho u p pt rtt M : 1 < g -> 0 < pt -> 0 < rtt ->
  let q := tq g pt rtt M in
  compute_from_pt_rtt_M (mk_state (Some g) rho u p) (Some pt) (Some rtt) (Some M)
  = mk_state dgamma (Some (f_rho q)) (Some (f_u q)) (Some (f_p q)).
Proof.
  intros Hg H1 H2 q. pose proof (tt_pos g M Hg) as Ht. pose proof (Rpower_pos (tt g M) (g / (g - 1))) as HE.
  unfold compute_from_pt_rtt_M, state_init; cbn [st_g].
  rewrite PtPs_eval, TtTs_eval by assumption. rewrite !(ndiv_Some) by lra.
  assert (0 < rtt / tt g M) by pos.
  rewrite ndiv_Some by lra. ncbn. rewrite nsqrt_Some by pos. ncbn. reflexivity.
Qed.

(*@P C33_from_Mach_partial: For every previous content of the object and every gas, compute_from_pt_rtt_M stores density, velocity and pressure which, for a state of that gas, have the requested Mach number, total pressure and total r T. The stored gamma however becomes 1.4 (see C32), so the methods of the object itself report the requested values only for gamma = 1.4: missing for every other gas, see C33_other_gas_refuted. *)
Lemma from_Mach : forall g rho u p pt rtt M, 1 < g -> 0 < pt -> 0 < rtt ->
  exists q, compute_from_pt_rtt_M (mk_state (Some g) rho u p) (Some pt) (Some rtt) (Some M)
      = mk_state dgamma (Some (f_rho q)) (Some (f_u q)) (Some (f_p q)) /\
    positive_state q /\
    M_Model1D.Mach (obj g q) = Some M /\ Ptot (obj g q) = Some pt /\ rTtot (obj g q) = Some rtt.
Proof.
  intros g rho u p pt rtt M Hg H1 H2; exists (tq g pt rtt M).
  split; [now apply compute_M_eval|]. split; [now apply tq_pos|]. now apply tq_total.
Qed.

(*@P C33_from_Mach_air: For gamma = 1.4 the object's own methods return the requested values. *)
Lemma from_Mach_air : forall rho u p pt rtt M, 0 < pt -> 0 < rtt ->
  let s := compute_from_pt_rtt_M (mk_state dgamma rho u p) (Some pt) (Some rtt) (Some M) in
  M_Model1D.Mach s = Some M /\ Ptot s = Some pt /\ rTtot s = Some rtt.
Proof.
  intros rho u p pt rtt M H1 H2 s.
  destruct (from_Mach (14/10) rho u p pt rtt M ltac:(lra) H1 H2) as (q & E & _ & H).
  subst s; unfold dgamma in *; rewrite E; exact H.
Qed.

(** velocity given *)
Lemma u_dom_a2 g rtt u : 1 < g -> 0 < rtt -> u ^ 2 < 2 * g / (g - 1) * rtt ->
  0 < g * rtt - 1/2 * (g - 1) * u ^ 2 /\ 0 < g / (g - 1) * rtt - 1/2 * u ^ 2.
Proof.
  intros Hg Hr Hu. replace (2 * g / (g - 1) * rtt) with (2 * (g / (g - 1) * rtt)) in Hu by (field; lra).
  assert (0 < g / (g - 1) * rtt - 1/2 * u ^ 2) by lra. split; [|assumption].
  replace (g * rtt - 1/2 * (g - 1) * u ^ 2) with ((g - 1) * (g / (g - 1) * rtt - 1/2 * u ^ 2)) by (field; lra).
  pos.
Qed.
Lemma from_u_eval g rho u0 p pt rtt u : 1 < g -> 0 < pt -> 0 < rtt -> u ^ 2 < 2 * g / (g - 1) * rtt ->
  let q := tq g pt rtt (u / sqrt (g * rtt - 1/2 * (g - 1) * u ^ 2)) in
  f_u q = u /\
  compute_from_pt_rtt_u (mk_state (Some g) rho u0 p) (Some pt) (Some rtt) (Some u)
  = mk_state dgamma (Some (f_rho q)) (Some u) (Some (f_p q)).
Proof.
  intros Hg H1 H2 Hu q. destruct (u_dom_a2 g rtt u Hg H2 Hu) as [Ha Hb].
  set (A := g * rtt - 1/2 * (g - 1) * u ^ 2) in *.
  set (B := g / (g - 1) * rtt - 1/2 * u ^ 2) in *.
  assert (EA : g * rtt = A + 1/2 * (g - 1) * u ^ 2) by (unfold A; ring).
  assert (EB : A = (g - 1) * B) by (unfold A, B; field; lra).
  assert (HsA : 0 < sqrt A) by pos. assert (HA2 : sqrt A ^ 2 = A) by (apply sq_sqrt; lra).
  assert (Ett : tt g (u / sqrt A) = g * rtt / A).
  { unfold tt. replace ((u / sqrt A) ^ 2) with (u ^ 2 / sqrt A ^ 2) by (field; lra).
    rewrite HA2, EA. field. lra. }
  assert (Er : g * (rtt / tt g (u / sqrt A)) = A) by (rewrite Ett; field; repeat split; lra).
  assert (Eb : 1 + 1/2 * u ^ 2 / B = tt g (u / sqrt A)).
  { rewrite Ett, EA, EB. field. lra. }
  assert (Hq : f_u q = u).
  { unfold q, tq; cbn [f_u]. rewrite Er. field; lra. }
  split; [exact Hq|].
  unfold compute_from_pt_rtt_u, state_init; cbn [st_g]; ncbn. rewrite (ndiv_Some g) by lra. ncbn.
  fold B. rewrite (ndiv_Some (1/2 * u ^ 2)) by lra. ncbn. rewrite Eb.
  rewrite npow_Some by (apply tt_pos; lra).
  rewrite (ndiv_Some pt) by (apply pos_nz, Rpower_pos). ncbn. fold A. rewrite ndiv_Some by lra.
  f_equal. f_equal. unfold q, tq; cbn [f_rho].
  pose proof (Rpower_pos (tt g (u / sqrt A)) (g / (g - 1))) as HP.
  set (P := Rpower (tt g (u / sqrt A)) (g / (g - 1))) in *. clearbody P. rewrite Ett.
  field. repeat split; lra.
Qed.

(*@P C33_from_velocity_partial: For every velocity below the limit velocity, compute_from_pt_rtt_u stores that velocity with a density and pressure which, for a state of the object's gas, have the requested total pressure and total r T. The stored gamma becomes 1.4: missing for every other gas. *)
Lemma from_velocity : forall g rho u0 p pt rtt u, 1 < g -> 0 < pt -> 0 < rtt ->
  u ^ 2 < 2 * g / (g - 1) * rtt ->
  exists q, compute_from_pt_rtt_u (mk_state (Some g) rho u0 p) (Some pt) (Some rtt) (Some u)
      = mk_state dgamma (Some (f_rho q)) (Some (f_u q)) (Some (f_p q)) /\
    positive_state q /\ f_u q = u /\ Ptot (obj g q) = Some pt /\ rTtot (obj g q) = Some rtt.
Proof.
  intros g rho u0 p pt rtt u Hg H1 H2 Hu.
  destruct (from_u_eval g rho u0 p pt rtt u Hg H1 H2 Hu) as [E1 E2].
  eexists; split; [rewrite E2; rewrite <- E1 at 3; reflexivity|].
  split; [now apply tq_pos|]. split; [exact E1|].
  destruct (tq_total g pt rtt (u / sqrt (g * rtt - 1/2 * (g - 1) * u ^ 2)) Hg H1 H2) as (_ & A & B).
  split; assumption.
Qed.

(*@P C33_from_pressure_partial: For every pressure up to the total pressure, compute_from_pt_rtt_p stores that pressure with a non-negative velocity and a density which, for a state of the object's gas, have the requested total pressure and total r T. The stored gamma becomes 1.4: missing for every other gas. *)
Lemma from_pressure : forall g rho u p0 pt rtt p, 1 < g -> 0 < p <= pt -> 0 < rtt ->
  exists q, compute_from_pt_rtt_p (mk_state (Some g) rho u p0) (Some pt) (Some rtt) (Some p)
      = mk_state dgamma (Some (f_rho q)) (Some (f_u q)) (Some (f_p q)) /\
    positive_state q /\ f_p q = p /\ 0 <= f_u q /\ Ptot (obj g q) = Some pt /\ rTtot (obj g q) = Some rtt.
Proof.
  intros g rho u p0 pt rtt p Hg Hp H2.
  assert (Hq : 1 <= pt / p) by (apply (Rle_div_r 1 pt p); lra).
  set (M := sqrt ((Rpower (pt / p) ((g - 1) / g) - 1) * 2 / (g - 1))).
  assert (EM : Mach_PtPs (Some (pt / p)) (Some g) = Some M) by now apply Mach_PtPs_eval.
  assert (Hge : 1 <= Rpower (pt / p) ((g - 1) / g)) by (apply Rpower_ge_1; [assumption|now apply exp_pos_gi]).
  assert (Ht : tt g M = Rpower (pt / p) ((g - 1) / g)).
  { unfold tt, M. rewrite sq_sqrt by pos. field; lra. }
  assert (HR : Rpower (tt g M) (g / (g - 1)) = pt / p).
  { rewrite Ht. apply Rpower_inv_exp; [lra|now apply gi_inv]. }
  assert (E : tq g pt rtt M = mkflow (p / (rtt / tt g M)) (M * sqrt (g * (rtt / tt g M))) p).
  { unfold tq; rewrite HR. f_equal; field; repeat split; try lra; pose proof (tt_pos g M Hg); lra. }
  exists (tq g pt rtt M). split.
  - rewrite E; cbn [f_rho f_u f_p]. unfold compute_from_pt_rtt_p, state_init; cbn [st_g].
    rewrite ndiv_Some by lra. rewrite EM, TtTs_eval. pose proof (tt_pos g M Hg).
    rewrite (ndiv_Some rtt) by lra. assert (0 < rtt / tt g M) by pos.
    rewrite ndiv_Some by lra. ncbn. rewrite nsqrt_Some by pos. reflexivity.
  - split; [apply tq_pos; lra|]. split; [rewrite E; reflexivity|].
    split; [rewrite E; cbn [f_u]; unfold M; pos|].
    destruct (tq_total g pt rtt M Hg ltac:(lra) H2) as (_ & A & B); split; assumption.
Qed.

(*@P C33_from_velocity_pressure_air: For gamma = 1.4 the object's own methods return the requested totals after compute_from_pt_rtt_u and _p. *)
Lemma from_up_air : forall rho u0 p0 pt rtt, 0 < pt -> 0 < rtt ->
  (forall u, u ^ 2 < 7 * rtt ->
     let s := compute_from_pt_rtt_u (mk_state dgamma rho u0 p0) (Some pt) (Some rtt) (Some u) in
     st_u s = Some u /\ Ptot s = Some pt /\ rTtot s = Some rtt) /\
  (forall p, 0 < p <= pt ->
     let s := compute_from_pt_rtt_p (mk_state dgamma rho u0 p0) (Some pt) (Some rtt) (Some p) in
     st_p s = Some p /\ Ptot s = Some pt /\ rTtot s = Some rtt).
Proof.
  intros rho u0 p0 pt rtt H1 H2; split.
  - intros u Hu s. destruct (from_velocity (14/10) rho u0 p0 pt rtt u) as (q & E & _ & Eu & A & B); try lra.
    subst s; unfold dgamma in *; rewrite E; cbn [st_u]; rewrite Eu. split; [reflexivity|].
    rewrite Eu in *. unfold obj in A, B; rewrite Eu in A, B. split; assumption.
  - intros p Hp s. destruct (from_pressure (14/10) rho u0 p0 pt rtt p) as (q & E & _ & Ep & _ & A & B); try lra.
    subst s; unfold dgamma in *; rewrite E; cbn [st_p]; rewrite Ep. split; [reflexivity|].
    unfold obj in A, B; rewrite Ep in A, B. split; assumption.
Qed.

(*@P C33_other_gas_refuted: For every gas other than gamma = 1.4 and every nonzero Mach number, the object returned by compute_from_pt_rtt_M does not report the requested total r T. *)
Lemma other_gas_refuted : forall g rho u p pt rtt M, 1 < g -> g <> 14/10 -> 0 < pt -> 0 < rtt -> M <> 0 ->
  rTtot (compute_from_pt_rtt_M (mk_state (Some g) rho u p) (Some pt) (Some rtt) (Some M)) <> Some rtt.
Proof.
  intros g rho u p pt rtt M Hg Hne H1 H2 HM. rewrite compute_M_eval by assumption.
  set (q := tq g pt rtt M). pose proof (tq_pos g pt rtt M Hg H1 H2) as Hq. fold q in Hq.
  change (mk_state dgamma (Some (f_rho q)) (Some (f_u q)) (Some (f_p q))) with (obj (14/10) q).
  destruct (tq_total g pt rtt M Hg H1 H2) as (_ & _ & B). fold q in B.
  rewrite rTtot_eval in * by (assumption || lra). apply Some_inj in B. intros F; apply Some_inj in F.
  assert (Hu : f_u q ^ 2 <> 0).
  { apply pow_nonzero. unfold q, tq; cbn [f_u]. pose proof (tt_pos g M Hg).
    assert (0 < sqrt (g * (rtt / tt g M))) by pos. intros Z; apply Rmult_integral in Z; lra. }
  assert (Z : (1/2 * (g - 1) / g - 1/2 * (14/10 - 1) / (14/10)) * f_u q ^ 2 = 0) by lra.
  apply Rmult_integral in Z; destruct Z as [Z|Z]; [|lra].
  apply Hne. assert (Z2 : (g - 1) / g = 2/7) by lra.
  apply (f_equal (fun z => z * g)) in Z2. replace ((g - 1) / g * g) with (g - 1) in Z2 by (field; lra). lra.
Qed.

(*@P C33_isentropic_Mach_partial: state_isentropic_Mach returns density, velocity and pressure which, for a state of the object's gas, have the requested Mach number and the original total r T, but whose total pressure is the original total r T (a temperature!) instead of the original total pressure. *)
Lemma isentropic_Mach : forall g q M, 1 < g -> positive_state q ->
  exists q' T, rTtot (obj g q) = Some T /\
    state_isentropic_Mach (obj g q) (Some M)
      = mk_state dgamma (Some (f_rho q')) (Some (f_u q')) (Some (f_p q')) /\
    M_Model1D.Mach (obj g q') = Some M /\ rTtot (obj g q') = Some T /\ Ptot (obj g q') = Some T.
Proof.
  intros g q M Hg Hq. set (T := f_p q / f_rho q + 1/2 * (g - 1) / g * f_u q ^ 2).
  assert (ET : rTtot (obj g q) = Some T) by (apply rTtot_eval; [lra|assumption]).
  assert (HT : 0 < T).
  { unfold T; destruct Hq as [Hr Hp]. assert (0 < f_p q / f_rho q) by pos.
    assert (0 <= 1/2 * (g - 1) / g * f_u q ^ 2) by pos. lra. }
  exists (tq g T T M), T. split; [exact ET|]. split.
  - unfold state_isentropic_Mach; rewrite ET.
    exact (compute_M_eval g (Some 0) (Some 0) (Some 0) T T M Hg HT HT).
  - destruct (tq_total g T T M Hg HT HT) as (A & B & C); auto.
Qed.

(*@P C33_isentropic_Mach_refuted: Air at rest with p = 100000 and rho = 1.2: the state returned for Mach 1/2 does not have the original total pressure. *)
Lemma isentropic_Mach_refuted :
  let q := obj (14/10) (mkflow (12/10) 0 100000) in
  Ptot q = Some 100000 /\ exists P, Ptot (state_isentropic_Mach q (Some (1/2))) = Some P /\ P <> 100000.
Proof.
  cbv zeta. assert (Hq : positive_state (mkflow (12/10) 0 100000)) by (split; cbn; lra).
  split.
  - rewrite Ptot_eval by (assumption || lra). cbn [f_u f_p]. f_equal.
    replace (0 / flow_sound (14/10) (mkflow (12/10) 0 100000)) with 0 by (unfold Rdiv; ring).
    replace (tt (14/10) 0) with 1 by (unfold tt; lra). rewrite Rpower_one; lra.
  - destruct (isentropic_Mach (14/10) (mkflow (12/10) 0 100000) (1/2) ltac:(lra) Hq) as (q' & T & A & B & _ & _ & C).
    exists T. rewrite B. split; [exact C|].
    rewrite rTtot_eval in A by (assumption || lra). cbn in A. injection A as A. lra.
Qed.

(*@E C33_example: pt = 1, rtt = 1, M = 0, and a velocity and a pressure in range *)
Lemma C33_example_lemma : (1/2) ^ 2 < 7 * 1 /\ 0 < 1/2 <= 1 /\
  compute_from_pt_rtt_M (mk_state dgamma (Some 5) (Some 5) (Some 5)) (Some 1) (Some 1) (Some 0)
  = mk_state dgamma (Some 1) (Some 0) (Some 1).
Proof.
  split; [lra|]. split; [lra|].
  unfold dgamma. rewrite compute_M_eval by lra. unfold tq; cbn [f_rho f_u f_p].
  replace (tt (14/10) 0) with 1 by (unfold tt; lra). rewrite Rpower_one.
  unfold dgamma; f_equal; f_equal; lra.
Qed.

(** ** C32 *)
(*@P C32_kept_partial: copy, state_RH, copysymmetric and the moving-shock jump keep the gas of the state, for every state whatsoever. Missing: the operations listed in C32_lost_refuted. *)
Lemma gas_kept : forall q w,
  st_g (state_copy q) = st_g q /\ state_copy q = q /\ uq_copy q = q /\ st_g (state_RH q) = st_g q /\
  st_g (copysymmetric q) = st_g q /\ st_g (rankinehugoniot_from_ushock q w) = st_g q.
Proof. intros [g r u p] w; repeat split; reflexivity. Qed.
(*@P C32_lost_refuted: Indexing an array state, the three compute_from_pt_rtt functions and state_isentropic_Mach produce a state with gamma = 1.4 whatever the gas of the object. *)
Lemma gas_lost : forall q pt rtt x (a : array_state) i e,
  st_g (state_isentropic_Mach q x) = Some (14/10) /\
  st_g (compute_from_pt_rtt_M q pt rtt x) = Some (14/10) /\
  st_g (compute_from_pt_rtt_u q pt rtt x) = Some (14/10) /\
  st_g (compute_from_pt_rtt_p q pt rtt x) = Some (14/10) /\
  (getitem a i = Some e -> st_g e = Some (14/10)).
Proof.
  intros q pt rtt x a i e; repeat (split; [reflexivity|]).
  unfold getitem. destruct (nth_error (as_rho a) i), (nth_error (as_u a) i), (nth_error (as_p a) i);
    try discriminate. intros E; injection E as <-; reflexivity.
Qed.
(*@P C32_getitem_values_partial: Indexing does return the density, velocity and pressure at that index; it raises exactly outside the range. *)
Lemma getitem_values : forall g rho u p i, length u = length rho -> length p = length rho ->
  (forall e, getitem (mk_astate g rho u p) i = Some e ->
     nth_error rho i = Some (st_rho e) /\ nth_error u i = Some (st_u e) /\ nth_error p i = Some (st_p e)) /\
  (getitem (mk_astate g rho u p) i = None <-> (length rho <= i)%nat).
Proof.
  intros g rho u p i Hu Hp. unfold getitem; cbn [as_rho as_u as_p as_g].
  destruct (nth_error rho i) eqn:E1, (nth_error u i) eqn:E2, (nth_error p i) eqn:E3; split;
  try (intros e E; injection E as <-; cbn; auto); try discriminate.
  all: try (split; [discriminate|]; intros H; apply nth_error_None in H; congruence).
  all: rewrite <- ?nth_error_None; rewrite ?E1.
  all: try (split; intros; try reflexivity; try discriminate).
  all: try (apply nth_error_None in E2; assert (nth_error rho i = None) by (apply nth_error_None; lia); congruence).
  all: try (apply nth_error_None in E3; assert (nth_error rho i = None) by (apply nth_error_None; lia); congruence).
Qed.
(*@E C32_example: helium-like gas: indexing turns 5/3 into 1.4 *)
Lemma C32_example_lemma :
  let a := mk_astate (Some (5/3)) (cons (Some 1) nil) (cons (Some 2) nil) (cons (Some 3) nil) in
  getitem a 0 = Some (mk_state (Some (14/10)) (Some 1) (Some 2) (Some 3)) /\ as_g a = Some (5/3).
Proof. split; reflexivity. Qed.

(** ** C34 *)
Lemma state_RH_eval g q : 1 < g -> positive_state q -> f_u q <> 0 ->
  let M := f_u q / flow_sound g q in
  state_RH (obj g q) = obj g (mkflow (f_rho q * rhor g M) (f_u q / rhor g M) (f_p q * psr g M)) /\
  0 < rhor g M.
Proof.
  intros Hg Hq Hu M. pose proof (sound_pos g q ltac:(lra) Hq) as Ha.
  assert (HM : M <> 0).
  { unfold M, Rdiv; intros Z; apply Rmult_integral in Z; destruct Z as [Z|Z]; [lra|].
    apply (Rinv_neq_0_compat (flow_sound g q)); lra. }
  pose proof (rhor_pos g M Hg HM) as HR. split; [|exact HR].
  unfold state_RH, state_init. rewrite Mach_eval by (assumption || lra). fold M.
  cbn [obj st_g st_rho st_u st_p]. rewrite Rho_eval, Ps_eval by assumption.
  ncbn. rewrite ndiv_Some by lra. reflexivity.
Qed.

(*@P C34_conserves: For every moving state of every gas, state_RH returns a state of the same gas satisfying the Rankine-Hugoniot relations across a steady front. *)
Lemma state_RH_conserves : forall g q, 1 < g -> positive_state q -> f_u q <> 0 ->
  exists q', state_RH (obj g q) = obj g q' /\ 0 < f_rho q' /\ rankine_hugoniot g 0 q q'.
Proof.
  intros g q Hg Hq Hu. destruct (state_RH_eval g q Hg Hq Hu) as [E HR].
  pose proof (sound_pos g q ltac:(lra) Hq) as Ha. pose proof (sound_sq g q ltac:(lra) Hq) as H2.
  eexists; split; [exact E|]. set (M := f_u q / flow_sound g q) in *.
  destruct Hq as [Hr Hp]. cbn [f_rho]. split; [pos|].
  assert (EM : M ^ 2 = f_u q ^ 2 * f_rho q / (g * f_p q)).
  { unfold M. replace ((f_u q / flow_sound g q) ^ 2) with (f_u q ^ 2 / flow_sound g q ^ 2) by (field; lra).
    rewrite H2. field; repeat split; lra. }
  assert (Hu2 : 0 < f_u q ^ 2) by (apply sq_pos; exact Hu).
  pose proof (rden_pos g M Hg) as HD.
  unfold rankine_hugoniot, mass_flux, momentum_flux, frame_enthalpy; cbn [f_rho f_u f_p].
  unfold rhor, psr in *. rewrite EM in *. rewrite !Rminus_0_r.
  assert (HD2 : 0 < 2 * (g * f_p q) + (g - 1) * (f_u q ^ 2 * f_rho q)) by pos.
  assert (Hu1 : 0 < f_u q ^ 2 * f_rho q) by pos.
  repeat split; field; repeat split; try lra; try nra.
Qed.

(*@P C34_involution: Applied twice, state_RH gives back the original state exactly, for every state with M^2 > (gamma-1)/(2 gamma) (that is, whenever the downstream pressure is positive). *)
Lemma state_RH_involution : forall g q, 1 < g -> positive_state q ->
  (g - 1) / (2 * g) < f_u q ^ 2 / (g * f_p q / f_rho q) ->
  state_RH (state_RH (obj g q)) = obj g q.
Proof.
  intros g q Hg Hq HM2. pose proof (sound_pos g q ltac:(lra) Hq) as Ha.
  pose proof (sound_sq g q ltac:(lra) Hq) as H2. pose proof Hq as [Hr Hp].
  set (M := f_u q / flow_sound g q).
  assert (EM : M ^ 2 = f_u q ^ 2 / (g * f_p q / f_rho q)).
  { unfold M. replace ((f_u q / flow_sound g q) ^ 2) with (f_u q ^ 2 / flow_sound g q ^ 2) by (field; lra).
    now rewrite H2. }
  assert (Hd : sdom g M) by (unfold sdom; rewrite EM; exact HM2).
  assert (HM : M <> 0) by now apply (sdom_nz g M).
  assert (Hu : f_u q <> 0).
  { intros Z; apply HM; unfold M; rewrite Z; unfold Rdiv; ring. }
  destruct (state_RH_eval g q Hg Hq Hu) as [E HR]. fold M in E, HR. rewrite E.
  set (q1 := mkflow (f_rho q * rhor g M) (f_u q / rhor g M) (f_p q * psr g M)).
  pose proof (psr_pos g M Hg Hd) as HP.
  assert (Hq1 : positive_state q1) by (split; cbn; pos).
  assert (Hu1 : f_u q1 <> 0).
  { cbn. unfold Rdiv; intros Z; apply Rmult_integral in Z; destruct Z as [Z|Z]; [lra|].
    apply (Rinv_neq_0_compat (rhor g M)); lra. }
  destruct (state_RH_eval g q1 Hg Hq1 Hu1) as [E1 HR1]. rewrite E1.
  set (M1 := f_u q1 / flow_sound g q1) in *.
  pose proof (sound_pos g q1 ltac:(lra) Hq1) as Ha1. pose proof (sound_sq g q1 ltac:(lra) Hq1) as H21.
  pose proof (sdom_den g M Hg Hd) as HDd. pose proof (rden_pos g M Hg) as HD.
  assert (HM2p : 0 < M ^ 2) by (apply sq_pos; exact HM).
  assert (EM1 : M1 ^ 2 = md2 g M).
  { unfold M1. replace ((f_u q1 / flow_sound g q1) ^ 2) with (f_u q1 ^ 2 / flow_sound g q1 ^ 2) by (field; lra).
    rewrite H21. unfold q1; cbn [f_rho f_u f_p].
    replace (f_u q) with (M * flow_sound g q) by (unfold M; field; lra).
    replace ((M * flow_sound g q / rhor g M) ^ 2) with (M ^ 2 * flow_sound g q ^ 2 / rhor g M ^ 2) by (field; lra).
    rewrite H2. rewrite psr_alt by assumption. unfold rhor, md2, tt. field. repeat split; try lra; try nra. }
  assert (ER : rhor g M * rhor g M1 = 1).
  { unfold rhor. rewrite EM1. unfold md2, tt. field. repeat split; try lra; try nra. }
  assert (EP : psr g M * psr g M1 = 1).
  { rewrite psr_alt by assumption. rewrite (psr_alt g M1) by assumption. rewrite EM1.
    unfold md2, tt. field. repeat split; try lra; try nra. }
  unfold q1; cbn [f_rho f_u f_p]. unfold obj; destruct q as [r u p]; cbn [f_rho f_u f_p] in *.
  f_equal; f_equal.
  - rewrite Rmult_assoc, ER; ring.
  - replace (u / rhor g M / rhor g M1) with (u / (rhor g M * rhor g M1)) by (field; lra). rewrite ER; field.
  - rewrite Rmult_assoc, EP; ring.
Qed.

(*@P C34_domain: The hypothesis is needed: at or below the limit Mach number the returned pressure is not positive. *)
Lemma state_RH_domain : forall g q, 1 < g -> positive_state q -> f_u q <> 0 ->
  f_u q ^ 2 / (g * f_p q / f_rho q) <= (g - 1) / (2 * g) ->
  exists q', state_RH (obj g q) = obj g q' /\ f_p q' <= 0.
Proof.
  intros g q Hg Hq Hu H. destruct (state_RH_eval g q Hg Hq Hu) as [E _].
  pose proof (sound_pos g q ltac:(lra) Hq) as Ha. pose proof (sound_sq g q ltac:(lra) Hq) as H2.
  eexists; split; [exact E|]. cbn [f_p]. destruct Hq as [Hr Hp].
  rewrite psr_alt by assumption.
  replace ((f_u q / flow_sound g q) ^ 2) with (f_u q ^ 2 / flow_sound g q ^ 2) by (field; lra). rewrite H2.
  set (m := f_u q ^ 2 / (g * f_p q / f_rho q)) in *.
  assert (g * m <= (g - 1) / 2).
  { apply (Rmult_le_compat_l g) in H; [|lra]. replace (g * ((g - 1) / (2 * g))) with ((g - 1) / 2) in H by (field; lra). lra. }
  assert (Hc : 0 < f_p q * (2 / (g + 1))) by pos. rewrite <- Rmult_assoc.
  set (c := f_p q * (2 / (g + 1))) in *. clearbody c m. nra.
Qed.

(*@E C34_example: a Mach 2 state with gamma = 1.4, rho = 1.4, p = 1 (a = 1) *)
Lemma C34_example_lemma :
  let q := mkflow (14/10) 2 1 in positive_state q /\
  (14/10 - 1) / (2 * (14/10)) < f_u q ^ 2 / ((14/10) * f_p q / f_rho q) /\
  state_RH (obj (14/10) q) = obj (14/10) (mkflow (14/10 * (8/3)) (3/4) (9/2)).
Proof.
  cbv zeta. assert (Hq : positive_state (mkflow (14/10) 2 1)) by (split; cbn; lra).
  split; [exact Hq|]. split; [cbn; lra|].
  destruct (state_RH_eval (14/10) (mkflow (14/10) 2 1)) as [E _]; [lra|exact Hq|cbn; lra|].
  rewrite E. assert (Ha : flow_sound (14/10) (mkflow (14/10) 2 1) = 1).
  { unfold flow_sound; cbn [f_p f_rho]. replace (14/10 * 1 / (14/10)) with 1 by lra. apply sqrt_1. }
  rewrite Ha. cbn [f_u f_p f_rho]. unfold obj; cbn [f_u f_p f_rho].
  f_equal; f_equal; unfold rhor, psr; lra.
Qed.
