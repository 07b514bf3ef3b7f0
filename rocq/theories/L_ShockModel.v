(** * examples/stability/shock.py: the flow between a shock and a wall *)
From Coq Require Import String.
From Verif Require Import Num L_Num Spec M_Isentropic M_ShockWave M_Model1D M_Spectral M_Euler M_ShockModel PolySpec EulerSpec L_Isentropic L_Shock L_Poly L_Spectral L_Spectral2 L_Spectral3 L_Euler1 L_Euler2 L_Euler3 L_Euler4 L_Model1D.
Open Scope R_scope.

(** ** checks of the linearised ratios *)
(*@P C93_checks: The two printed checks: at every upstream Mach number M0 > 0 and for every relative step eps > 0, the difference quotient of the pressure ratio is the printed derivative times 1 + eps/2 exactly, and that of the density ratio lies between the printed derivative times (1 + eps/2)/(1 + eps)^2 and times 1 + eps/2: both differ from the derivative by a term of order eps. *)
Lemma checks : forall M0 eps, 0 < M0 -> 0 < eps ->
  (exists d, snd (shock_check_p (Some M0) (Some eps)) = Some d /\
     is_derive (fun M => 1 + 2 * (14/10) / (14/10 + 1) * (M ^ 2 - 1)) M0 d /\
     fst (shock_check_p (Some M0) (Some eps)) = Some (d * (1 + eps / 2))) /\
  (exists d k, snd (shock_check_rho (Some M0) (Some eps)) = Some d /\ 0 < d /\
     is_derive (fun M => (14/10 + 1) * M ^ 2 / (2 + (14/10 - 1) * M ^ 2)) M0 d /\
     fst (shock_check_rho (Some M0) (Some eps)) = Some k /\
     d * (1 + eps / 2) / (1 + eps) ^ 2 < k < d * (1 + eps / 2)).
Proof.
  intros M e HM He. assert (Hd1 : 1 < 14/10) by lra.
  assert (HeM : 0 < e * M) by pos. split.
  - eexists. unfold shock_check_p; cbn [fst snd]. unfold dgamma. ncbn. rewrite !Ps_eval by assumption. ncbn.
    rewrite !ndiv_Some by lra. ncbn. split; [reflexivity|]. split.
    + auto_derive; [trivial|]. field.
    + f_equal. unfold psr. field. lra.
  - unfold shock_check_rho; cbn [fst snd]. unfold dgamma. ncbn. rewrite !Rho_eval by assumption. ncbn.
    unfold npowi. rewrite !ndiv_Some by (try apply pow_nonzero; lra). ncbn. rewrite !ndiv_Some by (try apply pow_nonzero; lra).
    pose proof (rden_pos (14/10) M Hd1) as HD. pose proof (rden_pos (14/10) (M * (1 + e)) Hd1) as HD'.
    eexists _, _. split; [reflexivity|]. split; [|split; [|split; [reflexivity|]]].
    + unfold rhor. pos.
    + auto_derive; [cbn [pow] in HD; lra|]. unfold rhor. field. split; lra.
    + set (d := 4 / (14/10 + 1) * rhor (14/10) M ^ 2 / M ^ 3).
      set (D := 2 + (14/10 - 1) * M ^ 2) in *. set (D' := 2 + (14/10 - 1) * (M * (1 + e)) ^ 2) in *.
      assert (Hd : 0 < d) by (unfold d, rhor; fold D; pos).
      assert (E : (rhor (14/10) (M * (1 + e)) - rhor (14/10) M) / (e * M) = d * (1 + e / 2) * (D / D')).
      { unfold d, rhor. fold D D'. replace ((14/10 + 1) * (M * (1 + e)) ^ 2 / D' - (14/10 + 1) * M ^ 2 / D) with (2 * (14/10 + 1) * M ^ 2 * (e * (2 + e)) / (D * D')).
        - field. repeat split; lra.
        - unfold D, D'. field. unfold D, D' in HD, HD'. clear - HD HD'. split; try lra. }
      rewrite E. assert (HDD : D < D').
      { unfold D, D'. assert (0 < M ^ 2) by pos. assert (M ^ 2 < (M * (1 + e)) ^ 2); [|lra].
        rewrite Rpow_mult_distr. rewrite <- (Rmult_1_r (M ^ 2)) at 1. apply Rmult_lt_compat_l; [assumption|]. nra. }
      assert (HDe : D' < (1 + e) ^ 2 * D).
      { unfold D, D'. rewrite Rpow_mult_distr. assert (1 < (1 + e) ^ 2) by nra. nra. }
      assert (0 < d * (1 + e / 2)) by pos. assert (0 < (1 + e) ^ 2) by pos. split.
      * unfold Rdiv at 1. apply Rmult_lt_compat_l; [assumption|].
        apply (Rmult_lt_reg_r (D' * (1 + e) ^ 2)); [pos|]. replace (/ (1 + e) ^ 2 * (D' * (1 + e) ^ 2)) with D' by (field; lra).
        replace (D / D' * (D' * (1 + e) ^ 2)) with ((1 + e) ^ 2 * D) by (field; lra). exact HDe.
      * rewrite <- (Rmult_1_r (d * (1 + e / 2))) at 2. apply Rmult_lt_compat_l; [assumption|].
        apply (Rmult_lt_reg_r D'); [assumption|]. replace (D / D' * D') with D by (field; lra). lra.
Qed.

(** ** the base flow *)
Lemma tq_energy g pt rtt M : 1 < g -> 0 < pt -> 0 < rtt ->
  tot_enthalpy g (tq g pt rtt M) = g / (g - 1) * rtt.
Proof.
  intros Hg H1 H2. pose proof (tt_pos g M Hg) as Ht. unfold tot_enthalpy, tq; cbn [f_p f_rho f_u].
  pose proof (Rpower_pos (tt g M) (g / (g - 1))) as HP. set (P := Rpower (tt g M) (g / (g - 1))) in *. clearbody P.
  rewrite Rpow_mult_distr. rewrite sq_sqrt by pos.
  replace (pt / P / (pt / P / (rtt / tt g M))) with (rtt / tt g M) by (field; repeat split; lra).
  replace (g / (g - 1) * (rtt / tt g M) + M ^ 2 * (g * (rtt / tt g M)) / 2) with (g / (g - 1) * (rtt / tt g M) * tt g M).
  - field; lra.
  - unfold tt at 2. field; lra.
Qed.
Lemma tq_entropy g pt rtt M : 1 < g -> 0 < pt -> 0 < rtt ->
  entropy_fn g (tq g pt rtt M) = entropy_fn g (mkflow (pt / rtt) 0 pt).
Proof.
  intros Hg H1 H2. pose proof (tt_pos g M Hg) as Ht. unfold entropy_fn, tq; cbn [f_p f_rho].
  set (T := tt g M) in *. set (a := g / (g - 1)). pose proof (Rpower_pos T a) as HP.
  assert (E : pt / Rpower T a / (rtt / T) = pt / rtt * Rpower T (1 - a)).
  { unfold Rminus. rewrite Rpower_plus, Rpower_Ropp, Rpower_1 by assumption. field. repeat split; lra. }
  rewrite E. rewrite <- Rpower_mult_distr by (pos || apply Rpower_pos).
  rewrite Rpower_mult. replace ((1 - a) * g) with (- a) by (unfold a; field; lra). rewrite Rpower_Ropp.
  pose proof (Rpower_pos (pt / rtt) g). field. repeat split; lra.
Qed.

Lemma nodes_real n L : (2 <= n)%nat -> 0 < L -> exists x : nat -> R,
  (forall i, (i < n)%nat -> cheb_x n (Some 0) (Some L) i = Some (x i)) /\ x 0%nat = 0 /\ x (n - 1)%nat = L /\
  (forall i j, (i < j)%nat -> (j < n)%nat -> x i < x j).
Proof.
  intros Hn HL. destruct (cheb_real n 0 L nil 1 Hn HL ltac:(lia)) as (_ & _ & x & _ & _ & _ & _ & Hx & _).
  exists x. destruct (x_nodes n 0 L Hn HL) as (X0 & X1 & X). cbn [cheb_init cb_xmin cb_xmax] in X0, X1, X.
  rewrite Hx in X0, X1 by lia. injection X0 as X0. injection X1 as X1.
  split; [exact Hx|]. split; [exact X0|]. split; [exact X1|]. intros i j Hij Hj.
  destruct (X i j Hij Hj) as (a & b & Ea & Eb & Hab & _). rewrite Hx in Ea, Eb by lia. injection Ea as Ea. injection Eb as Eb. lra.
Qed.
Definition sm_u (m L : R) (x : nat -> R) (i : nat) : R := m * sqrt (14/10 * 1 * 83500 / tt (14/10) m) * (x i - L) / (0 - L).
Definition sm_q (m L : R) (x : nat -> R) (i : nat) : flow :=
  tq (14/10) 180000 83500 (sm_u m L x i / sqrt (14/10 * 83500 - 1/2 * (14/10 - 1) * sm_u m L x i ^ 2)).
Lemma sm_below m L x i : 0 < L -> 0 <= x i <= L -> sm_u m L x i ^ 2 < 2 * (14/10) / (14/10 - 1) * 83500.
Proof.
  intros HL Hx. pose proof (tt_pos (14/10) m ltac:(lra)) as Ht. unfold sm_u.
  set (s := sqrt (14/10 * 1 * 83500 / tt (14/10) m)).
  assert (Es : s ^ 2 = 14/10 * 1 * 83500 / tt (14/10) m) by (apply sq_sqrt; pos).
  replace (m * s * (x i - L) / (0 - L)) with (m * s * ((L - x i) / L)) by (field; lra).
  set (k := (L - x i) / L). assert (Hk : 0 <= k <= 1).
  { unfold k. split.
    - apply Rmult_le_pos; [lra|left; apply Rinv_0_lt_compat; lra].
    - apply (Rmult_le_reg_r L); [lra|]. replace ((L - x i) / L * L) with (L - x i) by (field; lra). lra. }
  assert (k ^ 2 <= 1) by nra. assert (0 <= k ^ 2) by nra. clearbody k.
  replace ((m * s * k) ^ 2) with (m ^ 2 * s ^ 2 * k ^ 2) by ring. rewrite Es.
  assert (m ^ 2 * (14/10 * 1 * 83500 / tt (14/10) m) < 2 * (14/10) / (14/10 - 1) * 83500).
  { apply (Rmult_lt_reg_r (tt (14/10) m)); [assumption|].
    replace (m ^ 2 * (14/10 * 1 * 83500 / tt (14/10) m) * tt (14/10) m) with (m ^ 2 * (14/10 * 83500)) by (field; lra).
    unfold tt. lra. }
  assert (0 <= m ^ 2 * (14/10 * 1 * 83500 / tt (14/10) m)) by (apply Rmult_le_pos; [apply pow2_ge_0|pos]).
  clear - H H0 H1 H2. nra.
Qed.
Lemma sm_state n L x m i : (2 <= n)%nat -> 0 < L ->
  (forall i, (i < n)%nat -> cheb_x n (Some 0) (Some L) i = Some (x i)) -> x 0%nat = 0 -> x (n - 1)%nat = L -> (i < n)%nat -> 0 <= x i <= L ->
  f_u (sm_q m L x i) = sm_u m L x i /\
  shock_state n (cheb_x n (Some 0) (Some L)) (Some m) i =
    mk_state dgamma (Some (f_rho (sm_q m L x i))) (Some (sm_u m L x i)) (Some (f_p (sm_q m L x i))).
Proof.
  intros Hn HL Hx X0 X1 Hi Hxi. pose proof (tt_pos (14/10) m ltac:(lra)) as Ht.
  assert (EU : shock_velocity n (cheb_x n (Some 0) (Some L)) (Some m) i = Some (sm_u m L x i)).
  { unfold shock_velocity, shock_rttot, dgamma, Velocity_MachTt. rewrite TtTs_eval. ncbn.
    rewrite ndiv_Some by lra. rewrite nsqrt_Some by pos. ncbn.
    rewrite (Hx i Hi), (Hx (n - 1)%nat), (Hx 0%nat), X0, X1 by lia. ncbn. rewrite ndiv_Some by lra. reflexivity. }
  pose proof (sm_below m L x i HL Hxi) as Hb.
  destruct (from_u_eval (14/10) (Some 1) (Some 0) (Some 1) 180000 83500 (sm_u m L x i) ltac:(lra) ltac:(lra) ltac:(lra) Hb) as [E1 E2].
  split; [exact E1|]. unfold shock_state. rewrite EU. unfold state_init, shock_ptot, shock_rttot. exact E2.
Qed.
Lemma sm_first m L x : 0 < L -> x 0%nat = 0 -> f_u (sm_q m L x 0) / flow_sound (14/10) (sm_q m L x 0) = m.
Proof.
  intros HL X0. unfold sm_q. rewrite tq_Mach by lra. pose proof (tt_pos (14/10) m ltac:(lra)) as Ht.
  assert (E : sm_u m L x 0 = m * sqrt (14/10 * 83500 / tt (14/10) m)).
  { unfold sm_u. rewrite X0. replace (14/10 * 1 * 83500) with (14/10 * 83500) by lra. field. lra. }
  rewrite E. set (s := sqrt (14/10 * 83500 / tt (14/10) m)). assert (Hs : 0 < s) by (unfold s; pos).
  assert (Es : s ^ 2 = 14/10 * 83500 / tt (14/10) m) by (apply sq_sqrt; pos).
  replace (14/10 * 83500 - 1/2 * (14/10 - 1) * (m * s) ^ 2) with (s ^ 2).
  - rewrite sqrt_pow2 by lra. field; lra.
  - rewrite Rpow_mult_distr. replace (14/10 * 83500) with (s ^ 2 * tt (14/10) m) by (rewrite Es; field; lra). unfold tt. field.
Qed.

Lemma set_shock h dM e : exists h2,
  set_BC (ArgDict (List.length h)) (ArgDict (S (List.length h))) ((h ++ shock_left dM :: nil) ++ shock_right :: nil) e
  = (None, h2, mk_euler (eu_cheb e) (eu_base e) (Some (List.length h, S (List.length h))) (eu_ops e)) /\
  hget h2 (List.length h) = shock_left dM /\ hget h2 (S (List.length h)) = shock_right.
Proof.
  exists ((h ++ shock_left dM :: nil) ++ shock_right :: nil).
  assert (E1 : hget ((h ++ shock_left dM :: nil) ++ shock_right :: nil) (List.length h) = shock_left dM) by apply hget_app1.
  assert (E2 : hget ((h ++ shock_left dM :: nil) ++ shock_right :: nil) (S (List.length h)) = shock_right).
  { replace (S (List.length h)) with (List.length (h ++ shock_left dM :: nil)) by (rewrite app_length; cbn; lia). apply hget_app2. }
  split; [|split; assumption]. unfold set_BC, check_BC. rewrite E1.
  change (dget "type" (shock_left dM)) with (Some (BStr "RH")). cbn [known_BC String.eqb Ascii.eqb Bool.eqb orb].
  rewrite E2. reflexivity.
Qed.
Lemma new_model n L M1 M0 dM h m : shock_M1 M1 M0 = Some m ->
  exists h2 l r, new_shock_model n L M1 M0 dM h =
    (inr (mk_euler (cheb_init n (Some (Some 0)) (Some L)) (Some (shock_base n (cheb_x n (Some 0) L) m)) (Some (l, r)) None), h2) /\
  l <> r /\ hget h2 l = shock_left dM /\ hget h2 r = shock_right.
Proof.
  intros E. unfold new_shock_model. rewrite E. cbv zeta.
  destruct (set_shock h dM (set_basestate (shock_base n (cheb_x n (Some 0) L) m) (euler_init n (Some (Some 0)) (Some L) None))) as (h2 & S & E1 & E2).
  rewrite S. exists h2, (List.length h), (Datatypes.S (List.length h)). split; [reflexivity|]. split; [lia|]. split; assumption.
Qed.

(*@P C93_base: Whatever the number of nodes (at least 2), the length, the upstream gradient and the Mach number M1 behind the shock, given directly or deduced from M0: the model is built; its base flow is air, at every node, with the total enthalpy of r Tt = 83500 and the entropy of air at rest at that total temperature and the total pressure 180000; its velocity is linear in x, from the one of Mach number M1 at the shock (first node, x = 0) to 0 at the wall (last node, x = length), where the pressure is the total pressure. *)
Lemma base_flow : forall n L M1 M0 dM h m, (2 <= n)%nat -> 0 < L -> shock_M1 M1 M0 = Some (Some m) ->
  exists e h' b (x : nat -> R) (q : nat -> flow), new_shock_model n (Some L) M1 M0 dM h = (inr e, h') /\
  (forall i, (i < n)%nat -> cheb_x n (Some 0) (Some L) i = Some (x i)) /\ x 0%nat = 0 /\ x (n - 1)%nat = L /\
  eu_base e = Some b /\ e_g b = Some (14/10) /\
  (forall i, (i < n)%nat -> e_rho b i = Some (f_rho (q i)) /\ e_u b i = Some (f_u (q i)) /\ e_p b i = Some (f_p (q i))) /\
  (forall i, (i < n)%nat -> positive_state (q i) /\ tot_enthalpy (14/10) (q i) = 14/10 / (14/10 - 1) * 83500 /\
     entropy_fn (14/10) (q i) = entropy_fn (14/10) (mkflow (180000 / 83500) 0 180000) /\
     f_u (q i) = f_u (q 0%nat) * ((L - x i) / L)) /\
  f_u (q 0%nat) / flow_sound (14/10) (q 0%nat) = m /\ f_p (q (n - 1)%nat) = 180000.
Proof.
  intros n L M1 M0 dM h m Hn HL E. destruct (new_model n (Some L) M1 M0 dM h (Some m) E) as (h2 & l & r & EN & _).
  destruct (nodes_real n L Hn HL) as (x & Hx & X0 & X1 & Xm).
  assert (Hxi : forall i, (i < n)%nat -> 0 <= x i <= L).
  { intros i Hi. split.
    - destruct i as [|i]; [lra|]. rewrite <- X0. left. apply Xm; lia.
    - destruct (Nat.eq_dec i (n - 1)) as [->|]; [lra|]. rewrite <- X1. left. apply Xm; lia. }
  eexists _, h2, (shock_base n (cheb_x n (Some 0) (Some L)) (Some m)), x, (sm_q m L x).
  split; [exact EN|]. split; [exact Hx|]. split; [exact X0|]. split; [exact X1|]. split; [reflexivity|]. split; [reflexivity|].
  split; [|split; [|split]].
  - intros i Hi. destruct (sm_state n L x m i Hn HL Hx X0 X1 Hi (Hxi i Hi)) as [Eu Es]. unfold shock_base; cbn [e_rho e_u e_p].
    rewrite Es. cbn [st_rho st_u st_p]. rewrite Eu. split; [|split]; reflexivity.
  - intros i Hi. destruct (sm_state n L x m i Hn HL Hx X0 X1 Hi (Hxi i Hi)) as [Eu _].
    destruct (sm_state n L x m 0 Hn HL Hx X0 X1 ltac:(lia) (Hxi 0%nat ltac:(lia))) as [Eu0 _].
    split; [apply tq_pos; lra|]. split; [apply tq_energy; lra|]. split; [apply tq_entropy; lra|].
    rewrite Eu, Eu0. unfold sm_u. rewrite X0. field. lra.
  - now apply sm_first.
  - unfold sm_q. replace (sm_u m L x (n - 1)) with 0 by (unfold sm_u; rewrite X1; field; lra).
    unfold tq, tt; cbn [f_p]. replace (1 + 1 / 2 * (14/10 - 1) * (0 / sqrt (14/10 * 83500 - 1/2 * (14/10 - 1) * 0 ^ 2)) ^ 2) with 1 by (unfold Rdiv; ring).
    unfold Rpower; rewrite ln_1, Rmult_0_r, exp_0. field.
Qed.

(*@P C93_shock: With the upstream Mach number M0 given (M0^2 > 1/7, in particular any supersonic one), the state at the first node is the one behind a steady normal shock in a flow of Mach number M0: such an upstream state exists, satisfies the Rankine-Hugoniot relations with the state at the first node, has Mach number M0 and the same total enthalpy; the flow behind the shock moves towards the wall. *)
Lemma behind_shock : forall n L M0 dM h, (2 <= n)%nat -> 0 < L -> 0 < M0 -> 1/7 < M0 ^ 2 ->
  exists e h' b q0 q1, new_shock_model n (Some L) None (Some (Some M0)) dM h = (inr e, h') /\ eu_base e = Some b /\
  e_rho b 0%nat = Some (f_rho q1) /\ e_u b 0%nat = Some (f_u q1) /\ e_p b 0%nat = Some (f_p q1) /\ positive_state q1 /\ 0 < f_u q1 /\
  positive_state q0 /\ rankine_hugoniot (14/10) 0 q0 q1 /\ f_u q0 = M0 * flow_sound (14/10) q0 /\
  tot_enthalpy (14/10) q0 = 14/10 / (14/10 - 1) * 83500 /\ (1 < M0 -> f_p q0 < f_p q1 /\ f_u q1 < flow_sound (14/10) q1).
Proof.
  intros n L M0 dM h Hn HL HM Hd. assert (Hg : 1 < 14/10) by lra.
  assert (HD : sdom (14/10) M0) by (unfold sdom; lra).
  assert (Em : shock_M1 None (Some (Some M0)) = Some (Some (sqrt (md2 (14/10) M0)))).
  { unfold shock_M1, dgamma. now rewrite Md_eval. }
  pose proof (md2_pos (14/10) M0 Hg HD) as Hm2. set (m := sqrt (md2 (14/10) M0)) in *.
  assert (Hm : 0 < m) by (unfold m; pos).
  destruct (base_flow n L None (Some (Some M0)) dM h m Hn HL Em) as (e & h' & b & x & q & EN & _ & _ & _ & Eb & _ & Ef & Hq & Em1 & _).
  destruct (Hq 0%nat ltac:(lia)) as (Hp & Hen & _ & _). destruct (Ef 0%nat ltac:(lia)) as (E1 & E2 & E3).
  pose proof (sound_pos (14/10) (q 0%nat) ltac:(lra) Hp) as Ha. pose proof (sound_sq (14/10) (q 0%nat) ltac:(lra) Hp) as Ha2.
  assert (Eu : f_u (q 0%nat) = m * flow_sound (14/10) (q 0%nat)) by (rewrite <- Em1; field; lra).
  assert (Hu : 0 < f_u (q 0%nat)) by (rewrite Eu; pos).
  assert (HM2 : (14/10 - 1) / (2 * (14/10)) < f_u (q 0%nat) ^ 2 / (14/10 * f_p (q 0%nat) / f_rho (q 0%nat))).
  { rewrite <- Ha2, Eu. replace ((m * flow_sound (14/10) (q 0%nat)) ^ 2 / flow_sound (14/10) (q 0%nat) ^ 2) with (m ^ 2) by (field; lra).
    apply (md2_involutive_dom (14/10) M0 Hg HD). }
  destruct (upstream (14/10) (q 0%nat) Hg Hp Hu HM2) as (q0 & M0' & _ & EM & Hq0 & HM0 & EM0 & ER & EP & EU & RH).
  assert (E0 : M0' = M0).
  { rewrite Mach_eval in EM by (assumption || lra). rewrite Em1 in EM. rewrite Md_eval in EM by (try assumption; now apply md2_involutive_dom).
    injection EM as <-. unfold m. rewrite md2_md2 by assumption. apply sqrt_pow2; lra. }
  rewrite E0 in EM0, ER, EP. pose proof (sound_pos (14/10) q0 ltac:(lra) Hq0) as Ha0.
  exists e, h', b, q0, (q 0%nat). split; [exact EN|]. split; [exact Eb|]. split; [exact E1|]. split; [exact E2|]. split; [exact E3|].
  split; [exact Hp|]. split; [exact Hu|]. split; [exact Hq0|].
  destruct RH as (R1 & R2 & R3). split; [split; [|split]; symmetry; assumption|].
  split; [rewrite EM0; field; lra|]. split.
  - rewrite <- Hen. unfold frame_enthalpy in R3. unfold tot_enthalpy. rewrite !Rminus_0_r in R3. symmetry; exact R3.
  - intros H1. destruct Hq0 as [Hr0 Hp0]. split.
    + assert (1 < psr (14/10) M0). { unfold psr. assert (1 < M0 ^ 2) by nra. assert (0 < 2 * (14/10) / (14/10 + 1)) by pos. nra. }
      rewrite EP in H. apply (Rmult_lt_compat_r (f_p q0)) in H; [|assumption]. replace (f_p (q 0%nat) / f_p q0 * f_p q0) with (f_p (q 0%nat)) in H by (field; lra). lra.
    + rewrite Eu. assert (m < 1).
      { unfold m. rewrite <- sqrt_1. apply sqrt_lt_1_alt. split; [lra|]. unfold md2, tt. pose proof (sdom_den (14/10) M0 Hg HD) as HDd.
        apply (Rmult_lt_reg_r (14/10 * M0 ^ 2 - 1 / 2 * (14/10 - 1))); [exact HDd|].
        match goal with |- ?a / ?b * ?b < _ => replace (a / b * b) with a by (field; lra) end. assert (1 < M0 ^ 2) by nra. lra. }
      nra.
Qed.
