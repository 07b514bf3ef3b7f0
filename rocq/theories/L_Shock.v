From Verif Require Import L_Num Spec NumSpec M_Isentropic M_ShockWave L_Isentropic.
Open Scope R_scope.

(** Closed forms *)
Definition psr (g M : R) : R := 1 + 2 * g / (g + 1) * (M ^ 2 - 1).
Definition rhor (g M : R) : R := (g + 1) * M ^ 2 / (2 + (g - 1) * M ^ 2).
Definition tsr (g M : R) : R := psr g M / rhor g M.
Definition md2 (g M : R) : R := tt g M / (g * M ^ 2 - 1 / 2 * (g - 1)).

Lemma rden_pos g M : 1 < g -> 0 < 2 + (g - 1) * M ^ 2.
Proof. intros; pose proof (sq_nonneg M); nra. Qed.
Lemma Ps_eval M g : 1 < g -> Ps_ratio (Some M) (Some g) = Some (psr g M).
Proof. intros; unfold Ps_ratio; ncbn; now rewrite ndiv_Some by lra. Qed.
Lemma Rho_eval M g : 1 < g -> Rho_ratio (Some M) (Some g) = Some (rhor g M).
Proof. intros; unfold Rho_ratio; ncbn. pose proof (rden_pos g M H). now rewrite ndiv_Some by lra. Qed.
Lemma rhor_pos g M : 1 < g -> M <> 0 -> 0 < rhor g M.
Proof.
  intros Hg HM; apply Rdiv_lt_0_compat; [|now apply rden_pos].
  pose proof (sq_pos M HM); apply Rmult_lt_0_compat; lra.
Qed.
Lemma Ts_eval M g : 1 < g -> M <> 0 -> Ts_ratio (Some M) (Some g) = Some (tsr g M).
Proof.
  intros Hg HM; unfold Ts_ratio. rewrite Ps_eval, Rho_eval by assumption.
  pose proof (rhor_pos g M Hg HM). now rewrite ndiv_Some by lra.
Qed.
(** the shock domain: positive downstream pressure *)
Definition sdom (g M : R) : Prop := (g - 1) / (2 * g) < M ^ 2.
Lemma sdom_den g M : 1 < g -> sdom g M -> 0 < g * M ^ 2 - 1 / 2 * (g - 1).
Proof.
  intros Hg H; unfold sdom in H. apply (Rmult_lt_compat_l g) in H; [|lra].
  replace (g * ((g - 1) / (2 * g))) with (1 / 2 * (g - 1)) in H by (field; lra). lra.
Qed.
Lemma sdom_nz g M : 1 < g -> sdom g M -> M <> 0.
Proof. intros Hg H ->. pose proof (sdom_den g 0 Hg H). replace (0 ^ 2) with 0 in H0 by ring. lra. Qed.
Lemma sdom_ge1 g M : 1 < g -> 1 <= M -> sdom g M.
Proof.
  intros Hg HM; unfold sdom. apply (Rmult_lt_reg_l (2 * g)); [lra|].
  replace (2 * g * ((g - 1) / (2 * g))) with (g - 1) by (field; lra). assert (1 <= M ^ 2) by nra. nra.
Qed.
Lemma psr_alt g M : 1 < g -> psr g M = 2 / (g + 1) * (g * M ^ 2 - 1 / 2 * (g - 1)).
Proof. intros; unfold psr; field; lra. Qed.
Lemma psr_pos g M : 1 < g -> sdom g M -> 0 < psr g M.
Proof.
  intros Hg H; rewrite psr_alt by assumption. apply Rmult_lt_0_compat; [|now apply sdom_den].
  apply Rdiv_lt_0_compat; lra.
Qed.
Lemma tsr_pos g M : 1 < g -> sdom g M -> 0 < tsr g M.
Proof.
  intros; apply Rdiv_lt_0_compat; [now apply psr_pos|apply rhor_pos; [assumption|]].
  eapply sdom_nz; eassumption.
Qed.
Lemma md2_pos g M : 1 < g -> sdom g M -> 0 < md2 g M.
Proof. intros; apply Rdiv_lt_0_compat; [now apply tt_pos|now apply sdom_den]. Qed.
Lemma Md_eval M g : 1 < g -> sdom g M ->
  downstream_Mn (Some M) (Some g) = Some (sqrt (md2 g M)).
Proof.
  intros Hg H; unfold downstream_Mn; ncbn. pose proof (sdom_den g M Hg H).
  rewrite ndiv_Some by lra. apply nsqrt_Some. left; now apply md2_pos.
Qed.

(*@P C09_rankine_hugoniot: For any upstream state moving at Mach M (velocity u = M a), multiplying the density by Rho_ratio, the pressure by Ps_ratio and dividing the velocity by Rho_ratio gives a state satisfying the Rankine-Hugoniot relations. *)
Lemma normal_shock_RH : forall g rho p M, 1 < g -> 0 < rho -> 0 < p -> M <> 0 ->
  exists Rr Pr, Rho_ratio (Some M) (Some g) = Some Rr /\ Ps_ratio (Some M) (Some g) = Some Pr /\
   let a := sqrt (g * p / rho) in
   rankine_hugoniot g 0 (mkflow rho (M * a) p) (mkflow (Rr * rho) (M * a / Rr) (Pr * p)).
Proof.
  intros g rho p M Hg Hr Hp HM. exists (rhor g M), (psr g M).
  split; [now apply Rho_eval|]; split; [now apply Ps_eval|]. intros a.
  assert (Ha : a ^ 2 = g * p / rho).
  { unfold a; apply sq_sqrt. apply Rmult_le_pos; [nra|left; now apply Rinv_0_lt_compat]. }
  pose proof (rhor_pos g M Hg HM) as HR. pose proof (rden_pos g M Hg) as Hd. pose proof (sq_pos M HM) as HM2.
  unfold rankine_hugoniot, mass_flux, momentum_flux, frame_enthalpy; cbn [f_rho f_u f_p].
  repeat split.
  - field; lra.
  - rewrite !Rminus_0_r.
    replace ((M * a / rhor g M) ^ 2) with (M ^ 2 * a ^ 2 / rhor g M ^ 2) by (field; lra).
    replace ((M * a) ^ 2) with (M ^ 2 * a ^ 2) by ring.
    rewrite Ha. unfold rhor, psr. field. repeat split; lra.
  - rewrite !Rminus_0_r.
    replace ((M * a / rhor g M) ^ 2) with (M ^ 2 * a ^ 2 / rhor g M ^ 2) by (field; lra).
    replace ((M * a) ^ 2) with (M ^ 2 * a ^ 2) by ring.
    rewrite Ha. unfold rhor, psr. field. repeat split; lra.
Qed.
(*@P C09_perfect_gas: Ts_ratio is the ratio required by the perfect gas law p = rho r T on both sides. *)
Lemma normal_shock_gas : forall g M, 1 < g -> M <> 0 ->
  exists Rr Pr Tr, Rho_ratio (Some M) (Some g) = Some Rr /\ Ps_ratio (Some M) (Some g) = Some Pr /\
   Ts_ratio (Some M) (Some g) = Some Tr /\
   forall r rho p T, 0 < rho -> p = rho * r * T -> Pr * p = (Rr * rho) * r * (Tr * T).
Proof.
  intros g M Hg HM. exists (rhor g M), (psr g M), (tsr g M).
  split; [now apply Rho_eval|]; split; [now apply Ps_eval|]; split; [now apply Ts_eval|].
  intros r rho p T Hr ->. unfold tsr. pose proof (rhor_pos g M Hg HM). field; lra.
Qed.
(*@E C09_example: M = 2, gamma = 1.4 *)
Lemma C09_example_lemma : Ps_ratio (Some 2) dgamma = Some (9/2) /\ Rho_ratio (Some 2) dgamma = Some (8/3)
  /\ Ts_ratio (Some 2) dgamma = Some (27/16).
Proof.
  unfold dgamma. rewrite Ps_eval, Rho_eval, Ts_eval by lra.
  repeat split; f_equal; unfold tsr, psr, rhor; lra.
Qed.

(** ** Downstream Mach *)
Lemma md2_involutive_dom g M : 1 < g -> sdom g M -> sdom g (sqrt (md2 g M)).
Proof.
  intros Hg H. pose proof (sdom_den g M Hg H) as Hd. pose proof (md2_pos g M Hg H).
  unfold sdom. rewrite sq_sqrt by lra.
  apply (Rmult_lt_reg_r (2 * g * (g * M ^ 2 - 1 / 2 * (g - 1)))); [nra|].
  unfold md2. replace ((g - 1) / (2 * g) * (2 * g * (g * M ^ 2 - 1 / 2 * (g - 1))))
    with ((g - 1) * (g * M ^ 2 - 1 / 2 * (g - 1))) by (field; lra).
  replace (tt g M / (g * M ^ 2 - 1 / 2 * (g - 1)) * (2 * g * (g * M ^ 2 - 1 / 2 * (g - 1))))
    with (2 * g * tt g M) by (field; lra).
  unfold tt. nra.
Qed.
Lemma md2_md2 g M : 1 < g -> sdom g M -> md2 g (sqrt (md2 g M)) = M ^ 2.
Proof.
  intros Hg H. pose proof (sdom_den g M Hg H) as Hd. pose proof (md2_pos g M Hg H).
  unfold md2 at 1. unfold tt at 1. rewrite !sq_sqrt by lra.
  replace (g * md2 g M - 1 / 2 * (g - 1)) with (((g + 1) / 2) ^ 2 / (g * M ^ 2 - 1 / 2 * (g - 1)))
    by (unfold md2, tt; field; lra).
  replace (1 + 1 / 2 * (g - 1) * md2 g M) with (((g + 1) / 2) ^ 2 * M ^ 2 / (g * M ^ 2 - 1 / 2 * (g - 1)))
    by (unfold md2, tt; field; lra).
  field. split; lra.
Qed.

(*@P C10_downstream_is_velocity_ratio: downstream_Mn is the downstream velocity (upstream velocity divided by Rho_ratio) over the downstream speed of sound. *)
Lemma downstream_velocity : forall g rho p M, 1 < g -> 0 < rho -> 0 < p -> 0 < M -> (g - 1) / (2 * g) < M ^ 2 ->
  exists Rr Pr m, Rho_ratio (Some M) (Some g) = Some Rr /\ Ps_ratio (Some M) (Some g) = Some Pr /\
    downstream_Mn (Some M) (Some g) = Some m /\ 0 < m /\
    M * sqrt (g * p / rho) / Rr = m * sqrt (g * (Pr * p) / (Rr * rho)).
Proof.
  intros g rho p M Hg Hr Hp HM HD.
  exists (rhor g M), (psr g M), (sqrt (md2 g M)).
  split; [now apply Rho_eval|]; split; [now apply Ps_eval|]; split; [now apply Md_eval|].
  pose proof (md2_pos g M Hg HD). pose proof (psr_pos g M Hg HD).
  assert (HR : 0 < rhor g M) by (apply rhor_pos; lra).
  split; [now apply sqrt_lt_R0|].
  assert (Hx : 0 < g * p / rho) by (apply Rdiv_lt_0_compat; nra).
  replace (g * (psr g M * p) / (rhor g M * rho)) with (psr g M / rhor g M * (g * p / rho)) by (field; lra).
  assert (Hpr : 0 < psr g M / rhor g M) by (now apply Rdiv_lt_0_compat).
  rewrite (sqrt_mult (psr g M / rhor g M)) by lra.
  rewrite <- Rmult_assoc, <- sqrt_mult by lra.
  replace (md2 g M * (psr g M / rhor g M)) with ((M / rhor g M) ^ 2).
  - rewrite sqrt_sq; [field; lra|]. left; now apply Rdiv_lt_0_compat.
  - unfold md2, psr, rhor, tt. pose proof (sdom_den g M Hg HD). pose proof (rden_pos g M Hg).
    field. repeat split; nra.
Qed.
(*@P C10_involution: Applying downstream_Mn twice gives back the Mach number, on the whole domain where it is defined. *)
Lemma downstream_involution : forall g M, 1 < g -> 0 < M -> (g - 1) / (2 * g) < M ^ 2 ->
  exists m, downstream_Mn (Some M) (Some g) = Some m /\ 0 < m /\ (g - 1) / (2 * g) < m ^ 2 /\
            downstream_Mn (Some m) (Some g) = Some M.
Proof.
  intros g M Hg HM HD. exists (sqrt (md2 g M)). pose proof (md2_pos g M Hg HD).
  pose proof (md2_involutive_dom g M Hg HD) as HD2.
  split; [now apply Md_eval|]; split; [now apply sqrt_lt_R0|]; split; [exact HD2|].
  rewrite Md_eval by assumption. rewrite md2_md2 by assumption. now rewrite sqrt_sq by lra.
Qed.
(*@P C10_exchanges: downstream_Mn fixes 1 and exchanges supersonic and subsonic. *)
Lemma downstream_exchange : forall g M, 1 < g -> 0 < M -> (g - 1) / (2 * g) < M ^ 2 ->
  exists m, downstream_Mn (Some M) (Some g) = Some m /\
   (M = 1 <-> m = 1) /\ (1 < M <-> m < 1) /\ (M < 1 <-> 1 < m).
Proof.
  intros g M Hg HM HD. exists (sqrt (md2 g M)). split; [now apply Md_eval|].
  pose proof (md2_pos g M Hg HD) as Hp. pose proof (sdom_den g M Hg HD) as Hd.
  assert (Hm : 0 < sqrt (md2 g M)) by (now apply sqrt_lt_R0).
  assert (K : (1 - sqrt (md2 g M) ^ 2) * (g * M ^ 2 - 1 / 2 * (g - 1)) = (g + 1) / 2 * (M ^ 2 - 1)).
  { rewrite sq_sqrt by lra. unfold md2, tt. field; lra. }
  set (m := sqrt (md2 g M)) in *. set (d := g * M ^ 2 - 1 / 2 * (g - 1)) in *.
  assert (A1 : forall x, 0 < x -> (x = 1 <-> x ^ 2 = 1)) by (intros; split; intros; nra).
  assert (A2 : forall x, 0 < x -> (1 < x <-> 1 < x ^ 2)) by (intros; split; intros; nra).
  assert (A3 : forall x, 0 < x -> (x < 1 <-> x ^ 2 < 1)) by (intros; split; intros; nra).
  rewrite (A1 M HM), (A1 m Hm), (A2 M HM), (A2 m Hm), (A3 M HM), (A3 m Hm).
  repeat split; intros; nra.
Qed.
(*@P C10_domain: downstream_Mn has no finite real value at or below the limit Mach number. *)
Lemma downstream_domain : forall g M, 1 < g ->
  (exists m, downstream_Mn (Some M) (Some g) = Some m) <-> (g - 1) / (2 * g) < M ^ 2.
Proof.
  intros g M Hg; split.
  - intros [m E]. destruct (Rlt_le_dec ((g - 1) / (2 * g)) (M ^ 2)) as [|H]; [assumption|].
    exfalso. assert (D : g * M ^ 2 - 1 / 2 * (g - 1) <= 0).
    { apply (Rmult_le_compat_l g) in H; [|lra].
      replace (g * ((g - 1) / (2 * g))) with (1 / 2 * (g - 1)) in H by (field; lra). lra. }
    unfold downstream_Mn in E; ncbn.
    destruct (Req_dec (g * M ^ 2 - 1 / 2 * (g - 1)) 0) as [Z|Z].
    + rewrite ndiv_zero in E by assumption; discriminate.
    + rewrite ndiv_Some in E by assumption. rewrite nsqrt_neg in E; [discriminate|].
      pose proof (tt_pos g M Hg) as Ht. unfold tt in Ht.
      assert (/ (g * M ^ 2 - 1 / 2 * (g - 1)) < 0) by (apply Rinv_lt_0_compat; lra).
      unfold Rdiv; nra.
  - intros H; eexists; now apply Md_eval.
Qed.
(*@E C10_example *)
Lemma C10_example_lemma : (14/10 - 1) / (2 * (14/10)) < 2 ^ 2 /\ downstream_Mn (Some 2) dgamma = Some (sqrt (1/3)).
Proof.
  split; [lra|]. unfold dgamma. rewrite Md_eval by (unfold sdom; lra). do 2 f_equal. unfold md2, tt; lra.
Qed.

(** ** Pressure ratio inversion *)
(*@P C11_Mn_of_Ps: Mn_Ps_ratio undoes Ps_ratio (up to the sign of Mn). *)
Lemma Mn_of_Ps : forall g M, 1 < g ->
  exists P, Ps_ratio (Some M) (Some g) = Some P /\ Mn_Ps_ratio (Some P) (Some g) = Some (Rabs M).
Proof.
  intros g M Hg; eexists; split; [now apply Ps_eval|].
  unfold Mn_Ps_ratio; ncbn; rewrite ndiv_Some by lra; ncbn.
  replace (1 + (psr g M - 1) * (g + 1) / (2 * g)) with (M ^ 2) by (unfold psr; field; lra).
  rewrite nsqrt_Some by apply sq_nonneg. now rewrite sqrt_sq_abs.
Qed.
(*@P C11_Ps_of_Mn: Ps_ratio undoes Mn_Ps_ratio, whose domain is exactly P >= -(gamma-1)/(gamma+1) (in particular every positive ratio). *)
Lemma Ps_of_Mn : forall g P, 1 < g ->
  (- (g - 1) / (g + 1) <= P <-> exists M, Mn_Ps_ratio (Some P) (Some g) = Some M) /\
  (forall M, Mn_Ps_ratio (Some P) (Some g) = Some M -> 0 <= M /\ Ps_ratio (Some M) (Some g) = Some P).
Proof.
  intros g P Hg.
  assert (K : - (g - 1) / (g + 1) <= P <-> 0 <= 1 + (P - 1) * (g + 1) / (2 * g)).
  { assert (E : 1 + (P - 1) * (g + 1) / (2 * g) = (P - - (g - 1) / (g + 1)) * ((g + 1) / (2 * g))) by (field; lra).
    assert (0 < (g + 1) / (2 * g)) by (apply Rdiv_lt_0_compat; lra). rewrite E. split; intros; nra. }
  assert (E : Mn_Ps_ratio (Some P) (Some g) = nsqrt (Some (1 + (P - 1) * (g + 1) / (2 * g)))).
  { unfold Mn_Ps_ratio; ncbn; now rewrite ndiv_Some by lra. }
  split.
  - rewrite K, E. split; [intros H; eexists; now apply nsqrt_Some|].
    intros [M H]. destruct (Rle_lt_dec 0 (1 + (P - 1) * (g + 1) / (2 * g))) as [|L]; [assumption|].
    rewrite nsqrt_neg in H by assumption; discriminate.
  - intros M H. rewrite E in H.
    destruct (Rle_lt_dec 0 (1 + (P - 1) * (g + 1) / (2 * g))) as [L|L].
    + rewrite nsqrt_Some in H by assumption. injection H as <-. split; [apply sqrt_pos|].
      rewrite Ps_eval by assumption. f_equal. unfold psr. rewrite sq_sqrt by assumption. field; lra.
    + rewrite nsqrt_neg in H by assumption; discriminate.
Qed.
(*@E C11_example *)
Lemma C11_example_lemma : Mn_Ps_ratio (Some (9/2)) dgamma = Some 2.
Proof.
  unfold dgamma, Mn_Ps_ratio; ncbn; rewrite ndiv_Some by lra; ncbn. rewrite nsqrt_Some by lra. f_equal.
  match goal with |- sqrt ?x = _ => replace x with (2 ^ 2) by lra end. apply sqrt_sq; lra.
Qed.

(** ** Total temperature *)
Lemma tsr_tt g M : 1 < g -> sdom g M -> tsr g M * tt g (sqrt (md2 g M)) = tt g M.
Proof.
  intros Hg H. pose proof (sdom_den g M Hg H). pose proof (md2_pos g M Hg H).
  pose proof (sdom_nz g M Hg H) as Hz. pose proof (sq_pos M Hz). pose proof (rden_pos g M Hg).
  unfold tt at 1. rewrite sq_sqrt by lra. unfold tsr, psr, rhor, md2, tt. field. repeat split; nra.
Qed.
(*@P C12_total_temperature: Ts_ratio times the downstream Tt/Ts is the upstream Tt/Ts. *)
Lemma total_temperature : forall g M, 1 < g -> (g - 1) / (2 * g) < M ^ 2 ->
  exists t T m t', TtTs_Mach (Some M) (Some g) = Some t /\ Ts_ratio (Some M) (Some g) = Some T /\
    downstream_Mn (Some M) (Some g) = Some m /\ TtTs_Mach (Some m) (Some g) = Some t' /\ t = T * t'.
Proof.
  intros g M Hg H. do 4 eexists. split; [apply TtTs_eval|].
  split; [apply Ts_eval; [assumption|now apply (sdom_nz g)]|]. split; [now apply Md_eval|].
  split; [apply TtTs_eval|]. symmetry; now apply tsr_tt.
Qed.

(** ** Second law *)
(** logarithm of (p1/rho1^g)/(p0/rho0^g) *)
Definition dS (g M : R) : R := ln (psr g M) - g * ln (rhor g M).
Lemma dS_derive g M : 1 < g -> 0 < M -> sdom g M ->
  is_derive (dS g) M
    (4 * g * (g - 1) * (M ^ 2 - 1) ^ 2 / (M * (2 * g * M ^ 2 - (g - 1)) * (2 + (g - 1) * M ^ 2))).
Proof.
  intros Hg HM HD. pose proof (sdom_den g M Hg HD) as Hd. pose proof (rden_pos g M Hg) as Hr.
  pose proof (psr_pos g M Hg HD) as Hp. assert (Hrr : 0 < rhor g M) by (apply rhor_pos; lra).
  unfold dS, psr, rhor in *. auto_derive.
  - repeat split; first [exact Hp|exact Hrr|lra].
  - field. repeat split; nra.
Qed.
Lemma sdom_mono g x y : 1 < g -> 0 < x -> x <= y -> sdom g x -> sdom g y.
Proof. unfold sdom; intros; assert (x ^ 2 <= y ^ 2) by nra; lra. Qed.
Lemma dS_1 g : 1 < g -> dS g 1 = 0.
Proof.
  intros; unfold dS. replace (psr g 1) with 1 by (unfold psr; ring).
  replace (rhor g 1) with 1 by (unfold rhor; field; lra). rewrite ln_1; ring.
Qed.
Lemma dS_incr_pos g x y : 1 < g -> 0 < x -> sdom g x -> x < y -> (y <= 1 \/ 1 <= x) -> dS g x < dS g y.
Proof.
  intros Hg Hx HD Hxy Hs. eapply strict_incr; [assumption| |].
  - intros z Hz; apply dS_derive; [assumption|lra|]. apply (sdom_mono g x z); lra || assumption.
  - intros z Hz. assert (Dz : sdom g z) by (apply (sdom_mono g x z); lra || assumption).
    pose proof (sdom_den g z Hg Dz). pose proof (rden_pos g z Hg).
    assert (0 < (z ^ 2 - 1) ^ 2).
    { apply sq_pos. destruct Hs; [assert (z ^ 2 < 1) by nra|assert (1 < z ^ 2) by nra]; lra. }
    cbv beta; pos.
Qed.
Lemma dS_incr g x y : 1 < g -> 0 < x -> sdom g x -> x < y -> dS g x < dS g y.
Proof.
  intros Hg Hx HD Hxy. destruct (Rle_lt_dec y 1); [apply dS_incr_pos; auto|].
  destruct (Rle_lt_dec 1 x); [apply dS_incr_pos; auto|].
  apply Rlt_trans with (dS g 1); apply dS_incr_pos; try lra; auto. apply sdom_ge1; lra.
Qed.
(** entropy function p/rho^g of a state *)
(*@P C13_entropy: The entropy function p/rho^gamma increases across the jump exactly for Mn > 1, decreases exactly for Mn < 1 and is unchanged exactly for Mn = 1. *)
Lemma shock_entropy : forall g M p rho, 1 < g -> 0 < p -> 0 < rho -> 0 < M -> (g - 1) / (2 * g) < M ^ 2 ->
  exists Pr Rr, Ps_ratio (Some M) (Some g) = Some Pr /\ Rho_ratio (Some M) (Some g) = Some Rr /\
   let s q := f_p q / Rpower (f_rho q) g in
   let q0 := mkflow rho (M * sqrt (g * p / rho)) p in
   let q1 := mkflow (Rr * rho) (M * sqrt (g * p / rho) / Rr) (Pr * p) in
   (1 < M <-> s q0 < s q1) /\ (M < 1 <-> s q1 < s q0) /\ (M = 1 <-> s q0 = s q1).
Proof.
  intros g M p rho Hg Hp Hr HM HD. exists (psr g M), (rhor g M).
  split; [now apply Ps_eval|]; split; [now apply Rho_eval|]. cbn [f_p f_rho].
  assert (HR : 0 < rhor g M) by (apply rhor_pos; lra). pose proof (psr_pos g M Hg HD) as HP.
  assert (E : psr g M * p / Rpower (rhor g M * rho) g = exp (dS g M) * (p / Rpower rho g)).
  { rewrite Rpower_mult_base by assumption. unfold dS, Rminus.
    rewrite exp_plus, exp_ln by assumption. rewrite exp_Ropp. fold (Rpower (rhor g M) g).
    pose proof (Rpower_pos (rhor g M) g). pose proof (Rpower_pos rho g). field; lra. }
  rewrite E. assert (Hs : 0 < p / Rpower rho g) by (apply Rdiv_lt_0_compat; [assumption|apply Rpower_pos]).
  set (s := p / Rpower rho g) in *.
  assert (C : (1 < M -> 1 < exp (dS g M)) /\ (M < 1 -> exp (dS g M) < 1) /\ (M = 1 -> exp (dS g M) = 1)).
  { repeat split; intros H.
    - rewrite <- exp_0; apply exp_increasing. rewrite <- (dS_1 g Hg). apply dS_incr; try lra. apply sdom_ge1; lra.
    - rewrite <- exp_0; apply exp_increasing. rewrite <- (dS_1 g Hg). apply dS_incr; try lra. assumption.
    - subst; rewrite dS_1 by assumption; apply exp_0. }
  destruct C as [C1 [C2 C3]].
  destruct (Rtotal_order M 1) as [H|[H|H]].
  - specialize (C2 H). repeat split; intros; nra.
  - specialize (C3 H). rewrite C3, Rmult_1_l. repeat split; intros; lra.
  - specialize (C1 H). repeat split; intros; nra.
Qed.
(*@P C13_density_limit: Rho_ratio stays strictly below (gamma+1)/(gamma-1). *)
Lemma shock_density_limit : forall g M, 1 < g ->
  exists Rr, Rho_ratio (Some M) (Some g) = Some Rr /\ 0 <= Rr < (g + 1) / (g - 1).
Proof.
  intros g M Hg; eexists; split; [now apply Rho_eval|]. pose proof (rden_pos g M Hg). pose proof (sq_nonneg M).
  split; [apply Rmult_le_pos; [nra|left; now apply Rinv_0_lt_compat]|].
  unfold rhor. apply (Rmult_lt_reg_r (2 + (g - 1) * M ^ 2)); [assumption|].
  replace ((g + 1) * M ^ 2 / (2 + (g - 1) * M ^ 2) * (2 + (g - 1) * M ^ 2)) with ((g + 1) * M ^ 2) by (field; lra).
  replace ((g + 1) / (g - 1) * (2 + (g - 1) * M ^ 2)) with ((g + 1) * M ^ 2 + 2 * (g + 1) / (g - 1)) by (field; lra).
  assert (0 < 2 * (g + 1) / (g - 1)) by (apply Rdiv_lt_0_compat; lra). lra.
Qed.
Lemma psr_incr g x y : 1 < g -> 0 <= x -> x < y -> psr g x < psr g y.
Proof.
  intros Hg Hx Hxy; unfold psr. assert (0 < 2 * g / (g + 1)) by (apply Rdiv_lt_0_compat; lra).
  assert (x ^ 2 < y ^ 2) by nra. nra.
Qed.
Lemma rhor_incr g x y : 1 < g -> 0 <= x -> x < y -> rhor g x < rhor g y.
Proof.
  intros Hg Hx Hxy; unfold rhor. pose proof (rden_pos g x Hg). pose proof (rden_pos g y Hg).
  assert (x ^ 2 < y ^ 2) by nra.
  assert (E : (g + 1) * y ^ 2 / (2 + (g - 1) * y ^ 2) - (g + 1) * x ^ 2 / (2 + (g - 1) * x ^ 2)
    = 2 * (g + 1) * (y ^ 2 - x ^ 2) / ((2 + (g - 1) * y ^ 2) * (2 + (g - 1) * x ^ 2))) by (field; lra).
  assert (0 < 2 * (g + 1) * (y ^ 2 - x ^ 2) / ((2 + (g - 1) * y ^ 2) * (2 + (g - 1) * x ^ 2))).
  { apply Rdiv_lt_0_compat; [nra|now apply Rmult_lt_0_compat]. } lra.
Qed.
Lemma tsr_incr g x y : 1 < g -> 1 <= x -> x < y -> tsr g x < tsr g y.
Proof.
  intros Hg Hx Hxy.
  assert (F : forall z, 1 <= z -> tsr g z = (2 * g * z ^ 2 - (g - 1)) * (2 + (g - 1) * z ^ 2) / ((g + 1) ^ 2 * z ^ 2)).
  { intros z Hz; unfold tsr, psr, rhor. pose proof (rden_pos g z Hg). field. repeat split; nra. }
  rewrite !F by lra.
  assert (E : (2 * g * y ^ 2 - (g - 1)) * (2 + (g - 1) * y ^ 2) / ((g + 1) ^ 2 * y ^ 2)
    - (2 * g * x ^ 2 - (g - 1)) * (2 + (g - 1) * x ^ 2) / ((g + 1) ^ 2 * x ^ 2)
    = 2 * (g - 1) * (y ^ 2 - x ^ 2) * (g * x ^ 2 * y ^ 2 + 1) / ((g + 1) ^ 2 * x ^ 2 * y ^ 2)) by (field; nra).
  assert (0 < 2 * (g - 1) * (y ^ 2 - x ^ 2) * (g * x ^ 2 * y ^ 2 + 1) / ((g + 1) ^ 2 * x ^ 2 * y ^ 2)).
  { assert (0 < x ^ 2) by nra. assert (0 < y ^ 2) by nra. assert (0 < (g + 1) ^ 2) by nra.
    assert (0 < x ^ 2 * y ^ 2) by (now apply Rmult_lt_0_compat).
    assert (0 < y ^ 2 - x ^ 2) by nra. assert (0 < g * x ^ 2 * y ^ 2 + 1) by nra. pos. } lra.
Qed.
(*@P C13_monotone: Ps_ratio, Rho_ratio and Ts_ratio increase strictly with Mn >= 1. *)
Lemma shock_monotone : forall g, 1 < g ->
  incr_on (fun M => 1 <= M) (fun M => Ps_ratio M (Some g)) /\
  incr_on (fun M => 1 <= M) (fun M => Rho_ratio M (Some g)) /\
  incr_on (fun M => 1 <= M) (fun M => Ts_ratio M (Some g)).
Proof.
  intros g Hg. repeat split; intros x y Hx Hy Hxy; do 2 eexists.
  - split; [now apply Ps_eval|]; split; [now apply Ps_eval|]. apply psr_incr; lra.
  - split; [now apply Rho_eval|]; split; [now apply Rho_eval|]. apply rhor_incr; lra.
  - split; [apply Ts_eval; lra|]; split; [apply Ts_eval; lra|]. apply tsr_incr; lra.
Qed.
(*@P C13_unit: At Mn = 1 all ratios are 1. *)
Lemma shock_unit : forall g, 1 < g ->
  Ps_ratio (Some 1) (Some g) = Some 1 /\ Rho_ratio (Some 1) (Some g) = Some 1 /\ Ts_ratio (Some 1) (Some g) = Some 1.
Proof.
  intros g Hg. rewrite Ps_eval, Rho_eval, Ts_eval by lra.
  repeat split; f_equal; unfold tsr, psr, rhor; field; lra.
Qed.
(*@E C12_example: air at Mn = 2: Tt/Ts = 9/5 upstream, Ts_ratio = 27/16, downstream Mn = 1/sqrt 3. *)
Lemma C12_example_lemma : TtTs_Mach (Some 2) (Some (14/10)) = Some (9/5) /\ Ts_ratio (Some 2) (Some (14/10)) = Some (27/16) /\
  downstream_Mn (Some 2) (Some (14/10)) = Some (sqrt (1/3)) /\ TtTs_Mach (Some (sqrt (1/3))) (Some (14/10)) = Some (16/15).
Proof.
  assert (D : sdom (14/10) 2) by (apply sdom_ge1; lra).
  rewrite !TtTs_eval by lra. rewrite Ts_eval, Md_eval by (assumption || lra). repeat split; f_equal.
  - unfold tt. field.
  - unfold tsr, psr, rhor, tt. field.
  - f_equal. unfold md2, tt. field.
  - unfold tt. rewrite sq_sqrt by lra. field.
Qed.
(*@E C13_example: air at Mn = 2: Ps_ratio = 9/2, Rho_ratio = 8/3 (below 6). *)
Lemma C13_example_lemma : Ps_ratio (Some 2) (Some (14/10)) = Some (9/2) /\ Rho_ratio (Some 2) (Some (14/10)) = Some (8/3) /\
  8/3 < (14/10 + 1) / (14/10 - 1) /\ (14/10 - 1) / (2 * (14/10)) < 2 ^ 2.
Proof.
  rewrite Ps_eval, Rho_eval by lra. repeat split; try lra; f_equal.
  - unfold psr. field.
  - unfold rhor, tt. field.
Qed.
