(** * Lemmas for examples/ramjet-working.py *)
From Coq Require Import List Lia Classical_Prop.
From Coquelicot Require Import Coquelicot.
From Verif Require Import L_Num Spec NumSpec RamjetSpec M_Isentropic M_MassFlow M_ShockWave M_Fanno M_Rayleigh M_Polar M_Ramjet L_Isentropic L_MassFlow L_Shock L_ShockPt L_Fanno L_Rayleigh L_Polar L_Lines.
Open Scope R_scope.

Lemma tfun_tt g M : tfun g M = tt g M.
Proof. apply tt_alt. Qed.
Lemma flux_sig g M pi : 1 < g -> 0 < M -> mass_flux g M pi = pi * Rpower (2 / (g + 1)) (sexp g) / sig g M.
Proof.
  intros Hg HM. unfold mass_flux, static_p. rewrite tfun_tt. rewrite sig_form by assumption. assert (T := tt_pos g M Hg). assert (0 < 2 / (g + 1)) by pos.
  rewrite Rpower_mult_base by assumption. rewrite <- (Rpower_sqrt _ T). replace (g / (g - 1)) with (sexp g + /2) by (unfold sexp; field; lra).
  rewrite Rpower_plus. assert (A := Rpower_pos (tt g M) (sexp g)). assert (B := Rpower_pos (tt g M) (/2)). assert (C := Rpower_pos (2 / (g + 1)) (sexp g)). field. repeat split; lra.
Qed.
Lemma channel_sig g A M A' M' : 1 < g -> 0 < M -> 0 < M' -> A * sig g M' = A' * sig g M -> channel_flow g A M A' M'.
Proof.
  intros Hg HM HM' H. unfold channel_flow. rewrite !flux_sig by assumption. assert (S1 := sig_pos g M). assert (S2 := sig_pos g M').
  assert (C := Rpower_pos (2 / (g + 1)) (sexp g)). set (c := Rpower _ _) in *.
  replace (A * (1 * c / sig g M)) with (A * sig g M' * c / (sig g M * sig g M')) by (field; lra). rewrite H. field. lra.
Qed.
Lemma duct_rayleigh g al M pi M' pi' a b a' b' : 1 < g -> 0 < M -> 0 < M' -> 0 < al ->
  Ra_Ti_Ticri (Some M) (Some g) = Some a -> Ra_Ti_Ticri (Some M') (Some g) = Some a' -> a' = al * a ->
  Ra_Pi_Picri (Some M) (Some g) = Some b -> Ra_Pi_Picri (Some M') (Some g) = Some b' -> pi' = pi * b' / b ->
  duct_flow g al M pi M' pi'.
Proof.
  intros Hg HM HM' Hal E1 E2 Ha E3 E4 Hb. rewrite RaTi_eval in E1, E2 by lra. rewrite RaPi_eval in E3, E4 by lra.
  injection E1 as <-. injection E2 as <-. injection E3 as <-. injection E4 as <-.
  assert (T := tt_pos g M Hg). assert (T' := tt_pos g M' Hg). assert (R1 := rd_pos g M Hg). assert (R2 := rd_pos g M' Hg).
  unfold fq in Hb. assert (0 < 2 / (g + 1)) by pos. rewrite !Rpower_mult_base in Hb by assumption.
  assert (A := Rpower_pos (tt g M) (g / (g - 1))). assert (B := Rpower_pos (tt g M') (g / (g - 1))). assert (C := Rpower_pos (2 / (g + 1)) (g / (g - 1))).
  assert (P : static_p g M' pi' * rd g M' = static_p g M pi * rd g M). { unfold static_p. rewrite !tfun_tt, Hb. field. repeat split; lra. }
  split; [unfold impulse; fold (rd g M) (rd g M'); lra|].
  assert (S0 : 0 < sqrt al) by now apply sqrt_lt_R0.
  unfold mass_flux. rewrite !tfun_tt. set (p := static_p g M pi) in *. set (p' := static_p g M' pi') in *.
  assert (Ep : p' = p * rd g M / rd g M') by (rewrite <- P; field; lra). rewrite Ep.
  assert (K : M' * sqrt (tt g M') / rd g M' = sqrt al * (M * sqrt (tt g M) / rd g M)).
  { assert (Q1 := sqrt_lt_R0 _ T). assert (Q2 := sqrt_lt_R0 _ T'). apply Rsqr_inj; [pos|pos|]. unfold Rsqr.
    replace (M' * sqrt (tt g M') / rd g M' * (M' * sqrt (tt g M') / rd g M')) with (M' ^ 2 * (sqrt (tt g M') * sqrt (tt g M')) / rd g M' ^ 2) by (field; lra).
    replace (sqrt al * (M * sqrt (tt g M) / rd g M) * (sqrt al * (M * sqrt (tt g M) / rd g M))) with ((sqrt al * sqrt al) * (M ^ 2 * (sqrt (tt g M) * sqrt (tt g M)) / rd g M ^ 2)) by (field; lra).
    rewrite !sqrt_sqrt by lra. unfold ray_ti in Ha.
    apply Rmult_eq_reg_l with (2 * (g + 1)); [|lra]. transitivity (2 * (g + 1) * M' ^ 2 / rd g M' ^ 2 * tt g M'); [field; lra|]. rewrite Ha. field. lra. }
  replace (p * rd g M / rd g M' * M' * sqrt (tt g M') / sqrt al) with (p * rd g M * (M' * sqrt (tt g M') / rd g M') / sqrt al) by (field; lra).
  rewrite K. field. lra.
Qed.
Lemma shock_spec g M pi : 1 < g -> 1 <= M -> normal_shock g M pi (sqrt (md2 g M)) (pi * ptr g M).
Proof.
  intros Hg HM. assert (Hm := md_pos g M Hg HM). split; [exact HM|]. split.
  - split; [exact Hm|]. rewrite <- sqrt_1. apply sqrt_le_1_alt. unfold md2. assert (D := sdom_den g M Hg (sdom_ge g M Hg HM)). apply Rle_div_l; [exact D|]. unfold tt. assert (0 <= (g + 1) * (M ^ 2 - 1)) by (apply Rmult_le_pos; nra). lra.
  - destruct (shock_on_rayleigh g M Hg HM) as (m & P & Rr & T & E1 & _ & _ & _ & _ & _ & _ & _ & a & E2 & E3).
    destruct (shock_sigma g M Hg HM) as (m' & P' & K & q & q' & F1 & F2 & F3 & F4 & F5 & F6 & _ & _ & (b & F7 & F8) & _).
    rewrite Md_eval in E1, F1 by (assumption || now apply sdom_ge). injection E1 as <-. injection F1 as <-.
    eapply duct_rayleigh; [exact Hg|lra|exact Hm|lra|exact E2|exact E3|reflexivity|exact F7|exact F8|].
    rewrite Ps_eval in F2 by lra. injection F2 as <-. rewrite PtPs_eval in F3, F4 by lra. injection F3 as <-. injection F4 as <-.
    assert (K = ptr g M). { unfold ptr. rewrite F5. field. lra. } subst K.
    assert (0 < b). { rewrite RaPi_eval in F7 by lra. injection F7 as <-. assert (R1 := rd_pos g M Hg). pos. } field. lra.
Qed.
(** monotone branches *)
Lemma ti_sub_lt g x y : 1 < g -> 0 <= x -> x < y -> y <= 1 -> ray_ti g x < ray_ti g y.
Proof.
  intros Hg Hx Hxy Hy. assert (G1 := ray_ti_gap g x Hg). assert (G2 := ray_ti_gap g y Hg). assert (R1 := rd_pos g x Hg). assert (R2 := rd_pos g y Hg).
  assert (K : 0 <= (1 - y ^ 2) / rd g y < (1 - x ^ 2) / rd g x).
  { split; [apply Rmult_le_pos; [nra|left; now apply Rinv_0_lt_compat]|]. apply Rmult_lt_reg_r with (rd g y * rd g x); [nra|].
    replace ((1 - y ^ 2) / rd g y * (rd g y * rd g x)) with ((1 - y ^ 2) * rd g x) by (field; lra).
    replace ((1 - x ^ 2) / rd g x * (rd g y * rd g x)) with ((1 - x ^ 2) * rd g y) by (field; lra). unfold rd. assert (0 < (g + 1) * (y ^ 2 - x ^ 2)) by (apply Rmult_lt_0_compat; nra). lra. }
  nra.
Qed.
Lemma ti_sup_lt g x y : 1 < g -> 1 <= x -> x < y -> ray_ti g y < ray_ti g x.
Proof.
  intros Hg Hx Hxy. assert (G1 := ray_ti_gap g x Hg). assert (G2 := ray_ti_gap g y Hg). assert (R1 := rd_pos g x Hg). assert (R2 := rd_pos g y Hg).
  assert (K : 0 <= (x ^ 2 - 1) / rd g x < (y ^ 2 - 1) / rd g y).
  { split; [apply Rmult_le_pos; [nra|left; now apply Rinv_0_lt_compat]|]. apply Rmult_lt_reg_r with (rd g y * rd g x); [nra|].
    replace ((y ^ 2 - 1) / rd g y * (rd g y * rd g x)) with ((y ^ 2 - 1) * rd g x) by (field; lra).
    replace ((x ^ 2 - 1) / rd g x * (rd g y * rd g x)) with ((x ^ 2 - 1) * rd g y) by (field; lra). unfold rd. assert (0 < (g + 1) * (y ^ 2 - x ^ 2)) by (apply Rmult_lt_0_compat; nra). lra. }
  assert (E1 : ((1 - x ^ 2) / rd g x) ^ 2 = ((x ^ 2 - 1) / rd g x) ^ 2) by (field; lra). assert (E2 : ((1 - y ^ 2) / rd g y) ^ 2 = ((y ^ 2 - 1) / rd g y) ^ 2) by (field; lra). nra.
Qed.
Lemma ti_sub_le g x y : 1 < g -> 0 <= x <= 1 -> 0 <= y <= 1 -> (x <= y <-> ray_ti g x <= ray_ti g y).
Proof.
  intros Hg Hx Hy. split; intros H.
  - destruct H as [H| ->]; [left; apply ti_sub_lt; lra|lra].
  - apply Rnot_lt_le. intros N. pose proof (ti_sub_lt g y x Hg). lra.
Qed.
Lemma ti_sup_le g x y : 1 < g -> 1 <= x -> 1 <= y -> (x <= y <-> ray_ti g y <= ray_ti g x).
Proof.
  intros Hg Hx Hy. split; intros H.
  - destruct H as [H| ->]; [left; apply ti_sup_lt; lra|lra].
  - apply Rnot_lt_le. intros N. pose proof (ti_sup_lt g y x Hg). lra.
Qed.
Lemma sig_sub_le g x y : 1 < g -> 0 < x <= 1 -> 0 < y <= 1 -> (x <= y <-> sig g y <= sig g x).
Proof.
  intros Hg Hx Hy. split; intros H.
  - destruct H as [H| ->]; [left; apply sig_decr; lra|lra].
  - apply Rnot_lt_le. intros N. pose proof (sig_decr g y x Hg). lra.
Qed.
Lemma sig_sup_le g x y : 1 < g -> 1 <= x -> 1 <= y -> (x <= y <-> sig g x <= sig g y).
Proof.
  intros Hg Hx Hy. split; intros H.
  - destruct H as [H| ->]; [left; apply sig_incr; lra|lra].
  - apply Rnot_lt_le. intros N. pose proof (sig_incr g y x Hg). lra.
Qed.
Lemma ti_pos g x : 1 < g -> 0 < x -> 0 < ray_ti g x.
Proof. intros. unfold ray_ti. pose proof (tt_pos g x H). pose proof (rd_pos g x H). pos. Qed.
Lemma ti_le1 g x : 1 < g -> ray_ti g x <= 1.
Proof. intros. pose proof (ray_ti_gap g x H). pose proof (pow2_ge_0 ((1 - x ^ 2) / rd g x)). lra. Qed.
Lemma ti_md g M : 1 < g -> 1 <= M -> ray_ti g (sqrt (md2 g M)) = ray_ti g M.
Proof.
  intros Hg HM. destruct (shock_on_rayleigh g M Hg HM) as (m & P & Rr & T & E1 & _ & _ & _ & _ & _ & _ & _ & a & E2 & E3).
  rewrite Md_eval in E1 by (assumption || now apply sdom_ge). injection E1 as <-. rewrite RaTi_eval in E2, E3 by lra. injection E2 as <-. injection E3 as E3. lra.
Qed.
Lemma md_range g M : 1 < g -> 1 <= M -> 0 < sqrt (md2 g M) <= 1.
Proof. intros. now apply (shock_spec g M 1). Qed.
Lemma ptr_lt g x y : 1 < g -> 1 <= x -> x < y -> ptr g y < ptr g x.
Proof.
  intros Hg Hx Hy. rewrite !ptr_dS by (try lra; apply sdom_ge; lra). apply exp_increasing.
  assert (K := dS_incr g x y Hg ltac:(lra) (sdom_ge g x Hg Hx) Hy). apply Rmult_lt_compat_r; [apply Rinv_0_lt_compat|]; lra.
Qed.
Lemma ptr_1 g : 1 < g -> ptr g 1 = 1.
Proof. intros. rewrite ptr_dS by (try lra; apply sdom_ge; lra). rewrite dS_1 by lra. replace (- 0 / (g - 1)) with 0 by (field; lra). apply exp_0. Qed.
Lemma ptr_le g x y : 1 < g -> 1 <= x -> x <= y -> ptr g y <= ptr g x.
Proof. intros Hg Hx [H| ->]; [left; now apply ptr_lt|lra]. Qed.
Lemma ptr_pos g M : 1 < g -> 1 <= M -> 0 < ptr g M.
Proof. intros. rewrite ptr_dS by (try lra; apply sdom_ge; lra). apply exp_pos. Qed.
(** the shock with a given loss of total pressure *)
Lemma shock_between g a b k : 1 < g -> 1 <= a -> a <= b -> ptr g b <= k <= ptr g a -> exists M, a <= M <= b /\ ptr g M = k.
Proof.
  intros Hg Ha Hab Hk. destruct Hab as [Hab| <-]; [|exists a; lra].
  destruct (IVT_value (fun M => - exp (- dS g M / (g - 1))) a b (- k) Hab) as (M & HM & E).
  - intros x Hx. apply (ex_derive_continuous (fun M => - exp (- dS g M / (g - 1))) x).
    assert (D := dS_derive g x Hg ltac:(lra) (sdom_ge g x Hg ltac:(lra))). auto_derive. repeat split; eexists; exact D.
  - rewrite <- !ptr_dS by (try lra; apply sdom_ge; lra). lra.
  - exists M. split; [exact HM|]. rewrite ptr_dS by (try lra; apply sdom_ge; lra). lra.
Qed.
(** np.log10(np.logspace(a, b, n + 1)) = np.linspace(a, b, n + 1) *)
Lemma log10_pow x : log10 (npow (Some 10) (Some x)) = Some x.
Proof.
  rewrite npow_Some by lra. unfold log10. rewrite nlog_Some by apply Rpower_pos. rewrite (nlog_Some 10) by lra.
  assert (0 < ln 10) by (rewrite <- ln_1; apply ln_increasing; lra). rewrite ndiv_Some by lra. unfold Rpower. rewrite ln_exp. f_equal. field. lra.
Qed.
Lemma alpha_nth a b n i : (1 <= n)%nat -> (i <= n)%nat -> nth_error (map log10 (logspace (Some a) (Some b) n)) i = Some (Some (a + INR i * (b - a) / INR n)).
Proof.
  intros Hn Hi. unfold logspace. rewrite !nth_error_map. assert (INR n <> 0) by (apply not_0_INR; lia). destruct (Nat.eq_dec i n) as [->|N].
  - rewrite linspace_last by lia. cbn [option_map]. rewrite log10_pow. do 2 f_equal. field. assumption.
  - rewrite linspace_nth by lia. cbn [option_map]. now rewrite log10_pow.
Qed.
Lemma alpha_between a b n i : (1 <= n)%nat -> (i <= n)%nat -> a <= b -> a <= a + INR i * (b - a) / INR n <= b.
Proof.
  intros Hn Hi Hab. assert (0 < INR n) by (apply lt_0_INR; lia). assert (0 <= INR i <= INR n) by (split; [apply pos_INR|now apply le_INR]).
  assert (0 <= INR i * (b - a) / INR n <= b - a); [|lra]. split; [apply Rmult_le_pos; [nra|left; now apply Rinv_0_lt_compat]|]. apply Rle_div_l; nra.
Qed.
Lemma map_length_alpha (f : num -> wpoint) a b n : List.length (map f (map log10 (logspace a b n))) = S n.
Proof. unfold logspace. now rewrite !map_length, linspace_length. Qed.

(** one branch of the figure with a sonic nozzle: the subsonic Mach number at the combustor's inlet *)
Lemma sub_branch T4 mhi a1 n i : 0 < T4 -> 0 < mhi <= 1 -> T4 / ray_ti air mhi <= a1 -> (1 <= n)%nat -> (i <= n)%nat ->
  let a0 := T4 / ray_ti air mhi in let a := a0 + INR i * (a1 - a0) / INR n in
  exists m, ndiv (Some T4) (Some a) = Some (ray_ti air m) /\ Ra_SubMach_TiTicri (Some (ray_ti air m)) (Some air) = Some m /\
    0 < m <= mhi /\ T4 / a1 <= ray_ti air m /\ T4 = a * ray_ti air m /\ 0 < a /\ (i = 0%nat -> m = mhi) /\ (i = n -> ray_ti air m = T4 / a1).
Proof.
  intros HT Hm Ha Hn Hi a0 a. assert (Hg : 1 < air) by (unfold air; lra). assert (T := ti_pos air mhi Hg ltac:(lra)).
  assert (0 < a0) by (unfold a0; pos). assert (B := alpha_between a0 a1 n i Hn Hi Ha). fold a in B. assert (Pa : 0 < a) by lra.
  assert (Le : T4 / a <= ray_ti air mhi). { apply Rle_div_l; [exact Pa|]. assert (E : T4 = a0 * ray_ti air mhi) by (unfold a0; field; lra). nra. }
  assert (Ge : T4 / a1 <= T4 / a). { apply Rmult_le_compat_l; [lra|]. apply Rinv_le_contravar; lra. }
  assert (L1 := ti_le1 air mhi Hg). assert (P0 : 0 < T4 / a) by pos. destruct (rayleigh_sub air Hg) as [_ Hs]. destruct (Hs (T4 / a) ltac:(lra)) as (m & E & Hm' & Et).
  rewrite RaTi_eval in Et by assumption. injection Et as Et.
  assert (Pm : 0 < m). { destruct Hm' as [[K|K] _]; [exact K|]. rewrite <- K in Et. unfold ray_ti in Et. rewrite pow_i in Et by lia. lra. }
  exists m. rewrite Et. split; [apply ndiv_Some; lra|]. split; [exact E|].
  assert (Lm : m <= mhi) by (apply (ti_sub_le air); lra).
  repeat (split; [lra|]). split; [field; lra|]. split; [exact Pa|]. split.
  - intros ->. apply Rle_antisym; [exact Lm|]. apply (ti_sub_le air); try lra. rewrite Et. right. replace a with a0 by (unfold a; cbn [INR]; unfold Rdiv; ring). unfold a0. field. lra.
  - intros ->. unfold a. f_equal. field. apply not_0_INR; lia.
Qed.
(** the numbers of the figure *)
Record numbers (newton : solver) (M0 M2 : R) (n : nat) (A3 M3 Mb m4 mH mU MR : R) : Prop := {
  nu_M0 : 1 < M0; nu_M2 : 1 < M2; nu_A3 : A3 = 9 / 10 * sig air M0 / sig air M2; nu_A3g : 1 <= A3;
  nu_M3 : 1 <= M3; nu_M3s : sig air M3 = 9 / 10 * sig air M0; nu_M3g : 5 / 4 <= sig air M3;
  nu_Mb : 1 <= Mb; nu_Mbs : sig air Mb = 5 / 4; nu_m4 : 0 < m4 < 1; nu_m4s : sig air m4 = 5 / 4;
  nu_mH : 0 < mH <= 1; nu_mHs : sig air mH = A3 * sig air (sqrt (md2 air M2));
  nu_mU : 0 < mU <= 1; nu_mUs : sig air mU = A3; nu_MR : 1 <= MR; nu_MRs : sig air MR = A3;
  nu_eA3 : s_A3A2 (Some air) (Some M0) (Some M2) = Some A3; nu_eA8 : s_A8A2 (Some air) (Some M0) (Some M2) = Some (8 / 10 * A3);
  nu_eM3 : s_M3sup newton (Some air) (Some M0) (Some M2) = Some M3;
  nu_eMb : s_M4max newton (Some air) (Some M0) (Some M2) = Some Mb;
  nu_em4 : s_m4 newton (Some air) (Some M0) (Some M2) = Some m4;
  nu_emH : CW_m3high newton (Some air) (Some M0) (Some M2) = Some mH;
  nu_emU : UC_m3low newton (Some air) (Some M0) (Some M2) = Some mU;
  nu_eMR : RC_m3low newton (Some air) (Some M0) (Some M2) = Some MR }.
Lemma air_gt1 : 1 < air. Proof. unfold air; lra. Qed.
Lemma numbers_exist newton M0 M2 n : inverts_sigma newton -> design M0 M2 -> exists A3 M3 Mb m4 mH mU MR, numbers newton M0 M2 n A3 M3 Mb m4 mH mU MR.
Proof.
  intros Hn (H0 & H2 & S0 & S2 & E0 & E2 & L1 & L2). assert (Hg := air_gt1).
  rewrite Sigma_eval in E0, E2 by lra. injection E0 as <-. injection E2 as <-. assert (P0 := sig_pos air M0). assert (P2 := sig_pos air M2).
  set (A3 := 9 / 10 * sig air M0 / sig air M2).
  assert (A3g : 1 <= A3). { unfold A3. apply Rmult_le_reg_r with (sig air M2); [exact P2|]. replace (9 / 10 * sig air M0 / sig air M2 * sig air M2) with (9 / 10 * sig air M0) by (field; lra). lra. }
  assert (eA3 : s_A3A2 (Some air) (Some M0) (Some M2) = Some A3).
  { unfold s_A3A2, s_A2A0. rewrite !Sigma_eval by lra. rewrite ndiv_Some by lra. ncbn. rewrite ndiv_Some by (apply Rgt_not_eq; pos). ncbn. f_equal. unfold A3. field. lra. }
  assert (eA8 : s_A8A2 (Some air) (Some M0) (Some M2) = Some (8 / 10 * A3)). { unfold s_A8A2. rewrite eA3. reflexivity. }
  assert (eq : ndiv (Some A3) (Some (8 / 10 * A3)) = Some (5 / 4)). { rewrite ndiv_Some by lra. f_equal. field. lra. }
  destruct (Hn (9 / 10 * sig air M0) air ltac:(lra) ltac:(lra) ltac:(lra)) as (M3 & F1 & F2 & _ & F3). specialize (F3 Hg). rewrite Sigma_eval in F2 by lra. injection F2 as F2.
  destruct (Hn (5 / 4) 2 ltac:(lra) ltac:(lra) ltac:(lra)) as (Mb & B1 & B2 & _ & B3). specialize (B3 ltac:(lra)). rewrite Sigma_eval in B2 by lra. injection B2 as B2.
  destruct (Hn (5 / 4) (1/10) ltac:(lra) ltac:(lra) ltac:(lra)) as (m4 & C1 & C2 & C3 & _). specialize (C3 ltac:(lra)). rewrite Sigma_eval in C2 by lra. injection C2 as C2.
  destruct (md_range air M2 Hg ltac:(lra)) as [D1 D2].
  assert (D3 : 1 <= sig air (sqrt (md2 air M2))). { rewrite <- (sig_1 air Hg). apply sig_sub_le; lra. }
  destruct (Hn (A3 * sig air (sqrt (md2 air M2))) (1/10) ltac:(nra) ltac:(lra) ltac:(lra)) as (mH & H1' & H2' & H3 & _). specialize (H3 ltac:(lra)). rewrite Sigma_eval in H2' by lra. injection H2' as H2'.
  destruct (Hn A3 (1/10) ltac:(lra) ltac:(lra) ltac:(lra)) as (mU & U1 & U2 & U3 & _). specialize (U3 ltac:(lra)). rewrite Sigma_eval in U2 by lra. injection U2 as U2.
  destruct (Hn A3 2 ltac:(lra) ltac:(lra) ltac:(lra)) as (MR & R1 & R2 & _ & R3). specialize (R3 ltac:(lra)). rewrite Sigma_eval in R2 by lra. injection R2 as R2.
  exists A3, M3, Mb, m4, mH, mU, MR. constructor; try assumption; try lra; try reflexivity.
  - split; [lra|]. destruct C3 as [_ [K|K]]; [exact K|]. rewrite K, sig_1 in C2 by exact Hg. lra.
  - unfold s_M3sup. rewrite eA3, Sigma_eval by lra. ncbn. replace (A3 * sig air M2) with (9 / 10 * sig air M0) by (unfold A3; field; lra). exact F1.
  - unfold s_M4max. rewrite eA3, eA8, eq. exact B1.
  - unfold s_m4. rewrite eA3, eA8, eq. exact C1.
  - unfold CW_m3high. rewrite Md_eval by (try apply sdom_ge; lra). rewrite eA3, Sigma_eval by lra. ncbn. exact H1'.
  - unfold UC_m3low. rewrite eA3. exact U1.
  - unfold RC_m3low. rewrite eA3. exact R1.
Qed.
Lemma branch_nth (F : num -> wpoint) a0 a1 n i : (1 <= n)%nat -> (i <= n)%nat ->
  nth_error (map F (map log10 (logspace (Some a0) (Some a1) n))) i = Some (F (Some (a0 + INR i * (a1 - a0) / INR n))).
Proof. intros Hn Hi. rewrite nth_error_map. now rewrite alpha_nth. Qed.
Lemma pi_ratio_heat g M : 1 < g -> exists b, 0 < b /\ Ra_Pi_Picri (Some M) (Some g) = Some b.
Proof. intros Hg. rewrite RaPi_eval by exact Hg. eexists. split; [|reflexivity]. assert (R1 := rd_pos g M Hg). assert (A := Rpower_pos (fq g M) (g / (g - 1))). pos. Qed.
(** heat from [m] to [m4] by the factor [a] *)
Lemma heat a m m4 pi b b' : 0 < m -> 0 < m4 -> 0 < a -> ray_ti air m4 = a * ray_ti air m ->
  Ra_Pi_Picri (Some m) (Some air) = Some b -> Ra_Pi_Picri (Some m4) (Some air) = Some b' -> 0 < b -> duct_flow air a m pi m4 (pi * b' / b).
Proof. intros Hm Hm4 Ha Ht E1 E2 Hb. apply (duct_rayleigh air a m pi m4 (pi * b' / b) (ray_ti air m) b (ray_ti air m4) b'); (assumption || reflexivity || apply air_gt1 || apply RaTi_eval, air_gt1). Qed.
(** a shock between the throat and the combustor: it sits where the total pressure requires *)
Lemma shock_place Mt Me A3 m k pb : 1 <= Mt -> 1 <= Me -> sig air Me = A3 * sig air Mt -> 1 <= A3 -> 0 < m <= 1 -> ptr air Me <= k <= ptr air Mt ->
  sig air m = k * A3 * sig air Mt ->
  exists As Ms ms, 1 <= As <= A3 /\ channel_flow air 1 Mt As Ms /\ normal_shock air Ms pb ms (pb * k) /\ channel_flow air As ms A3 m /\
    (k = ptr air Me -> As = A3) /\ (k = ptr air Mt -> As = 1).
Proof.
  intros H1 H2 Hs HA Hm Hk Hsm. assert (Hg := air_gt1). assert (P1 := sig_pos air Mt).
  assert (L : Mt <= Me). { apply (sig_sup_le air); try assumption. rewrite Hs. nra. }
  destruct (shock_between air Mt Me k Hg H1 L Hk) as (Ms & HMs & Ek). destruct (md_range air Ms Hg ltac:(lra)) as [D1 D2].
  assert (Q1 : sig air Mt <= sig air Ms) by (apply sig_sup_le; lra). assert (Q2 : sig air Ms <= sig air Me) by (apply sig_sup_le; lra).
  exists (sig air Ms / sig air Mt), Ms, (sqrt (md2 air Ms)).
  assert (EA : sig air Ms / sig air Mt * sig air Mt = sig air Ms) by (field; lra).
  split; [split; [apply Rmult_le_reg_r with (sig air Mt); lra|apply Rmult_le_reg_r with (sig air Mt); lra]|].
  split; [apply channel_sig; lra|]. split; [rewrite <- Ek; apply shock_spec; lra|].
  split; [apply channel_sig; try lra; rewrite sig_jump, Ek, Hsm by lra; field; lra|].
  assert (Inj : forall x y, 1 <= x -> 1 <= y -> ptr air x = ptr air y -> x = y).
  { intros x y Hx Hy E. destruct (Rtotal_order x y) as [K|[K|K]]; [assert (Z := ptr_lt air x y Hg Hx K); lra|exact K|assert (Z := ptr_lt air y x Hg Hy K); lra]. }
  split; intros ->.
  - assert (Ms = Me) by (apply Inj; lra). subst Ms. rewrite Hs. field. lra.
  - assert (Ms = Mt) by (apply Inj; lra). subst Ms. field. lra.
Qed.

(*@P C86_supersonic: The fully supersonic branch: the flow expands from the throat to the combustor, total pressure 1, M3 >= 1 (M3 is where
   the area ratio A3 puts it, and A3 is 9/10 of the isentropic area of M0); along the branch the combustor multiplies the total temperature by
   the plotted ratio, which goes from 1 (no heat, m4 = M3) to the ratio at which the nozzle's throat chokes (M8 = 1); the flow stays supersonic. *)
Lemma ramjet_supersonic : forall newton M0 M2 n, inverts_sigma newton -> design M0 M2 -> (1 <= n)%nat ->
  let f := ramjet_working newton (Some air) (Some M0) (Some M2) n in
  exists A3 M3 amax, A3A2 f = Some A3 /\ A8A2 f = Some (8 / 10 * A3) /\ 1 <= A3 /\ channel_flow air 1 M2 (10 / 9 * A3) M0 /\
  channel_flow air 1 M2 A3 M3 /\ 1 <= M3 /\ 1 <= amax /\ List.length (FS f) = S n /\
  forall i, (i <= n)%nat -> let a := 1 + INR i * (amax - 1) / INR n in
  exists m4 p4 M8, nth_error (FS f) i = Some (mkw (Some a) (Some M3) (Some m4) (Some 1) (Some p4)) /\
    duct_flow air a M3 1 m4 p4 /\ 1 <= m4 <= M3 /\ channel_flow air A3 m4 (8 / 10 * A3) M8 /\ 1 <= M8 /\
    (i = 0%nat -> m4 = M3) /\ (i = n -> M8 = 1).
Proof.
  intros newton M0 M2 n Hnw Hd Hn f. assert (Hg := air_gt1). destruct (numbers_exist newton M0 M2 n Hnw Hd) as (A3 & M3 & Mb & m4 & mH & mU & MR & N). destruct N as [nu_M0 nu_M2 nu_A3 nu_A3g nu_M3 nu_M3s nu_M3g nu_Mb nu_Mbs nu_m4 nu_m4s nu_mH nu_mHs nu_mU nu_mUs nu_MR nu_MRs nu_eA3 nu_eA8 nu_eM3 nu_eMb nu_em4 nu_emH nu_emU nu_eMR].
  assert (P2 := sig_pos air M2). assert (TM3 := ti_pos air M3 Hg ltac:(lra)). assert (TMb := ti_pos air Mb Hg ltac:(lra)).
  assert (L : Mb <= M3) by (apply (sig_sup_le air); lra). assert (Lt : ray_ti air M3 <= ray_ti air Mb) by (apply ti_sup_le; lra).
  set (amax := ray_ti air Mb / ray_ti air M3).
  assert (Ea : amax * ray_ti air M3 = ray_ti air Mb) by (unfold amax; field; lra). assert (Ha : 1 <= amax) by (apply Rmult_le_reg_r with (ray_ti air M3); lra).
  assert (EA : A3 * sig air M2 = 9 / 10 * sig air M0) by (rewrite nu_A3; field; lra).
  assert (eam : FS_alphamax newton (Some air) (Some M0) (Some M2) = Some amax). { unfold FS_alphamax. rewrite nu_eM3, nu_eMb, !RaTi_eval by assumption. rewrite ndiv_Some by lra. reflexivity. }
  exists A3, M3, amax. split; [exact nu_eA3|]. split; [exact nu_eA8|]. split; [lra|]. split; [apply channel_sig; lra|]. split; [apply channel_sig; lra|].
  split; [lra|]. split; [exact Ha|]. split; [apply map_length_alpha|].
  intros i Hi a. assert (B := alpha_between 1 amax n i Hn Hi Ha). fold a in B.
  destruct (rayleigh_sup air Hg) as (Hs1 & Hs2 & _).
  destruct (Hs1 M3 _ nu_M3 (RaTi_eval air M3 Hg)) as [[Hlow _] _].
  assert (Q1 : ray_ti air M3 <= a * ray_ti air M3) by nra. assert (Q2 : a * ray_ti air M3 <= ray_ti air Mb) by nra. assert (Q3 := ti_le1 air Mb Hg).
  destruct (Hs2 (a * ray_ti air M3) ltac:(lra)) as (m & E1 & Hm & E2). rewrite RaTi_eval in E2 by exact Hg. injection E2 as E2.
  assert (Lm : Mb <= m) by (apply (ti_sup_le air); lra). assert (Lm' : m <= M3) by (apply (ti_sup_le air); lra).
  assert (S1 : 5 / 4 <= sig air m) by (rewrite <- nu_Mbs; apply sig_sup_le; lra).
  destruct (pi_ratio_heat air M3 Hg) as (b & Pb & Eb). destruct (pi_ratio_heat air m Hg) as (b' & Pb' & Eb').
  assert (HM8 : exists M8, 1 <= M8 /\ sig air M8 = 8 / 10 * sig air m).
  { destruct (Req_dec (8 / 10 * sig air m) 1) as [Z|Z]; [exists 1; rewrite sig_1 by exact Hg; lra|]. destruct (sig_sup_exists air (8 / 10 * sig air m) Hg ltac:(lra)) as (M8 & K1 & K2). exists M8. lra. }
  destruct HM8 as (M8 & H8 & S8). exists m, (1 * b' / b), M8. split; [|split; [|split; [lra|split; [|split; [exact H8|]]]]].
  - subst f. cbn [FS ramjet_working]. unfold s_FS. rewrite eam, nu_eM3, nu_eMb, branch_nth by assumption. fold a.
    rewrite ndiv_Some by lra. rewrite RaTi_eval by exact Hg. ncbn. replace (a / amax * ray_ti air Mb) with (a * ray_ti air M3) by (rewrite <- Ea; field; lra).
    rewrite E1, Eb, Eb'. rewrite ndiv_Some by lra. do 3 f_equal. field. lra.
  - apply heat; try assumption; lra.
  - apply channel_sig; try lra. rewrite S8. lra.
  - split.
    + intros ->. assert (a = 1) by (unfold a; cbn [INR]; unfold Rdiv; ring). apply Rle_antisym; [exact Lm'|]. apply (ti_sup_le air); try lra. rewrite E2. nra.
    + intros ->. assert (Za : a = amax) by (unfold a; field; apply not_0_INR; lia). assert (m <= Mb) by (apply (ti_sup_le air); try lra; rewrite E2, Za; lra).
      assert (Zm : m = Mb) by lra. rewrite Zm, nu_Mbs in S8. apply Rle_antisym; [|exact H8]. apply (sig_sup_le air); try lra. rewrite sig_1 by exact Hg. lra.
Qed.
(*@P C86_working: The conventional branch: for every plotted point there is a section As between the throat (1) and the combustor (A3) where a
   normal shock takes the supersonic flow expanded from the throat to the subsonic flow that reaches the combustor with the plotted Mach number
   and total pressure, is heated there by the plotted ratio, and leaves through a sonic nozzle throat; the shock is at the combustor at the
   first point and at the throat at the last one (unstart). *)
Lemma ramjet_conventional : forall newton M0 M2 n, inverts_sigma newton -> design M0 M2 -> (1 <= n)%nat ->
  let f := ramjet_working newton (Some air) (Some M0) (Some M2) n in
  exists A3 amin amax, A3A2 f = Some A3 /\ A8A2 f = Some (8 / 10 * A3) /\ 0 < amin <= amax /\ List.length (CW f) = S n /\
  forall i, (i <= n)%nat -> let a := amin + INR i * (amax - amin) / INR n in
  exists m3 m4 p3 p4 As Ms ms, nth_error (CW f) i = Some (mkw (Some a) (Some m3) (Some m4) (Some p3) (Some p4)) /\
    1 <= As <= A3 /\ channel_flow air 1 M2 As Ms /\ normal_shock air Ms 1 ms p3 /\ channel_flow air As ms A3 m3 /\ 0 < m3 <= 1 /\
    duct_flow air a m3 p3 m4 p4 /\ 0 < m4 < 1 /\ channel_flow air A3 m4 (8 / 10 * A3) 1 /\
    (i = 0%nat -> As = A3) /\ (i = n -> As = 1).
Proof.
  intros newton M0 M2 n Hnw Hd Hn f. assert (Hg := air_gt1). destruct (numbers_exist newton M0 M2 n Hnw Hd) as (A3 & M3 & Mb & m4 & mH & mU & MR & N). destruct N as [nu_M0 nu_M2 nu_A3 nu_A3g nu_M3 nu_M3s nu_M3g nu_Mb nu_Mbs nu_m4 nu_m4s nu_mH nu_mHs nu_mU nu_mUs nu_MR nu_MRs nu_eA3 nu_eA8 nu_eM3 nu_eMb nu_em4 nu_emH nu_emU nu_eMR].
  assert (P2 := sig_pos air M2). assert (EA : sig air M3 = A3 * sig air M2) by (rewrite nu_A3; rewrite nu_M3s; field; lra).
  destruct (md_range air M3 Hg nu_M3) as [D1 D2]. set (mL := sqrt (md2 air M3)) in *. assert (T3 : ray_ti air mL = ray_ti air M3) by (apply ti_md; lra).
  assert (T4 := ti_pos air m4 Hg ltac:(lra)). assert (TL := ti_pos air mL Hg D1). assert (TH := ti_pos air mH Hg ltac:(lra)).
  assert (SL : sig air mL = ptr air M3 * sig air M3) by (apply sig_jump; assumption).
  assert (SH : sig air mH = A3 * (ptr air M2 * sig air M2)) by (rewrite nu_mHs, sig_jump by lra; reflexivity).
  assert (LM : M2 <= M3) by (apply (sig_sup_le air); try lra; rewrite EA; nra). assert (LP : ptr air M3 <= ptr air M2) by (apply ptr_le; lra).
  assert (A0 : 0 < A3 * sig air M2) by (apply Rmult_lt_0_compat; lra).
  assert (LH : mH <= mL). { apply (sig_sub_le air); try lra. rewrite SL, SH, EA. nra. }
  assert (LT : ray_ti air mH <= ray_ti air mL) by (apply ti_sub_le; lra).
  set (amin := ray_ti air m4 / ray_ti air mL). set (amax := ray_ti air m4 / ray_ti air mH).
  assert (La : amin <= amax). { unfold amin, amax. apply Rmult_le_compat_l; [lra|]. apply Rinv_le_contravar; lra. }
  assert (0 < amin) by (unfold amin; pos). exists A3, amin, amax. split; [exact nu_eA3|]. split; [exact nu_eA8|]. split; [lra|]. split; [apply map_length_alpha|].
  intros i Hi a. destruct (sub_branch (ray_ti air m4) mL amax n i T4 ltac:(lra) La Hn Hi) as (m3 & F1 & F2 & F3 & F4 & F5 & F6 & F7 & F8). fold amin in F1, F5, F6. fold a in F1, F5, F6.
  assert (EH : ray_ti air m4 / amax = ray_ti air mH) by (unfold amax; field; lra). rewrite EH in F4, F8.
  assert (L3 : mH <= m3) by (apply (ti_sub_le air); lra).
  assert (S3a : sig air m3 <= sig air mH) by (apply sig_sub_le; lra). assert (S3b : sig air mL <= sig air m3) by (apply sig_sub_le; lra).
  set (p3 := sig air m3 / sig air M2 / A3). assert (Ep : p3 * (A3 * sig air M2) = sig air m3) by (unfold p3; field; lra).
  assert (Hp : ptr air M3 <= p3 <= ptr air M2). { split; apply Rmult_le_reg_r with (A3 * sig air M2); try assumption; rewrite Ep; [rewrite <- EA; lra|lra]. }
  destruct (shock_place M2 M3 A3 m3 p3 1 ltac:(lra) nu_M3 EA nu_A3g ltac:(lra) Hp ltac:(lra)) as (As & Ms & ms & K1 & K2 & K3 & K4 & K5 & K6). rewrite Rmult_1_l in K3.
  destruct (pi_ratio_heat air m3 Hg) as (b & Pb & Eb). destruct (pi_ratio_heat air m4 Hg) as (b' & Pb' & Eb').
  exists m3, m4, p3, (p3 * b' / b), As, Ms, ms. split; [|split; [exact K1|split; [exact K2|split; [exact K3|split; [exact K4|split; [lra|split; [|split; [lra|split; [|split]]]]]]]]].
  - subst f. cbn [CW ramjet_working]. unfold s_CW, CW_alphamin, CW_alphamax, CW_m3low. rewrite nu_em4, nu_eM3, nu_emH, nu_eA3. rewrite Md_eval by (assumption || now apply sdom_ge). fold mL. rewrite !RaTi_eval by exact Hg.
    rewrite (ndiv_Some (ray_ti air m4) (ray_ti air mL)), (ndiv_Some (ray_ti air m4) (ray_ti air mH)) by lra. fold amin amax. rewrite branch_nth by assumption. fold a. rewrite F1, F2, Eb, Eb'. rewrite !Sigma_eval by lra. rewrite (ndiv_Some (sig air m3)) by lra. rewrite (ndiv_Some _ A3) by lra. ncbn. fold p3. rewrite ndiv_Some by lra. reflexivity.
  - apply heat; try assumption; lra.
  - apply channel_sig; try lra. rewrite sig_1, nu_m4s by exact Hg. lra.
  - intros Hi0. apply K5. apply Rmult_eq_reg_r with (A3 * sig air M2); [|lra]. rewrite Ep, (F7 Hi0), SL, EA. reflexivity.
  - intros Hin. specialize (F8 Hin). apply K6. apply Rmult_eq_reg_r with (A3 * sig air M2); [|lra]. rewrite Ep.
    assert (m3 = mH) by (apply Rle_antisym; [apply (ti_sub_le air); lra|exact L3]). subst m3. rewrite SH. ring.
Qed.
(*@P C86_unstarted: The unstarted branch: the total pressure of every plotted point is that behind a normal shock at the flight Mach number; the
   subsonic flow goes through the inlet's throat with a Mach number M2' in (0, 1] to the combustor, is heated by the plotted ratio and leaves
   through a sonic nozzle throat. At the branch's first point, the smallest ratio, the inlet's throat is sonic as well. *)
Lemma ramjet_unstarted : forall newton M0 M2 n, inverts_sigma newton -> design M0 M2 -> (1 <= n)%nat ->
  let f := ramjet_working newton (Some air) (Some M0) (Some M2) n in
  exists A3 amin amax mb p3, A3A2 f = Some A3 /\ A8A2 f = Some (8 / 10 * A3) /\ 0 < amin <= amax /\ List.length (UC f) = S n /\
  normal_shock air M0 1 mb p3 /\
  forall i, (i <= n)%nat -> let a := amin + INR i * (amax - amin) / INR n in
  exists m3 m4 p4 M2', nth_error (UC f) i = Some (mkw (Some a) (Some m3) (Some m4) (Some p3) (Some p4)) /\
    channel_flow air 1 M2' A3 m3 /\ 0 < M2' <= 1 /\ 0 < m3 <= 1 /\
    duct_flow air a m3 p3 m4 p4 /\ 0 < m4 < 1 /\ channel_flow air A3 m4 (8 / 10 * A3) 1 /\ (i = 0%nat -> M2' = 1).
Proof.
  intros newton M0 M2 n Hnw Hd Hn f. assert (Hg := air_gt1). destruct (numbers_exist newton M0 M2 n Hnw Hd) as (A3 & M3 & Mb & m4 & mH & mU & MR & N).
  destruct N as [nu_M0 nu_M2 nu_A3 nu_A3g nu_M3 nu_M3s nu_M3g nu_Mb nu_Mbs nu_m4 nu_m4s nu_mH nu_mHs nu_mU nu_mUs nu_MR nu_MRs nu_eA3 nu_eA8 nu_eM3 nu_eMb nu_em4 nu_emH nu_emU nu_eMR].
  assert (T4 := ti_pos air m4 Hg ltac:(lra)). assert (TU := ti_pos air mU Hg ltac:(lra)). assert (TH := ti_pos air mH Hg ltac:(lra)).
  destruct (md_range air M2 Hg ltac:(lra)) as [D1 D2].
  assert (D3 : 1 <= sig air (sqrt (md2 air M2))). { rewrite <- (sig_1 air Hg). apply sig_sub_le; lra. }
  assert (LH : mH <= mU). { apply (sig_sub_le air); try lra. rewrite nu_mUs, nu_mHs. nra. }
  assert (LT : ray_ti air mH <= ray_ti air mU) by (apply ti_sub_le; lra).
  set (amin := ray_ti air m4 / ray_ti air mU). set (amax := 11 / 10 * (ray_ti air m4 / ray_ti air mH)).
  assert (P0 : 0 < amin) by (unfold amin; pos).
  assert (La : amin <= amax). { assert (amin <= ray_ti air m4 / ray_ti air mH); [|unfold amax; lra]. unfold amin. apply Rmult_le_compat_l; [lra|]. apply Rinv_le_contravar; lra. }
  exists A3, amin, amax, (sqrt (md2 air M0)), (ptr air M0). split; [exact nu_eA3|]. split; [exact nu_eA8|]. split; [lra|]. split; [apply map_length_alpha|].
  split; [rewrite <- (Rmult_1_l (ptr air M0)); apply shock_spec; lra|].
  intros i Hi a. destruct (sub_branch (ray_ti air m4) mU amax n i T4 nu_mU La Hn Hi) as (m3 & F1 & F2 & F3 & F4 & F5 & F6 & F7 & F8). fold amin in F1, F5, F6. fold a in F1, F5, F6.
  assert (S3 : A3 <= sig air m3) by (rewrite <- nu_mUs; apply sig_sub_le; lra).
  assert (HM : exists M2', 0 < M2' <= 1 /\ A3 * sig air M2' = sig air m3).
  { destruct (Req_dec (sig air m3) A3) as [Z|Z]; [exists 1; rewrite sig_1 by exact Hg; lra|]. destruct (sig_sub_exists air (sig air m3 / A3) Hg) as (M & K1 & K2).
    - apply Rmult_lt_reg_r with A3; [lra|]. replace (sig air m3 / A3 * A3) with (sig air m3) by (field; lra). lra.
    - exists M. split; [lra|]. rewrite K2. field. lra. }
  destruct HM as (M2' & HM & S2'). destruct (pi_ratio_heat air m3 Hg) as (b & Pb & Eb). destruct (pi_ratio_heat air m4 Hg) as (b' & Pb' & Eb').
  exists m3, m4, (ptr air M0 * b' / b), M2'. split; [|split; [|split; [exact HM|split; [lra|split; [|split; [lra|split]]]]]].
  - subst f. cbn [UC ramjet_working]. unfold s_UC, UC_alphamin, UC_alphamax, CW_alphamax. rewrite nu_em4, nu_emH, nu_emU. rewrite !RaTi_eval by exact Hg.
    rewrite (ndiv_Some (ray_ti air m4) (ray_ti air mU)), (ndiv_Some (ray_ti air m4) (ray_ti air mH)) by lra. ncbn. fold amin amax. rewrite branch_nth by assumption. fold a. rewrite F1, F2, Eb, Eb'.
    unfold Pi_ratio. rewrite Pt_eval_14 by (apply sdom_ge; lra). ncbn. rewrite ndiv_Some by lra. unfold air. rewrite Rmult_1_r. reflexivity.
  - apply channel_sig; lra.
  - apply heat; try assumption; lra.
  - apply channel_sig; try lra. rewrite sig_1, nu_m4s by exact Hg. lra.
  - intros Hi0. rewrite (F7 Hi0), nu_mUs in S2'. apply Rle_antisym; [lra|]. apply (sig_sub_le air); try lra. rewrite sig_1 by exact Hg. apply Rmult_le_reg_l with A3; lra.
Qed.
(*@P C86_choked: The choked branch (dashed): the inlet's throat is sonic with the total pressure behind a normal shock at the flight Mach number;
   for every plotted point a second normal shock, between the throat and the combustor, gives the plotted Mach number and total pressure at the
   combustor, heated by the plotted ratio up to a sonic nozzle throat. The shock is at the combustor at the first point and at the throat
   at the last one, whose ratio is the first one of the unstarted branch. *)
Lemma ramjet_choked : forall newton M0 M2 n, inverts_sigma newton -> design M0 M2 -> (1 <= n)%nat ->
  let f := ramjet_working newton (Some air) (Some M0) (Some M2) n in
  exists A3 amin amax mb pb, A3A2 f = Some A3 /\ A8A2 f = Some (8 / 10 * A3) /\ 0 < amin <= amax /\ List.length (RC f) = S n /\
  normal_shock air M0 1 mb pb /\ (exists w, nth_error (UC f) 0 = Some w /\ w_alpha w = Some amax) /\
  forall i, (i <= n)%nat -> let a := amin + INR i * (amax - amin) / INR n in
  exists m3 m4 p3 p4 As Ms ms, nth_error (RC f) i = Some (mkw (Some a) (Some m3) (Some m4) (Some p3) (Some p4)) /\
    1 <= As <= A3 /\ channel_flow air 1 1 As Ms /\ normal_shock air Ms pb ms p3 /\ channel_flow air As ms A3 m3 /\ 0 < m3 <= 1 /\
    duct_flow air a m3 p3 m4 p4 /\ 0 < m4 < 1 /\ channel_flow air A3 m4 (8 / 10 * A3) 1 /\
    (i = 0%nat -> As = A3) /\ (i = n -> As = 1).
Proof.
  intros newton M0 M2 n Hnw Hd Hn f. assert (Hg := air_gt1). destruct (numbers_exist newton M0 M2 n Hnw Hd) as (A3 & M3 & Mb & m4 & mH & mU & MR & N).
  destruct N as [nu_M0 nu_M2 nu_A3 nu_A3g nu_M3 nu_M3s nu_M3g nu_Mb nu_Mbs nu_m4 nu_m4s nu_mH nu_mHs nu_mU nu_mUs nu_MR nu_MRs nu_eA3 nu_eA8 nu_eM3 nu_eMb nu_em4 nu_emH nu_emU nu_eMR].
  destruct (md_range air MR Hg nu_MR) as [D1 D2]. set (mL := sqrt (md2 air MR)) in *. assert (T3 : ray_ti air mL = ray_ti air MR) by (apply ti_md; lra).
  assert (T4 := ti_pos air m4 Hg ltac:(lra)). assert (TL := ti_pos air mL Hg D1). assert (TU := ti_pos air mU Hg ltac:(lra)). assert (TH := ti_pos air mH Hg ltac:(lra)).
  assert (SL : sig air mL = ptr air MR * A3) by (rewrite <- nu_MRs; apply sig_jump; assumption).
  assert (P1 := ptr_1 air Hg). assert (LP : ptr air MR <= 1) by (rewrite <- P1; apply ptr_le; lra).
  assert (LH : mU <= mL). { apply (sig_sub_le air); try lra. rewrite SL, nu_mUs. nra. }
  assert (LT : ray_ti air mU <= ray_ti air mL) by (apply ti_sub_le; lra).
  set (amin := ray_ti air m4 / ray_ti air mL). set (amax := ray_ti air m4 / ray_ti air mU).
  assert (La : amin <= amax). { unfold amin, amax. apply Rmult_le_compat_l; [lra|]. apply Rinv_le_contravar; lra. }
  assert (0 < amin) by (unfold amin; pos). set (pb := ptr air M0). assert (Pb0 := ptr_pos air M0 Hg ltac:(lra)). fold pb in Pb0.
  exists A3, amin, amax, (sqrt (md2 air M0)), pb. split; [exact nu_eA3|]. split; [exact nu_eA8|]. split; [lra|]. split; [apply map_length_alpha|].
  split; [rewrite <- (Rmult_1_l pb); apply shock_spec; lra|].
  assert (EU : UC_alphamin newton (Some air) (Some M0) (Some M2) = Some amax). { unfold UC_alphamin. rewrite nu_em4, nu_emU, !RaTi_eval by exact Hg. rewrite ndiv_Some by lra. reflexivity. }
  split. { subst f. cbn [UC ramjet_working]. unfold s_UC, UC_alphamax, CW_alphamax. rewrite EU, nu_em4, nu_emH. rewrite !RaTi_eval by exact Hg. rewrite (ndiv_Some (ray_ti air m4) (ray_ti air mH)) by lra. ncbn.
    rewrite branch_nth by lia. eexists. split; [reflexivity|]. cbn [w_alpha INR]. f_equal. unfold Rdiv. ring. }
  intros i Hi a. destruct (sub_branch (ray_ti air m4) mL amax n i T4 ltac:(lra) La Hn Hi) as (m3 & F1 & F2 & F3 & F4 & F5 & F6 & F7 & F8). fold amin in F1, F5, F6. fold a in F1, F5, F6.
  assert (EH : ray_ti air m4 / amax = ray_ti air mU) by (unfold amax; field; lra). rewrite EH in F4, F8.
  assert (L3 : mU <= m3) by (apply (ti_sub_le air); lra).
  assert (S3a : sig air m3 <= sig air mU) by (apply sig_sub_le; lra). assert (S3b : sig air mL <= sig air m3) by (apply sig_sub_le; lra).
  set (k := sig air m3 / A3). assert (Ek : k * A3 = sig air m3) by (unfold k; field; lra).
  assert (Hk : ptr air MR <= k <= ptr air 1). { rewrite P1. split; apply Rmult_le_reg_r with A3; lra. }
  destruct (shock_place 1 MR A3 m3 k pb ltac:(lra) nu_MR ltac:(rewrite sig_1 by exact Hg; lra) nu_A3g ltac:(lra) Hk ltac:(rewrite sig_1 by exact Hg; lra)) as (As & Ms & ms & K1 & K2 & K3 & K4 & K5 & K6).
  destruct (pi_ratio_heat air m3 Hg) as (b & Pb & Eb). destruct (pi_ratio_heat air m4 Hg) as (b' & Pb' & Eb').
  exists m3, m4, (pb * k), (pb * k * b' / b), As, Ms, ms. split; [|split; [exact K1|split; [exact K2|split; [exact K3|split; [exact K4|split; [lra|split; [|split; [lra|split; [|split]]]]]]]]].
  - subst f. cbn [RC ramjet_working]. unfold s_RC, RC_alphamin. rewrite EU, nu_em4, nu_eMR, nu_eA3. rewrite !RaTi_eval by exact Hg.
    rewrite (ndiv_Some (ray_ti air m4) (ray_ti air MR)) by lra. rewrite <- T3. fold amin. rewrite branch_nth by assumption. fold a. rewrite F1, F2, Eb, Eb'. rewrite !Sigma_eval by lra.
    unfold Pi_ratio. rewrite Pt_eval_14 by (apply sdom_ge; lra). fold air. fold pb. ncbn. rewrite (ndiv_Some _ A3) by lra. ncbn. rewrite ndiv_Some by lra. unfold k. do 3 f_equal; field; lra.
  - apply heat; try assumption; lra.
  - apply channel_sig; try lra. rewrite sig_1, nu_m4s by exact Hg. lra.
  - intros Hi0. apply K5. apply Rmult_eq_reg_r with A3; [|lra]. rewrite Ek, (F7 Hi0), SL. reflexivity.
  - intros Hin. specialize (F8 Hin). apply K6. rewrite P1. apply Rmult_eq_reg_r with A3; [|lra]. rewrite Ek.
    assert (m3 = mU) by (apply Rle_antisym; [apply (ti_sub_le air); lra|exact L3]). subst m3. rewrite nu_mUs. ring.
Qed.
(** a solver that meets the hypothesis *)
Definition sub_set (s m : R) : Prop := m = 0 \/ 0 < m <= 1 /\ s <= sig air m.
Definition sup_set (s m : R) : Prop := m = 1 \/ 1 <= m /\ exists r, m <= r /\ 1 <= r /\ sig air r = s.
Lemma sub_bound s : bound (sub_set s).
Proof. exists 1. intros m [->|H]; lra. Qed.
Lemma sup_bound s : bound (sup_set s).
Proof.
  destruct (classic (exists r, 1 <= r /\ sig air r = s)) as [(r & H1 & H2)|N].
  - exists r. intros m [->|(Hm & r' & K1 & K2 & K3)]; [exact H1|]. assert (r' <= r); [|lra]. apply (sig_sup_le air); [exact air_gt1|lra|lra|lra].
  - exists 1. intros m [->|(Hm & r' & K1 & K2 & K3)]; [lra|]. exfalso. apply N. now exists r'.
Qed.
Definition sub_root (s : R) : R := proj1_sig (completeness (sub_set s) (sub_bound s) (ex_intro _ 0 (or_introl eq_refl))).
Definition sup_root (s : R) : R := proj1_sig (completeness (sup_set s) (sup_bound s) (ex_intro _ 1 (or_introl eq_refl))).
Lemma sub_root_ok s m : 0 < m <= 1 -> sig air m = s -> sub_root s = m.
Proof.
  intros Hm Hs. unfold sub_root. destruct (completeness _ _ _) as [r Hr]. cbn [proj1_sig]. apply (is_lub_u (sub_set s)); [exact Hr|]. split.
  - intros x [->|[Hx Kx]]; [lra|]. apply (sig_sub_le air); [exact air_gt1|lra|lra|lra].
  - intros b Hb. apply Hb. right. lra.
Qed.
Lemma sup_root_ok s m : 1 <= m -> sig air m = s -> sup_root s = m.
Proof.
  intros Hm Hs. unfold sup_root. destruct (completeness _ _ _) as [r Hr]. cbn [proj1_sig]. apply (is_lub_u (sup_set s)); [exact Hr|]. split.
  - intros x [->|(Hx & r' & K1 & K2 & K3)]; [exact Hm|]. assert (r' <= m); [|lra]. apply (sig_sup_le air); [exact air_gt1|lra|lra|lra].
  - intros b Hb. apply Hb. right. split; [exact Hm|]. exists m. lra.
Qed.
Definition ideal_newton : solver := fun f x =>
  match f (Some 1), x with
  | Some v, Some x => if Rlt_dec x 1 then Some (sub_root (1 - v)) else Some (sup_root (1 - v))
  | _, _ => None
  end.
Lemma ideal_inverts : inverts_sigma ideal_newton.
Proof.
  intros s x Hs Hx Hx1. assert (Hg := air_gt1). unfold Mach_Sigma, ideal_newton. rewrite Sigma_eval, sig_1 by lra. ncbn. replace (1 - (1 - s)) with s by ring.
  assert (E1 : exists m, 0 < m <= 1 /\ sig air m = s).
  { destruct (Req_dec s 1) as [->|N]; [exists 1; rewrite sig_1 by exact Hg; lra|]. destruct (sig_sub_exists air s Hg ltac:(lra)) as (m & K1 & K2). exists m. lra. }
  assert (E2 : exists m, 1 <= m /\ sig air m = s).
  { destruct (Req_dec s 1) as [->|N]; [exists 1; rewrite sig_1 by exact Hg; lra|]. destruct (sig_sup_exists air s Hg ltac:(lra)) as (m & K1 & K2). exists m. lra. }
  destruct (Rlt_dec x 1) as [L|L].
  - destruct E1 as (m & K1 & K2). rewrite (sub_root_ok s m K1 K2). exists m. rewrite Sigma_eval, K2 by lra. repeat split; lra.
  - destruct E2 as (m & K1 & K2). rewrite (sup_root_ok s m K1 K2). exists m. rewrite Sigma_eval, K2 by lra. repeat split; lra.
Qed.
Lemma sig_air M : 0 < M -> sig air M = ((5 + M ^ 2) / 6) ^ 3 / M.
Proof.
  intros HM. rewrite sig_form by (assumption || apply air_gt1). unfold Rdiv at 1 3. f_equal. replace (sexp air) with (INR 3) by (unfold sexp, air; cbn [INR]; field).
  assert (T := tt_pos air M air_gt1). rewrite Rpower_pow; [|unfold air in *; pos]. f_equal. unfold tt, air. field.
Qed.
(*@E C86_example: hypotheses: the script's own Mach numbers, 2.8 and 1.5, with a solver that exists. *)
Lemma ramjet_example : inverts_sigma ideal_newton /\ design (28 / 10) (15 / 10).
Proof.
  split; [exact ideal_inverts|]. split; [lra|]. split; [lra|]. exists (sig air (28/10)), (sig air (15/10)). assert (Hg := air_gt1).
  split; [apply Sigma_eval; lra|]. split; [apply Sigma_eval; lra|]. rewrite !sig_air by lra. lra.
Qed.
