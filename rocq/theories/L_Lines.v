(** * A normal shock stays on its Fanno line and on its Rayleigh line *)
From Coquelicot Require Import Coquelicot.
From Verif Require Import L_Num Spec NumSpec M_Isentropic M_MassFlow M_ShockWave M_Fanno M_Rayleigh L_Isentropic L_MassFlow L_Shock L_ShockPt L_Fanno L_Rayleigh.
Open Scope R_scope.

Lemma sdom_ge g M : 1 < g -> 1 <= M -> sdom g M.
Proof. intros. unfold sdom. apply Rlt_le_trans with 1; [|nra]. apply Rlt_div_l; lra. Qed.
Lemma md_pos g M : 1 < g -> 1 <= M -> 0 < sqrt (md2 g M).
Proof. intros. apply sqrt_lt_R0, md2_pos; [assumption|now apply sdom_ge]. Qed.
Lemma md_sq g M : 1 < g -> 1 <= M -> sqrt (md2 g M) ^ 2 = md2 g M.
Proof. intros. apply sq_sqrt. left. apply md2_pos; [assumption|now apply sdom_ge]. Qed.
Lemma psr_pos1 g M : 1 < g -> 1 <= M -> 0 < psr g M.
Proof. intros. apply psr_pos; [assumption|now apply sdom_ge]. Qed.
(** momentum: p (1 + g M^2) is conserved *)
Lemma rd_jump g M : 1 < g -> 1 <= M -> psr g M * rd g (sqrt (md2 g M)) = rd g M.
Proof.
  intros Hg HM. unfold rd. rewrite md_sq by assumption. pose proof (sdom_den g M Hg (sdom_ge g M Hg HM)). unfold psr, md2, tt. field. split; lra.
Qed.
(** mass: M p / sqrt T, i.e. M P / sqrt T is conserved *)
Lemma mass_jump g M : 1 < g -> 1 <= M -> md2 g M * psr g M ^ 2 = M ^ 2 * tsr g M.
Proof.
  intros Hg HM. pose proof (sdom_den g M Hg (sdom_ge g M Hg HM)). pose proof (rden_pos g M Hg). assert (0 < M ^ 2) by nra.
  unfold tsr, psr, rhor, md2, tt. field. repeat split; try lra; try nra.
Qed.
Lemma fq_jump g M : 1 < g -> 1 <= M -> tsr g M * fq g (sqrt (md2 g M)) = fq g M.
Proof. intros Hg HM. unfold fq. rewrite <- (tsr_tt g M Hg (sdom_ge g M Hg HM)). ring. Qed.
Lemma mass_root g M : 1 < g -> 1 <= M -> sqrt (md2 g M) * psr g M = M * sqrt (tsr g M).
Proof.
  intros Hg HM. pose proof (psr_pos1 g M Hg HM) as HP. pose proof (md2_pos g M Hg (sdom_ge g M Hg HM)) as Hm.
  pose proof (sqrt_pos (md2 g M)). assert (HT := tsr_pos g M Hg (sdom_ge g M Hg HM)). pose proof (sqrt_pos (tsr g M)).
  apply Rsqr_inj; [pos|pos|]. unfold Rsqr.
  replace (sqrt (md2 g M) * psr g M * (sqrt (md2 g M) * psr g M)) with (sqrt (md2 g M) * sqrt (md2 g M) * psr g M ^ 2) by ring.
  replace (M * sqrt (tsr g M) * (M * sqrt (tsr g M))) with (M ^ 2 * (sqrt (tsr g M) * sqrt (tsr g M))) by ring.
  rewrite !sqrt_sqrt by lra. now apply mass_jump.
Qed.
Lemma sig_jump g M : 1 < g -> 1 <= M -> sig g (sqrt (md2 g M)) = ptr g M * sig g M.
Proof.
  intros Hg HM. pose proof (md_pos g M Hg HM) as Hm. pose proof (psr_pos1 g M Hg HM) as HP.
  assert (HT := tsr_pos g M Hg (sdom_ge g M Hg HM)). assert (Hq := fq_pos g (sqrt (md2 g M)) Hg). assert (Ht := tt_pos g (sqrt (md2 g M)) Hg).
  rewrite !sig_form by lra. fold (fq g M). fold (fq g (sqrt (md2 g M))). rewrite <- (fq_jump g M Hg HM).
  unfold ptr. rewrite <- (tsr_tt g M Hg (sdom_ge g M Hg HM)). rewrite !Rpower_mult_base by assumption.
  pose proof (mass_root g M Hg HM) as MR. set (m := sqrt (md2 g M)) in *. set (T := tsr g M) in *. set (P := psr g M) in *.
  assert (E : Rpower T (sexp g) * sqrt T = Rpower T (g / (g - 1))).
  { rewrite <- (Rpower_sqrt T HT). rewrite <- Rpower_plus. f_equal. unfold sexp. field. lra. }
  assert (S0 : 0 < sqrt T) by now apply sqrt_lt_R0.
  assert (A1 := Rpower_pos T (g / (g - 1))). assert (A2 := Rpower_pos (tt g m) (g / (g - 1))). assert (A3 := Rpower_pos (fq g m) (sexp g)). assert (A4 := Rpower_pos T (sexp g)).
  set (X := Rpower (fq g m) (sexp g)) in *. set (Y := Rpower (tt g m) (g / (g - 1))) in *.
  replace (P * Y / (Rpower T (g / (g - 1)) * Y) * (Rpower T (sexp g) * X / M)) with (P * (Rpower T (sexp g)) * X / (Rpower T (g / (g - 1)) * M)) by (field; lra).
  rewrite <- E. replace P with (M * sqrt T / m) by (rewrite <- MR; field; lra). field. repeat split; lra.
Qed.
(*@P C85_rayleigh: For every gamma > 1 and upstream Mach number M >= 1, the states before and after a normal shock are on the same Rayleigh line: the Rayleigh pressure, temperature, density and velocity functions of the downstream Mach number are those of M times the jump of the shock functions, and Ti/Ti* is the same. *)
Lemma shock_on_rayleigh : forall g M, 1 < g -> 1 <= M -> exists m P Rr T,
  downstream_Mn (Some M) (Some g) = Some m /\ Ps_ratio (Some M) (Some g) = Some P /\ Rho_ratio (Some M) (Some g) = Some Rr /\ Ts_ratio (Some M) (Some g) = Some T /\
  let jump f k := exists a, f (Some M) (Some g) = Some a /\ f (Some m) (Some g) = Some (k * a) in
  jump Ra_Ps_Pscri P /\ jump Ra_Ts_Tscri T /\ jump Ra_Rho_Rhocri Rr /\ jump Ra_V_Vcri (1 / Rr) /\ jump Ra_Ti_Ticri 1.
Proof.
  intros g M Hg HM. assert (SD := sdom_ge g M Hg HM). exists (sqrt (md2 g M)), (psr g M), (rhor g M), (tsr g M).
  rewrite Md_eval, Ps_eval, Rho_eval, Ts_eval by (assumption || lra). do 4 (split; [reflexivity|]). cbv zeta.
  assert (Hm := md_pos g M Hg HM). assert (HP := psr_pos1 g M Hg HM). assert (HR : 0 < rhor g M) by (apply rhor_pos; lra). assert (HT := tsr_pos g M Hg SD).
  assert (D1 := rd_jump g M Hg HM). assert (D0 := rd_pos g (sqrt (md2 g M)) Hg). assert (D2 := mass_jump g M Hg HM). assert (D3 := md_sq g M Hg HM).
  assert (PT : psr g M = tsr g M * rhor g M) by (unfold tsr; field; lra).
  split; [|split; [|split; [|split]]].
  - eexists. rewrite !RaPs_eval by lra. split; [reflexivity|]. f_equal. rewrite <- D1. field. lra.
  - eexists. rewrite !RaTs_eval by lra. split; [reflexivity|]. f_equal. rewrite <- D1, D3.
    replace (tsr g M * (M ^ 2 * ((g + 1) / (psr g M * rd g (sqrt (md2 g M)))) ^ 2)) with ((M ^ 2 * tsr g M) / psr g M ^ 2 * ((g + 1) / rd g (sqrt (md2 g M))) ^ 2) by (field; lra).
    rewrite <- D2. field. lra.
  - eexists. rewrite !RaRho_eval by lra. split; [reflexivity|]. f_equal. rewrite <- D1, D3.
    assert (0 < md2 g M) by now apply md2_pos.
    replace (rhor g M * (psr g M * rd g (sqrt (md2 g M)) / ((g + 1) * M ^ 2))) with (rhor g M * tsr g M * psr g M * rd g (sqrt (md2 g M)) / ((g + 1) * (M ^ 2 * tsr g M))) by (field; lra).
    rewrite <- D2. replace (rhor g M * tsr g M) with (psr g M) by lra. field. repeat split; try lra.
  - eexists. rewrite !RaV_eval by lra. split; [reflexivity|]. f_equal. rewrite <- D1, D3.
    replace (1 / rhor g M * (M ^ 2 * (g + 1) / (psr g M * rd g (sqrt (md2 g M))))) with ((M ^ 2 * tsr g M) * (g + 1) / ((tsr g M * rhor g M) * psr g M * rd g (sqrt (md2 g M)))) by (field; lra).
    rewrite <- D2, <- PT. field. lra.
  - eexists. rewrite !RaTi_eval by lra. split; [reflexivity|]. f_equal. unfold ray_ti. rewrite <- D1, D3, <- (tsr_tt g M Hg SD).
    replace (1 * (2 * (g + 1) * M ^ 2 / (psr g M * rd g (sqrt (md2 g M))) ^ 2 * (tsr g M * tt g (sqrt (md2 g M))))) with (2 * (g + 1) * (M ^ 2 * tsr g M) / (psr g M ^ 2 * rd g (sqrt (md2 g M)) ^ 2) * tt g (sqrt (md2 g M))) by (field; lra).
    rewrite <- D2. field. lra.
Qed.
(*@P C85_fanno: The same two states are on the same Fanno line: the Fanno pressure, temperature, density and velocity functions jump as the shock functions say. *)
Lemma shock_on_fanno : forall g M, 1 < g -> 1 <= M -> exists m P Rr T,
  downstream_Mn (Some M) (Some g) = Some m /\ Ps_ratio (Some M) (Some g) = Some P /\ Rho_ratio (Some M) (Some g) = Some Rr /\ Ts_ratio (Some M) (Some g) = Some T /\
  let jump f k := exists a, f (Some M) (Some g) = Some a /\ f (Some m) (Some g) = Some (k * a) in
  jump Fa_Ps_Pscri P /\ jump Fa_Ts_Tscri T /\ jump Fa_Rho_Rhocri Rr /\ jump Fa_V_Vcri (1 / Rr).
Proof.
  intros g M Hg HM. assert (SD := sdom_ge g M Hg HM). exists (sqrt (md2 g M)), (psr g M), (rhor g M), (tsr g M).
  rewrite Md_eval, Ps_eval, Rho_eval, Ts_eval by (assumption || lra). do 4 (split; [reflexivity|]). cbv zeta.
  assert (Hm := md_pos g M Hg HM). assert (HP := psr_pos1 g M Hg HM). assert (HR : 0 < rhor g M) by (apply rhor_pos; lra). assert (HT := tsr_pos g M Hg SD).
  assert (F1 := fq_jump g M Hg HM). assert (F0 := fq_pos g (sqrt (md2 g M)) Hg). assert (MR := mass_root g M Hg HM).
  assert (PT : psr g M = tsr g M * rhor g M) by (unfold tsr; field; lra).
  assert (S1 : 0 < sqrt (tsr g M)) by now apply sqrt_lt_R0. assert (S2 : sqrt (tsr g M) * sqrt (tsr g M) = tsr g M) by (apply sqrt_sqrt; lra).
  assert (S3 : 0 < sqrt (fq g (sqrt (md2 g M)))) by now apply sqrt_lt_R0.
  assert (S4 : sqrt (fq g M) = sqrt (tsr g M) * sqrt (fq g (sqrt (md2 g M)))) by (rewrite <- F1; apply sqrt_mult; lra).
  set (m := sqrt (md2 g M)) in *. set (q := sqrt (fq g m)) in *. set (t := sqrt (tsr g M)) in *. set (P := psr g M) in *. set (r := rhor g M) in *.
  assert (Em : m = M * t / P) by (rewrite <- MR; field; lra). assert (Er : r = P / t ^ 2) by (replace (t ^ 2) with (tsr g M) by (rewrite <- S2; ring); rewrite PT; field; lra).
  split; [|split; [|split]].
  - eexists. rewrite !FaPs_eval by lra. split; [reflexivity|]. f_equal. rewrite S4. fold q. rewrite Em. field. repeat split; lra.
  - eexists. rewrite !FaTs_eval by lra. split; [reflexivity|]. f_equal. rewrite <- F1. field. lra.
  - eexists. rewrite !FaRho_eval by lra. split; [reflexivity|]. f_equal. rewrite S4. fold q. rewrite Er, Em. field. repeat split; lra.
  - eexists. rewrite !FaV_eval by lra. split; [reflexivity|]. f_equal. rewrite S4. fold q. rewrite Er, Em. field. repeat split; lra.
Qed.
(*@P C85_total_pressure: With K the ratio of total pressures, Ps_ratio times the ratio of PtPs_Mach after and before the shock: the sonic area ratio Sigma, the Fanno Pi/Pi* and the Rayleigh Pi/Pi* of the downstream Mach number are K times those of M (mass flow, total pressure and sonic area are linked); and for gamma = 1.4, K is what Pt_ratio returns. *)
Lemma shock_sigma : forall g M, 1 < g -> 1 <= M -> exists m P K q q',
  downstream_Mn (Some M) (Some g) = Some m /\ Ps_ratio (Some M) (Some g) = Some P /\
  PtPs_Mach (Some M) (Some g) = Some q /\ PtPs_Mach (Some m) (Some g) = Some q' /\ P * q' = K * q /\ 0 < q /\
  let jump f k := exists a, f (Some M) (Some g) = Some a /\ f (Some m) (Some g) = Some (k * a) in
  jump Sigma_Mach K /\ jump Fa_Pi_Picri K /\ jump Ra_Pi_Picri K /\
  (g = 14/10 -> Pt_ratio (Some M) (Some g) = Some K).
Proof.
  intros g M Hg HM. assert (SD := sdom_ge g M Hg HM). exists (sqrt (md2 g M)), (psr g M), (ptr g M), (Rpower (tt g M) (g / (g - 1))), (Rpower (tt g (sqrt (md2 g M))) (g / (g - 1))).
  rewrite Md_eval, Ps_eval, !PtPs_eval by (assumption || lra). do 4 (split; [reflexivity|]).
  assert (Q0 := Rpower_pos (tt g M) (g / (g - 1))). split; [unfold ptr; field; lra|]. split; [exact Q0|]. cbv zeta.
  assert (Hm := md_pos g M Hg HM). assert (SJ := sig_jump g M Hg HM).
  split; [|split; [|split]].
  - eexists. rewrite !Sigma_eval by lra. split; [reflexivity|]. now f_equal.
  - eexists. rewrite !FaPi_eval by lra. split; [reflexivity|]. now f_equal.
  - eexists. rewrite !RaPi_eval by lra. split; [reflexivity|]. f_equal. assert (D1 := rd_jump g M Hg HM). assert (D0 := rd_pos g (sqrt (md2 g M)) Hg). assert (HP := psr_pos1 g M Hg HM).
    unfold ptr, fq. assert (T0 := tt_pos g M Hg). assert (T1 := tt_pos g (sqrt (md2 g M)) Hg). assert (0 < 2 / (g + 1)) by pos. rewrite !Rpower_mult_base by assumption.
    rewrite <- D1. field. repeat split; try lra.
  - intros ->. rewrite (Pt_eval_14 M SD : Pt_ratio (Some M) (Some (14/10)) = _). reflexivity.
Qed.
(*@E C85_example: hypotheses: air at Mach 2, whose shock has a downstream Mach number 1/sqrt 3. *)
Lemma lines_ex : 1 < 14/10 /\ 1 <= 2 /\ downstream_Mn (Some 2) (Some (14/10)) = Some (sqrt (1/3)).
Proof. split; [lra|]. split; [lra|]. apply C12_example_lemma. Qed.
