(** * C28: the default start of sigma_Mach_deflection always leads to the weak branch *)
From Coq Require Import List Lra Lia.
From Coquelicot Require Import Coquelicot.
From Verif Require Import L_Num Spec NumSpec M_Degree M_IterSolve M_ShockWave L_Degree L_Shock L_Oblique L_Oblique2 L_WeakStrong L_Secant L_Secant2 L_Secant3 L_Sigma L_Sigma2.
Open Scope R_scope.

(** the algebra: t, u tangents of the shock angle and of the Mach angle *)
Lemma key_bracket u t b : 0 < u -> 0 < b < 1 -> (1 - b) * u ^ 2 <= b -> u <= t -> b * t <= (1 - b) * u ->
  0 < (1 - b) * ((t ^ 2 + u ^ 2) + ((1 - b) * u ^ 2 + 2 * b * t ^ 2) * u ^ 2 + u ^ 2 * t ^ 2 - b * t ^ 4).
Proof.
  intros Hu Hb Ha Ht Hbt. apply Rmult_lt_0_compat; [lra|].
  assert (T0 : 0 < t) by lra. assert (b * t ^ 4 <= (1 - b) * u * t ^ 3) by (assert (0 < t ^ 3) by pos; nra).
  (* (1-b) u t^3: multiply by b t <= (1-b) u ... use (1-b) u^2 <= b *)
  assert (b * t ^ 4 <= t ^ 2).
  { assert (A : b * (b * t ^ 2) <= b * 1); [|assert (B : b * t ^ 2 <= 1) by nra; nra].
    assert ((b * t) ^ 2 <= ((1 - b) * u) ^ 2) by (apply pow_incr; nra). nra. }
  assert (0 < u ^ 2) by pos. assert (0 < t ^ 2) by pos. assert (0 < (1 - b) * u ^ 2 + 2 * b * t ^ 2) by nra. nra.
Qed.
Lemma key_ineq u t b : 0 < u -> 0 < b < 1 -> (1 - b) * u ^ 2 <= b -> u <= t -> b * t <= (1 - b) * u ->
  let c := (1 - b) * u ^ 2 + b * t ^ 2 in
  ((1 - b) * u - b * t) * ((1 + t ^ 2) * (1 + u ^ 2) * (t ^ 2 + c ^ 2)) <=
  (t ^ 2 + c ^ 2 - (b * t ^ 2 - (1 - b) * u ^ 2) * (1 + t ^ 2)) * ((1 + t * u) * (t + u * c)).
Proof.
  intros Hu Hb Ha Ht Hbt c. assert (T0 : 0 < t) by lra. assert (U2 : 0 < u ^ 2) by pos. assert (T2 : 0 < t ^ 2) by pos.
  pose proof (key_bracket u t b Hu Hb Ha Ht Hbt) as KB. set (d := 1 - b) in *. assert (Dd : 0 < d) by (unfold d; lra).
  set (E := (t ^ 2 + u ^ 2) + (d * u ^ 2 + 2 * b * t ^ 2) * u ^ 2 + u ^ 2 * t ^ 2 - b * t ^ 4) in *.
  assert (EB : t ^ 2 + c ^ 2 - (b * t ^ 2 - d * u ^ 2) * (1 + t ^ 2) = d * E) by (unfold c, E, d; ring). rewrite EB.
  assert (C0 : 0 < c) by (unfold c; nra).
  assert (C1 : c <= u * t). { assert (u * t - c = (t - u) * (d * u - b * t)) by (unfold c, d; ring). assert (0 <= (t - u) * (d * u - b * t)) by (apply Rmult_le_pos; lra). lra. }
  assert (C2 : t ^ 2 + c ^ 2 <= t * (t + u * c)) by nra.
  assert (M : (d * u - b * t) * ((1 + t ^ 2) * t) <= d * E).
  { assert (Q : d * E - (d * u - b * t) * ((1 + t ^ 2) * t) = (d * (t ^ 2 - u * t) - d * u * t ^ 2 * (t - u)) + d * u ^ 2 + b * t ^ 2 + d ^ 2 * u ^ 4 + 2 * b * d * u ^ 2 * t ^ 2 + b * t ^ 4 * (1 - d)) by (unfold E, d; ring).
    assert (L : d * u * t ^ 2 * (t - u) <= d * (t ^ 2 - u * t)).
    { assert (A1 : d * u * t <= 1 * d).
      { apply Rmult_le_reg_r with (b * u); [nra|]. replace (d * u * t * (b * u)) with ((d * u ^ 2) * (b * t)) by ring.
        replace (1 * d * (b * u)) with (b * (d * u)) by ring. apply Rmult_le_compat; nra. }
      replace (d * u * t ^ 2 * (t - u)) with ((d * u * t) * (t * (t - u))) by ring. replace (d * (t ^ 2 - u * t)) with ((1 * d) * (t * (t - u))) by ring.
      apply Rmult_le_compat_r; [nra|exact A1]. }
    assert (0 <= d * u ^ 2) by nra. assert (0 <= b * t ^ 2) by nra. assert (0 <= d ^ 2 * u ^ 4) by (apply Rmult_le_pos; apply pow_le; lra).
    assert (0 <= 2 * b * d * u ^ 2 * t ^ 2) by (repeat apply Rmult_le_pos; lra). assert (0 <= b * t ^ 4 * (1 - d)) by (repeat apply Rmult_le_pos; try apply pow_le; unfold d; lra).
    lra. }
  assert (P0 : 0 <= d * u - b * t) by lra. assert (P1 : 0 <= (d * u - b * t) * (1 + t ^ 2)) by (apply Rmult_le_pos; nra).
  assert (P2 : 0 < t + u * c) by nra.
  apply Rle_trans with ((d * u - b * t) * (1 + t ^ 2) * ((1 + u ^ 2) * (t * (t + u * c)))).
  { replace ((d * u - b * t) * ((1 + t ^ 2) * (1 + u ^ 2) * (t ^ 2 + c ^ 2))) with ((d * u - b * t) * (1 + t ^ 2) * ((1 + u ^ 2) * (t ^ 2 + c ^ 2))) by ring.
    apply Rmult_le_compat_l; [exact P1|]. apply Rmult_le_compat_l; lra. }
  replace ((d * u - b * t) * (1 + t ^ 2) * ((1 + u ^ 2) * (t * (t + u * c)))) with (((d * u - b * t) * ((1 + t ^ 2) * t)) * ((1 + u ^ 2) * (t + u * c))) by ring.
  apply Rle_trans with (d * E * ((1 + u ^ 2) * (t + u * c))).
  { apply Rmult_le_compat_r; [|exact M]. apply Rmult_le_pos; lra. }
  apply Rmult_le_compat_l; [lra|]. apply Rmult_le_compat_r; nra.
Qed.
Lemma atan_le x : 0 <= x -> atan x <= x.
Proof.
  intros [H| <-]; [|rewrite atan_0; lra]. destruct (MVT_cor2 atan (fun x => / (1 + x ^ 2)) 0 x H) as (c & E & Hc).
  { intros c _. exact (derivable_pt_lim_atan c). }
  rewrite atan_0 in E. assert (/ (1 + c ^ 2) <= 1). { rewrite <- Rinv_1. apply Rinv_le_contravar; nra. } nra.
Qed.
Lemma sin_le x : 0 <= x -> sin x <= x.
Proof. intros [H| <-]; [left; now apply sin_lt_x|rewrite sin_0; lra]. Qed.
(** the tangent at s of the deflection curve meets the level s - mu beyond the Mach angle mu, when it falls *)
Lemma newton_mach g M mu s : 1 < g -> 1 < M -> 0 < mu -> sin (rad mu) = 1 / M -> Fd g M mu = 0 -> mu < s < 90 -> s - mu <= Fd g M s ->
  0 < sl g M (rad s) /\ Fd g M s - (s - mu) <= sl g M (rad s) * (s - mu).
Proof.
  intros Hg HM Hmu Sm _ Hs HF. pose proof PI_RGT_0 as PI0.
  assert (Qs := rad_quadrant s ltac:(lra)). assert (Qm := rad_quadrant mu ltac:(lra)). destruct (quad_trig _ Qs) as [S0 [C0 _]]. destruct (quad_trig _ Qm) as [_ [n0 _]].
  pose proof (sc2 (rad s)) as SC. pose proof (sc2 (rad mu)) as SCm. assert (Rms : rad mu < rad s) by (apply rad_lt; lra).
  set (S := sin (rad s)) in *. set (C := cos (rad s)) in *. set (m := sin (rad mu)) in *. set (n := cos (rad mu)) in *.
  assert (m0 : 0 < m) by (rewrite Sm; pos). assert (Mm : M = 1 / m) by (rewrite Sm; field; lra).
  set (t := S / C). set (u := m / n). assert (t0 : 0 < t) by (unfold t; pos). assert (u0 : 0 < u) by (unfold u; pos).
  set (b := (2 + (g - 1) * M ^ 2) / ((g + 1) * M ^ 2)). assert (M2 : 1 < M ^ 2) by nra.
  assert (b0 : 0 < b < 1). { unfold b. split; [apply Rdiv_lt_0_compat; nra|]. apply Rmult_lt_reg_r with ((g + 1) * M ^ 2); [nra|]. unfold Rdiv. rewrite Rmult_assoc, Rinv_l by nra. nra. }
  (* the relation between the Mach angle and M *)
  assert (U2 : u ^ 2 = 1 / (M ^ 2 - 1)). { unfold u. rewrite Mm. assert (N2 : n ^ 2 = 1 - m ^ 2) by lra. replace ((m / n) ^ 2) with (m ^ 2 / n ^ 2) by (field; lra). rewrite N2. field. split; nra. }
  assert (Da : (1 - b) * u ^ 2 = 2 / ((g + 1) * M ^ 2)). { rewrite U2. unfold b. field. split; nra. }
  assert (Ha : (1 - b) * u ^ 2 <= b). { rewrite Da. unfold b. apply Rmult_le_compat_r; [left; apply Rinv_0_lt_compat; nra|]. nra. }
  set (c := (1 - b) * u ^ 2 + b * t ^ 2). assert (u2 : 0 < u ^ 2) by (apply pow_lt; lra). assert (t2 : 0 < t ^ 2) by (apply pow_lt; lra).
  assert (c0 : 0 < c) by (unfold c; apply Rplus_lt_0_compat; apply Rmult_lt_0_compat; lra).
  (* tangent of the flow angle behind the shock *)
  set (ph := atan (dN g M (rad s) / dD g M (rad s))).
  assert (TP : dN g M (rad s) / dD g M (rad s) = c / t).
  { unfold c. rewrite Da. unfold b, t, dN, dD. fold S C. replace 2 with (2 * (S ^ 2 + C ^ 2)) at 1 by (rewrite SC; ring). field. repeat split; nra. }
  assert (EF : Fd g M s = deg (rad s - ph)) by reflexivity.
  assert (dr : forall x, deg (rad x) = x) by (intros; unfold deg, rad; field; lra).
  assert (Edm : forall x y, deg (x - y) = deg x - deg y) by (intros; unfold deg; ring).
  assert (EX : Fd g M s - (s - mu) = deg (rad mu - ph)) by (rewrite EF, !Edm, !dr; ring).
  assert (PM : ph <= rad mu). { assert (Q : 0 <= deg (rad mu - ph)) by lra. unfold deg in Q. assert (0 < 180 / PI) by pos. nra. }
  assert (Am : rad mu = atan u). { unfold u. fold m n. rewrite <- (atan_tan (rad mu)) at 1 by lra. reflexivity. }
  assert (p0 : 0 < c / t) by pos.
  assert (PU : c / t <= u). { apply Rnot_lt_le. intros N. apply atan_increasing in N. unfold ph in PM. rewrite TP, Am in PM. lra. }
  assert (CU : c <= u * t). { apply Rmult_le_compat_r with (r := t) in PU; [|lra]. replace (c / t * t) with c in PU by (field; lra). exact PU. }
  assert (UT : u < t). { unfold u, t, m, n, S, C. fold (tan (rad mu)) (tan (rad s)). apply tan_increasing; lra. }
  assert (BT : b * t <= (1 - b) * u). { assert (u * t - c = (t - u) * ((1 - b) * u - b * t)) by (unfold c; ring). apply Rnot_lt_le. intros N. nra. }
  (* the slope *)
  assert (W : S ^ 2 = t ^ 2 / (1 + t ^ 2)). { unfold t. replace ((S / C) ^ 2) with (S ^ 2 / C ^ 2) by (field; lra). replace (C ^ 2) with (1 - S ^ 2) by lra. field. split; nra. }
  set (B := t ^ 2 + c ^ 2 - (b * t ^ 2 - (1 - b) * u ^ 2) * (1 + t ^ 2)).
  assert (D0 : 0 < t ^ 2 + c ^ 2) by nra.
  assert (SL : sl g M (rad s) = B / (t ^ 2 + c ^ 2)).
  { unfold sl, hw. cbv zeta. fold S. rewrite W. unfold B, c. rewrite Da. unfold b.
    assert (0 < ((g - 1) * M ^ 2 * (t ^ 2 / (1 + t ^ 2)) + 2) ^ 2 + ((g + 1) * M ^ 2) ^ 2 * (t ^ 2 / (1 + t ^ 2) * (1 - t ^ 2 / (1 + t ^ 2)))).
    { rewrite <- W. apply hw_den; try lra. split; [pos|]. nra. }
    unfold c in D0. rewrite Da in D0. unfold b in D0.
    assert (E1 : ((g - 1) * M ^ 2 * (t ^ 2 / (1 + t ^ 2)) + 2) ^ 2 + ((g + 1) * M ^ 2) ^ 2 * (t ^ 2 / (1 + t ^ 2) * (1 - t ^ 2 / (1 + t ^ 2)))
      = ((g + 1) * M ^ 2) ^ 2 * (t ^ 2 + (2 / ((g + 1) * M ^ 2) + (2 + (g - 1) * M ^ 2) / ((g + 1) * M ^ 2) * t ^ 2) ^ 2) / (1 + t ^ 2) ^ 2) by (field; repeat split; nra).
    rewrite E1. set (DD := t ^ 2 + (2 / ((g + 1) * M ^ 2) + (2 + (g - 1) * M ^ 2) / ((g + 1) * M ^ 2) * t ^ 2) ^ 2) in *.
    apply Rmult_eq_reg_r with DD; [|lra]. replace ((DD - ((2 + (g - 1) * M ^ 2) / ((g + 1) * M ^ 2) * t ^ 2 - 2 / ((g + 1) * M ^ 2)) * (1 + t ^ 2)) / DD * DD)
      with (DD - ((2 + (g - 1) * M ^ 2) / ((g + 1) * M ^ 2) * t ^ 2 - 2 / ((g + 1) * M ^ 2)) * (1 + t ^ 2)) by (field; lra).
    field. repeat split; nra. }
  assert (BP : 0 < B). { unfold B, c. pose proof (key_bracket u t b u0 b0 Ha ltac:(lra) BT) as K. match goal with |- 0 < ?x => replace x with ((1 - b) * ((t ^ 2 + u ^ 2) + ((1 - b) * u ^ 2 + 2 * b * t ^ 2) * u ^ 2 + u ^ 2 * t ^ 2 - b * t ^ 4)) by ring end. exact K. }
  assert (SP : 0 < sl g M (rad s)) by (rewrite SL; pos). split; [exact SP|].
  (* both sides in radians *)
  rewrite EX. unfold deg. assert (Es : s - mu = (rad s - rad mu) * (180 / PI)) by (unfold rad; field; lra). rewrite Es, <- Rmult_assoc.
  apply Rmult_le_compat_r; [left; pos|].
  set (X := (u - c / t) / (1 + u * (c / t))). assert (uc : 0 < u * (c / t)) by nra. assert (X0 : 0 <= X) by (unfold X; apply Rmult_le_pos; [lra|left; apply Rinv_0_lt_compat; lra]).
  assert (LX : rad mu - ph <= X).
  { assert (Pb := atan_bound (c / t)). assert (Eph : ph = atan (c / t)) by (unfold ph; now rewrite TP). assert (0 < ph) by (rewrite Eph, <- atan_0; now apply atan_increasing).
    assert (TT : tan (rad mu - ph) = X).
    { assert (Cph : cos ph <> 0) by (apply Rgt_not_eq, cos_gt_0; lra). rewrite tan_minus; try lra.
      - unfold X. rewrite Eph. rewrite !tan_atan. replace (tan (rad mu)) with u by (rewrite Am, tan_atan; reflexivity). reflexivity.
      - unfold n in n0. lra.
      - apply Rgt_not_eq, cos_gt_0; lra.
      - rewrite Am, Eph, !tan_atan. lra. }
    rewrite <- (atan_tan (rad mu - ph)) by lra. rewrite TT. now apply atan_le. }
  apply Rle_trans with (1 := LX).
  assert (LD : sin (rad s - rad mu) * cos (rad s - rad mu) <= rad s - rad mu).
  { assert (0 < sin (rad s - rad mu)) by (apply sin_gt_0; lra). pose proof (COS_bound (rad s - rad mu)). pose proof (sin_le (rad s - rad mu) ltac:(lra)). nra. }
  apply Rle_trans with (sl g M (rad s) * (sin (rad s - rad mu) * cos (rad s - rad mu))); [|apply Rmult_le_compat_l; lra].
  assert (ES : sin (rad s - rad mu) * cos (rad s - rad mu) = (t - u) * (1 + t * u) / ((1 + t ^ 2) * (1 + u ^ 2))).
  { rewrite sin_minus, cos_minus. fold S C m n. unfold t, u.
    replace (1 + (S / C) ^ 2) with (1 / C ^ 2) by (replace (1 / C ^ 2) with ((S ^ 2 + C ^ 2) / C ^ 2) by (now rewrite SC); field; lra).
    replace (1 + (m / n) ^ 2) with (1 / n ^ 2) by (replace (1 / n ^ 2) with ((m ^ 2 + n ^ 2) / n ^ 2) by (now rewrite SCm); field; lra). field. lra. }
  rewrite ES, SL. unfold X.
  replace ((u - c / t) / (1 + u * (c / t))) with ((t - u) * ((1 - b) * u - b * t) / (t + u * c)).
  2:{ replace ((t - u) * ((1 - b) * u - b * t)) with (u * t - c) by (unfold c; ring). field. split; nra. }
  pose proof (key_ineq u t b u0 b0 Ha ltac:(lra) BT) as K. cbv zeta in K. fold c in K. fold B in K.
  assert (tc : 0 < t + u * c) by nra. assert (H1 : 0 < (1 + t ^ 2) * (1 + u ^ 2)) by nra.
  apply Rmult_le_reg_r with ((t + u * c) * ((1 + t ^ 2) * (1 + u ^ 2) * (t ^ 2 + c ^ 2))); [apply Rmult_lt_0_compat; [lra|apply Rmult_lt_0_compat; lra]|].
  replace ((t - u) * ((1 - b) * u - b * t) / (t + u * c) * ((t + u * c) * ((1 + t ^ 2) * (1 + u ^ 2) * (t ^ 2 + c ^ 2)))) with ((t - u) * (((1 - b) * u - b * t) * ((1 + t ^ 2) * (1 + u ^ 2) * (t ^ 2 + c ^ 2)))) by (field; lra).
  replace (B / (t ^ 2 + c ^ 2) * ((t - u) * (1 + t * u) / ((1 + t ^ 2) * (1 + u ^ 2))) * ((t + u * c) * ((1 + t ^ 2) * (1 + u ^ 2) * (t ^ 2 + c ^ 2)))) with ((t - u) * (B * ((1 + t * u) * (t + u * c)))) by (field; repeat split; nra).
  apply Rmult_le_compat_l; [lra|exact K].
Qed.
Lemma slope_max g M sm : 1 < g -> 1 < M -> sigma_DevMax (Some M) (Some g) = Some sm -> 0 < sm < 90 /\ sl g M (rad sm) = 0.
Proof.
  intros Hg HM Esm. destruct (slope_sides g M Hg HM) as (sm' & dm & mu & E1 & _ & _ & H0 & H1 & H2 & _ & _ & _ & SP & SN). rewrite Esm in E1. injection E1 as <-.
  split; [lra|].
  assert (D : is_derive (Fd g M) sm (sl g M (rad sm))) by (apply Fd_derive; lra). apply is_derive_Reals in D.
  assert (pr : derivable_pt (Fd g M) sm) by (exists (sl g M (rad sm)); exact D).
  rewrite <- (derive_pt_eq_0 _ _ _ pr D). apply (deriv_maximum _ 0 90 sm pr); try lra.
  intros x A B. destruct (Rtotal_order x sm) as [L|[->|L]]; [|lra|].
  - destruct (Fd_mvt g M x sm) as (c & Hc & E); try lra. pose proof (SP c ltac:(lra)). nra.
  - destruct (Fd_mvt g M sm x) as (c & Hc & E); try lra. pose proof (SN c ltac:(lra)). nra.
Qed.
(** the default start never reaches the strong side *)
Lemma default_side g M d mu w s sm sigma : 1 < g -> 1 < M -> 0 < d < 90 -> 0 < sigma < 90 ->
  deflection_Mach_sigma (Some M) (Some sigma) (Some g) = Some d -> dasin (ndiv (Some 1) (Some M)) = Some mu ->
  weaksigma_Mach_deflection (Some M) (Some d) (Some g) = Some w -> strongsigma_Mach_deflection (Some M) (Some d) (Some g) = Some s -> sigma_DevMax (Some M) (Some g) = Some sm ->
  mu + d <= w \/ (w < mu + d < sm /\ d <= Fd g M (mu + d)).
Proof.
  intros Hg HM Hd Hs Es Emu Ew Est Esm.
  destruct (weak_strong_sides g M d sigma Hg HM Hd Hs Es) as (mu' & w' & s' & sm' & E1 & E2 & E3 & E4 & B1 & B2 & B3 & B4).
  rewrite Emu in E1. rewrite Ew in E2. rewrite Est in E3. rewrite Esm in E4. injection E1 as <-. injection E2 as <-. injection E3 as <-. injection E4 as <-.
  destruct (slope_sides g M Hg HM) as (sm' & dm & mu' & E1' & _ & E3' & M0 & _ & _ & _ & Sm & F0 & SP & SN). rewrite Esm in E1'. injection E1' as <-. rewrite Emu in E3'. injection E3' as <-.
  destruct (slope_max g M sm Hg HM Esm) as [_ S0].
  assert (Fws : Fd g M w = d /\ Fd g M s = d).
  { destruct (weak_strong g M d Hg HM Hd) as [K _]. destruct K as (w' & s' & W1 & W2 & _ & _ & _ & W6 & W7); [now exists sigma|]. rewrite Ew in W1. rewrite Est in W2. injection W1 as <-. injection W2 as <-. rewrite Fd_eval in W6, W7 by lra. injection W6 as ->. injection W7 as ->. auto. }
  destruct Fws as [Fw Fs].
  destruct (Rle_lt_dec (mu + d) w) as [L|L]; [now left|right].
  assert (LS : mu + d <= s).
  { apply Rnot_lt_le. intros N. destruct (newton_mach g M mu s) as [P _]; auto; try lra.
    destruct (Req_dec s sm) as [->|Ns]; [lra|]. pose proof (SN s ltac:(lra)). lra. }
  assert (FG : d <= Fd g M (mu + d)).
  { destruct (Rle_lt_dec (mu + d) sm) as [A|A].
    - destruct (Fd_mvt g M w (mu + d)) as (c & Hc & E); try lra. pose proof (SP c ltac:(lra)). nra.
    - destruct (Req_dec (mu + d) s) as [->|Ns]; [lra|]. destruct (Fd_mvt g M (mu + d) s) as (c & Hc & E); try lra. pose proof (SN c ltac:(lra)). nra. }
  split; [|exact FG]. split; [exact L|]. apply Rnot_le_lt. intros N.
  destruct (newton_mach g M mu (mu + d)) as [P _]; auto; try lra.
  destruct (Req_dec (mu + d) sm) as [E|Ns]; [rewrite E in P; lra|]. pose proof (SN (mu + d) ltac:(lra)). lra.
Qed.
(*@P C28_default: For every gamma > 1, M > 1 and every attached deflection d > 0, sigma_Mach_deflection called without a start returns an angle z between 0.999 times the Mach angle mu and the larger of the weak shock angle w and mu + d, both of which are at most sigma_DevMax: the weak branch, always. The deflection of z misses d by at most an explicit multiple of the solver tolerance if no warning is printed. (mu + d > 0.01, else the solver stops at once.) *)
Lemma sigma_default_weak : forall g M d mu w sm sigma, 1 < g -> 1 < M -> 0 < d < 90 -> 0 < sigma < 90 ->
  deflection_Mach_sigma (Some M) (Some sigma) (Some g) = Some d -> dasin (ndiv (Some 1) (Some M)) = Some mu ->
  weaksigma_Mach_deflection (Some M) (Some d) (Some g) = Some w -> sigma_DevMax (Some M) (Some g) = Some sm -> 1/100 < mu + d ->
  exists z th, sigma_Mach_deflection (Some M) (Some d) None (Some g) = Some z /\ 999/1000 * mu <= z <= Rmax w (mu + d) /\ Rmax w (mu + d) <= sm /\
    deflection_Mach_sigma (Some M) (Some z) (Some g) = Some th /\
    (s_warned (secant_run_of (fun s => deflection_Mach_sigma (Some M) s (Some g)) (Some d) (Some (mu + d)) secant_tol) = false ->
     Rabs (th - d) <= 2 * sigma_lip g M * Rmax (1/100000) (1/100000 * z)).
Proof.
  intros g M d mu w sm sigma Hg HM Hd Hs Es Emu Ew Esm H0. assert (Ad : Rabs d = d) by (apply Rabs_pos_eq; lra).
  destruct (weak_strong_sides g M d sigma Hg HM Hd Hs Es) as (mu' & w' & s & sm' & E1 & E2 & E3 & E4 & B1 & B2 & B3 & B4).
  rewrite Emu in E1. rewrite Ew in E2. rewrite Esm in E4. injection E1 as <-. injection E2 as <-. injection E4 as <-.
  destruct (slope_sides g M Hg HM) as (sm' & dm & mu' & E1' & _ & E3' & M0 & _ & _ & _ & Sm & F0 & SP & SN). rewrite Esm in E1'. injection E1' as <-. rewrite Emu in E3'. injection E3' as <-.
  assert (Sd : Rsign d = 1) by (unfold Rsign; destruct (Rlt_dec 0 d); lra).
  assert (Hi : nadd (dasin (ndiv (Some 1) (Some M))) (Some d) = Some (mu + d)) by (rewrite Emu; reflexivity).
  destruct (default_side g M d mu w s sm sigma Hg HM Hd Hs Es Emu Ew E3 Esm) as [L|[L FG]].
  - destruct (sigma_weak g M d None (mu + d) w sigma) as (z & th & Z1 & Z2 & Z3 & Z4 & Z5); rewrite ?Ad; auto; try lra.
    exists z, th. rewrite Sd, Rmult_1_r in Z1. rewrite Ad in Z4, Z5. rewrite Rmax_left by lra. split; [exact Z1|]. split; [lra|]. split; [lra|]. split; [exact Z3|].
    intros HW. specialize (Z5 HW). rewrite Rabs_left1 by lra. lra.
  - rewrite Rmax_right by lra.
    destruct (newton_mach g M mu (mu + d) Hg HM ltac:(lra) Sm F0 ltac:(lra)) as [SP0 NW]; [lra|]. replace (mu + d - mu) with d in NW by ring.
    assert (Fw : Fd g M w = d).
    { destruct (weak_strong g M d Hg HM Hd) as [K _]. destruct K as (w' & s' & W1 & _ & _ & _ & _ & W6 & _); [now exists sigma|]. rewrite Ew in W1. injection W1 as <-. rewrite Fd_eval in W6 by lra. now injection W6. }
    destruct (secant_trapped (fun s => deflection_Mach_sigma (Some M) s (Some g)) (Fd g M) (fun s => sl g M (rad s)) (999/1000 * mu) (mu + d) w (mu + d)) as (z & Z1 & Z2 & Z3); try lra.
    { intros z Hz. split; [apply Fd_eval; lra|]. split; [apply Fd_derive; lra|]. apply SP. lra. }
    { intros a b Ha Hab Hb. left. apply slr_decr; lra. }
    { rewrite Fw. assert ((Fd g M (mu + d) - d) / sl g M (rad (mu + d)) <= d); [|lra]. apply Rmult_le_reg_r with (sl g M (rad (mu + d))); [lra|]. unfold Rdiv. rewrite Rmult_assoc, Rinv_l by lra. lra. }
    rewrite Fw in Z1, Z3. exists z, (Fd g M z).
    assert (ER : sigma_Mach_deflection (Some M) (Some d) None (Some g) = Some (z * Rsign d)).
    { rewrite (solve_is g M d None (mu + d) Hi), Ad. exact (f_equal (fun x => nmul x (Some (Rsign d))) Z1). }
    assert (ER' := ER). rewrite Sd, Rmult_1_r in ER'. split; [exact ER'|]. split; [exact Z2|]. split; [lra|]. split; [apply Fd_eval; lra|]. intros HW.
    destruct (sigma_residual g M d None (mu + d) (z * Rsign d) Hg ltac:(lra) ltac:(lra) Hi ltac:(lra)) as (r & Er & Kr); rewrite ?Ad; auto.
    { intros a Ha. pose proof (forall_in_range _ _ Z3 a Ha) as Q. cbv beta in Q. lra. }
    rewrite Sd in Er. assert (r = z) by lra. subst r. destruct (Kr ltac:(lra)) as (th & T1 & T2). rewrite Fd_eval in T1 by lra. injection T1 as <-. rewrite Ad in T2. lra.
Qed.
