(** * Accuracy of the binary64 normal-shock and duct tables *)
From Coq Require Import Reals List ZArith Lra Lia Psatz.
From Flocq Require Import Core.
From Verif Require Import Num M_Isentropic M_ShockWave M_Fanno M_Rayleigh L_Isentropic L_Shock L_Fanno L_Rayleigh M_Float FloatSpec L_Float L_Float2 L_Float3 L_Float6.
Open Scope R_scope.

Lemma close_of e v X b n : wf e -> chk e = true -> (cnt e < 2 ^ n)%nat -> (n <= 20)%nat -> b = (53 - n)%nat -> v = fxf e -> X = Some (fxr e) -> close_to b v X.
Proof.
  intros W C K N -> -> ->. destruct (fexp_sound e W C) as (x & E & Ne & _). exists x, (fxr e). split; [exact E|]. split; [reflexivity|].
  split; [apply Ne|]. now apply near_close with (cnt e).
Qed.
Lemma near_trans j k v x y : near j v x -> near k x y -> near (j + k) v y.
Proof.
  intros N N'. pose proof (near_pos _ _ _ N) as V. destruct N as (X & A & B), N' as (Y & A' & B'). pose proof (w_pos j). pose proof (w_pos k).
  split; [exact Y|]. rewrite pow_add. set (p := (1 - / 9007199254740992) ^ j) in *. set (q := (1 - / 9007199254740992) ^ k) in *. clearbody p q. split.
  - replace (y * (p * q)) with (y * q * p) by ring. eapply Rle_trans; [|exact A]. apply Rmult_le_compat_r; lra.
  - replace (v * (p * q)) with (v * p * q) by ring. eapply Rle_trans; [|exact B']. apply Rmult_le_compat_r; lra.
Qed.

(** gamma as a leaf *)
Lemma gm1_bp g : F g -> 1 < g <= 2 -> bpow radix2 (-52) <= g - 1 <= bpow radix2 0.
Proof. intros Fg G. assert (P := gamma_gap g Fg (proj1 G)). rewrite <- one_bp. lra. Qed.
Lemma g_bp g : 1 < g <= 2 -> bpow radix2 0 <= g <= bpow radix2 1.
Proof. intros G. rewrite <- one_bp, <- two_bp. lra. Qed.
Lemma sub1 g : F g -> 1 < g <= 2 -> fsub (Some g) (Some 1) = Some (g - 1).
Proof. intros Fg G. unfold fsub, fop2. rewrite (fl_pos (g - 1) 0) by (try lia; rewrite <- one_bp; lra). now rewrite (rn_F _ (gm1 g Fg G)). Qed.
Lemma halfg_F g : F g -> 1 < g <= 2 -> F (1 / 2 * (g - 1)).
Proof.
  intros Fg G. assert (Gap := gamma_gap g Fg (proj1 G)). apply half_F; [now apply gm1|]. rewrite Rabs_pos_eq by lra.
  apply Rle_trans with (bpow radix2 (-52)); [apply bpow_le; lia|lra].
Qed.
Lemma halfg_bp g : F g -> 1 < g <= 2 -> bpow radix2 (-53) <= 1 / 2 * (g - 1) <= bpow radix2 (-1).
Proof.
  intros Fg G. destruct (gm1_bp g Fg G) as [A B]. rewrite <- one_bp in B. change (bpow radix2 (-1)) with (/ 2). replace (bpow radix2 (-53)) with (bpow radix2 (-52) * / 2); [lra|].
  change (/ 2) with (bpow radix2 (-1)). rewrite <- bpow_plus. reflexivity.
Qed.
Lemma half1 g : F g -> 1 < g <= 2 -> fmul (Some (1 / 2)) (fsub (Some g) (Some 1)) = Some (1 / 2 * (g - 1)).
Proof.
  intros Fg G. rewrite sub1 by assumption. unfold fmul, fop2. rewrite (fl_pos _ 0) by (try lia; rewrite <- one_bp; lra). now rewrite (rn_F _ (halfg_F g Fg G)).
Qed.
Lemma half2 g : F g -> 1 < g <= 2 -> fdiv (fsub (Some g) (Some 1)) (Some 2) = Some (1 / 2 * (g - 1)).
Proof.
  intros Fg G. rewrite sub1 by assumption. unfold fdiv. destruct (Req_EM_T 2 0); [lra|]. replace ((g - 1) / 2) with (1 / 2 * (g - 1)) by field.
  rewrite (fl_pos _ 0) by (try lia; rewrite <- one_bp; lra). now rewrite (rn_F _ (halfg_F g Fg G)).
Qed.
Definition c1 : fexp := FC 1 0 0.
Definition c2 : fexp := FC 2 1 1.
Definition cg g : fexp := FC g 0 1.
Definition cg1 g : fexp := FC (g - 1) (-52) 0.
Definition ch g : fexp := FC (1 / 2 * (g - 1)) (-53) (-1).
Ltac leaves := repeat split; first [assumption | apply F1 | apply F2 | now apply gm1 | now apply halfg_F | now apply gm1_bp | now apply halfg_bp | now apply g_bp | (rewrite <- one_bp; lra) | (rewrite <- two_bp; lra) | lra | idtac].

Definition eRho g M a b : fexp :=
  FDiv (FMul (FAdd (cg g) c1) (FMul (FC M a b) (FC M a b))) (FAdd c2 (FMul (cg1 g) (FMul (FC M a b) (FC M a b)))).
Lemma eRho_wf g M a b : F g -> F M -> 1 < g <= 2 -> bpow radix2 a <= M <= bpow radix2 b -> wf (eRho g M a b).
Proof. intros Fg FM G H. cbn [eRho wf c1 c2 cg cg1]. leaves. Qed.
Lemma eRho_f g M a b : F g -> 1 < g <= 2 -> float_Rho_ratio (Some M) (Some g) = fxf (eRho g M a b).
Proof. intros Fg G. unfold float_Rho_ratio. rewrite sub1 by assumption. reflexivity. Qed.
Lemma eRho_r g M a b : fxr (eRho g M a b) = rhor g M.
Proof. cbn [eRho fxr c1 c2 cg cg1]. unfold rhor. cbn [pow]. rewrite Rmult_1_r. reflexivity. Qed.

(*@P C112_density: For every double 1 < gamma <= 2 and every double normal Mach number 1 <= M <= 2^200, the density ratio computed in binary64 arithmetic is the exact one with a relative error of at most 2^-50. *)
Lemma Rho_close : forall gamma M, b64 gamma -> b64 M -> 1 < gamma <= 2 -> 1 <= M <= bpow radix2 200 ->
  close_to 50 (float_Rho_ratio (Some M) (Some gamma)) (Rho_ratio (Some M) (Some gamma)).
Proof.
  intros g M [Fg _] [FM _] G H. change 1 with (bpow radix2 0) in H at 1. rewrite Rho_eval by lra. rewrite <- (eRho_r g M 0 200).
  apply close_of with (eRho g M 0 200) 3%nat; try reflexivity; [now apply eRho_wf|cbn; lia|lia|now apply eRho_f].
Qed.
Lemma near17 v x : 0 < x -> Rabs (v - x) <= x / 2 ^ 49 -> near 17 v x.
Proof.
  intros X A. replace (2 ^ 49) with 562949953421312 in A by (rewrite pw; reflexivity). apply abs_split in A.
  set (w := (1 - / 9007199254740992) ^ 17).
  assert (W0 : 0 < w) by apply w_pos. assert (W : w * (1 + 16 / 9007199254740992) <= 1).
  { assert (Q : (1 - / 9007199254740992) * (1 + / 9007199254740992) <= 1) by lra.
    assert (Q1 : 1 + 16 / 9007199254740992 <= (1 + / 9007199254740992) ^ 17).
    { assert (forall n, 1 + INR n * / 9007199254740992 <= (1 + / 9007199254740992) ^ n).
      { induction n as [|n IH]; [cbn; lra|]. rewrite S_INR. cbn [pow]. pose proof (pos_INR n). nra. }
      specialize (H 17%nat). replace (INR 17) with 17 in H by (rewrite INR_IZR_INZ; reflexivity). lra. }
    apply Rle_trans with (w * (1 + / 9007199254740992) ^ 17); [apply Rmult_le_compat_l; lra|]. unfold w. rewrite <- Rpow_mult_distr.
    apply Rle_trans with (1 ^ 17); [apply pow_incr; lra|rewrite pow1; lra]. }
  assert (W2 : w <= 1 - 16 / 9007199254740992).
  { apply Rmult_le_reg_r with (1 + 16 / 9007199254740992); [lra|]. 
    assert (V : w <= (1 - / 9007199254740992) * (1 - 16 / 9007199254740992 + 136 / 9007199254740992 / 9007199254740992)).
    { assert (forall n, (n <= 17)%nat -> (1 - / 9007199254740992) ^ n <= 1 - INR n * / 9007199254740992 + INR n * INR n / 2 / 9007199254740992 / 9007199254740992).
      { induction n as [|n IH]; intros L; [cbn; lra|]. specialize (IH ltac:(lia)). rewrite S_INR. cbn [pow]. pose proof (pos_INR n). assert (INR n <= 17). { replace 17 with (INR 17) by (rewrite INR_IZR_INZ; reflexivity). apply le_INR. lia. }
        set (t := INR n) in *. clearbody t. set (y := (1 - / 9007199254740992) ^ n) in *. clearbody y. 
        apply Rle_trans with ((1 - / 9007199254740992) * (1 - t * / 9007199254740992 + t * t / 2 / 9007199254740992 / 9007199254740992)); [apply Rmult_le_compat_l; lra|]. nra. }
      unfold w. change ((1 - / 9007199254740992) ^ 17) with ((1 - / 9007199254740992) * (1 - / 9007199254740992) ^ 16). apply Rmult_le_compat_l; [lra|].
      specialize (H 16%nat ltac:(lia)). replace (INR 16) with 16 in H by (rewrite INR_IZR_INZ; reflexivity). lra. }
    lra. }
  unfold near. fold w. split; [exact X|]. clearbody w. split.
  - apply Rle_trans with (x * (1 - 16 / 9007199254740992)); [apply Rmult_le_compat_l; lra|lra].
  - apply Rle_trans with (x * (1 + 16 / 9007199254740992) * w); [apply Rmult_le_compat_r; lra|]. rewrite <- (Rmult_1_r x) at 2. rewrite Rmult_assoc. apply Rmult_le_compat_l; lra.
Qed.
(*@P C112_temperature: For the same doubles, the temperature ratio computed in binary64 arithmetic is the exact one with a relative error of at most 2^-48. *)
Lemma Ts_close : forall gamma M, b64 gamma -> b64 M -> 1 < gamma <= 2 -> 1 <= M <= bpow radix2 200 ->
  close_to 48 (float_Ts_ratio (Some M) (Some gamma)) (Ts_ratio (Some M) (Some gamma)).
Proof.
  intros g M Bg BM G H. assert (H4 : 1 <= M <= bpow radix2 400) by (split; [lra|apply Rle_trans with (bpow radix2 200); [lra|apply bpow_le; lia]]).
  destruct (float_Ps_close g M Bg BM G H4) as (P & X & EP & EX & PX).
  destruct Bg as [Fg _], BM as [FM _]. destruct (Ps_float g M Fg G H4) as [EP' PB].
  rewrite EP in EP'. injection EP' as EP'. rewrite <- EP' in PB.
  rewrite Ps_eval in EX by lra. injection EX as <-. assert (FP : F P) by (rewrite EP'; apply F_rn). clear EP'.
  assert (M2 : 1 <= M ^ 2 <= bpow radix2 400). { cbn [pow]. rewrite Rmult_1_r. change 400%Z with (200 + 200)%Z. rewrite bpow_plus. split; [nra|apply Rmult_le_compat; lra]. }
  assert (X1 : 1 <= psr g M <= 2 * M ^ 2).
  { unfold psr. assert (c01 : 1 <= 2 * g / (g + 1) <= 4 / 3).
    { split; apply Rmult_le_reg_r with (g + 1); try lra; unfold Rdiv; rewrite ?Rmult_assoc, ?Rinv_l by lra; lra. }
    set (c := 2 * g / (g + 1)) in *. clearbody c. set (m := M ^ 2) in *. clearbody m. nra. }
  assert (Pb : bpow radix2 0 <= P <= bpow radix2 402).
  { rewrite <- one_bp. split; [lra|]. change 402%Z with (400 + 1 + 1)%Z. rewrite !bpow_plus. change (bpow radix2 1) with 2. 
    replace (2 ^ 49) with 562949953421312 in PX by (rewrite pw; reflexivity). apply abs_split in PX. lra. }
  change 1 with (bpow radix2 0) in H at 1.
  set (e := FDiv (FC P 0 402) (eRho g M 0 200)).
  destruct (fexp_sound e) as (v & E & Ne & _); [split; [cbn; tauto|now apply eRho_wf]|reflexivity|].
  assert (EF : float_Ts_ratio (Some M) (Some g) = Some v). { rewrite <- E. unfold float_Ts_ratio. rewrite EP, (eRho_f g M 0 200) by assumption. reflexivity. }
  assert (M0 : 0 < M) by (rewrite <- one_bp in H; lra).
  exists v, (tsr g M). split; [exact EF|]. split; [apply Ts_eval; lra|]. unfold e in Ne. cbn [fxr] in Ne. rewrite eRho_r in Ne.
  assert (Nx : near 17 (P / rhor g M) (tsr g M)).
  { unfold tsr. change 17%nat with (17 + 0)%nat. apply near_div; [apply near17; [lra|exact PX]|]. apply near_refl. apply rhor_pos; lra. }
  assert (Nt := near_trans _ _ _ _ _ Ne Nx). split; [apply Nt|]. apply (near_close _ 5) in Nt; [exact Nt|cbn; lia|lia].
Qed.

Definition eN g M a b : fexp := FAdd c1 (FMul (ch g) (FMul (FC M a b) (FC M a b))).
Definition eG g M a b : fexp := FMul (cg g) (FMul (FC M a b) (FC M a b)).
Lemma near_sub k v x h : (k <= 16)%nat -> 0 <= h -> 4 * h <= x -> near k v x -> near (k + k) (v - h) (x - h).
Proof.
  intros K H0 H4 N. pose proof (near_pos _ _ _ N) as V. destruct N as (X & A & B). pose proof (w_pos k). pose proof (w_lin k). pose proof (w_le k).
  assert (INR k <= 16). { replace 16 with (INR 16) by (rewrite INR_IZR_INZ; reflexivity). now apply le_INR. }
  split; [lra|]. rewrite pow_add. set (w := (1 - / 9007199254740992) ^ k) in *. assert (W : 9 / 10 <= w) by lra. clearbody w.
  assert (Q : h * (1 + w) <= x * w). { apply Rle_trans with (h * 2); [apply Rmult_le_compat_l; lra|]. apply Rle_trans with (x * (9 / 10)); [lra|]. apply Rmult_le_compat_l; lra. }
  assert (Q2 : h * (1 + w) <= x). { apply Rle_trans with (h * 2); [apply Rmult_le_compat_l; lra|]. lra. }
  split.
  - apply Rle_trans with (x * w - h); [|lra]. assert (0 <= (1 - w) * (x * w - h * (1 + w))) by (apply Rmult_le_pos; lra). nra.
  - apply Rle_trans with (x * w - h * (w * w)).
    + replace ((v - h) * (w * w)) with (v * w * w - h * (w * w)) by ring. assert (v * w * w <= x * w) by (apply Rmult_le_compat_r; lra). lra.
    + assert (0 <= (1 - w) * (x - h * (1 + w))) by (apply Rmult_le_pos; lra). nra.
Qed.
Lemma Den_float g M : F g -> F M -> 1 < g <= 2 -> 1 <= M <= bpow radix2 200 ->
  exists D, fsub (fxf (eG g M 0 200)) (Some (1 / 2 * (g - 1))) = Some D /\ F D /\ near 5 D (g * M ^ 2 - 1 / 2 * (g - 1)) /\ bpow radix2 (-1) <= D <= bpow radix2 401
    /\ D = rn (rn (g * rn (M * M)) - 1 / 2 * (g - 1)).
Proof.
  intros Fg FM G H. assert (H' := H). change 1 with (bpow radix2 0) in H at 1.
  destruct (fexp_sound (eG g M 0 200)) as (v & E & Ne & B & _); [cbn [eG wf c1 c2 cg cg1]; leaves|reflexivity|].
  assert (Ev : v = rn (g * rn (M * M))).
  { revert E. cbn [eG fxf cg]. unfold fmul, fop2. 
    assert (M2 : 0 <= M * M <= bpow radix2 (200 + 200)) by (apply mul_bp; lra). rewrite (fl_pos _ _ M2) by lia. assert (R := rn_pos _ _ M2 ltac:(lia)).
    assert (G2 : 0 <= g * rn (M * M) <= bpow radix2 (1 + (200 + 200))) by (apply mul_bp; [rewrite <- two_bp; lra|exact R]). rewrite (fl_pos _ _ G2) by lia. intro E. now injection E. }
  unfold inb in B. cbn in B. cbn [eG fxr cg cnt] in Ne.
  set (h := 1 / 2 * (g - 1)) in *. assert (h0 : 0 <= h <= 1 / 2) by (unfold h; lra).
  assert (V1 : bpow radix2 0 <= v <= bpow radix2 401) by exact B. assert (V2 := V1). rewrite <- one_bp in V2.
  assert (MM : 1 <= M * M) by nra.
  assert (B2 : 0 <= v - h <= bpow radix2 401) by lra.
  exists (rn (v - h)). rewrite E. unfold fsub, fop2. split; [now apply fl_pos with 401%Z|]. split; [apply F_rn|].
  assert (L : bpow radix2 (-1) <= v - h) by (change (bpow radix2 (-1)) with (/ 2); lra). split; [|split].
  - change 5%nat with (S (2 + 2)). apply near_rn; [apply Rle_trans with (2 := L); apply bpow_le; lia|].
    apply near_sub; [lia|lra|unfold h; cbn [pow]; rewrite Rmult_1_r; nra|]. replace (g * M ^ 2) with (g * (M * M)) by ring. exact Ne.
  - split; [apply rn_ge; [apply F_bpow; lia|exact L]|apply rn_le_F; [apply F_bpow; lia|lra]].
  - now rewrite <- Ev.
Qed.
Lemma Num_float g M : F g -> F M -> 1 < g <= 2 -> 1 <= M <= bpow radix2 200 ->
  fxf (eN g M 0 200) = Some (rn (1 + rn (1 / 2 * (g - 1) * rn (M * M)))).
Proof.
  intros Fg FM G H. cbn [eN fxf ch c1]. unfold fadd, fmul, fop2. 
  assert (M2 : 0 <= M * M <= bpow radix2 (200 + 200)) by (apply mul_bp; lra). rewrite (fl_pos _ _ M2) by lia. assert (R := rn_pos _ _ M2 ltac:(lia)).
  assert (h0 : 0 <= 1 / 2 * (g - 1) <= bpow radix2 0) by (rewrite <- one_bp; lra).
  assert (G2 := mul_bp _ _ _ _ h0 R). rewrite (fl_pos _ _ G2) by lia. assert (R2 := rn_pos _ _ G2 ltac:(lia)).
  assert (S2 := sum_bp _ (0 + (200 + 200)) ltac:(lia) R2). apply fl_pos with (0 + (200 + 200) + 1)%Z; [exact S2|lia].
Qed.
Lemma eN_wf g M a b : F g -> F M -> 1 < g <= 2 -> bpow radix2 a <= M <= bpow radix2 b -> wf (eN g M a b).
Proof. intros Fg FM G H. cbn [eN wf c1 ch]. leaves. Qed.
(*@P C112_downstream: For the same doubles, the downstream normal Mach number computed in binary64 arithmetic is the exact one with a relative error of at most 2^-50. *)
Lemma Md_close : forall gamma M, b64 gamma -> b64 M -> 1 < gamma <= 2 -> 1 <= M <= bpow radix2 200 ->
  close_to 50 (float_downstream_Mn (Some M) (Some gamma)) (downstream_Mn (Some M) (Some gamma)).
Proof.
  intros g M [Fg _] [FM _] G H. assert (M1 : 1 <= M) by lra. assert (Q : 1 <= M ^ 2) by (cbn [pow]; rewrite Rmult_1_r; nra).
  destruct (Den_float g M Fg FM G H) as (D & ED & FD & ND & BD & _). change 1 with (bpow radix2 0) in H at 1.
  set (e := FSqrt (FDiv (eN g M 0 200) (FC D (-1) 401))).
  destruct (fexp_sound e) as (v & E & Ne & _); [split; [now apply eN_wf|cbn; tauto]|reflexivity|].
  assert (EF : float_downstream_Mn (Some M) (Some g) = Some v).
  { rewrite <- E. unfold float_downstream_Mn. cbv zeta. rewrite half1 by assumption. unfold e. cbn [fxf]. rewrite <- ED. reflexivity. }
  assert (SD : sdom g M). { unfold sdom. apply Rlt_le_trans with 1; [|lra]. apply Rmult_lt_reg_r with (2 * g); [lra|]. unfold Rdiv. rewrite Rmult_assoc, Rinv_l by lra. lra. }
  exists v, (sqrt (md2 g M)). split; [exact EF|]. split; [apply Md_eval; [lra|exact SD]|]. unfold e in Ne. cbn [fxr] in Ne.
  assert (Nx : near 3 (sqrt (fxr (eN g M 0 200) / D)) (sqrt (md2 g M))).
  { change 3%nat with (S 5 / 2)%nat. apply near_sqrt. change 5%nat with (0 + 5)%nat. unfold md2. apply near_div; [|exact ND]. 
    replace (fxr (eN g M 0 200)) with (tt g M); [apply near_refl, tt_pos; lra|]. cbn [eN fxr c1 ch]. unfold tt. ring. }
  assert (Nt := near_trans _ _ _ _ _ Ne Nx). split; [apply Nt|]. apply (near_close _ 3) in Nt; [exact Nt|cbn; lia|lia].
Qed.
(*@P C112_subsonic: For every double 1 < gamma <= 2 and every double 1 <= M <= 2^200, the downstream normal Mach number computed in binary64 arithmetic never exceeds 1, whatever the rounding errors. *)
Lemma Md_subsonic : forall gamma M, b64 gamma -> b64 M -> 1 < gamma <= 2 -> 1 <= M <= bpow radix2 200 ->
  exists N, float_downstream_Mn (Some M) (Some gamma) = Some N /\ 0 < N <= 1.
Proof.
  intros g M [Fg _] [FM _] G H. destruct (Den_float g M Fg FM G H) as (D & ED & FD & ND & BD & DE). assert (NE := Num_float g M Fg FM G H).
  set (h := 1 / 2 * (g - 1)) in *. set (s := rn (M * M)) in *.
  assert (S1 : 1 <= s) by (apply rn_ge; [apply F1|nra]). assert (Fs : F s) by apply F_rn. assert (Gap := small_gap s Fs S1).
  assert (h0 : 0 < h <= 1 / 2) by (unfold h; lra). assert (hb := halfg_bp g Fg G). fold h in hb.
  assert (K : 1 + rn (h * s) <= rn (g * s) - h).
  { assert (A : Rabs (rn (h * s) - h * s) <= h * s / 9007199254740992).
    { apply rel_pos. apply Rle_trans with (bpow radix2 (-53)); [apply bpow_le; lia|]. apply Rle_trans with (1 := proj1 hb). rewrite <- (Rmult_1_r h) at 1. apply Rmult_le_compat_l; lra. }
    assert (B : Rabs (rn (g * s) - g * s) <= g * s / 9007199254740992).
    { apply rel_pos. apply Rle_trans with 1; [rewrite one_bp; apply bpow_le; lia|]. nra. }
    destruct Gap as [Z|Z].
    - replace s with 1 by lra. rewrite !Rmult_1_r. rewrite (rn_F h), (rn_F g) by (assumption || now apply halfg_F). unfold h. lra.
    - apply abs_split in A. apply abs_split in B. change (bpow radix2 (-52)) with (/ 4503599627370496) in Z.
      replace g with (1 + 2 * h) in B |- * by (unfold h; field). clearbody h s. 
      assert (0 <= (1 + h) * (s - 1) - (1 + 3 * h) * s / 9007199254740992).
      { assert (P : (1 + 3 * h) * s / 9007199254740992 = (1 + 3 * h) / 9007199254740992 + (1 + 3 * h) / 9007199254740992 * (s - 1)) by field. rewrite P.
        assert (Q1 : (1 + 3 * h) / 9007199254740992 <= (1 + h) * (1 - / 1024) * (/ 4503599627370496)) by lra.
        assert (Q2 : (1 + h) * (1 - / 1024) * (/ 4503599627370496) <= (1 + h) * (1 - / 1024) * (s - 1)) by (apply Rmult_le_compat_l; [apply Rmult_le_pos; lra|exact Z]).
        assert (Q3 : (1 + 3 * h) / 9007199254740992 * (s - 1) <= (1 + h) * (/ 1024) * (s - 1)) by (apply Rmult_le_compat_r; lra). lra. }
      lra. }
  assert (ND2 : rn (1 + rn (h * s)) <= D) by (rewrite DE; now apply rn_le).
  assert (D0 : 0 < D) by (assert (P := bpow_gt_0 radix2 (-1)); lra).
  assert (Fh : F h) by now apply halfg_F.
  assert (hs : 0 <= rn (h * s)) by (apply rn_ge; [apply generic_format_0|apply Rmult_le_pos; lra]).
  assert (N1 : 1 <= rn (1 + rn (h * s))) by (apply rn_ge; [apply F1|lra]). set (N := rn (1 + rn (h * s))) in *.
  assert (q1 : bpow radix2 (-401) <= N / D <= 1).
  { split; [|apply Rmult_le_reg_r with D; [exact D0|]; unfold Rdiv; rewrite Rmult_assoc, Rinv_l by lra; lra].
    change (-401)%Z with (- (401))%Z. rewrite bpow_opp. unfold Rdiv. rewrite <- (Rmult_1_l (/ bpow radix2 401)). apply Rmult_le_compat; [lra|apply Rlt_le, Rinv_0_lt_compat, bpow_gt_0|lra|apply Rinv_le_contravar; lra]. }
  assert (q2 : bpow radix2 (-401) <= rn (N / D) <= 1) by (split; [apply rn_ge; [apply F_bpow; lia|lra]|apply rn_le_F; [apply F1|lra]]).
  assert (P := bpow_gt_0 radix2 (-401)).
  assert (q3 : 0 <= sqrt (rn (N / D)) <= 1) by (split; [apply sqrt_pos|apply Rle_trans with (sqrt 1); [apply sqrt_le_1_alt; lra|rewrite sqrt_1; lra]]).
  assert (q4 : bpow radix2 (-401) <= sqrt (rn (N / D))).
  { rewrite <- (sqrt_square (bpow radix2 (-401))) by lra. apply sqrt_le_1_alt. apply Rle_trans with (bpow radix2 (-401)); [|lra]. rewrite <- bpow_plus. apply bpow_le; lia. }
  exists (rn (sqrt (rn (N / D)))). split.
  - unfold float_downstream_Mn. cbv zeta. rewrite half1 by assumption. fold h. 
    change (fadd (Some 1) (fmul (Some h) (fmul (Some M) (Some M)))) with (fxf (eN g M 0 200)). rewrite NE. fold N.
    change (fmul (Some g) (fmul (Some M) (Some M))) with (fxf (eG g M 0 200)). rewrite ED. unfold fdiv. destruct (Req_EM_T D 0); [lra|].
    rewrite (fl_pos (N / D) 0) by (lia || (rewrite <- one_bp; lra)). unfold fsqrt. destruct (Rlt_dec (rn (N / D)) 0); [lra|]. rewrite (fl_pos _ 0) by (lia || (rewrite <- one_bp; lra)). reflexivity.
  - split; [apply Rlt_le_trans with (1 := P); apply rn_ge; [apply F_bpow; lia|exact q4]|apply rn_le_F; [apply F1|lra]].
Qed.
(*@P C112_sonic: For every double 1 < gamma <= 2 a normal shock at Mach number 1 does nothing at all: the pressure, density and temperature ratios and the downstream Mach number computed in binary64 arithmetic are exactly 1. *)
Lemma sonic_exact : forall gamma, b64 gamma -> 1 < gamma <= 2 ->
  float_Ps_ratio (Some 1) (Some gamma) = Some 1 /\ float_Rho_ratio (Some 1) (Some gamma) = Some 1
  /\ float_Ts_ratio (Some 1) (Some gamma) = Some 1 /\ float_downstream_Mn (Some 1) (Some gamma) = Some 1.
Proof.
  intros g [Fg Bg] G. assert (r1 : rn 1 = 1) by (apply rn_F, F1). assert (r0 := rn0). assert (Fm := gm1 g Fg G).
  assert (f1 : fl 1 = Some 1) by (rewrite (fl_pos 1 0) by (lia || (rewrite <- one_bp; lra)); now rewrite r1).
  assert (m1 : fmul (Some 1) (Some 1) = Some 1) by (unfold fmul, fop2; now rewrite Rmult_1_r).
  assert (f0 : fl 0 = Some 0) by (rewrite (fl_pos 0 0) by (lia || (rewrite <- one_bp; lra)); now rewrite r0).
  assert (s0 : fsub (Some 1) (Some 1) = Some 0) by (unfold fsub, fop2; now rewrite Rminus_diag_eq).
  assert (a1 : fadd (Some g) (Some 1) = Some (rn (g + 1))) by (apply (fl_pos _ 2); [change (bpow radix2 2) with 4; lra|lia]).
  assert (A : 2 <= rn (g + 1) <= 4) by (split; [apply rn_ge; [apply F2|lra]|apply rn_le_F; [apply (F_IZR 4); cbn; lia|lra]]).
  assert (P : float_Ps_ratio (Some 1) (Some g) = Some 1).
  { unfold float_Ps_ratio. rewrite m1, s0, a1. unfold fmul at 2, fop2. rewrite (fl_pos _ 2) by (lia || (change (bpow radix2 2) with 4; lra)).
    assert (T := rn_pos (2 * g) 2 ltac:(change (bpow radix2 2) with 4; lra) ltac:(lia)). change (bpow radix2 2) with 4 in T.
    unfold fdiv. destruct (Req_EM_T (rn (g + 1)) 0); [lra|].
    assert (Q : 0 <= rn (2 * g) / rn (g + 1) <= bpow radix2 1).
    { rewrite <- two_bp. split; [apply Rmult_le_pos; [lra|apply Rlt_le, Rinv_0_lt_compat; lra]|]. apply Rmult_le_reg_r with (rn (g + 1)); [lra|]. unfold Rdiv. rewrite Rmult_assoc, Rinv_l by lra. lra. }
    rewrite (fl_pos _ 1 Q) by lia. unfold fmul, fop2. rewrite Rmult_0_r, f0. unfold fadd, fop2. now rewrite Rplus_0_r. }
  assert (D : float_Rho_ratio (Some 1) (Some g) = Some 1).
  { unfold float_Rho_ratio. rewrite m1, a1, sub1 by assumption. unfold fmul, fop2. rewrite !Rmult_1_r.
    rewrite (fl_pos (rn (g + 1)) 2) by (lia || (change (bpow radix2 2) with 4; lra)). rewrite (fl_pos (g - 1) 0) by (lia || (rewrite <- one_bp; lra)).
    rewrite (rn_F (g - 1)) by assumption. rewrite (rn_F (rn (g + 1))) by apply F_rn. unfold fadd, fop2. replace (2 + (g - 1)) with (g + 1) by ring.
    rewrite (fl_pos (g + 1) 2) by (lia || (change (bpow radix2 2) with 4; lra)). unfold fdiv. destruct (Req_EM_T (rn (g + 1)) 0); [lra|]. unfold Rdiv. now rewrite Rinv_r. }
  split; [exact P|]. split; [exact D|]. split.
  - unfold float_Ts_ratio. rewrite P, D. unfold fdiv. destruct (Req_EM_T 1 0); [lra|]. unfold Rdiv. now rewrite Rinv_1, Rmult_1_r.
  - unfold float_downstream_Mn. cbv zeta. rewrite half1, m1 by assumption. set (h := 1 / 2 * (g - 1)). assert (h0 : 0 < h <= 1 / 2) by (unfold h; lra). assert (Fh : F h) by now apply halfg_F.
    unfold fmul, fop2. rewrite !Rmult_1_r. rewrite (fl_pos h 0), (fl_pos g 1) by (lia || (rewrite <- ?one_bp, <- ?two_bp; lra)). rewrite !rn_F by assumption.
    unfold fadd, fsub, fop2. replace (g - h) with (1 + h) by (unfold h; field). rewrite (fl_pos (1 + h) 1) by (lia || (rewrite <- ?two_bp; lra)).
    assert (B : 1 <= rn (1 + h)) by (apply rn_ge; [apply F1|lra]). unfold fdiv. destruct (Req_EM_T (rn (1 + h)) 0); [lra|]. unfold Rdiv. rewrite Rinv_r by lra. rewrite f1.
    unfold fsqrt. destruct (Rlt_dec 1 0); [lra|]. now rewrite sqrt_1.
Qed.
(*@E C112_example: the hypotheses hold for gamma = 1.5 and the Mach number 2 *)
Lemma C112_ex : b64 (3 / 2) /\ b64 2 /\ 1 < 3 / 2 <= 2 /\ 1 <= 2 <= bpow radix2 200.
Proof.
  destruct float_TtTs_example as (A & B & C & _). split; [exact A|]. split; [exact B|]. split; [lra|]. split; [lra|]. rewrite two_bp. apply bpow_le; lia.
Qed.
