(** * Minimum_length_nozzle.py: the construction succeeds for design Mach numbers up to 2 *)
From Coq Require Import List Lia.
From Coquelicot Require Import Coquelicot.
From Verif Require Import L_Num L_Isentropic L_MassFlow L_Supersonic MocSpec M_MassFlow M_MinNozzle L_MinNozzle L_MinNozzle2.
Open Scope R_scope.

Lemma atan_low b : 0 <= b -> b - b ^ 3 / 3 <= atan b.
Proof.
  intros [H|<-]; [|rewrite atan_0; lra].
  destruct (MVT_cor2 (fun b => atan b - (b - b ^ 3 / 3)) (fun b => / (1 + b ^ 2) - (1 - b ^ 2)) 0 b H) as (z & E & Hz).
  - intros x Hx. apply is_derive_Reals. auto_derive; [exact I|]. unfold Rsqr. field. nra.
  - rewrite atan_0 in E. assert (0 <= / (1 + z ^ 2) - (1 - z ^ 2)).
    { enough (1 - z ^ 2 <= / (1 + z ^ 2)) by lra. apply Rmult_le_reg_r with (1 + z ^ 2); [nra|]. rewrite Rinv_l by nra. nra. }
    assert (0 <= (atan b - (b - b ^ 3 / 3)) - (0 - (0 - 0 ^ 3 / 3))) by (rewrite E; apply Rmult_le_pos; lra). lra.
Qed.
Lemma tan_pos_lt b : 0 < b < PI / 2 -> exists t, ntan (Some b) = Some t /\ 0 < t.
Proof.
  intros H. exists (tan b). split; [|apply tan_gt_0; lra]. unfold ntan. assert (0 < cos b) by (apply cos_gt_0; lra). destruct (Req_EM_T (cos b) 0); [lra|reflexivity].
Qed.
Lemma tan_neg_lt b : - (PI / 2) < b < 0 -> exists t, ntan (Some b) = Some t /\ t < 0.
Proof.
  intros H. exists (tan b). split; [|apply tan_lt_0; lra]. unfold ntan. assert (0 < cos b) by (apply cos_gt_0; lra). destruct (Req_EM_T (cos b) 0); [lra|reflexivity].
Qed.

(** the inclinations at a point *)
Definition good (th m : R) : Prop := 0 <= th /\ th < m /\ th + m < PI / 2 /\ 0 < m.
Lemma good_point fuel th nu M : 0 <= th <= 267 / 1000 -> th <= nu -> 0 < nu <= pn 2 -> mach_via_pmeyer fuel (Some nu) = Some M ->
  exists m, mua fuel (Some nu) = Some m /\ good th m /\ 267 / 1000 < m.
Proof.
  intros Ht Hn Hv E. assert (V := pn_lt_max 2 ltac:(lra)). assert (V1 : 0 <= nu < vmax) by lra. destruct (mvp_sound _ _ _ E V1) as (A & B & C). destruct (C ltac:(lra)) as [A1 D].
  unfold mua. rewrite E. unfold mach_angle. rewrite ndiv_Some by lra. unfold narcsin.
  assert (P : 0 < 1 / M <= 1) by (split; [apply Rdiv_lt_0_compat; lra|apply Rle_div_l; lra]).
  destruct (Rle_dec (-1) (1 / M)); [|lra]. destruct (Rle_dec (1 / M) 1); [|lra].
  exists (asin (1 / M)). split; [reflexivity|]. assert (PB := asin_bound (1 / M)). assert (SA := sin_asin (1 / M) ltac:(lra)).
  assert (Mu : M <= 20001 / 10000).
  { apply pn_inj; [lra|lra|]. apply Rabs_le_between in B. destruct (pn_mvt 2 (20001 / 10000)) as (z & Hz & F); [lra|]. assert (Z := dpn_mid z ltac:(lra)). lra. }
  assert (I : 499 / 1000 < 1 / M) by (apply (Rlt_div_r _ _ M); lra).
  assert (m1 : 267 / 1000 < asin (1 / M)).
  { destruct (Rle_lt_dec (asin (1 / M)) 0) as [H|H].
    - assert (sin (asin (1 / M)) <= 0); [|lra]. rewrite <- (Ropp_involutive (asin (1 / M))), sin_neg. assert (0 <= sin (- asin (1 / M))); [|lra]. apply sin_ge_0; lra.
    - assert (Q := sin_lt_x _ H). lra. }
  split; [|exact m1]. split; [lra|]. split; [lra|]. split; [|lra].
  rewrite mach_angle_atan by lra. set (b := sqrt (M ^ 2 - 1)). enough (th < atan b) by lra.
  assert (b0 : 0 < b) by (apply sqrt_lt_R0; nra). assert (AL := atan_low b ltac:(lra)).
  destruct (Rle_lt_dec (32 / 100) b) as [Hb|Hb].
  - apply Rle_lt_trans with (267 / 1000); [lra|]. apply Rlt_le_trans with (atan (32 / 100)).
    + assert (Q := atan_low (32 / 100) ltac:(lra)). lra.
    + destruct Hb as [Hb|<-]; [apply Rlt_le, atan_increasing; exact Hb|lra].
  - assert (b2 : b * b = M ^ 2 - 1) by (apply sqrt_sqrt; nra). assert (M < 105 / 100) by nra. destruct D as [D|D]; [|lra].
    assert (pn M <= b - atan b).
    { unfold pn, pmb. fold b. assert (C0 := cn_gt). assert (Q := atan_le_id (b / cn) ltac:(apply Rlt_le, Rdiv_lt_0_compat; lra)).
      assert (cn * atan (b / cn) <= cn * (b / cn)) by (apply Rmult_le_compat_l; lra). replace (cn * (b / cn)) with b in H0 by (field; lra). lra. }
    replace (b ^ 3) with (b * (b * b)) in AL by ring. nra.
Qed.
Lemma new_exists fuel T a b x1 y1 t1 v1 m1 x2 y2 t2 v2 m2 t v m :
  get T a (b - 1) = rp x1 y1 t1 v1 -> get T (a - 1) b = rp x2 y2 t2 v2 ->
  ptheta (new_point fuel T a b) = Some t -> pnu (new_point fuel T a b) = Some v ->
  mua fuel (Some v1) = Some m1 -> mua fuel (Some v2) = Some m2 -> mua fuel (Some v) = Some m ->
  good t1 m1 -> good t2 m2 -> good t m ->
  exists x y, new_point fuel T a b = rp x y t v.
Proof.
  intros G1 G2 Nt Nv E1 E2 E3 (g1 & g2 & g3 & g4) (h1 & h2 & h3 & h4) (k1 & k2 & k3 & k4).
  unfold new_point in *. rewrite G1, G2 in *. unfold k_moins, k_plus, rp in *. cbn [px py ptheta pnu] in *. rewrite Nt, Nv.
  change (mach_angle (mach_via_pmeyer fuel ?q)) with (mua fuel q). rewrite E1, E2, E3. cbn [nadd nsub]. rewrite !(ndiv_Some _ 2) by lra.
  destruct (tan_pos_lt ((t2 + m2 + t + m) / 2)) as (tp & -> & P); [lra|].
  destruct (tan_neg_lt ((t1 - m1 + t - m) / 2)) as (tm & -> & N); [lra|].
  cbn [nmul]. rewrite !(ndiv_Some _ tm) by lra. cbn [nadd nsub].
  assert (0 < 1 - tp / tm). { assert (tp / tm < 0); [|lra]. unfold Rdiv. assert (/ tm < 0) by (now apply Rinv_lt_0_compat). nra. }
  rewrite (ndiv_Some _ (1 - tp / tm)) by lra. cbn [nadd nsub]. rewrite (ndiv_Some _ tm) by lra. cbn [nadd]. eexists. eexists. reflexivity.
Qed.
Lemma axis_exists fuel x1 y1 t1 v1 m1 t v : mua fuel (Some v1) = Some m1 -> good t1 m1 ->
  exists x y, axis_point fuel (rp x1 y1 t1 v1) (Some t) (Some v) = rp x y t v.
Proof.
  intros E1 (g1 & g2 & g3 & g4). unfold axis_point, rp. cbn [px py ptheta pnu]. change (mach_angle (mach_via_pmeyer fuel ?q)) with (mua fuel q). rewrite E1. cbn [nsub].
  destruct (tan_neg_lt (t1 - m1)) as (tm & -> & N); [lra|]. rewrite (ndiv_Some _ tm) by lra. cbn [nsub]. eexists. eexists. reflexivity.
Qed.
Lemma wall_exists fuel k x1 y1 t1 v1 x2 y2 t2 v2 m2 : mua fuel (Some v2) = Some m2 -> good t2 m2 -> 0 < t1 + t2 -> (t1 + t2) / 2 < m2 ->
  exists x y, wall_point fuel (rp x1 y1 t1 v1) (rp x2 y2 t2 v2) k = rp x y t2 v2.
Proof.
  intros E1 (g1 & g2 & g3 & g4) S1 S2. unfold wall_point, rp. cbn [px py ptheta pnu]. change (mach_angle (mach_via_pmeyer fuel ?q)) with (mua fuel q). rewrite E1. cbn [nadd nsub].
  rewrite (ndiv_Some _ 2) by lra.
  assert (TL : tan ((t2 + t1) / 2) < tan (t2 + m2)) by (apply tan_increasing; lra).
  destruct (tan_pos_lt (t2 + m2)) as (tp & Ep & P); [lra|]. destruct (tan_pos_lt ((t2 + t1) / 2)) as (tm & Em & N); [lra|].
  rewrite <- (ntan_inv _ _ Ep), <- (ntan_inv _ _ Em) in TL. rewrite Ep, Em. cbn [nmul]. rewrite !(ndiv_Some _ tm) by lra. cbn [nadd nsub].
  assert (1 - tp / tm < 0) by (assert (1 < tp / tm); [apply (Rlt_div_r _ _ tm); lra|lra]).
  rewrite (ndiv_Some _ (1 - tp / tm)) by lra. cbn [nadd nsub]. rewrite (ndiv_Some _ tm), (ndiv_Some _ tp) by lra. cbn [nadd].
  destruct k as [|[|k]]; eexists; eexists; reflexivity.
Qed.

(** one number of passes is enough for finitely many angles *)
Lemma fuel_row (v : nat -> R) m : (forall b, (b <= m)%nat -> 0 <= v b < vmax) ->
  exists F, forall b, (b <= m)%nat -> exists M, forall more, mach_via_pmeyer (F + more) (Some (v b)) = Some M.
Proof.
  induction m as [|m IH]; intros H.
  - destruct (mvp_total (v O) (H O ltac:(lia))) as (f & M & E & _). exists f. intros b Hb. replace b with O by lia. now exists M.
  - destruct IH as [F HF]; [intros; apply H; lia|]. destruct (mvp_total (v (S m)) (H (S m) ltac:(lia))) as (f & M & E & _).
    exists (F + f)%nat. intros b Hb. destruct (Nat.eq_dec b (S m)) as [->|Nb].
    + exists M. intros more. rewrite <- (E (F + more)%nat). f_equal. lia.
    + destruct (HF b ltac:(lia)) as [M' E']. exists M'. intros more. rewrite <- (E' (f + more)%nat). f_equal. lia.
Qed.
Lemma fuel_net (v : nat -> nat -> R) n : (forall a b, (a <= n)%nat -> (b <= S a)%nat -> 0 <= v a b < vmax) ->
  exists F, forall a b, (a <= n)%nat -> (b <= S a)%nat -> exists M, mach_via_pmeyer F (Some (v a b)) = Some M.
Proof.
  intros H. enough (Q : forall m, (m <= n)%nat -> exists F, forall a b, (a <= m)%nat -> (b <= S a)%nat -> exists M, forall more, mach_via_pmeyer (F + more) (Some (v a b)) = Some M).
  { destruct (Q n ltac:(lia)) as [F HF]. exists F. intros a b Ha Hb. destruct (HF a b Ha Hb) as [M E]. exists M. rewrite <- (E O). f_equal. lia. }
  induction m as [|m IH]; intros Hm.
  - destruct (fuel_row (v O) 1) as [F HF]; [intros; apply H; lia|]. exists F. intros a b Ha Hb. replace a with O in * by lia. apply HF. lia.
  - destruct IH as [F HF]; [lia|]. destruct (fuel_row (v (S m)) (S (S m))) as [f Hf]; [intros; apply H; lia|].
    exists (F + f)%nat. intros a b Ha Hb. destruct (Nat.eq_dec a (S m)) as [->|Na].
    + destruct (Hf b ltac:(lia)) as [M E]. exists M. intros more. rewrite <- (E (F + more)%nat). f_equal. lia.
    + destruct (HF a b ltac:(lia) ltac:(lia)) as [M E]. exists M. intros more. rewrite <- (E (f + more)%nat). f_equal. lia.
Qed.

(*@P C84_returns: For every design Mach number from 1 (excluded) to 2, every throat area and every number n >= 1 of characteristics the construction succeeds: the loops end, no division by zero or domain error occurs, and a profile and an exit Mach number are returned. *)
Lemma nozzle_returns : forall Mf area n, 1 < Mf <= 2 -> 0 < area -> (1 <= n)%nat ->
  exists passes net wall Me, Minimum_length_nozzle passes (Some Mf) (Some area) n = Some (net, wall, Me).
Proof.
  intros Mf A n HM HA Hn. assert (PP := PI_RGT_0). assert (A0 : 0 < A / PI) by (apply Rdiv_lt_0_compat; lra).
  set (th0 := pn Mf / 2). set (t0 := th0 / INR n / 100). set (d := (th0 - t0) / INR n). set (r := sqrt (A / PI)).
  assert (T0 : 0 < th0). { unfold th0. assert (H := pn_lt 1 Mf ltac:(lra) ltac:(lra)). rewrite pn_1 in H. lra. }
  assert (T2 : pn Mf <= pn 2). { destruct HM as [HM [H|H]]; [apply Rlt_le, pn_lt; lra|rewrite H; lra]. }
  assert (T3 := pn_2). assert (VM := pn_lt_max 2 ltac:(lra)).
  assert (FB := fun a => fth_bounds th0 n a Hn T0). cbv zeta in FB. fold t0 d in FB.
  assert (NR := fun a b => NU_range th0 n a b Hn T0). cbv zeta in NR. fold t0 d in NR.
  assert (FM : forall a b, (a <= b)%nat -> fth t0 d a <= fth t0 d b).
  { intros a b Hab. unfold fth. destruct (FB n ltac:(lia)) as (D & _). assert (Q := le_INR _ _ Hab). nra. }
  assert (THR : forall a b, (a <= n)%nat -> (b <= S a)%nat -> 0 <= TH t0 d a b <= th0 /\ TH t0 d a b <= NU t0 d a b).
  { intros a b Ha Hb. destruct (FB a Ha) as (_ & Q0 & Q & _). destruct b as [|[|b]]; cbn [TH NU]; [lra|lra|].
    assert (Q2 := FM (S b) a ltac:(lia)). destruct (FB (S b) ltac:(lia)) as (_ & _ & Q3 & _). lra. }
  destruct (fuel_net (NU t0 d) n) as [F HF]. { intros a b Ha Hb. assert (Q := NR a b Ha Hb). unfold th0 in Q. lra. }
  set (T := net_of F (Some r) (Some th0) n).
  assert (I : 1 <= INR n) by (apply (le_INR 1); lia).
  assert (NO : net_ok F (Some r) (Some t0) (Some d) n T).
  { unfold T, net_of. rewrite !ndiv_Some by lra. cbn [nsub]. rewrite !ndiv_Some by lra. apply net_spec. }
  assert (AN := angles _ _ _ _ _ _ NO). destruct NO as (L & Lr & GA & GB & GC).
  assert (GP : forall a b, (a <= n)%nat -> (b <= S a)%nat -> exists m, mua F (Some (NU t0 d a b)) = Some m /\ good (TH t0 d a b) m /\ 267 / 1000 < m).
  { intros a b Ha Hb. destruct (HF a b Ha Hb) as [M E]. destruct (THR a b Ha Hb) as [Q1 Q2]. assert (Q := NR a b Ha Hb). unfold th0 in Q, Q1.
    apply (good_point F _ _ M); [lra|lra|lra|exact E]. }
  assert (G : forall a, (a <= n)%nat -> forall b, (b <= S a)%nat -> exists x y, get T a b = rp x y (TH t0 d a b) (NU t0 d a b)).
  { assert (AX : forall a x y, (a <= n)%nat -> get T a a = rp x y (TH t0 d a a) (NU t0 d a a) -> exists x y, get T a (S a) = rp x y (TH t0 d a (S a)) (NU t0 d a (S a))).
    { intros a x y Ha E. destruct (GP a a Ha ltac:(lia)) as (m & E1 & G1 & _). destruct (AN a Ha (S a) ltac:(lia)) as [Et En].
      destruct (axis_exists F x y (TH t0 d a a) (NU t0 d a a) m (TH t0 d a (S a)) (NU t0 d a (S a)) E1 G1) as (x' & y' & Q). exists x', y'. rewrite <- Q.
      destruct a as [|a].
      - rewrite GB in *. rewrite E. unfold axis_point in Et, En |- *. cbn [ptheta pnu] in Et, En. now rewrite Et.
      - destruct (GC (S a) ltac:(lia)) as (_ & _ & C2). rewrite C2 in *. rewrite E in *. unfold axis_point in Et, En |- *. cbn [ptheta pnu] in Et, En. now rewrite Et, En. }
    induction a as [|a IHa]; intros Ha.
    - assert (Z : exists x y, get T 0 0 = rp x y (TH t0 d 0 0) (NU t0 d 0 0)).
      { destruct (AN O Ha O ltac:(lia)) as [Et En]. rewrite GA in *. cbn [ptheta pnu] in Et, En. rewrite Et. now exists 0, r. }
      intros b Hb. destruct b as [|[|b]]; [exact Z| |lia]. destruct Z as (x & y & E). exact (AX O x y Ha E).
    - assert (Z : forall b, (b <= S a)%nat -> exists x y, get T (S a) b = rp x y (TH t0 d (S a) b) (NU t0 d (S a) b)).
      { induction b as [|b IHb]; intros Hb.
        - destruct (AN (S a) Ha O ltac:(lia)) as [Et En]. destruct (GC (S a) ltac:(lia)) as (C0 & _). rewrite C0 in *. cbn [ptheta pnu] in Et, En. rewrite Et. now exists 0, r.
        - destruct (IHb ltac:(lia)) as (x1 & y1 & E1). destruct (IHa ltac:(lia) (S b) ltac:(lia)) as (x2 & y2 & E2).
          destruct (AN (S a) Ha (S b) ltac:(lia)) as [Et En]. destruct (GC (S a) ltac:(lia)) as (_ & C1 & _). rewrite (C1 (S b) ltac:(lia)) in *.
          destruct (GP (S a) b Ha ltac:(lia)) as (m1 & M1 & G1 & _). destruct (GP a (S b) ltac:(lia) ltac:(lia)) as (m2 & M2 & G2 & _). destruct (GP (S a) (S b) Ha ltac:(lia)) as (m & M & G3 & _).
          apply (new_exists F T (S a) (S b) x1 y1 (TH t0 d (S a) b) (NU t0 d (S a) b) m1 x2 y2 (TH t0 d a (S b)) (NU t0 d a (S b)) m2 (TH t0 d (S a) (S b)) (NU t0 d (S a) (S b)) m); try assumption.
          + replace (S b - 1)%nat with b by lia. exact E1.
          + replace (S a - 1)%nat with a by lia. exact E2. }
      intros b Hb. destruct (Nat.eq_dec b (S (S a))) as [->|Nb]; [|apply Z; lia]. destruct (Z (S a) ltac:(lia)) as (x & y & E). exact (AX (S a) x y Ha E). }
  set (W := wall_of F T n).
  assert (WS := wall_spec F T n (n + 1)). cbv zeta in WS. change (fold_left _ (seq 1 (n + 1)) (get T n 0 :: nil)) with W in WS. destruct WS as (WL & W0 & WK).
  assert (GW : forall k, (k <= n + 1)%nat -> exists x y, nth k W nopoint = rp x y (TH t0 d n k) (NU t0 d n k)).
  { induction k as [|k IHk]; intros Hk; [rewrite W0; apply G; lia|]. destruct IHk as (x1 & y1 & E1); [lia|]. rewrite WK by lia. replace (S k - 1)%nat with k by lia.
    destruct (G n ltac:(lia) (S k) ltac:(lia)) as (x2 & y2 & E2). rewrite E1, E2. destruct (GP n (S k) ltac:(lia) ltac:(lia)) as (m & M & G3 & M3).
    destruct (THR n k ltac:(lia) ltac:(lia)) as [Q1 _]. destruct (THR n (S k) ltac:(lia) ltac:(lia)) as [Q2 _].
    apply (wall_exists F (S k) _ _ _ _ _ _ _ _ m M G3).
    - assert (0 < TH t0 d n k); [|lra]. destruct (FB n ltac:(lia)) as (D & Q0 & Q & _). destruct k as [|[|k]]; cbn [TH]; [lra|lra|].
      assert (fth t0 d (S k) < fth t0 d n); [|lra]. unfold fth. assert (Q3 := lt_INR (S k) n ltac:(lia)). nra.
    - unfold th0 in Q1, Q2. lra. }
  assert (D1 : forallb (forallb definite) T = true).
  { apply forallb_forall. intros row Hr. apply forallb_forall. intros p Hp. destruct (In_nth _ _ nil Hr) as (a & Ha & <-). destruct (In_nth _ _ nopoint Hp) as (b & Hb & <-).
    rewrite Lr in Hb by lia. change (definite (get T a b) = true). destruct (G a ltac:(lia) b ltac:(lia)) as (x & y & ->). reflexivity. }
  assert (D2 : forallb definite W = true).
  { apply forallb_forall. intros p Hp. destruct (In_nth _ _ nopoint Hp) as (k & Hk & <-). destruct (GW k ltac:(lia)) as (x & y & ->). reflexivity. }
  assert (LL : last W nopoint = nth (n + 1) W nopoint).
  { clear - WL. destruct W as [|w W _] using rev_ind; [discriminate WL|]. rewrite last_last. rewrite app_length in WL. cbn in WL. rewrite app_nth2 by lia. replace (n + 1 - length W)%nat with 0%nat by lia. reflexivity. }
  destruct (HF n (n + 1)%nat ltac:(lia) ltac:(lia)) as [Me EM]. destruct (GW (n + 1)%nat ltac:(lia)) as (xw & yw & EW).
  exists F, T, W, Me. unfold Minimum_length_nozzle. rewrite pmeyer_eval by lra. rewrite ndiv_Some by lra. unfold npi. rewrite ndiv_Some by lra. rewrite nsqrt_Some by lra.
  cbv zeta. fold th0 r. fold T. fold W. rewrite D1, D2. cbn [andb]. rewrite LL, EW. unfold rp. cbn [pnu]. now rewrite EM.
Qed.
(*@E C84_example: hypotheses of the theorems above: a nozzle for Mach 2 with 20 characteristics does return *)
Lemma nozzle_example : 1 < 2 /\ 0 < 1 /\ exists passes net wall Me, Minimum_length_nozzle passes (Some 2) (Some 1) 20 = Some (net, wall, Me).
Proof. split; [lra|]. split; [lra|]. apply nozzle_returns; [lra|lra|lia]. Qed.

(*@P C84_area: The theoretical area ratio the script prints is the one of the library: for every Mach number M > 0, rapport_expansion(M) = Sigma_Mach(M, 1.27). *)
Lemma rapport_area : forall M, 0 < M -> exists s, rapport_expansion (Some M) = Some s /\ Sigma_Mach (Some M) (Some (127/100)) = Some s.
Proof.
  intros M HM. exists (sig (127/100) M). split; [|apply Sigma_eval; lra]. rewrite sig_form by lra.
  unfold rapport_expansion, mn_gamma. ncbn. rewrite !ndiv_Some by lra. rewrite npow_Some by (apply Rdiv_lt_0_compat; nra).
  rewrite ndiv_Some by lra. f_equal. f_equal. f_equal; unfold tt, sexp; field; nra.
Qed.
