(** * Minimum_length_nozzle.py: the net of characteristics *)
From Coq Require Import List Lia.
From Coquelicot Require Import Coquelicot.
From Verif Require Import L_Num MocSpec M_MinNozzle L_MinNozzle.
Open Scope R_scope.

(** ** the tables *)
Lemma get_app1 T row a b : (a < length T)%nat -> get (app T (row :: nil)) a b = get T a b.
Proof. intros H. unfold get. now rewrite app_nth1. Qed.
Lemma get_last T row b : get (app T (row :: nil)) (length T) b = nth b row nopoint.
Proof. unfold get. rewrite app_nth2, Nat.sub_diag by lia. reflexivity. Qed.
Lemma new_point_ext fuel T T' a b : get T a (b - 1) = get T' a (b - 1) -> get T (a - 1) b = get T' (a - 1) b ->
  new_point fuel T a b = new_point fuel T' a b.
Proof. intros H H'. unfold new_point. now rewrite H, H'. Qed.

Lemma inner_spec fuel T p0 m : (1 <= length T)%nat -> (m <= length T)%nat ->
  let a := length T in
  exists row, fold_left (fun tab b => app (firstn a tab) (app (nth a tab nil) (new_point fuel tab a b :: nil) :: nil)) (seq 1 m) (app T ((p0 :: nil) :: nil))
      = app T (row :: nil) /\ length row = S m /\ nth 0 row nopoint = p0 /\
    forall b, (1 <= b <= m)%nat -> nth b row nopoint = new_point fuel (app T (row :: nil)) a b.
Proof.
  intros L1 L a. induction m as [|m IH].
  - exists (p0 :: nil). repeat split. intros b Hb. lia.
  - destruct IH as (row & E & Lr & R0 & Rb); [lia|]. rewrite seq_S, fold_left_app, E. cbn [fold_left].
    unfold a. rewrite firstn_app, firstn_all, Nat.sub_diag. cbn [firstn]. rewrite app_nil_r.
    rewrite app_nth2, Nat.sub_diag by lia. cbn [nth]. fold a.
    set (q := new_point fuel (app T (row :: nil)) a (1 + m)).
    exists (app row (q :: nil)). split; [reflexivity|]. split; [rewrite app_length; cbn [length]; lia|]. split; [rewrite app_nth1; [exact R0|lia]|].
    intros b Hb. destruct (Nat.eq_dec b (S m)) as [Eb|Eb].
    + subst b. rewrite app_nth2 by lia. rewrite Lr, Nat.sub_diag. cbn [nth]. unfold q. apply new_point_ext.
      * unfold a. rewrite !get_last. rewrite app_nth1; [reflexivity|lia].
      * rewrite !get_app1 by lia. reflexivity.
    + rewrite app_nth1 by lia. rewrite Rb by lia. apply new_point_ext.
      * unfold a. rewrite !get_last. rewrite app_nth1; [reflexivity|lia].
      * rewrite !get_app1 by lia. reflexivity.
Qed.

Lemma add_spec fuel r d T : (1 <= length T)%nat -> let a := length T in
  exists row, add_characteristic fuel r d T a = app T (row :: nil) /\ length row = (a + 2)%nat /\
    (let th := nadd (ptheta (get T (a - 1) 0)) d in nth 0 row nopoint = mkpt (Some 0) r th th) /\
    (forall b, (1 <= b <= a)%nat -> nth b row nopoint = new_point fuel (app T (row :: nil)) a b) /\
    nth (S a) row nopoint = axis_point fuel (nth a row nopoint) (Some 0) (k_moins (nth a row nopoint)).
Proof.
  intros L1. cbv zeta. unfold add_characteristic, inner_points.
  destruct (inner_spec fuel T (mkpt (Some 0) r (nadd (ptheta (get T (length T - 1) 0)) d) (nadd (ptheta (get T (length T - 1) 0)) d)) (length T) L1 ltac:(lia)) as (row & E & Lr & R0 & Rb).
  cbv zeta in E, Rb. rewrite E.
  assert (F : firstn (length T) (app T (row :: nil)) = T) by (rewrite firstn_app, firstn_all, Nat.sub_diag; cbn [firstn]; apply app_nil_r).
  assert (G : nth (length T) (app T (row :: nil)) nil = row) by (rewrite app_nth2, Nat.sub_diag by lia; reflexivity).
  rewrite F, G, get_last.
  set (q := axis_point _ _ _ _). exists (app row (q :: nil)). split; [reflexivity|]. split; [rewrite app_length; cbn [length]; lia|].
  split; [rewrite app_nth1; [exact R0|lia]|]. split.
  - intros b Hb. rewrite app_nth1 by lia. rewrite Rb by lia. apply new_point_ext.
    + rewrite !get_last. rewrite app_nth1; [reflexivity|lia].
    + rewrite !get_app1 by lia. reflexivity.
  - rewrite app_nth2 by lia. replace (S (length T) - length row)%nat with 0%nat by lia. cbn [nth]. rewrite app_nth1 by lia. reflexivity.
Qed.

(** the whole net *)
Definition net_ok fuel (r dth d : num) (m : nat) (T : list (list point)) : Prop :=
  length T = S m /\ (forall a, (a <= m)%nat -> length (nth a T nil) = (a + 2)%nat) /\
  get T 0 0 = mkpt (Some 0) r dth dth /\ get T 0 1 = axis_point fuel (get T 0 0) dth dth /\
  forall a, (1 <= a <= m)%nat ->
    (let th := nadd (ptheta (get T (a - 1) 0)) d in get T a 0 = mkpt (Some 0) r th th) /\
    (forall b, (1 <= b <= a)%nat -> get T a b = new_point fuel T a b) /\
    get T a (S a) = axis_point fuel (get T a a) (Some 0) (k_moins (get T a a)).
Lemma net_spec fuel r dth d m : let p0 := mkpt (Some 0) r dth dth in
  net_ok fuel r dth d m (fold_left (add_characteristic fuel r d) (seq 1 m) ((p0 :: axis_point fuel p0 dth dth :: nil) :: nil)).
Proof.
  intros p0. induction m as [|m IH].
  - cbn [seq fold_left]. repeat split; try (intros; lia). intros a Ha. replace a with 0%nat by lia. reflexivity.
  - rewrite seq_S, fold_left_app. cbn [fold_left]. set (T := fold_left _ _ _) in *. destruct IH as (L & Lr & A & B & C).
    destruct (add_spec fuel r d T ltac:(lia)) as (row & E & Lrow & R0 & Rb & Ra). rewrite L in *. cbn [Nat.add]. rewrite E.
    assert (G : forall a b, (a <= m)%nat -> get (app T (row :: nil)) a b = get T a b) by (intros; apply get_app1; lia).
    assert (G' : forall b, get (app T (row :: nil)) (S m) b = nth b row nopoint) by (intros; rewrite <- L; apply get_last).
    split; [rewrite app_length, L; cbn; lia|]. split.
    { intros a Ha. destruct (Nat.eq_dec a (S m)) as [Ea|Ea]; [subst a|rewrite app_nth1 by lia; apply Lr; lia].
      rewrite app_nth2, L, Nat.sub_diag by lia. exact Lrow. }
    rewrite !G by lia. split; [exact A|]. split; [exact B|].
    intros a Ha. destruct (Nat.eq_dec a (S m)) as [Ea|Ea].
    + subst a. rewrite !G', (G (S m - 1)%nat) by lia. split; [exact R0|]. split; [|exact Ra].
      intros b Hb. rewrite G'. now apply Rb.
    + destruct (C a ltac:(lia)) as (C0 & C1 & C2). rewrite !G by lia. split; [exact C0|]. split; [|exact C2].
      intros b Hb. rewrite G, C1 by lia. apply new_point_ext; rewrite G by lia; reflexivity.
Qed.
Lemma wall_spec fuel T n m : let W := fold_left (fun wall k => app wall (wall_point fuel (last wall nopoint) (get T n k) k :: nil)) (seq 1 m) (get T n 0 :: nil) in
  length W = S m /\ nth 0 W nopoint = get T n 0 /\
  forall k, (1 <= k <= m)%nat -> nth k W nopoint = wall_point fuel (nth (k - 1) W nopoint) (get T n k) k.
Proof.
  induction m as [|m IH].
  - cbn. repeat split. intros; lia.
  - rewrite seq_S, fold_left_app. cbn [fold_left Nat.add]. set (W := fold_left _ _ _) in *. cbv zeta in *. destruct IH as (L & W0 & Wk).
    assert (E : last W nopoint = nth m W nopoint).
    { destruct W as [|w W] using rev_ind; [discriminate L|]. rewrite last_last. rewrite app_length in L. cbn in L. rewrite app_nth2 by lia. replace (m - length W)%nat with 0%nat by lia. reflexivity. }
    split; [rewrite app_length, L; cbn; lia|]. split; [rewrite app_nth1; [exact W0|lia]|].
    intros k Hk. destruct (Nat.eq_dec k (S m)) as [Ek|Ek].
    + subst k. rewrite app_nth2 by lia. rewrite L, Nat.sub_diag. cbn [nth]. rewrite app_nth1 by lia. rewrite E. do 2 f_equal. lia.
    + rewrite !app_nth1 by lia. apply Wk. lia.
Qed.

(** ** angles *)
Definition fth (t0 d : R) (a : nat) : R := t0 + INR a * d.
Definition TH (t0 d : R) (a b : nat) : R := match b with O | 1%nat => fth t0 d a | S c => fth t0 d a - fth t0 d c end.
Definition NU (t0 d : R) (a b : nat) : R := match b with O | 1%nat => fth t0 d a | S c => fth t0 d a + fth t0 d c end.
Lemma TN_plus t0 d a b : TH t0 d a b + NU t0 d a b = 2 * fth t0 d a.
Proof. destruct b as [|[|b]]; cbn [TH NU]; ring. Qed.
Lemma TN_minus t0 d a a' b : TH t0 d a b - NU t0 d a b = TH t0 d a' b - NU t0 d a' b \/ b = O.
Proof. destruct b as [|[|b]]; cbn [TH NU]; [now right|left; ring|left; ring]. Qed.
Lemma angles fuel r t0 d m T : net_ok fuel r (Some t0) (Some d) m T -> forall a, (a <= m)%nat -> forall b, (b <= S a)%nat ->
  ptheta (get T a b) = Some (TH t0 d a b) /\ pnu (get T a b) = Some (NU t0 d a b).
Proof.
  intros (L & Lr & A & B & C). assert (F0 : fth t0 d 0 = t0) by (unfold fth; cbn; ring).
  induction a as [|a IHa]; intros Ha.
  - intros b Hb. destruct b as [|[|b]]; [| |lia]; [rewrite A|rewrite B]; cbn [ptheta pnu axis_point TH NU]; now rewrite F0.
  - destruct (C (S a) ltac:(lia)) as (C0 & C1 & C2). replace (S a - 1)%nat with a in * by lia.
    assert (IN : forall b, (b <= S a)%nat -> ptheta (get T (S a) b) = Some (TH t0 d (S a) b) /\ pnu (get T (S a) b) = Some (NU t0 d (S a) b)).
    { induction b as [|b IHb]; intros Hb.
      - rewrite C0. cbn [ptheta pnu]. destruct (IHa ltac:(lia) O ltac:(lia)) as [E _]. rewrite E. cbn [TH NU].
        assert (H : nadd (Some (fth t0 d a)) (Some d) = Some (fth t0 d (S a))) by (unfold fth; rewrite S_INR; cbn [nadd]; f_equal; ring). now rewrite H.
      - rewrite C1 by lia. unfold new_point, k_moins, k_plus. cbn [ptheta pnu]. replace (S a - 1)%nat with a by lia. replace (S b - 1)%nat with b by lia.
        destruct (IHb ltac:(lia)) as [E1 E2]. destruct (IHa ltac:(lia) (S b) ltac:(lia)) as [E3 E4]. rewrite E1, E2, E3, E4.
        cbn [nadd nsub]. rewrite !ndiv_Some by lra. assert (P := TN_plus t0 d (S a) b).
        assert (P' := TN_plus t0 d (S a) (S b)). destruct (TN_minus t0 d (S a) a (S b)) as [Q|Q]; [|discriminate Q].
        split; f_equal; lra. }
    intros b Hb. destruct (Nat.eq_dec b (S (S a))) as [Eb|Eb]; [subst b|apply IN; lia].
    destruct (IN (S a) ltac:(lia)) as [E1 E2]. rewrite C2. unfold axis_point, k_moins. cbn [ptheta pnu]. rewrite E1, E2. cbn [nadd].
    rewrite TN_plus. cbn [TH NU]. split; f_equal; ring.
Qed.

(** ** geometry *)
Definition rp (x y t v : R) : point := mkpt (Some x) (Some y) (Some t) (Some v).
Definition mua fuel (v : num) : num := mach_angle (mach_via_pmeyer fuel v).
Lemma ntan_inv b t : ntan (Some b) = Some t -> t = tan b.
Proof. unfold ntan. destruct (Req_EM_T (cos b) 0); [discriminate|]. now intros [= <-]. Qed.
Lemma ndiv_inv a b c : ndiv a b = Some c -> exists x y, a = Some x /\ b = Some y /\ y <> 0 /\ c = x / y.
Proof.
  destruct a as [a|], b as [b|]; try discriminate. unfold ndiv. destruct (Req_EM_T b 0); [discriminate|].
  intros [= <-]. exists a, b. auto.
Qed.
Lemma nadd_inv a b c : nadd a b = Some c -> exists x y, a = Some x /\ b = Some y /\ c = x + y.
Proof. destruct a as [a|], b as [b|]; try discriminate. intros [= <-]. exists a, b. auto. Qed.
Lemma nsub_inv a b c : nsub a b = Some c -> exists x y, a = Some x /\ b = Some y /\ c = x - y.
Proof. destruct a as [a|], b as [b|]; try discriminate. intros [= <-]. exists a, b. auto. Qed.
Lemma nmul_inv a b c : nmul a b = Some c -> exists x y, a = Some x /\ b = Some y /\ c = x * y.
Proof. destruct a as [a|], b as [b|]; try discriminate. intros [= <-]. exists a, b. auto. Qed.

(** intersection of two lines as the code computes it *)
Lemma meet x1 y1 x2 y2 tm tp y : tm <> 0 -> 1 - tp / tm <> 0 ->
  y = (y2 - y1 * tp / tm + (x1 - x2) * tp) / (1 - tp / tm) ->
  y - y2 = tp * (x1 + (y - y1) / tm - x2).
Proof.
  intros Ht Hd ->. field. split; [exact Ht|]. intros E. apply Hd. replace (1 - tp / tm) with ((tm - tp) / tm) by (field; exact Ht).
  rewrite E. unfold Rdiv. ring.
Qed.

Lemma new_line fuel T a b x1 y1 t1 v1 x2 y2 t2 v2 x y t v :
  get T a (b - 1) = rp x1 y1 t1 v1 -> get T (a - 1) b = rp x2 y2 t2 v2 -> new_point fuel T a b = rp x y t v ->
  exists m1 m2 m, mua fuel (Some v1) = Some m1 /\ mua fuel (Some v2) = Some m2 /\ mua fuel (Some v) = Some m /\
    on_line x1 y1 x y ((t1 - m1 + (t - m)) / 2) /\ on_line x2 y2 x y ((t2 + m2 + (t + m)) / 2).
Proof.
  intros G1 G2 N. unfold new_point in N. rewrite G1, G2 in N. unfold k_moins, k_plus, rp in N. cbn [px py ptheta pnu] in N.
  assert (Nt := f_equal ptheta N). assert (Nv := f_equal pnu N). cbn [ptheta pnu] in Nt, Nv. rewrite Nt, Nv in N.
  assert (Nx := f_equal px N). assert (Ny := f_equal py N). cbn [px py] in Nx, Ny. clear N Nt Nv.
  rewrite Ny in Nx. change (mach_angle (mach_via_pmeyer fuel ?q)) with (mua fuel q) in *.
  apply nadd_inv in Nx. destruct Nx as (x1' & dx & E1 & Nx & Ex). injection E1 as <-.
  apply ndiv_inv in Nx. destruct Nx as (dy & tm & E1 & Tm & Hm & Edx). apply nsub_inv in E1. destruct E1 as (q1 & q2 & E1 & E2 & Edy). injection E1 as <-. injection E2 as <-.
  assert (Tm' := Tm).
  destruct (mua fuel (Some v1)) as [m1|]; [|discriminate Tm]. destruct (mua fuel (Some v)) as [m|]; [|discriminate Tm].
  cbn [nadd nsub] in Tm. rewrite ndiv_Some in Tm by lra. apply ntan_inv in Tm.
  destruct (mua fuel (Some v2)) as [m2|].
  2:{ cbn [nadd nsub ndiv ntan nmul] in Ny. discriminate Ny. }
  exists m1, m2, m. split; [reflexivity|]. split; [reflexivity|]. split; [reflexivity|].
  rewrite Tm' in Ny. cbn [nadd nsub] in Ny. rewrite ndiv_Some in Ny by lra.
  destruct (ntan (Some ((t2 + m2 + t + m) / 2))) as [tp|] eqn:Tp; [|discriminate Ny]. apply ntan_inv in Tp.
  cbn [nmul] in Ny. rewrite !(ndiv_Some _ tm Hm) in Ny. cbn [nadd nsub] in Ny. apply ndiv_inv in Ny.
  destruct Ny as (nm & dn & E1 & E2 & Hd & Ey). injection E1 as <-. injection E2 as <-.
  unfold on_line. replace ((t1 - m1 + (t - m)) / 2) with ((t1 - m1 + t - m) / 2) by lra. replace ((t2 + m2 + (t + m)) / 2) with ((t2 + m2 + t + m) / 2) by lra.
  rewrite <- Tm, <- Tp. split.
  - rewrite Ex, Edx, Edy. field. exact Hm.
  - rewrite Ex, Edx, Edy. now apply meet.
Qed.
Lemma axis_line fuel x1 y1 t1 v1 x y t v t' v' : axis_point fuel (rp x1 y1 t1 v1) t' v' = rp x y t v ->
  exists m1, mua fuel (Some v1) = Some m1 /\ y = 0 /\ on_line x1 y1 x y (t1 - m1).
Proof.
  intros N. unfold axis_point, rp in N. cbn [px py ptheta pnu] in N.
  assert (Nx := f_equal px N). assert (Ny := f_equal py N). cbn [px py] in Nx, Ny. clear N. injection Ny as Ny. change (mach_angle (mach_via_pmeyer fuel ?q)) with (mua fuel q) in *.
  destruct (mua fuel (Some v1)) as [m1|]; [|discriminate Nx]. exists m1. split; [reflexivity|]. split; [now subst|].
  apply nsub_inv in Nx. destruct Nx as (q & dx & E1 & Nx & Ex). injection E1 as <-. apply ndiv_inv in Nx. destruct Nx as (dy & tm & E1 & Tm & Hm & Edx).
  injection E1 as <-. cbn [nsub] in Tm. apply ntan_inv in Tm. unfold on_line. rewrite <- Tm, Ex, Edx, <- Ny. field. exact Hm.
Qed.
Lemma wall_line fuel k x1 y1 t1 v1 x2 y2 t2 v2 x y t v : wall_point fuel (rp x1 y1 t1 v1) (rp x2 y2 t2 v2) k = rp x y t v ->
  t = t2 /\ v = v2 /\ exists m2, mua fuel (Some v2) = Some m2 /\ on_line x1 y1 x y ((t1 + t2) / 2) /\ on_line x2 y2 x y (t2 + m2).
Proof.
  intros N. unfold wall_point, rp in N. cbn [px py ptheta pnu] in N.
  assert (Nx := f_equal px N). assert (Ny := f_equal py N). assert (Nt := f_equal ptheta N). assert (Nv := f_equal pnu N). cbn [px py ptheta pnu] in Nx, Ny, Nt, Nv. clear N.
  injection Nt as <-. injection Nv as <-. split; [reflexivity|]. split; [reflexivity|]. rewrite Ny in Nx.
  change (mach_angle (mach_via_pmeyer fuel ?q)) with (mua fuel q) in *.
  destruct (mua fuel (Some v2)) as [m2|].
  2:{ cbn [nadd nsub ndiv ntan nmul] in Ny. destruct (ntan _); discriminate Ny. }
  exists m2. split; [reflexivity|]. change (nadd (Some t2) (Some m2)) with (Some (t2 + m2)) in *. change (nadd (Some t2) (Some t1)) with (Some (t2 + t1)) in *.
  rewrite (ndiv_Some (t2 + t1) 2) in Nx, Ny by lra.
  destruct (ntan (Some (t2 + m2))) as [tp|] eqn:Tp; [|discriminate Ny]. 
  destruct (ntan (Some ((t2 + t1) / 2))) as [tm|] eqn:Tm; [|discriminate Ny].
  apply ntan_inv in Tp. apply ntan_inv in Tm.
  apply ndiv_inv in Ny. destruct Ny as (nm & dn & E1 & E2 & Hd & Ey).
  apply nsub_inv in E2. destruct E2 as (one & q & E2 & E3 & Edn). injection E2 as <-. apply ndiv_inv in E3. destruct E3 as (? & ? & E3 & E4 & Hm & Eq). injection E3 as <-. injection E4 as <-.
  cbn [nmul] in E1. rewrite (ndiv_Some _ tm Hm) in E1. cbn [nadd nsub nmul] in E1. injection E1 as <-. subst q dn.
  unfold on_line. replace ((t1 + t2) / 2) with ((t2 + t1) / 2) by lra. rewrite <- Tm, <- Tp.
  assert (M := meet x1 y1 x2 y2 tm tp y Hm Hd Ey).
  assert (W : x = x1 + (y - y1) / tm).
  { destruct k as [|[|k]].
    - change (nsub (Some y) (Some y1)) with (Some (y - y1)) in Nx. rewrite (ndiv_Some _ tm Hm) in Nx. now injection Nx as <-.
    - apply nadd_inv in Nx. destruct Nx as (? & dx & E1 & Nx & Ex). injection E1 as <-. apply ndiv_inv in Nx. destruct Nx as (? & ? & E1 & E2 & Hp & Edx).
      injection E1 as <-. injection E2 as <-. rewrite Ex, Edx, M. field. split; assumption.
    - change (nsub (Some y) (Some y1)) with (Some (y - y1)) in Nx. rewrite (ndiv_Some _ tm Hm) in Nx. now injection Nx as <-. }
  rewrite W. split; [field; exact Hm|exact M].
Qed.

(** ** the theorems *)
Definition val (z : num) : R := match z with Some r => r | None => 0 end.
Lemma definite_rp p : definite p = true -> p = rp (val (px p)) (val (py p)) (val (ptheta p)) (val (pnu p)).
Proof. destruct p as [[] [] [] []]; cbn; try discriminate. reflexivity. Qed.
Lemma mua_spec fuel v m : 0 <= v < vmax -> mua fuel (Some v) = Some m -> mach_angle_of (127 / 100) (1 / 100000) v m.
Proof.
  intros V E. unfold mua in E. destruct (mach_via_pmeyer fuel (Some v)) as [M|] eqn:EM; [|discriminate E].
  destruct (mvp_sound _ _ _ EM V) as (A & B & _). unfold mach_angle in E. rewrite ndiv_Some in E by lra. unfold narcsin in E.
  assert (P : 0 < 1 / M <= 1) by (split; [apply Rdiv_lt_0_compat; lra|apply Rle_div_l; lra]).
  destruct (Rle_dec (-1) (1 / M)); [|lra]. destruct (Rle_dec (1 / M) 1); [|lra]. injection E as <-.
  exists M. rewrite <- pn_spec by lra. split; [exact A|]. split; [now rewrite Rabs_minus_sym|].
  assert (SA := sin_asin (1 / M) ltac:(lra)). split; [|exact SA]. split; [|apply asin_bound].
  destruct (Rle_lt_dec (asin (1 / M)) 0) as [H|H]; [|exact H].
  assert (PB := asin_bound (1 / M)). assert (sin (asin (1 / M)) <= 0); [|lra].
  rewrite <- (Ropp_involutive (asin (1 / M))), sin_neg. assert (0 <= sin (- asin (1 / M))); [|lra]. apply sin_ge_0; lra.
Qed.

Lemma nozzle_inv fuel Mf A n net wall Me : 1 < Mf -> 0 < A -> Minimum_length_nozzle fuel (Some Mf) (Some A) n = Some (net, wall, Me) ->
  let th0 := pn Mf / 2 in let t0 := th0 / INR n / 100 in let d := (th0 - t0) / INR n in
  (1 <= n)%nat /\ 0 < th0 /\ 2 * th0 < vmax /\ net_ok fuel (Some (sqrt (A / PI))) (Some t0) (Some d) n net /\
  wall = wall_of fuel net n /\ forallb (forallb definite) net = true /\ forallb definite wall = true /\
  mach_via_pmeyer fuel (pnu (last wall nopoint)) = Some Me.
Proof.
  intros HM HA E. assert (PP := PI_RGT_0). assert (A0 : 0 < A / PI) by (apply Rdiv_lt_0_compat; lra).
  unfold Minimum_length_nozzle in E. rewrite pmeyer_eval in E by lra. rewrite ndiv_Some in E by lra. unfold npi in E. rewrite ndiv_Some in E by lra. rewrite nsqrt_Some in E by lra.
  cbv zeta in E |- *. set (th0 := pn Mf / 2) in *. set (r := sqrt (A / PI)) in *.
  set (N := net_of fuel (Some r) (Some th0) n) in *. set (W := wall_of fuel N n) in *.
  destruct (forallb (forallb definite) N) eqn:D1; [|discriminate E]. destruct (forallb definite W) eqn:D2; [|discriminate E]. cbn [andb] in E.
  destruct (mach_via_pmeyer fuel (pnu (last W nopoint))) as [M|] eqn:D3; [|discriminate E].
  assert (E1 := f_equal (option_map fst) E). assert (E3 := f_equal (option_map snd) E). cbn [option_map fst snd] in E1, E3.
  injection E3 as <-. assert (E2 := f_equal (option_map fst) E1). assert (E4 := f_equal (option_map snd) E1). cbn [option_map fst snd] in E2, E4. 
  assert (EN : N = net) by congruence. assert (EW : W = wall) by congruence. clear E E1 E2 E4.
  destruct n as [|n].
  { exfalso. rewrite EN in *. unfold N, net_of in EN. cbn [INR seq fold_left] in EN. unfold ndiv in EN at 1 2. destruct (Req_EM_T 0 0); [|lra]. cbn [axis_point ndiv] in EN.
    rewrite <- EN in D1. cbn in D1. discriminate D1. }
  assert (I : 1 <= INR (S n)) by (rewrite S_INR; assert (Q := pos_INR n); lra).
  split; [lia|]. split.
  { unfold th0. assert (H := pn_lt 1 Mf ltac:(lra) HM). rewrite pn_1 in H. lra. }
  split; [unfold th0; assert (H := pn_lt_max Mf ltac:(lra)); lra|].
  split; [|rewrite <- EW; split; [now rewrite <- EN|rewrite <- EN; auto]].
  rewrite <- EN. unfold N, net_of. rewrite !ndiv_Some by lra. cbn [nsub]. rewrite !ndiv_Some by lra. apply net_spec.
Qed.

(** everything a returning call gives, on real numbers *)
Record facts (fuel : nat) (r th0 : R) (n : nat) (net : list (list point)) (wall : list point) (t0 d : R) (x y mu : nat -> nat -> R) (wx wy : nat -> R) : Prop := {
  f_get : forall a b, (a <= n)%nat -> (b <= S a)%nat -> get net a b = rp (x a b) (y a b) (TH t0 d a b) (NU t0 d a b);
  f_mu : forall a b, (a <= n)%nat -> (b <= S a)%nat -> mua fuel (Some (NU t0 d a b)) = Some (mu a b);
  f_inner : intersections n x y (TH t0 d) mu;
  f_corner : forall a, (a <= n)%nat -> x a O = 0 /\ y a O = r;
  f_axis : forall a, (a <= n)%nat -> y a (S a) = 0 /\ on_line (x a (if a then O else a)) (y a (if a then O else a)) (x a (S a)) (y a (S a)) (TH t0 d a a - mu a a);
  f_len : length wall = S (S n);
  f_wall0 : nth 0 wall nopoint = get net n 0 /\ wx O = 0 /\ wy O = r;
  f_wall : forall k, (1 <= k <= n + 1)%nat -> nth k wall nopoint = rp (wx k) (wy k) (TH t0 d n k) (NU t0 d n k) /\
    on_line (wx (k - 1)%nat) (wy (k - 1)%nat) (wx k) (wy k) ((TH t0 d n (k - 1) + TH t0 d n k) / 2) /\
    on_line (x n k) (y n k) (wx k) (wy k) (TH t0 d n k + mu n k) }.
Lemma nozzle_facts fuel r n net wall t0 d : (1 <= n)%nat ->
  net_ok fuel (Some r) (Some t0) (Some d) n net -> wall = wall_of fuel net n ->
  forallb (forallb definite) net = true -> forallb definite wall = true ->
  exists x y mu wx wy, facts fuel r (fth t0 d n) n net wall t0 d x y mu wx wy.
Proof.
  intros Hn NO EW DN DW. assert (AN := angles _ _ _ _ _ _ NO). destruct NO as (L & Lr & A & B & C).
  set (x := fun a b => val (px (get net a b))). set (y := fun a b => val (py (get net a b))).
  set (wx := fun k => val (px (nth k wall nopoint))). set (wy := fun k => val (py (nth k wall nopoint))).
  set (mu := fun a b => val (mua fuel (Some (NU t0 d a b)))).
  assert (G : forall a b, (a <= n)%nat -> (b <= S a)%nat -> get net a b = rp (x a b) (y a b) (TH t0 d a b) (NU t0 d a b)).
  { intros a b Ha Hb. assert (D : definite (get net a b) = true).
    { rewrite forallb_forall in DN. assert (IR : In (nth a net nil) net) by (apply nth_In; lia). apply DN in IR.
      rewrite forallb_forall in IR. apply IR. unfold get. apply nth_In. rewrite Lr by lia. lia. }
    apply definite_rp in D. destruct (AN a Ha b Hb) as [E1 E2]. rewrite E1, E2 in D. exact D. }
  assert (NL : forall a b, (1 <= b <= a)%nat -> (a <= n)%nat -> exists m1 m2 m,
     mua fuel (Some (NU t0 d a (b - 1))) = Some m1 /\ mua fuel (Some (NU t0 d (a - 1) b)) = Some m2 /\ mua fuel (Some (NU t0 d a b)) = Some m /\
     on_line (x a (b - 1)%nat) (y a (b - 1)%nat) (x a b) (y a b) ((TH t0 d a (b - 1) - m1 + (TH t0 d a b - m)) / 2) /\
     on_line (x (a - 1)%nat b) (y (a - 1)%nat b) (x a b) (y a b) ((TH t0 d (a - 1) b + m2 + (TH t0 d a b + m)) / 2)).
  { intros a b Hb Ha. destruct (C a ltac:(lia)) as (_ & C1 & _). specialize (C1 b Hb). rewrite (G a b) in C1 by lia. symmetry in C1.
    exact (new_line _ _ _ _ _ _ _ _ _ _ _ _ _ _ _ _ (G a (b - 1)%nat ltac:(lia) ltac:(lia)) (G (a - 1)%nat b ltac:(lia) ltac:(lia)) C1). }
  assert (AX : forall a, (a <= n)%nat -> exists m, mua fuel (Some (NU t0 d a a)) = Some m /\ y a (S a) = 0 /\
     on_line (x a (if a then O else a)) (y a (if a then O else a)) (x a (S a)) (y a (S a)) (TH t0 d a a - m)).
  { intros a Ha. destruct a as [|a].
    - rewrite (G O 1%nat), (G O O) in B by lia. symmetry in B. apply axis_line in B. exact B.
    - destruct (C (S a) ltac:(lia)) as (_ & _ & C2). rewrite (G (S a) (S (S a))), (G (S a) (S a)) in C2 by lia. symmetry in C2. apply axis_line in C2. exact C2. }
  assert (WS := wall_spec fuel net n (n + 1)). cbv zeta in WS. change (fold_left _ (seq 1 (n + 1)) (get net n 0 :: nil)) with (wall_of fuel net n) in WS. rewrite <- EW in WS.
  destruct WS as (WL & W0 & WK).
  assert (WP : forall k, (1 <= k <= n + 1)%nat -> exists m, mua fuel (Some (NU t0 d n k)) = Some m /\ nth k wall nopoint = rp (wx k) (wy k) (TH t0 d n k) (NU t0 d n k) /\
     on_line (wx (k - 1)%nat) (wy (k - 1)%nat) (wx k) (wy k) ((TH t0 d n (k - 1) + TH t0 d n k) / 2) /\
     on_line (x n k) (y n k) (wx k) (wy k) (TH t0 d n k + m)).
  { assert (DK : forall k, (k <= n + 1)%nat -> definite (nth k wall nopoint) = true).
    { intros k Hk. rewrite forallb_forall in DW. apply DW, nth_In. lia. }
    assert (TW : forall k, (k <= n + 1)%nat -> ptheta (nth k wall nopoint) = Some (TH t0 d n k) /\ pnu (nth k wall nopoint) = Some (NU t0 d n k)).
    { intros k Hk. destruct k as [|k]; [rewrite W0; apply AN; lia|]. rewrite WK by lia. unfold wall_point. cbn [ptheta pnu]. apply AN; lia. }
    assert (RK : forall k, (k <= n + 1)%nat -> nth k wall nopoint = rp (wx k) (wy k) (TH t0 d n k) (NU t0 d n k)).
    { intros k Hk. assert (Q := definite_rp _ (DK k Hk)). destruct (TW k Hk) as [E1 E2]. rewrite E1, E2 in Q. exact Q. }
    intros k Hk. assert (Q := WK k Hk). rewrite (RK k), (RK (k - 1)%nat), (G n k) in Q by lia. symmetry in Q. apply wall_line in Q.
    destruct Q as (_ & _ & m & M1 & M2 & M3). exists m. split; [exact M1|]. split; [apply RK; lia|]. easy. }
  exists x, y, mu, wx, wy.
  assert (MU : forall a b m, mua fuel (Some (NU t0 d a b)) = Some m -> mu a b = m) by (intros a b m E; unfold mu; now rewrite E).
  constructor.
  - exact G.
  - intros a b Ha Hb. enough (exists m, mua fuel (Some (NU t0 d a b)) = Some m) as [m E] by (now rewrite (MU _ _ _ E)).
    destruct b as [|b].
    + destruct a as [|a]; [destruct (AX O ltac:(lia)) as (m & E & _); now exists m|].
      destruct (NL (S a) 1%nat ltac:(lia) ltac:(lia)) as (m & _ & _ & E & _). now exists m.
    + destruct (Nat.eq_dec b a) as [->|Nb].
      * destruct (Nat.eq_dec a n) as [->|Na].
        { destruct (WP (S n) ltac:(lia)) as (m & E & _). now exists m. }
        destruct (NL (S a) (S a) ltac:(lia) ltac:(lia)) as (_ & m & _ & _ & E & _). replace (S a - 1)%nat with a in E by lia. now exists m.
      * destruct (NL a (S b) ltac:(lia) ltac:(lia)) as (_ & _ & m & _ & _ & E & _). now exists m.
  - intros a b Hb Ha. cbv zeta. destruct (NL a b Hb Ha) as (m1 & m2 & m & E1 & E2 & E3 & L1 & L2).
    rewrite (MU _ _ _ E1), (MU _ _ _ E2), (MU _ _ _ E3). now split.
  - intros a Ha. unfold x, y. destruct a as [|a]; [rewrite A; now split|]. destruct (C (S a) ltac:(lia)) as (C0 & _). rewrite C0. now split.
  - intros a Ha. destruct (AX a Ha) as (m & E & H). now rewrite (MU _ _ _ E).
  - rewrite WL. lia.
  - split; [exact W0|]. unfold wx, wy. rewrite W0. destruct n as [|n]; [lia|]. destruct (C (S n) ltac:(lia)) as (C0 & _). rewrite C0. now split.
  - intros k Hk. destruct (WP k Hk) as (m & E & H). now rewrite (MU _ _ _ E).
Qed.

Lemma fth_bounds th0 n a : (1 <= n)%nat -> 0 < th0 -> (a <= n)%nat -> let t0 := th0 / INR n / 100 in let d := (th0 - t0) / INR n in
  0 < d /\ 0 < t0 /\ t0 <= fth t0 d a <= th0 /\ fth t0 d n = th0.
Proof.
  intros Hn H0 Ha t0 d. assert (I : 1 <= INR n) by (apply (le_INR 1); lia). assert (Ia := le_INR _ _ Ha). assert (Ia0 := pos_INR a).
  assert (T : 0 < t0 < th0). { unfold t0. split; [repeat apply Rdiv_lt_0_compat; lra|]. apply Rlt_div_l; [lra|]. apply Rlt_div_l; nra. }
  assert (D : 0 < d) by (unfold d; apply Rdiv_lt_0_compat; lra). assert (E : INR n * d = th0 - t0) by (unfold d; field; lra).
  unfold fth. repeat split; nra.
Qed.
Lemma NU_range th0 n a b : (1 <= n)%nat -> 0 < th0 -> (a <= n)%nat -> (b <= S a)%nat -> let t0 := th0 / INR n / 100 in let d := (th0 - t0) / INR n in
  0 < NU t0 d a b <= 2 * th0.
Proof.
  intros Hn H0 Ha Hb t0 d. destruct (fth_bounds th0 n a Hn H0 Ha) as (_ & P & Q & _). fold t0 in P, Q. fold d in Q.
  destruct b as [|[|b]]; cbn [NU]; [lra|lra|]. destruct (fth_bounds th0 n (S b) Hn H0 ltac:(lia)) as (_ & _ & Q' & _). fold t0 in Q'. fold d in Q'. lra.
Qed.

(*@P C84_net_partial: Whenever Minimum_length_nozzle returns, for every design Mach number above 1, throat area and number n of characteristics: the points it has built form the net of characteristics of a planar flow with gamma = 1.27. The n+1 descending characteristics leave the corner of the throat in an expansion fan from the first small angle to half the Prandtl-Meyer angle of the design Mach number; every inner point keeps th + nu along its C- and th - nu along its C+ and lies where the two straight segments of mean inclination meet; the characteristics number 1..n end on the axis with an axial flow; and each wall point has the flow direction of the C+ arriving there and lies on it, the wall being a chain of segments of mean inclination, so that no wave is reflected. Missing, because false of the code: the axis condition for the characteristic number 0 (C84_first_axis_refuted). *)
Lemma nozzle_net : forall passes Mf area n net wall Me, 1 < Mf -> 0 < area ->
  Minimum_length_nozzle passes (Some Mf) (Some area) n = Some (net, wall, Me) ->
  let g := 127 / 100 in let tol := 1 / 100000 in let r := sqrt (area / PI) in let th0 := prandtl_meyer g Mf / 2 in
  exists x y th nu mu wx wy wth,
    (forall a b, (a <= n)%nat -> (b <= S a)%nat ->
      get net a b = mkpt (Some (x a b)) (Some (y a b)) (Some (th a b)) (Some (nu a b)) /\ mach_angle_of g tol (nu a b) (mu a b)) /\
    length wall = (n + 2)%nat /\
    (forall k, (k <= n + 1)%nat -> exists w, nth k wall nopoint = mkpt (Some (wx k)) (Some (wy k)) (Some (wth k)) (Some w)) /\
    corner_fan n r th0 x y th nu /\ compatible n th nu /\ intersections n x y th mu /\
    (forall a, (1 <= a <= n)%nat -> on_axis a x y th nu mu) /\
    cancelling_wall n r th0 x y th mu wx wy wth.
Proof.
  intros passes Mf area n net wall Me HM HA E. cbv zeta. destruct (nozzle_inv _ _ _ _ _ _ _ HM HA E) as (Hn & T0 & TV & NO & EW & DN & DW & _).
  rewrite <- pn_spec by lra. set (th0 := pn Mf / 2) in *. set (t0 := th0 / INR n / 100) in *. set (d := (th0 - t0) / INR n) in *. set (r := sqrt (area / PI)) in *.
  destruct (nozzle_facts _ _ _ _ _ _ _ Hn NO EW DN DW) as (x & y & mu & wx & wy & F).
  assert (FB := fun a => fth_bounds th0 n a Hn T0). cbv zeta in FB. fold t0 d in FB.
  assert (FN : fth t0 d n = th0) by (apply (FB n); lia).
  exists x, y, (TH t0 d), (NU t0 d), mu, wx, wy, (TH t0 d n). split; [|split; [|split; [|split; [|split; [|split; [|split]]]]]].
  - intros a b Ha Hb. split; [now apply (f_get _ _ _ _ _ _ _ _ _ _ _ _ _ F)|]. apply (mua_spec passes).
    + assert (Q := NU_range th0 n a b Hn T0 Ha Hb). cbv zeta in Q. fold t0 d in Q. lra.
    + now apply (f_mu _ _ _ _ _ _ _ _ _ _ _ _ _ F).
  - rewrite (f_len _ _ _ _ _ _ _ _ _ _ _ _ _ F). lia.
  - intros k Hk. destruct k as [|k].
    + destruct (f_wall0 _ _ _ _ _ _ _ _ _ _ _ _ _ F) as (-> & -> & ->). rewrite (f_get _ _ _ _ _ _ _ _ _ _ _ _ _ F) by lia.
      destruct (f_corner _ _ _ _ _ _ _ _ _ _ _ _ _ F n ltac:(lia)) as [-> ->]. eexists. reflexivity.
    + destruct (f_wall _ _ _ _ _ _ _ _ _ _ _ _ _ F (S k) ltac:(lia)) as [-> _]. eexists. reflexivity.
  - split; [|split].
    + intros a Ha. destruct (f_corner _ _ _ _ _ _ _ _ _ _ _ _ _ F a Ha) as [-> ->]. repeat split.
    + intros a Ha. cbn [TH]. unfold fth at 1 2. rewrite S_INR. unfold fth. cbn [INR]. replace (th0 - (t0 + 0 * d)) with (th0 - t0) by ring. unfold d. lra.
    + exact FN.
  - intros a b Hb Ha. split; [now rewrite !TN_plus|]. destruct (TN_minus t0 d a (a - 1) b) as [Q|Q]; [exact Q|lia].
  - exact (f_inner _ _ _ _ _ _ _ _ _ _ _ _ _ F).
  - intros a Ha. destruct (f_axis _ _ _ _ _ _ _ _ _ _ _ _ _ F a ltac:(lia)) as [Y0 OL]. split; [exact Y0|].
    destruct a as [|a]; [lia|]. split; [exact OL|]. rewrite TN_plus. cbn [TH NU]. split; ring.
  - destruct (f_wall0 _ _ _ _ _ _ _ _ _ _ _ _ _ F) as (_ & W1 & W2). split; [exact W1|]. split; [exact W2|]. split; [exact FN|].
    intros k Hk. split; [reflexivity|]. apply (f_wall _ _ _ _ _ _ _ _ _ _ _ _ _ F k Hk).
Qed.

(*@P C84_exit: Whenever Minimum_length_nozzle returns: the wall starts at half the Prandtl-Meyer angle of the design Mach number, turns back towards the axis from point to point (its direction never increases and stays positive up to the last point), and its last point has the axial direction exactly; the exit Mach number returned has the Prandtl-Meyer angle of the design Mach number within 1e-5 radian, and is at least 1. *)
Lemma nozzle_exit : forall passes Mf area n net wall Me, 1 < Mf -> 0 < area ->
  Minimum_length_nozzle passes (Some Mf) (Some area) n = Some (net, wall, Me) ->
  let g := 127 / 100 in
  (exists dir, (forall k, (k <= n + 1)%nat -> ptheta (nth k wall nopoint) = Some (dir k)) /\
     dir 0%nat = prandtl_meyer g Mf / 2 /\ dir (n + 1)%nat = 0 /\
     forall k, (k <= n)%nat -> 0 < dir k /\ dir (S k) <= dir k) /\
  1 <= Me /\ Rabs (prandtl_meyer g Me - prandtl_meyer g Mf) <= 1 / 100000.
Proof.
  intros passes Mf area n net wall Me HM HA E. cbv zeta. destruct (nozzle_inv _ _ _ _ _ _ _ HM HA E) as (Hn & T0 & TV & NO & EW & DN & DW & EM).
  rewrite <- (pn_spec Mf) by lra. set (th0 := pn Mf / 2) in *. set (t0 := th0 / INR n / 100) in *. set (d := (th0 - t0) / INR n) in *.
  destruct (nozzle_facts _ _ _ _ _ _ _ Hn NO EW DN DW) as (x & y & mu & wx & wy & F).
  assert (FB := fun a => fth_bounds th0 n a Hn T0). cbv zeta in FB. fold t0 d in FB.
  assert (FN : fth t0 d n = th0) by (apply (FB n); lia).
  assert (LW := f_len _ _ _ _ _ _ _ _ _ _ _ _ _ F).
  assert (FI : forall a b, (a < b)%nat -> (b <= n)%nat -> fth t0 d a < fth t0 d b).
  { intros a b Hab Hb. unfold fth. destruct (FB n ltac:(lia)) as (D & _). assert (Q := lt_INR _ _ Hab). nra. }
  split.
  - exists (TH t0 d n). split; [|split; [exact FN|split]].
    + intros k Hk. destruct k as [|k].
      * destruct (f_wall0 _ _ _ _ _ _ _ _ _ _ _ _ _ F) as (-> & _). rewrite (f_get _ _ _ _ _ _ _ _ _ _ _ _ _ F) by lia. reflexivity.
      * destruct (f_wall _ _ _ _ _ _ _ _ _ _ _ _ _ F (S k) ltac:(lia)) as [-> _]. reflexivity.
    + replace (n + 1)%nat with (S n) by lia. destruct n as [|n]; [lia|]. cbn [TH]. ring.
    + intros k Hk. destruct k as [|[|k]]; cbn [TH].
      * rewrite FN. lra.
      * assert (Q := FB 1%nat ltac:(lia)). lra.
      * assert (Q := FI (S k) n ltac:(lia) ltac:(lia)). assert (Q' := FI (S k) (S (S k)) ltac:(lia) ltac:(lia)). lra.
  - destruct (f_wall _ _ _ _ _ _ _ _ _ _ _ _ _ F (n + 1)%nat ltac:(lia)) as [WL _].
    assert (LL : last wall nopoint = nth (n + 1) wall nopoint).
    { clear - LW. destruct wall as [|w wall _] using rev_ind; [discriminate LW|]. rewrite last_last. rewrite app_length in LW. cbn in LW. rewrite app_nth2 by lia. replace (n + 1 - length wall)%nat with 0%nat by lia. reflexivity. }
    rewrite LL, WL in EM. unfold rp in EM. cbn [pnu] in EM.
    assert (V : NU t0 d n (n + 1) = pn Mf). { replace (n + 1)%nat with (S n) by lia. destruct n as [|n]; [lia|]. cbn [NU]. rewrite FN. unfold th0. lra. }
    rewrite V in EM. apply mvp_sound in EM. 2:{ assert (H := pn_lt_max Mf ltac:(lra)). unfold th0 in T0. lra. }
    destruct EM as (M1 & M2 & _). split; [exact M1|]. rewrite <- pn_spec by exact M1. now rewrite Rabs_minus_sym.
Qed.

(*@P C84_first_axis_refuted: Whenever Minimum_length_nozzle returns, the point where its first characteristic meets the axis (y = 0) does not satisfy the axis condition: its flow direction is the initial turning angle, th0 / (100 n), not 0. *)
Lemma nozzle_first_axis : forall passes Mf area n net wall Me, 1 < Mf -> 0 < area ->
  Minimum_length_nozzle passes (Some Mf) (Some area) n = Some (net, wall, Me) ->
  let th0 := prandtl_meyer (127 / 100) Mf / 2 in
  py (get net 0 1) = Some 0 /\ ptheta (get net 0 1) = Some (th0 / (100 * INR n)) /\ th0 / (100 * INR n) <> 0.
Proof.
  intros passes Mf area n net wall Me HM HA E. cbv zeta. destruct (nozzle_inv _ _ _ _ _ _ _ HM HA E) as (Hn & T0 & TV & NO & EW & DN & DW & EM).
  rewrite <- (pn_spec Mf) by lra. set (th0 := pn Mf / 2) in *. assert (I : 1 <= INR n) by (apply (le_INR 1); lia).
  destruct NO as (_ & _ & _ & B & _). rewrite B. unfold axis_point. cbn [py ptheta]. split; [reflexivity|].
  assert (Q : th0 / INR n / 100 = th0 / (100 * INR n)) by (field; lra). rewrite Q. split; [reflexivity|].
  assert (0 < th0 / (100 * INR n)) by (apply Rdiv_lt_0_compat; lra). lra.
Qed.
