(** * C79, C80: shock polars and isentropic polars *)
From Coq Require Import String Permutation.
From Verif Require Import L_Num Spec NumSpec PolarSpec M_Isentropic M_MassFlow M_Degree M_ShockWave M_Supersonic M_Polar L_Isentropic L_Degree L_Shock L_Oblique L_Oblique2 L_Supersonic.
Open Scope R_scope.


(** every shock angle gives a shock *)
Lemma shock_at g M s : 1 < g -> 0 < M -> 0 < s < 90 ->
  let r := rhor g (M * sin (rad s)) in let b := bet g M (rad s) in let W := M * cos (rad s) / cos b in
  deflection_Mach_sigma (Some M) (Some s) (Some g) = Some (deg (dfl g M (rad s))) /\
  rad (s - deg (dfl g M (rad s))) = b /\ 0 < r /\ 0 < W /\ 0 < sin b /\ 0 < cos b /\
  M * cos (rad s) = W * cos b /\ M * sin (rad s) = r * (W * sin b).
Proof.
  intros Hg HM Hs. cbv zeta. pose proof (rad_quadrant s Hs) as Hr. destruct (quad_trig _ Hr) as (S & C & T).
  split; [apply defl_eval; lra|]. split. { rewrite rad_sub, rad_deg. unfold dfl. ring. }
  assert (HR : 0 < rhor g (M * sin (rad s))). { apply rhor_pos; [assumption|]. apply Rgt_not_eq. pos. }
  pose proof (bet_bound g M (rad s) Hg ltac:(lra) Hr) as Hb. destruct (quad_trig _ Hb) as (Sb & Cb & _).
  split; [exact HR|]. split; [pos|]. split; [exact Sb|]. split; [exact Cb|]. split; [field; lra|].
  assert (E : tan (bet g M (rad s)) = tan (rad s) / rhor g (M * sin (rad s))) by apply tan_atan.
  unfold tan in E. set (r := rhor _ _) in *. set (b := bet _ _ _) in *.
  assert (E' : sin b = cos b * (sin (rad s) / cos (rad s) / r)) by (rewrite <- E; field; lra).
  rewrite E'. field. repeat split; lra.
Qed.
Lemma jump_momentum g n : 1 < g -> n <> 0 -> 1 / g + n ^ 2 = psr g n / g + rhor g n * (n / rhor g n) ^ 2.
Proof. intros Hg Hn. unfold psr, rhor. assert (0 < n ^ 2) by (apply pow2_gt_0; assumption). field. repeat split; nra. Qed.
Lemma jump_energy g n : 1 < g -> n <> 0 -> 1 / (g - 1) + n ^ 2 / 2 = psr g n / rhor g n / (g - 1) + (n / rhor g n) ^ 2 / 2.
Proof. intros Hg Hn. unfold psr, rhor. assert (0 < n ^ 2) by (apply pow2_gt_0; assumption). field. repeat split; nra. Qed.
Lemma shock_physical g M s : 1 < g -> 0 < M -> 0 < s < 90 ->
  oblique_shock g M s (deg (dfl g M (rad s))) (psr g (M * sin (rad s))).
Proof.
  intros Hg HM Hs. destruct (shock_at g M s Hg HM Hs) as (_ & B & R0 & W0 & Sb & Cb & T & N).
  set (r := rhor g (M * sin (rad s))) in *. set (b := bet g M (rad s)) in *. set (W := M * cos (rad s) / cos b) in *.
  exists r, W. split; [exact R0|]. split; [exact W0|]. cbv zeta. change radian with rad. rewrite B. split; [exact T|]. split; [exact N|].
  assert (Hn : M * sin (rad s) <> 0). { apply Rgt_not_eq. rewrite N. pos. }
  pose proof (jump_momentum g _ Hg Hn) as J. pose proof (jump_energy g _ Hg Hn) as K. fold r in J, K.
  replace (W * sin b) with (M * sin (rad s) / r) by (rewrite N; field; lra). split; [exact J|].
  assert (W2 : W ^ 2 = (M * sin (rad s) / r) ^ 2 + (M * cos (rad s)) ^ 2).
  { rewrite T. replace (M * sin (rad s) / r) with (W * sin b) by (rewrite N; field; lra). pose proof (sc2 b). rewrite !Rpow_mult_distr. nra. }
  pose proof (sc2 (rad s)) as S2. rewrite W2. rewrite !Rpow_mult_distr in *. nra.
Qed.
Lemma sonic_physical g M s th : 1 < g -> 0 < M -> 0 < s < 90 -> deflection_Mach_sigma (Some M) (Some s) (Some g) = Some th ->
  sdom g (M * sin (rad s)) -> md2 g (M * sin (rad s)) = sin (rad (s - th)) ^ 2 -> sonic_behind g M s th (psr g (M * sin (rad s))).
Proof.
  intros Hg HM Hs E D H. destruct (shock_at g M s Hg HM Hs) as (E' & B & R0 & W0 & Sb & Cb & T & N). rewrite E in E'. injection E' as E'. subst th.
  set (r := rhor g (M * sin (rad s))) in *. set (b := bet g M (rad s)) in *. set (W := M * cos (rad s) / cos b) in *.
  exists r, W. change radian with rad. rewrite B in *. repeat (split; [assumption|]).
  pose proof (tsr_md2 g _ Hg D) as K. unfold tsr in K. fold r in K. rewrite H in K. set (n := M * sin (rad s)) in *. replace (n ^ 2) with ((r * (W * sin b)) ^ 2) in K by (now rewrite <- N).
  assert (Q : (W ^ 2 - psr g n / r) * (r * sin b) ^ 2 = 0). { replace ((r * (W * sin b)) ^ 2) with (W ^ 2 * (r * sin b) ^ 2) in K by ring. rewrite Rmult_minus_distr_r, <- K. ring. }
  apply Rmult_integral in Q. destruct Q as [Q|Q]; [lra|]. assert (0 < r * sin b) by pos. nra.
Qed.

(** equally spaced values *)
Lemma linspace_length a b n : List.length (linspace a b n) = S n.
Proof. unfold linspace. now rewrite map_length, seq_length. Qed.
Lemma nth_seq n i : (i < n)%nat -> nth_error (seq 0 n) i = Some i.
Proof. intros H. rewrite (nth_error_nth' _ 0%nat) by (rewrite seq_length; lia). now rewrite seq_nth. Qed.
Lemma linspace_nth a b n i : (i < n)%nat ->
  nth_error (linspace (Some a) (Some b) n) i = Some (Some (a + INR i * (b - a) / INR n)).
Proof.
  intros H. unfold linspace. rewrite nth_error_map, nth_seq by lia. cbn [option_map]. f_equal. destruct n as [|n]; [lia|].
  destruct (Nat.eqb_spec i (S n)); [lia|]. ncbn. assert (INR (S n) <> 0) by (apply not_0_INR; lia). rewrite ndiv_Some by assumption. ncbn. f_equal. field. assumption.
Qed.
Lemma linspace_last a b n : (0 < n)%nat -> nth_error (linspace a b n) n = Some b.
Proof.
  intros H. unfold linspace. rewrite nth_error_map, nth_seq by lia. cbn [option_map]. f_equal. destruct n as [|n]; [lia|]. now rewrite Nat.eqb_refl.
Qed.

(** ** which curves are drawn *)
Lemma perm6 {A} (a b c d e f : A) : Permutation [a; b; c; d; e; f] [a; c; e; b; d; f].
Proof. apply perm_skip. eapply perm_trans; [apply perm_swap|]. apply perm_skip. symmetry. exact (Permutation_middle (b :: d :: nil) (f :: nil) e). Qed.
Lemma perm4 {A} (a b c d : A) : Permutation [a; b; c; d] [a; c; b; d]. Proof. apply perm_skip, perm_swap. Qed.
Lemma perm2 {A} (a b : A) : Permutation [a; b] [a; b]. Proof. reflexivity. Qed.
Definition flip (t0 : R) (x : num) : num := match x with Some a => Some (2 * t0 - a) | None => None end.
Definition flipped (t0 : R) (d : drawn) : drawn := mk_drawn (d_mark d) (map (flip t0) (d_x d)) (d_y d).
(*@P C79_sides: For all arguments, and whatever markers are asked for, the 'both' polar consists of exactly what 'right' and what 'left' draw, the left polar is the mirror image of the right one about the upstream direction, and any other curve name draws nothing. *)
Lemma polar_sides : forall mach gamma n t0 p0 dm so,
  let ts c := plot_theta_sigma mach gamma n c dm so in
  let tp c := plot_theta_pressure mach gamma n (Some t0) p0 c dm so in
  (Permutation (ts "both"%string) (ts "right"%string ++ ts "left"%string) /\ ts "left"%string = map (flipped 0) (ts "right"%string)) /\
  (Permutation (tp "both"%string) (tp "right"%string ++ tp "left"%string) /\ tp "left"%string = map (flipped t0) (tp "right"%string)) /\
  (forall c, ~ In c ["both"; "right"; "left"]%string -> ts c = [] /\ tp c = []).
Proof.
  intros mach gamma n t0 p0 dm so ts tp.
  assert (F0 : forall x, flip 0 x = nopp x) by (intros [x|]; [|reflexivity]; cbn; f_equal; ring).
  assert (F1 : forall x, flip t0 (nadd (Some t0) x) = nsub (Some t0) x) by (intros [x|]; [|reflexivity]; cbn; f_equal; ring).
  split; [|split].
  - split.
    + unfold ts, plot_theta_sigma. destruct dm, so; cbn [chosen existsb String.eqb Ascii.eqb Bool.eqb orb draw app]; auto using perm6, perm4, perm2.
    + unfold ts, plot_theta_sigma. destruct dm, so; cbn [chosen existsb String.eqb Ascii.eqb Bool.eqb orb draw app map flipped d_mark d_x d_y];
      unfold flipped; cbn [d_mark d_x d_y map]; rewrite ?F0, (map_ext _ _ F0); reflexivity.
  - split.
    + unfold tp, plot_theta_pressure. destruct dm, so; cbn [chosen existsb String.eqb Ascii.eqb Bool.eqb orb draw app]; auto using perm6, perm4, perm2.
    + unfold tp, plot_theta_pressure. destruct dm, so; cbn [chosen existsb String.eqb Ascii.eqb Bool.eqb orb draw app map flipped d_mark d_x d_y];
      unfold flipped; cbn [d_mark d_x d_y map]; rewrite ?F1, !map_map, (map_ext _ _ (fun s => F1 (deflection_Mach_sigma mach s gamma))); reflexivity.
  - intros c N. unfold ts, tp, plot_theta_sigma, plot_theta_pressure.
    assert (B : forall s, In s ["both"; "right"; "left"]%string -> String.eqb c s = false).
    { intros s I. apply String.eqb_neq. intros ->. exact (N I). }
    unfold chosen. cbn [existsb]. rewrite !B by (cbn; tauto). destruct dm, so; split; reflexivity.
Qed.

(** ** the points drawn *)
(** the i-th of n+1 equally spaced angles from the Mach angle to 90 degrees *)
Definition shock_angle (M : R) (n i : nat) : R := let mu := asin (1 / M) * (180 / PI) in mu + INR i * (90 - mu) / INR n.
Lemma mach_angle M : 1 < M -> dasin (ndiv (Some 1) (Some M)) = Some (deg (asin (1 / M))) /\ 0 < deg (asin (1 / M)) < 90.
Proof.
  intros HM. assert (Hi : 0 < 1 / M < 1). { split; [pos|]. apply (Rmult_lt_reg_r M); [lra|]. unfold Rdiv; rewrite Rmult_assoc, Rinv_l; lra. }
  split. { rewrite ndiv_Some by lra. apply dasin_eval. lra. }
  apply deg_quadrant. split; [rewrite <- asin_0|rewrite <- asin_1]; apply asin_increasing; lra.
Qed.
Lemma shock_angle_range M n i : 1 < M -> (i < n)%nat -> deg (asin (1 / M)) <= shock_angle M n i < 90 /\ (i = 0%nat -> shock_angle M n i = deg (asin (1 / M))).
Proof.
  intros HM Hi. destruct (mach_angle M HM) as [_ H]. unfold shock_angle. cbv zeta. fold (deg (asin (1 / M))). set (m := deg _) in *.
  assert (Hn : 0 < INR n) by (apply lt_0_INR; lia). assert (H0 : 0 <= INR i / INR n) by (apply Rmult_le_pos; [apply pos_INR|left; now apply Rinv_0_lt_compat]).
  assert (H1 : INR i / INR n < 1). { apply Rmult_lt_reg_r with (INR n); [assumption|]. unfold Rdiv. rewrite Rmult_assoc, Rinv_l, Rmult_1_r, Rmult_1_l by lra. now apply lt_INR. }
  replace (INR i * (90 - m) / INR n) with (INR i / INR n * (90 - m)) by (field; lra). split.
  - split; nra.
  - intros ->. cbn [INR]. unfold Rdiv. ring.
Qed.
Lemma shock_angle_lt M n i j : 1 < M -> (0 < n)%nat -> (i < j)%nat -> shock_angle M n i < shock_angle M n j.
Proof.
  intros HM Hn Hi. destruct (mach_angle M HM) as [_ H]. unfold shock_angle. cbv zeta. fold (deg (asin (1 / M))). set (m := deg _) in *.
  assert (0 < INR n) by (apply lt_0_INR; lia). apply lt_INR in Hi. apply Rplus_lt_compat_l. unfold Rdiv. apply Rmult_lt_compat_r; [now apply Rinv_0_lt_compat|nra].
Qed.
Lemma on_polar g M s : 1 < g -> 1 < M -> deg (asin (1 / M)) <= s < 90 -> exists th dm, 
  deflection_Mach_sigma (Some M) (Some s) (Some g) = Some th /\ dev_Max (Some M) (Some g) = Some dm /\ 0 <= th <= dm /\ (s = deg (asin (1 / M)) -> th = 0) /\
  1 <= M * sin (rad s) < M /\ oblique_shock g M s th (psr g (M * sin (rad s))).
Proof.
  intros Hg HM Hs. destruct (mach_angle M HM) as [E0 Hm]. assert (H9 : 0 < s < 90) by lra.
  destruct (deflection_sign g M s Hg HM H9) as (mu & th & E1 & E2 & P1 & P2 & P3). rewrite E0 in E1. injection E1 as <-.
  destruct (max_deflection g M Hg HM) as (sm & dm & mu & F1 & F2 & F3 & F4 & F5 & F6). rewrite E0 in F2. injection F2 as <-.
  exists th, dm. split; [exact E2|]. split; [exact F4|].
  assert (Hn : 1 <= M * sin (rad s)). { destruct (mach_angle_cmp M s HM H9) as (A & B & C). destruct (Rle_lt_dec 1 (M * sin (rad s))) as [|L]; [assumption|]. apply C in L. lra. }
  assert (Hn2 : M * sin (rad s) < M). { pose proof (rad_quadrant s H9) as Hr. destruct (quad_trig _ Hr) as (S & Cc & _). pose proof (sc2 (rad s)). assert (sin (rad s) < 1) by nra. nra. }
  split. { split.
    - destruct (proj1 Hs) as [L|L]; [left; now apply P1|right; symmetry; now apply P2].
    - destruct (Req_dec s sm) as [->|N]; [rewrite F5 in E2; injection E2 as ->; lra|].
      destruct (F6 s Hs N) as (th' & G1 & G2). rewrite G1 in E2. injection E2 as ->. lra. }
  split; [intros ->; now apply P2|]. split; [lra|].
  rewrite defl_eval in E2 by lra. injection E2 as <-. apply shock_physical; lra.
Qed.
Lemma psr_le g x y : 1 < g -> 0 <= x -> x < y -> psr g x < psr g y.
Proof. intros Hg Hx Hxy. unfold psr. assert (0 < 2 * g / (g + 1)) by pos. assert (x ^ 2 < y ^ 2) by nra. nra. Qed.
Lemma psr_1 g : 1 < g -> psr g 1 = 1. Proof. intros. unfold psr. field. lra. Qed.

(** which drawings a call makes, for the mirror factor e = 1 (right) or -1 (left) *)
Definition drawn_on (curve : string) (e : R) : Prop := (e = 1 /\ (curve = "right" \/ curve = "both")%string) \/ (e = -1 /\ (curve = "left" \/ curve = "both")%string).

Lemma chosen_right c : chosen c ["right"; "both"]%string = true -> drawn_on c 1.
Proof. unfold chosen. cbn [existsb]. rewrite orb_false_r. intros H. apply orb_true_iff in H. left. split; [reflexivity|]. destruct H as [H|H]; apply String.eqb_eq in H; auto. Qed.
Lemma chosen_left c : chosen c ["left"; "both"]%string = true -> drawn_on c (-1).
Proof. unfold chosen. cbn [existsb]. rewrite orb_false_r. intros H. apply orb_true_iff in H. right. split; [reflexivity|]. destruct H as [H|H]; apply String.eqb_eq in H; auto. Qed.
Lemma in_draw b x d : In d (draw b x) -> b = true /\ d = x.
Proof. destruct b; cbn [draw In]; [|intros []]. intros [H|[]]. auto. Qed.
Ltac in_drawn H :=
  repeat match type of H with
  | In _ (app _ _) => apply in_app_or in H; destruct H as [H|H]
  | In _ (if ?b then _ else _) => destruct b; [|destruct H]
  | In _ (draw _ _) => apply in_draw in H; destruct H as [?C ->]
  | In _ nil => destruct H
  end.
Definition polar_angles (M : num) (n : nat) : list num := linspace (dasin (ndiv (Some 1) M)) (Some 90) n.
Lemma sigma_lines M g n curve dm so d : In d (plot_theta_sigma M g n curve dm so) -> d_mark d = Line ->
  exists e, drawn_on curve e /\ d_y d = polar_angles M n /\ d_x d = map (fun s => nmul (Some e) (deflection_Mach_sigma M s g)) (polar_angles M n).
Proof.
  unfold plot_theta_sigma. cbv zeta. fold (polar_angles M n). intros H Hm. in_drawn H; try discriminate Hm; cbn [d_x d_y].
  - exists 1. split; [now apply chosen_right|]. split; [reflexivity|]. apply map_ext. intros s. destruct (deflection_Mach_sigma M s g); [|reflexivity]. cbn. f_equal. ring.
  - exists (-1). split; [now apply chosen_left|]. split; [reflexivity|]. rewrite map_map. apply map_ext. intros s. destruct (deflection_Mach_sigma M s g); [|reflexivity]. cbn. f_equal. ring.
Qed.
Lemma angles_nth M n i : 1 < M -> (i < n)%nat -> nth_error (polar_angles (Some M) n) i = Some (Some (shock_angle M n i)).
Proof. intros HM Hi. unfold polar_angles. rewrite (proj1 (mach_angle M HM)). rewrite linspace_nth by assumption. reflexivity. Qed.
(*@P C79_sigma_polar: plot_theta_sigma, for every M > 1, gamma > 1 and number of points: every curve drawn has npts + 1 points; its ordinates are the equally spaced shock angles from the Mach angle to 90 degrees; below 90 degrees its abscissas are, on the right polar, the angles by which the shocks at these angles turn the flow - shocks in the sense of the conservation laws across an oblique front, none of them an expansion - and the opposite on the left polar; it starts undeflected at the Mach angle and never exceeds dev_Max. *)
Lemma sigma_polar : forall g M n curve dm so d, 1 < g -> 1 < M -> (0 < n)%nat ->
  In d (plot_theta_sigma (Some M) (Some g) n curve dm so) -> d_mark d = Line ->
  exists e dmax, drawn_on curve e /\ dev_Max (Some M) (Some g) = Some dmax /\
    List.length (d_x d) = S n /\ List.length (d_y d) = S n /\ nth_error (d_y d) n = Some (Some 90) /\
    nth_error (d_x d) 0 = Some (Some 0) /\
    forall i, (i < n)%nat -> exists th P, nth_error (d_y d) i = Some (Some (shock_angle M n i)) /\ nth_error (d_x d) i = Some (Some (e * th)) /\
      oblique_shock g M (shock_angle M n i) th P /\ 1 <= P /\ 0 <= th <= dmax.
Proof.
  intros g M n curve dm so d Hg HM Hn H Hm. destruct (sigma_lines _ _ _ _ _ _ _ H Hm) as (e & De & Ey & Ex).
  destruct (mach_angle M HM) as [E0 H0]. destruct (on_polar g M (deg (asin (1 / M))) Hg HM ltac:(lra)) as (th0 & dmax & A1 & A2 & A3 & A4 & _).
  exists e, dmax. split; [exact De|]. split; [exact A2|]. rewrite Ex, Ey, map_length. unfold polar_angles at 1 2. rewrite !linspace_length.
  split; [reflexivity|]. split; [reflexivity|]. split; [unfold polar_angles; now apply linspace_last|].
  assert (G : forall i, (i < n)%nat -> exists th P, nth_error (polar_angles (Some M) n) i = Some (Some (shock_angle M n i)) /\
     nth_error (map (fun s => nmul (Some e) (deflection_Mach_sigma (Some M) s (Some g))) (polar_angles (Some M) n)) i = Some (Some (e * th)) /\
     oblique_shock g M (shock_angle M n i) th P /\ 1 <= P /\ 0 <= th <= dmax /\ (i = 0%nat -> th = 0)).
  { intros i Hi. destruct (shock_angle_range M n i HM Hi) as [R0 R1]. destruct (on_polar g M _ Hg HM R0) as (th & dx & B1 & B2 & B3 & B4 & B5 & B6).
    rewrite A2 in B2. injection B2 as <-. exists th, (psr g (M * sin (rad (shock_angle M n i)))). split; [now apply angles_nth|].
    split. { rewrite nth_error_map, angles_nth by assumption. cbn [option_map]. rewrite B1. reflexivity. }
    split; [exact B6|]. split; [|split; [exact B3|intros Z; apply B4, R1, Z]].
    rewrite <- (psr_1 g Hg). destruct (proj1 B5) as [L|L]; [left; apply psr_le; lra|rewrite <- L; lra]. }
  split.
  - destruct (G 0%nat Hn) as (th & P & _ & F & _ & _ & _ & Z). rewrite F, (Z eq_refl). do 2 f_equal. ring.
  - intros i Hi. destruct (G i Hi) as (th & P & F1 & F2 & F3 & F4 & F5 & _). exists th, P. auto.
Qed.
Lemma pressure_lines M g n t0 p0 curve dm so d : In d (plot_theta_pressure M g n (Some t0) p0 curve dm so) -> d_mark d = Line ->
  exists e, drawn_on curve e /\ d_y d = map (fun s => nmul p0 (Ps_ratio (nmul M (dsin s)) g)) (polar_angles M n) /\
  d_x d = map (fun s => nadd (Some t0) (nmul (Some e) (deflection_Mach_sigma M s g))) (polar_angles M n).
Proof.
  unfold plot_theta_pressure. cbv zeta. fold (polar_angles M n). intros H Hm. in_drawn H; try discriminate Hm; cbn [d_x d_y].
  - exists 1. split; [now apply chosen_right|]. split; [reflexivity|]. rewrite map_map. apply map_ext. intros s. destruct (deflection_Mach_sigma M s g); [|reflexivity]. cbn. f_equal. ring.
  - exists (-1). split; [now apply chosen_left|]. split; [reflexivity|]. rewrite map_map. apply map_ext. intros s. destruct (deflection_Mach_sigma M s g); [|reflexivity]. cbn. f_equal. ring.
Qed.
(*@P C79_pressure_polar: plot_theta_pressure, for every M > 1, gamma > 1, number of points, upstream direction and upstream pressure p0 > 0: every curve drawn has npts + 1 points; its points, the last one excepted, are (t0 + theta, p0 P) on the right polar and (t0 - theta, p0 P) on the left one, where theta and P are the turning angle and the pressure ratio of the shocks at the equally spaced angles; it starts at the upstream state (t0, p0), the pressures increase strictly and end at that of the normal shock, and theta never exceeds dev_Max. *)
Lemma pressure_polar : forall g M n t0 p0 curve dm so d, 1 < g -> 1 < M -> (0 < n)%nat -> 0 < p0 ->
  In d (plot_theta_pressure (Some M) (Some g) n (Some t0) (Some p0) curve dm so) -> d_mark d = Line ->
  exists e dmax Pmax, drawn_on curve e /\ dev_Max (Some M) (Some g) = Some dmax /\ Ps_ratio (Some M) (Some g) = Some Pmax /\
    List.length (d_x d) = S n /\ List.length (d_y d) = S n /\
    nth_error (d_x d) 0 = Some (Some t0) /\ nth_error (d_y d) 0 = Some (Some p0) /\ nth_error (d_y d) n = Some (Some (p0 * Pmax)) /\
    (forall i, (i < n)%nat -> exists th P, nth_error (d_x d) i = Some (Some (t0 + e * th)) /\ nth_error (d_y d) i = Some (Some (p0 * P)) /\
      oblique_shock g M (shock_angle M n i) th P /\ 0 <= th <= dmax) /\
    (forall i j, (i < j <= n)%nat -> exists a b, nth_error (d_y d) i = Some (Some a) /\ nth_error (d_y d) j = Some (Some b) /\ a < b).
Proof.
  intros g M n t0 p0 curve dm so d Hg HM Hn Hp H Hm. destruct (pressure_lines _ _ _ _ _ _ _ _ _ H Hm) as (e & De & Ey & Ex).
  destruct (mach_angle M HM) as [E0 H0]. destruct (on_polar g M (deg (asin (1 / M))) Hg HM ltac:(lra)) as (th0 & dmax & A1 & A2 & A3 & A4 & _).
  exists e, dmax, (psr g M). split; [exact De|]. split; [exact A2|]. split; [now apply Ps_eval|]. rewrite Ex, Ey, !map_length. unfold polar_angles at 1 2. rewrite !linspace_length.
  split; [reflexivity|]. split; [reflexivity|].
  set (ys := map (fun s => nmul (Some p0) _) _). set (xs := map _ _).
  assert (Y : forall i, (i < n)%nat -> nth_error ys i = Some (Some (p0 * psr g (M * sin (rad (shock_angle M n i)))))).
  { intros i Hi. unfold ys. rewrite nth_error_map, angles_nth by assumption. cbn [option_map]. rewrite dsin_eval. cbn [nmul]. rewrite Ps_eval by assumption. reflexivity. }
  assert (YL : nth_error ys n = Some (Some (p0 * psr g M))).
  { unfold ys. rewrite nth_error_map. unfold polar_angles. rewrite linspace_last by assumption. cbn [option_map]. rewrite dsin_eval, rad_90, sin_PI2. cbn [nmul].
    rewrite Ps_eval by assumption. cbn [nmul]. now rewrite Rmult_1_r. }
  assert (G : forall i, (i < n)%nat -> exists th, nth_error xs i = Some (Some (t0 + e * th)) /\
     oblique_shock g M (shock_angle M n i) th (psr g (M * sin (rad (shock_angle M n i)))) /\ 0 <= th <= dmax /\ (i = 0%nat -> th = 0 /\ M * sin (rad (shock_angle M n i)) = 1) /\
     1 <= M * sin (rad (shock_angle M n i)) < M).
  { intros i Hi. destruct (shock_angle_range M n i HM Hi) as [R0 R1]. destruct (on_polar g M _ Hg HM R0) as (th & dx & B1 & B2 & B3 & B4 & B5 & B6).
    rewrite A2 in B2. injection B2 as <-. exists th.
    split. { unfold xs. rewrite nth_error_map, angles_nth by assumption. cbn [option_map]. rewrite B1. reflexivity. }
    split; [exact B6|]. split; [exact B3|]. split; [|exact B5]. intros Z. split; [apply B4, R1, Z|]. rewrite (R1 Z).
    destruct (mach_angle_cmp M (deg (asin (1 / M))) HM H0) as (_ & K & _). symmetry. now apply K. }
  destruct (G 0%nat Hn) as (th1 & F & _ & _ & Z & _). destruct (Z eq_refl) as [Z1 Z2].
  split; [rewrite F, Z1; do 2 f_equal; ring|]. split; [rewrite Y, Z2, psr_1 by assumption; do 2 f_equal; ring|]. split; [exact YL|]. split.
  - intros i Hi. destruct (G i Hi) as (th & F1 & F2 & F3 & _). exists th, (psr g (M * sin (rad (shock_angle M n i)))). auto.
  - intros i j Hij. destruct (G i ltac:(lia)) as (_ & _ & _ & _ & _ & Bi). exists (p0 * psr g (M * sin (rad (shock_angle M n i)))).
    destruct (Nat.eq_dec j n) as [->|Nj].
    + exists (p0 * psr g M). split; [apply Y; lia|]. split; [exact YL|]. apply Rmult_lt_compat_l; [assumption|]. apply psr_le; lra.
    + exists (p0 * psr g (M * sin (rad (shock_angle M n j)))). split; [apply Y; lia|]. split; [apply Y; lia|]. apply Rmult_lt_compat_l; [assumption|]. apply psr_le; [assumption|lra|].
      apply Rmult_lt_compat_l; [lra|]. pose proof (shock_angle_lt M n i j HM Hn (proj1 Hij)).
      destruct (shock_angle_range M n i HM ltac:(lia)) as [Q1 _]. destruct (shock_angle_range M n j HM ltac:(lia)) as [Q2 _].
      pose proof (rad_quadrant (shock_angle M n i) ltac:(lra)). pose proof (rad_quadrant (shock_angle M n j) ltac:(lra)). apply sin_increasing_1; try lra. now apply rad_lt.
Qed.
(*@P C79_markers: The markers, for every M > 1 and gamma > 1: with devmax (and only then) red dots are drawn, at the shock of largest turning angle on the sides drawn; with sonic (and only then) white dots, at the shock behind which the flow is exactly sonic; both are points of the polar, in either diagram. *)
Lemma polar_markers : forall g M n t0 p0 curve dm so, 1 < g -> 1 < M -> let mu := asin (1 / M) * (180 / PI) in
  exists sm tm Pm ss ts Ps, mu < sm < 90 /\ mu < ss < 90 /\ oblique_shock g M sm tm Pm /\ oblique_shock g M ss ts Ps /\ sonic_behind g M ss ts Ps /\
   (forall s, mu <= s < 90 -> s <> sm -> exists th, deflection_Mach_sigma (Some M) (Some s) (Some g) = Some th /\ th < tm) /\
   (forall d, In d (plot_theta_sigma (Some M) (Some g) n curve dm so) -> d_mark d <> Line -> exists e, drawn_on curve e /\
      ((dm = true /\ d = mk_drawn RedDot (Some (e * tm) :: nil) (Some sm :: nil)) \/ (so = true /\ d = mk_drawn WhiteDot (Some (e * ts) :: nil) (Some ss :: nil)))) /\
   (forall d, In d (plot_theta_pressure (Some M) (Some g) n (Some t0) (Some p0) curve dm so) -> d_mark d <> Line -> exists e, drawn_on curve e /\
      ((dm = true /\ d = mk_drawn RedDot (Some (t0 + e * tm) :: nil) (Some (p0 * Pm) :: nil)) \/ (so = true /\ d = mk_drawn WhiteDot (Some (t0 + e * ts) :: nil) (Some (p0 * Ps) :: nil)))) /\
   (forall e, drawn_on curve e ->
      (dm = true -> In (mk_drawn RedDot (Some (e * tm) :: nil) (Some sm :: nil)) (plot_theta_sigma (Some M) (Some g) n curve dm so) /\
                    In (mk_drawn RedDot (Some (t0 + e * tm) :: nil) (Some (p0 * Pm) :: nil)) (plot_theta_pressure (Some M) (Some g) n (Some t0) (Some p0) curve dm so)) /\
      (so = true -> In (mk_drawn WhiteDot (Some (e * ts) :: nil) (Some ss :: nil)) (plot_theta_sigma (Some M) (Some g) n curve dm so) /\
                    In (mk_drawn WhiteDot (Some (t0 + e * ts) :: nil) (Some (p0 * Ps) :: nil)) (plot_theta_pressure (Some M) (Some g) n (Some t0) (Some p0) curve dm so))).
Proof.
  intros g M n t0 p0 curve dm so Hg HM. cbv zeta. fold (deg (asin (1 / M))). destruct (mach_angle M HM) as [E0 H0].
  destruct (max_deflection g M Hg HM) as (sm & tm & mu & F1 & F2 & F3 & F4 & F5 & F6). rewrite E0 in F2. injection F2 as <-.
  destruct (sonic_shock g M Hg HM) as (ss & ts & mn & P & mn1 & G1 & G2 & G3 & G4 & G5 & G6 & G7 & G8 & G9 & G10).
  destruct (on_polar g M sm Hg HM ltac:(lra)) as (th & dx & B1 & B2 & B3 & B4 & B5 & B6). rewrite F5 in B1. injection B1 as <-.
  fold (rad ss) in G3. fold (rad (ss - ts)) in G8. subst mn.
  assert (Hss : deg (asin (1 / M)) < ss < 90). { split; [|lra]. now apply (mach_angle_cmp M ss HM G2). }
  assert (D : sdom g (M * sin (rad ss))) by (apply sdom_ge1; lra).
  exists sm, tm, (psr g (M * sin (rad sm))), ss, ts, (psr g (M * sin (rad ss))).
  split; [exact F3|]. split; [exact Hss|]. split; [exact B6|].
  split. { rewrite defl_eval in G6 by lra. injection G6 as <-. apply shock_physical; lra. }
  split. { apply sonic_physical; try assumption; try lra. rewrite Md_eval in G7 by assumption. injection G7 as G7. rewrite G8, Rmult_1_l in G7. rewrite <- G7.
    symmetry. apply sq_sqrt. left. now apply md2_pos. }
  split; [exact F6|].
  assert (Ep : forall s, Ps_ratio (nmul (Some M) (dsin (Some s))) (Some g) = Some (psr g (M * sin (rad s)))) by (intros s; rewrite dsin_eval; cbn [nmul]; now apply Ps_eval).
  unfold plot_theta_sigma, plot_theta_pressure. cbv zeta. rewrite F1, F4, G1, G5, !Ep. cbn [nadd nsub nopp nmul].
  split; [|split].
  - intros d H Hm. in_drawn H; try (now contradiction Hm).
    + exists 1. split; [now apply chosen_right|]. left. split; [reflexivity|]. now rewrite Rmult_1_l.
    + exists (-1). split; [now apply chosen_left|]. left. split; [reflexivity|]. now replace (-1 * tm) with (- tm) by ring.
    + exists 1. split; [now apply chosen_right|]. right. split; [reflexivity|]. now rewrite Rmult_1_l.
    + exists (-1). split; [now apply chosen_left|]. right. split; [reflexivity|]. now replace (-1 * ts) with (- ts) by ring.
  - intros d H Hm. in_drawn H; try (now contradiction Hm).
    + exists 1. split; [now apply chosen_right|]. left. split; [reflexivity|]. now rewrite Rmult_1_l.
    + exists (-1). split; [now apply chosen_left|]. left. split; [reflexivity|]. now replace (t0 + -1 * tm) with (t0 - tm) by ring.
    + exists 1. split; [now apply chosen_right|]. right. split; [reflexivity|]. now rewrite Rmult_1_l.
    + exists (-1). split; [now apply chosen_left|]. right. split; [reflexivity|]. now replace (t0 + -1 * ts) with (t0 - ts) by ring.
  - intros e [[-> [->| ->]]|[-> [->| ->]]];
    replace (t0 + 1 * tm) with (t0 + tm) by ring; replace (t0 + -1 * tm) with (t0 - tm) by ring;
    replace (t0 + 1 * ts) with (t0 + ts) by ring; replace (t0 + -1 * ts) with (t0 - ts) by ring;
    replace (1 * tm) with tm by ring; replace (-1 * tm) with (- tm) by ring;
    replace (1 * ts) with ts by ring; replace (-1 * ts) with (- ts) by ring;
    (split; [intros ->|intros ->]; destruct dm || idtac; destruct so || idtac; cbn [chosen existsb String.eqb Ascii.eqb Bool.eqb orb draw app];
     split; repeat ((left; reflexivity) || right)).
Qed.

(** ** isentropic polars *)
(** families of waves: e = 1 (C+) or -1 (C-) *)
Definition family (curve : string) (e : R) : Prop :=
  (e = 1 /\ In curve ["c+"; "C+"; "both"]%string) \/ (e = -1 /\ In curve ["c-"; "C-"; "both"]%string).
Lemma chosen_in c l : chosen c l = true <-> In c l.
Proof.
  unfold chosen. rewrite existsb_exists. split.
  - intros (x & I & E). apply String.eqb_eq in E. now subst.
  - intros I. exists c. split; [exact I|apply String.eqb_refl].
Qed.
(** the i-th of n+1 equally spaced deflections *)
Definition spaced (d0 d1 : R) (n i : nat) : R := d0 + INR i * (d1 - d0) / INR n.
Lemma linspace_all d0 d1 n i : (0 < n)%nat -> (i <= n)%nat -> nth_error (linspace (Some d0) (Some d1) n) i = Some (Some (spaced d0 d1 n i)).
Proof.
  intros Hn Hi. destruct (Nat.eq_dec i n) as [->|N].
  - rewrite linspace_last by assumption. do 2 f_equal. unfold spaced. assert (INR n <> 0) by (apply not_0_INR; lia). field. assumption.
  - apply linspace_nth. lia.
Qed.
Lemma isentropic_lines newton M d0 d1 g n t0 p0 curve d : In d (plot_isentropic newton M d0 d1 g n t0 p0 curve) ->
  exists e, family curve e /\ d_mark d = Line /\ d_x d = map (fun x => nadd t0 x) (linspace d0 d1 n) /\
    d_y d = map (fun x => nmul p0 (IsentropicPsratio_Mach_deflection newton M (nmul (Some e) x) g)) (linspace d0 d1 n).
Proof.
  unfold plot_isentropic. cbv zeta. intros H. in_drawn H; cbn [d_mark d_x d_y].
  - exists 1. split; [left; split; [reflexivity|now apply chosen_in]|]. split; [reflexivity|]. split; [reflexivity|].
    apply map_ext. intros [x|]; [|reflexivity]. cbn [nmul]. now rewrite Rmult_1_l.
  - exists (-1). split; [right; split; [reflexivity|now apply chosen_in]|]. split; [reflexivity|]. split; [reflexivity|].
    apply map_ext. intros [x|]; [|reflexivity]. cbn [nmul nopp]. now replace (-1 * x) with (- x) by ring.
Qed.
(*@P C80_curves: The isentropic polar, for every argument: one curve for 'C+' or 'c+', one for 'C-' or 'c-', both for 'both', nothing otherwise; no marker. *)
Lemma isentropic_curves : forall newton M d0 d1 g n t0 p0 curve,
  let drawing := plot_isentropic newton M d0 d1 g n t0 p0 curve in
  (List.length drawing = match curve with "both"%string => 2 | "C+"%string | "c+"%string | "C-"%string | "c-"%string => 1 | _ => 0 end)%nat /\
  List.Forall (fun d => d_mark d = Line) drawing.
Proof.
  intros. subst drawing. split.
  2:{ apply List.Forall_forall. intros d H. destruct (isentropic_lines _ _ _ _ _ _ _ _ _ _ H) as (e & _ & E & _). exact E. }
  unfold plot_isentropic. cbv zeta. rewrite app_length.
  assert (L : forall b d, List.length (draw b d) = if b then 1%nat else 0%nat) by (intros [] ?; reflexivity). rewrite !L.
  unfold chosen. cbn [existsb].
  destruct (String.eqb_spec curve "c+") as [->|N1]; [reflexivity|]. destruct (String.eqb_spec curve "C+") as [->|N2]; [reflexivity|].
  destruct (String.eqb_spec curve "both") as [->|N3]; [reflexivity|]. destruct (String.eqb_spec curve "c-") as [->|N4]; [reflexivity|].
  destruct (String.eqb_spec curve "C-") as [->|N5]; [reflexivity|]. cbn [orb Nat.add].
  repeat match goal with |- _ = match ?c with _ => _ end => destruct c; try reflexivity; try (now contradiction N1) end.
  all: now (contradiction N1 || contradiction N2 || contradiction N3 || contradiction N4 || contradiction N5).
Qed.
(*@P C80_points: The isentropic polar with an exact root finder, for every M >= 1, gamma > 1, range of deflections, upstream direction and upstream pressure: the curve has npts + 1 points, its directions are the upstream direction plus the equally spaced deflections, and each pressure with a value belongs to the one state with the same total pressure whose Prandtl-Meyer angle is that of M minus the deflection (C+) or plus the deflection (C-). *)
Lemma isentropic_points : forall newton g M d0 d1 n t0 p0 curve d, solves 0 newton -> 1 < g -> 1 <= M -> (0 < n)%nat ->
  In d (plot_isentropic newton (Some M) (Some d0) (Some d1) (Some g) n (Some t0) (Some p0) curve) ->
  exists e, family curve e /\ List.length (d_x d) = S n /\ List.length (d_y d) = S n /\
    forall i, (i <= n)%nat -> nth_error (d_x d) i = Some (Some (t0 + spaced d0 d1 n i)) /\
      exists y, nth_error (d_y d) i = Some y /\
      forall p, y = Some p -> exists m nu1 nu2 P1 P2, 1 <= m /\
        PrandtlMeyer_Mach (Some M) (Some g) = Some nu1 /\ PrandtlMeyer_Mach (Some m) (Some g) = Some nu2 /\ nu2 = nu1 - e * spaced d0 d1 n i /\
        PtPs_Mach (Some M) (Some g) = Some P1 /\ PtPs_Mach (Some m) (Some g) = Some P2 /\ p * P2 = p0 * P1.
Proof.
  intros newton g M d0 d1 n t0 p0 curve d HN Hg HM Hn H. destruct (isentropic_lines _ _ _ _ _ _ _ _ _ _ H) as (e & F & _ & Ex & Ey).
  exists e. split; [exact F|]. rewrite Ex, Ey, !map_length, !linspace_length. split; [reflexivity|]. split; [reflexivity|].
  intros i Hi. rewrite !nth_error_map, !linspace_all by assumption. cbn [option_map nadd nmul]. split; [reflexivity|].
  eexists. split; [reflexivity|]. intros p Hp.
  destruct (IsentropicPsratio_Mach_deflection newton (Some M) (Some (e * spaced d0 d1 n i)) (Some g)) as [P|] eqn:E; [|discriminate]. cbn [nmul] in Hp. injection Hp as Hp.
  destruct (isen_defl_eval _ _ _ _ _ HN Hg HM E) as (m & Hm & E1 & E2).
  exists m, (pm g M), (pm g m), (Rpower (tt g M) (g / (g - 1))), (Rpower (tt g m) (g / (g - 1))). split; [exact Hm|].
  rewrite !PM_eval by (try assumption; rewrite Rabs_pos_eq; lra). rewrite !PtPs_eval by assumption. repeat (split; [reflexivity || assumption|]).
  pose proof (ptps_ratio_pos g m). rewrite <- Hp, E2. field. lra.
Qed.
(*@P C80_monotone: On the isentropic polar the pressure of the C+ curve strictly increases, that of the C- curve strictly decreases with the direction, and a point at the upstream direction has the upstream pressure. *)
Lemma isentropic_monotone : forall newton g M d0 d1 n t0 p0 curve d, solves 0 newton -> 1 < g -> 1 <= M -> (0 < n)%nat -> 0 < p0 ->
  In d (plot_isentropic newton (Some M) (Some d0) (Some d1) (Some g) n (Some t0) (Some p0) curve) ->
  exists e, family curve e /\ forall i j xi xj pi pj,
    nth_error (d_x d) i = Some (Some xi) -> nth_error (d_y d) i = Some (Some pi) ->
    nth_error (d_x d) j = Some (Some xj) -> nth_error (d_y d) j = Some (Some pj) ->
    (xi < xj -> 0 < e * (pj - pi)) /\ (xi = t0 -> pi = p0) /\ 0 < pi.
Proof.
  intros newton g M d0 d1 n t0 p0 curve d HN Hg HM Hn Hp H.
  destruct (isentropic_points _ _ _ _ _ _ _ _ _ _ HN Hg HM Hn H) as (e & F & Lx & Ly & G). exists e. split; [exact F|].
  intros i j xi xj pi pj Xi Yi Xj Yj.
  assert (K : forall k x p, nth_error (d_x d) k = Some (Some x) -> nth_error (d_y d) k = Some (Some p) ->
    exists m, 1 <= m /\ pm g m = pm g M - e * (x - t0) /\ p * Rpower (tt g m) (g / (g - 1)) = p0 * Rpower (tt g M) (g / (g - 1))).
  { intros k x p Xk Yk. assert (Hk : (k <= n)%nat). { assert (k < List.length (d_x d))%nat by (apply nth_error_Some; congruence). lia. }
    destruct (G k Hk) as (A & y & B & C). rewrite Xk in A. injection A as A. rewrite Yk in B. injection B as B. subst y.
    destruct (C p eq_refl) as (m & nu1 & nu2 & P1 & P2 & Hm & C1 & C2 & C3 & C4 & C5 & C6).
    rewrite PM_eval in C1, C2 by (try assumption; rewrite Rabs_pos_eq; lra). rewrite PtPs_eval in C4, C5 by assumption.
    injection C1 as C1. injection C2 as C2. injection C4 as C4. injection C5 as C5. exists m. split; [exact Hm|]. rewrite C1, C2, C4, C5. split; [|exact C6].
    rewrite C3, A. ring. }
  destruct (K i xi pi Xi Yi) as (mi & Hmi & Ki & Pi). destruct (K j xj pj Xj Yj) as (mj & Hmj & Kj & Pj).
  assert (Qi : 0 < Rpower (tt g mi) (g / (g - 1))) by apply ptps_ratio_pos. assert (Qj : 0 < Rpower (tt g mj) (g / (g - 1))) by apply ptps_ratio_pos.
  assert (QM : 0 < Rpower (tt g M) (g / (g - 1))) by apply ptps_ratio_pos.
  assert (Hpi : 0 < pi) by nra. assert (Hpj : 0 < pj) by nra.
  assert (I : forall x y, 1 <= x -> pm g x < pm g y -> 1 <= y -> x < y).
  { intros x y Hx Hy L. destruct (Rlt_le_dec x y) as [|[L'|L']]; [assumption| |]; exfalso; [pose proof (pm_incr g y x Hg L L'); lra|subst; lra]. }
  assert (J : forall x y, 1 <= x -> x < y -> Rpower (tt g x) (g / (g - 1)) < Rpower (tt g y) (g / (g - 1))).
  { intros x y Hx Hy. apply Rpower_lt_base; [apply tt_pos; assumption|apply tt_incr; lra|apply exp_pos_gg; assumption]. }
  split; [|split; [|exact Hpi]].
  - intros L. destruct F as [[-> _]|[-> _]].
    + assert (B : mj < mi) by (apply I; [assumption|lra|assumption]). pose proof (J _ _ Hmj B). nra.
    + assert (B : mi < mj) by (apply I; [assumption|lra|assumption]). pose proof (J _ _ Hmi B). nra.
  - intros ->. assert (E : mi = M). { apply (pm_inj g); try assumption. rewrite Ki. ring. } subst mi. nra.
Qed.
(*@P C80_characteristic: Both isentropic polars through a state of Mach number M >= 1, parametrised by the local Mach number m - direction t0 + e (nu(M) - nu(m)), pressure p0 PtPs(M)/PtPs(m) - follow the characteristic relation dp/p = e gamma m^2/sqrt(m^2-1) dtheta at every m > 1. *)
Lemma isentropic_characteristic : forall g M t0 p0 e, 1 < g -> 1 <= M -> (e = 1 \/ e = -1) ->
  exists nu P, (forall m, 1 <= m -> PrandtlMeyer_Mach (Some m) (Some g) = Some (nu m) /\ PtPs_Mach (Some m) (Some g) = Some (P m)) /\
    characteristic g e (fun m => t0 + e * (nu M - nu m)) (fun m => p0 * P M / P m).
Proof.
  intros g M t0 p0 e Hg HM He. exists (pm g), (fun m => Rpower (tt g m) (g / (g - 1))). split.
  { intros m Hm. rewrite PM_eval by (try assumption; rewrite Rabs_pos_eq; lra). rewrite PtPs_eval by assumption. auto. }
  intros m Hm. destruct (pm_slope g m Hg Hm) as (nu & E & D).
  assert (Hpos : 0 < m ^ 2 - 1) by nra. assert (Hs : 0 < sqrt (m ^ 2 - 1)) by now apply sqrt_lt_R0.
  assert (Ht : 0 < 1 + (g - 1) / 2 * m ^ 2) by nra. assert (Hp : 0 < PI) by apply PI_RGT_0.
  set (w := 180 / PI * (sqrt (m ^ 2 - 1) / (m * (1 + (g - 1) / 2 * m ^ 2)))) in *.
  exists (- e * w), (- (g * m / (1 + (g - 1) / 2 * m ^ 2)) * (p0 * Rpower (tt g M) (g / (g - 1)) / Rpower (tt g m) (g / (g - 1)))).
  split.
  { apply is_derive_Reals. 
    assert (D1 : is_derive (pm g) m w).
    { apply (is_derive_ext_loc nu); [|exact D]. exists (mkposreal (m - 1) ltac:(lra)). intros y Hy. change (Rabs (y - m) < m - 1) in Hy. apply Rabs_def2 in Hy.
      specialize (E y ltac:(lra)). rewrite PM_eval in E by (try assumption; rewrite Rabs_pos_eq; lra). now injection E. }
    auto_derive; [exists w; exact D1|]. change (Derive _ m) with (Derive (pm g) m). rewrite (is_derive_unique _ _ _ D1). ring. }
  split.
  { apply is_derive_Reals. unfold tt, Rpower. auto_derive.
    - repeat split; try lra. apply Rgt_not_eq, exp_pos.
    - replace (m * (m * 1)) with (m ^ 2) by ring. set (E1 := exp (g / (g - 1) * ln (1 + 1 / 2 * (g - 1) * m ^ 2))). assert (0 < E1) by apply exp_pos.
      set (E2 := exp _). clearbody E1 E2. field. repeat split; lra. }
  assert (Es : sqrt (m ^ 2 - 1) * sqrt (m ^ 2 - 1) = m ^ 2 - 1) by (apply sqrt_sqrt; lra).
  unfold radian, w. assert (Pm := ptps_ratio_pos g m). assert (e * e = 1) by (destruct He; subst e; ring).
  set (Z := p0 * _ / _). transitivity (- (e * e) * (g * m / (1 + (g - 1) / 2 * m ^ 2)) * Z); [rewrite H; ring|].
  field. repeat split; lra.
Qed.
Lemma asin_half : asin (1 / 2) = PI / 6.
Proof. rewrite <- sin_PI6. apply asin_sin. pose proof PI_RGT_0. lra. Qed.
(*@E C79_example: gamma = 3, M = 2, three points, 'right', with devmax: one line, at the shock angles 30, 60 and 90 degrees, starting undeflected, and one red dot at 60 degrees, a positive deflection th, the middle point of the line. *)
Lemma C79_example_lemma : exists th x, 0 < th /\ plot_theta_sigma (Some 2) (Some 3) 2 "right" true false =
  mk_drawn Line (Some 0 :: Some th :: x :: nil) (Some 30 :: Some 60 :: Some 90 :: nil) :: mk_drawn RedDot (Some th :: nil) (Some 60 :: nil) :: nil.
Proof.
  pose proof PI_RGT_0 as HP. assert (E30 : deg (asin (1 / 2)) = 30) by (rewrite asin_half; unfold deg; field; lra).
  destruct (mach_angle 2 ltac:(lra)) as [E0 _]. rewrite E30 in E0.
  destruct (max_deflection 3 2 ltac:(lra) ltac:(lra)) as (sm & tm & mu & F1 & F2 & F3 & F4 & F5 & F6). rewrite E0 in F2. injection F2 as <-.
  destruct C19_example_lemma as (G & _). rewrite G in F1. injection F1 as <-.
  destruct (on_polar 3 2 30 ltac:(lra) ltac:(lra) ltac:(rewrite E30; lra)) as (th & dx & B1 & B2 & B3 & B4 & _). rewrite (B4 (eq_sym E30)) in B1.
  destruct (F6 30 ltac:(lra) ltac:(lra)) as (th' & B5 & B6). rewrite B1 in B5. injection B5 as <-.
  exists tm, (deflection_Mach_sigma (Some 2) (Some 90) (Some 3)). split; [exact B6|].
  unfold plot_theta_sigma. cbv zeta. rewrite G, F4, E0.
  assert (L : linspace (Some 30) (Some 90) 2 = Some 30 :: Some 60 :: Some 90 :: nil).
  { unfold linspace. cbn [seq map Nat.eqb INR]. ncbn. rewrite ndiv_Some by lra. ncbn. repeat f_equal; field. }
  rewrite L. cbn [map]. rewrite B1, F5. reflexivity.
Qed.
(*@E C80_example: the hypotheses are met by a solver and a curve with a point at a proper compression: from Mach 3, turned by the difference of the Prandtl-Meyer angles of Mach 3 and Mach 2, the pressure drawn is PtPs(3)/PtPs(2) times the upstream one. *)
Lemma C80_example_lemma : solves 0 (lazy_newton 0) /\ exists nu P2 P3 d, 0 < nu /\ PtPs_Mach (Some 2) (Some (7/5)) = Some P2 /\ PtPs_Mach (Some 3) (Some (7/5)) = Some P3 /\ P2 < P3 /\
  In d (plot_isentropic (lazy_newton 0) (Some 3) (Some 0) (Some nu) (Some (7/5)) 1 (Some 5) (Some 10) "C+") /\
  nth_error (d_x d) 1 = Some (Some (5 + nu)) /\ nth_error (d_y d) 1 = Some (Some (10 * (P3 / P2))).
Proof.
  split; [apply lazy_newton_solves; lra|].
  pose proof (pm_incr (7/5) 2 3 ltac:(lra) ltac:(lra) ltac:(lra)) as I.
  pose proof (ptps_ratio_pos (7/5) 2) as Q2. 
  assert (Q : Rpower (tt (7/5) 2) (7/5 / (7/5 - 1)) < Rpower (tt (7/5) 3) (7/5 / (7/5 - 1))).
  { apply Rpower_lt_base; [apply tt_pos; lra|apply tt_incr; lra|lra]. }
  exists (pm (7/5) 3 - pm (7/5) 2), (Rpower (tt (7/5) 2) (7/5 / (7/5 - 1))), (Rpower (tt (7/5) 3) (7/5 / (7/5 - 1))).
  eexists. split; [lra|]. rewrite !PtPs_eval by lra. split; [reflexivity|]. split; [reflexivity|]. split; [exact Q|].
  unfold plot_isentropic. cbv zeta. cbn [chosen existsb String.eqb Ascii.eqb Bool.eqb orb draw app]. split; [left; reflexivity|]. cbn [d_x d_y].
  rewrite !nth_error_map, !linspace_last by lia. cbn [option_map nadd]. split; [reflexivity|].
  unfold IsentropicPsratio_Mach_deflection, Mach_PrandtlMeyer. cbv zeta. rewrite (PM_eval _ 3) by (try rewrite Rabs_pos_eq; lra). cbn [nsub nmul nadd].
  replace (2 + 0 * (pm (7/5) 3 - (pm (7/5) 3 - pm (7/5) 2))) with 2 by ring. unfold lazy_newton at 1.
  rewrite (PM_eval _ 2) by (try rewrite Rabs_pos_eq; lra). cbn [nsub].
  replace (pm (7/5) 2 - (pm (7/5) 3 - (pm (7/5) 3 - pm (7/5) 2))) with 0 by ring. rewrite Rabs_R0. destruct (Rle_dec 0 0); [|lra].
  rewrite !PtPs_eval by lra. rewrite ndiv_Some by lra. reflexivity.
Qed.
