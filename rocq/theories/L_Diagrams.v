(** * Lemmas for the example diagrams: examples/rayleigh-heating.py, rayleigh-diag.py, fanno-diag.py, massflow-diag.py *)
From Coq Require Import List Lia.
From Coquelicot Require Import Coquelicot.
From Verif Require Import L_Num Spec NumSpec RamjetSpec DiagramSpec M_Isentropic M_MassFlow M_Fanno M_Rayleigh M_Polar M_Ramjet M_Diagrams L_Isentropic L_MassFlow L_Fanno L_Rayleigh L_Polar L_Ramjet.
Open Scope R_scope.

Lemma ti_pos g M : 1 < g -> 0 < M -> 0 < ray_ti g M.
Proof. intros Hg HM. unfold ray_ti. pose proof (tt_pos g M Hg). pose proof (rd_pos g M Hg). pos. Qed.
Lemma ti_le1 g M : 1 < g -> ray_ti g M <= 1.
Proof. intros Hg. pose proof (ray_ti_gap g M Hg). pose proof (pow2_ge_0 ((1 - M ^ 2) / rd g M)). lra. Qed.
Lemma ti_one g : 1 < g -> ray_ti g 1 = 1.
Proof. intros Hg. unfold ray_ti, rd, tt. field. lra. Qed.
Definition hgap (g M : R) : R := (1 - M ^ 2) / rd g M.
Lemma hgap_decr g x y : 1 < g -> 0 <= x -> x < y -> hgap g y < hgap g x.
Proof.
  intros Hg Hx Hxy. pose proof (rd_pos g x Hg). pose proof (rd_pos g y Hg). unfold hgap.
  assert (E : (1 - x ^ 2) / rd g x - (1 - y ^ 2) / rd g y = (g + 1) * ((y - x) * (y + x)) / (rd g x * rd g y)) by (unfold rd in *; field; lra).
  assert (0 < (g + 1) * ((y - x) * (y + x)) / (rd g x * rd g y)) by pos. lra.
Qed.
Lemma hgap_one g : 1 < g -> hgap g 1 = 0.
Proof. intros Hg. unfold hgap, rd. field. lra. Qed.
Lemma ti_hgap g M : 1 < g -> ray_ti g M = 1 - hgap g M ^ 2.
Proof. intros Hg. pose proof (ray_ti_gap g M Hg). unfold hgap. lra. Qed.
Lemma ti_incr g x y : 1 < g -> 0 <= x -> x < y -> y <= 1 -> ray_ti g x < ray_ti g y.
Proof.
  intros Hg Hx Hxy Hy. rewrite !ti_hgap by assumption. pose proof (hgap_decr g x y Hg Hx Hxy).
  assert (0 <= hgap g y) by (destruct (Req_dec y 1) as [->|]; [rewrite hgap_one by assumption; lra|rewrite <- (hgap_one g Hg); left; apply hgap_decr; lra]). nra.
Qed.
Lemma ti_decr g x y : 1 < g -> 1 <= x -> x < y -> ray_ti g y < ray_ti g x.
Proof.
  intros Hg Hx Hxy. rewrite !ti_hgap by assumption. pose proof (hgap_decr g x y Hg ltac:(lra) Hxy).
  assert (hgap g x <= 0) by (destruct (Req_dec x 1) as [->|]; [rewrite hgap_one by assumption; lra|rewrite <- (hgap_one g Hg); left; apply hgap_decr; lra]). nra.
Qed.
Definition same_side (M M' : R) : Prop := (M <= 1 /\ M' <= 1) \/ (1 <= M /\ 1 <= M').
Lemma ti_inj g x y : 1 < g -> 0 < x -> 0 < y -> same_side x y -> ray_ti g x = ray_ti g y -> x = y.
Proof.
  intros Hg Hx Hy S E. destruct (Rtotal_order x y) as [L|[L|L]]; [|exact L|].
  - destruct S as [[A B]|[A B]]; [pose proof (ti_incr g x y Hg ltac:(lra) L B)|pose proof (ti_decr g x y Hg A L)]; lra.
  - destruct S as [[A B]|[A B]]; [pose proof (ti_incr g y x Hg ltac:(lra) L A)|pose proof (ti_decr g y x Hg B L)]; lra.
Qed.
(** heating, from the conservation laws, is a ratio of total temperatures on the Rayleigh line *)
Lemma flux_impulse g M pi : 1 < g -> 0 < M -> 0 < pi -> 0 < impulse g M pi /\ (mass_flux g M pi / impulse g M pi) ^ 2 = ray_ti g M / (2 * (g + 1)).
Proof.
  intros Hg HM Hp. assert (T := tt_pos g M Hg). assert (D := rd_pos g M Hg). unfold impulse, mass_flux. rewrite tfun_tt.
  assert (P : 0 < static_p g M pi) by (unfold static_p; pose proof (Rpower_pos (tfun g M) (g / (g - 1))); pos).
  fold (rd g M). split; [pos|]. pose proof (sqrt_sqrt (tt g M) ltac:(lra)) as Q.
  replace ((static_p g M pi * M * sqrt (tt g M) / (static_p g M pi * rd g M)) ^ 2) with (M ^ 2 * (sqrt (tt g M) * sqrt (tt g M)) / rd g M ^ 2) by (field; lra).
  rewrite Q. unfold ray_ti. field. lra.
Qed.
Lemma heats_iff g T M M' : 1 < g -> 0 < T -> 0 < M -> 0 < M' -> heats g T M M' <-> ray_ti g M' = T * ray_ti g M.
Proof.
  intros Hg HT HM HM'. split.
  - intros (pi' & Hp & I & F). destruct (flux_impulse g M 1 Hg HM ltac:(lra)) as [I1 E1]. destruct (flux_impulse g M' pi' Hg HM' Hp) as [I2 E2].
    assert (S := sqrt_lt_R0 _ HT). rewrite F, I in E1. pose proof (sqrt_sqrt T ltac:(lra)) as Q.
    replace ((mass_flux g M' pi' / sqrt T / impulse g M' pi') ^ 2) with ((mass_flux g M' pi' / impulse g M' pi') ^ 2 / (sqrt T * sqrt T)) in E1 by (field; lra).
    rewrite E2, Q in E1. apply (f_equal (fun x => x * (T * (2 * (g + 1))))) in E1.
    replace (ray_ti g M' / (2 * (g + 1)) / T * (T * (2 * (g + 1)))) with (ray_ti g M') in E1 by (field; lra). rewrite E1. field. lra.
  - intros E. destruct (pi_ratio_heat g M Hg) as (b & Hb & Eb). destruct (pi_ratio_heat g M' Hg) as (b' & Hb' & Eb').
    exists (1 * b' / b). split; [pos|]. apply (duct_rayleigh g T M 1 M' _ (ray_ti g M) b (ray_ti g M') b'); auto using RaTi_eval.
Qed.

Lemma over_ge1 t : 0 < t <= 1 -> 1 <= 1 / t.
Proof. intros H. apply Rle_div_r; lra. Qed.
Lemma over_gt1 t : 0 < t < 1 -> 1 < 1 / t.
Proof. intros H. apply Rlt_div_r; lra. Qed.

(** ** rayleigh-heating.py *)
Lemma heating_nth n g M0 tm T i (M : num) : 0 < tm -> (1 <= n)%nat -> (i <= n)%nat -> Ra_maxTiratio_Mach (Some M0) (Some g) = Some tm -> T = sample 1 tm n i ->
  M = (if Rlt_dec M0 1 then Ra_SubMach_TiTicri (Some (T / tm)) (Some g) else Ra_SupMach_TiTicri (Some (T / tm)) (Some g)) ->
  nth_error (d_x (heating_curve n (Some g) (Some M0))) i = Some (Some T) /\ nth_error (d_y (heating_curve n (Some g) (Some M0))) i = Some M.
Proof.
  intros Ht Hn Hi E -> ->. unfold heating_curve, curve. cbv zeta. cbn [d_x d_y]. rewrite E. split; [now apply alpha_nth|]. rewrite nth_error_map, alpha_nth by assumption.
  cbn [option_map]. f_equal. rewrite ndiv_Some by lra. unfold nlt, sample. cbn [nif]. destruct (Rlt_dec M0 1); reflexivity.
Qed.
Lemma heating_length n g M0 : List.length (d_x (heating_curve n g M0)) = S n /\ List.length (d_y (heating_curve n g M0)) = S n.
Proof. unfold heating_curve, curve. cbv zeta. cbn [d_x d_y]. unfold logspace. rewrite !map_length, linspace_length. auto. Qed.
Lemma air_max M0 g : 0 < M0 -> Ra_maxTiratio_Mach (Some M0) g = Some (1 / ray_ti air M0).
Proof. intros H. unfold Ra_maxTiratio_Mach. change (14/10) with air. rewrite RaTi_eval by apply air_gt1. pose proof (ti_pos air M0 air_gt1 H). rewrite ndiv_Some by lra. reflexivity. Qed.
Lemma sample_range tm n i : 1 <= tm -> (1 <= n)%nat -> (i <= n)%nat -> 1 <= sample 1 tm n i <= tm.
Proof. intros H1 H2 H3. exact (alpha_between 1 tm n i H2 H3 H1). Qed.
Lemma sample_last a b n : (1 <= n)%nat -> sample a b n n = b.
Proof. intros Hn. unfold sample. assert (INR n <> 0) by (apply not_0_INR; lia). field. assumption. Qed.
Lemma sample_first a b n : (1 <= n)%nat -> sample a b n 0 = a.
Proof. intros Hn. unfold sample. assert (INR n <> 0) by (apply not_0_INR; lia). cbn [INR]. field. assumption. Qed.
Lemma sample_incr a b n i j : a < b -> (1 <= n)%nat -> (i < j)%nat -> sample a b n i < sample a b n j.
Proof.
  intros Hab Hn Hij. unfold sample. assert (0 < INR n) by (apply lt_0_INR; lia). assert (INR i < INR j) by now apply lt_INR.
  assert (E : a + INR j * (b - a) / INR n - (a + INR i * (b - a) / INR n) = (INR j - INR i) * (b - a) / INR n) by (field; lra).
  assert (0 < (INR j - INR i) * (b - a) / INR n) by pos. lra.
Qed.
Lemma heating_point M0 n i : 0 < M0 -> (1 <= n)%nat -> (i <= n)%nat ->
  exists M, on_curve (heating_curve n (Some air) (Some M0)) i (sample 1 (1 / ray_ti air M0) n i) M /\ 0 < M /\
    ray_ti air M = sample 1 (1 / ray_ti air M0) n i * ray_ti air M0 /\ (M0 < 1 -> M <= 1) /\ (1 <= M0 -> 1 <= M).
Proof.
  intros HM Hn Hi. pose proof (ti_pos air M0 air_gt1 HM) as P0. pose proof (ti_le1 air M0 air_gt1) as P1. set (t0 := ray_ti air M0) in *.
  assert (Hm : 1 <= 1 / t0) by (apply over_ge1; lra).
  pose proof (sample_range (1 / t0) n i Hm Hn Hi) as R1. set (T := sample 1 (1 / t0) n i) in *.
  assert (Eq : T / (1 / t0) = T * t0) by (field; lra).
  assert (B : t0 <= T * t0 <= 1) by (split; [nra|]; replace 1 with (1 / t0 * t0) by (field; lra); apply Rmult_le_compat_r; lra).
  destruct (Rlt_dec M0 1) as [L|L].
  - destruct (rayleigh_sub air air_gt1) as [_ S2]. destruct (S2 (T * t0) ltac:(lra)) as (M & E & Rm & Et). rewrite RaTi_eval in Et by apply air_gt1. injection Et as Et.
    exists M. assert (0 < M). { destruct (Req_dec M 0) as [->|]; [|lra]. exfalso. unfold ray_ti in Et. replace (2 * (air + 1) * 0 ^ 2 / rd air 0 ^ 2 * tt air 0) with 0 in Et; [lra|]. unfold rd, air; field. }
    split; [|repeat split; lra]. apply (heating_nth n air M0 (1 / t0) T i (Some M)); auto; try lra; [apply air_max; assumption|]. destruct (Rlt_dec M0 1); [|lra]. now rewrite Eq, E.
  - destruct (rayleigh_sup air air_gt1) as (S1 & S2 & _). destruct (S1 M0 t0 ltac:(lra) (RaTi_eval _ _ air_gt1)) as [Rt _].
    destruct (S2 (T * t0) ltac:(lra)) as (M & E & Rm & Et). rewrite RaTi_eval in Et by apply air_gt1. injection Et as Et.
    exists M. split; [|repeat split; lra]. apply (heating_nth n air M0 (1 / t0) T i (Some M)); auto; try lra; [apply air_max; assumption|]. destruct (Rlt_dec M0 1); [lra|]. now rewrite Eq, E.
Qed.
Lemma on_curve_inj d i x y x' y' : on_curve d i x y -> on_curve d i x' y' -> x = x' /\ y = y'.
Proof. intros [A B] [A' B']. rewrite A in A'. rewrite B in B'. split; congruence. Qed.
(*@P C103_curve: For every Mach number M0 > 0 and every number n >= 1 of intervals, the curve that rayleigh-heating.py draws for M0 (gamma = 1.4) has n + 1 finite points (Ti, M), at equally spaced total temperature ratios from 1 to Tmax. At each of them mass and impulse conservation in a constant-area duct lead from M0 to M when the total temperature is multiplied by Ti, M is between M0 and 1, and it is the only such Mach number on that side of 1. The first point is (1, M0) and the last one (Tmax, 1); Tmax is the thermal choking limit: no Mach number is reached by a larger ratio. *)
Lemma heating_curve_points : forall M0 n, 0 < M0 -> (1 <= n)%nat ->
  exists Tmax, 1 <= Tmax /\
  points_of (heating_curve n (Some air) (Some M0)) n (fun i T M =>
    T = sample 1 Tmax n i /\ heats air T M0 M /\ (M0 <= M <= 1 \/ 1 <= M <= M0) /\
    (forall M', 0 < M' -> (M0 < 1 -> M' <= 1) -> (1 < M0 -> 1 <= M') -> heats air T M0 M' -> M' = M)) /\
  on_curve (heating_curve n (Some air) (Some M0)) 0 1 M0 /\ on_curve (heating_curve n (Some air) (Some M0)) n Tmax 1 /\
  (forall T M, Tmax < T -> 0 < M -> ~ heats air T M0 M).
Proof.
  intros M0 n HM Hn. pose proof (ti_pos air M0 air_gt1 HM) as P0. pose proof (ti_le1 air M0 air_gt1) as P1. pose proof air_gt1 as G.
  assert (Hm : 1 <= 1 / ray_ti air M0) by (apply over_ge1; lra).
  exists (1 / ray_ti air M0). split; [exact Hm|]. split; [|split; [|split]].
  - destruct (heating_length n (Some air) (Some M0)) as [L1 L2]. split; [exact L1|]. split; [exact L2|]. intros i Hi.
    destruct (heating_point M0 n i HM Hn Hi) as (M & [Ex Ey] & PM & Et & S1 & S2). pose proof (sample_range _ n i Hm Hn Hi) as R1. set (T := sample 1 _ n i) in *.
    exists T, M. split; [exact Ex|]. split; [exact Ey|]. split; [reflexivity|]. split; [apply heats_iff; (assumption || lra)|]. split.
    + destruct (Rlt_dec M0 1) as [L|L].
      * left. split; [|now apply S1]. destruct (Rle_dec M0 M) as [|N]; [assumption|exfalso]. pose proof (ti_incr air M M0 G ltac:(lra) ltac:(lra) ltac:(lra)). nra.
      * right. split; [apply S2; lra|]. destruct (Rle_dec M M0) as [|N]; [assumption|exfalso]. pose proof (ti_decr air M0 M G ltac:(lra) ltac:(lra)). nra.
    + intros M' PM' C1 C2 H. apply heats_iff in H; [|assumption|lra|assumption|assumption].
      destruct (Rtotal_order M0 1) as [L|[L|L]].
      * apply (ti_inj air); try assumption; [left; split; auto|lra].
      * assert (K : ray_ti air M' = 1). { subst M0. rewrite ti_one in H, R1 by exact G. assert (T = 1) by lra. rewrite H, H0. ring. }
        assert (K2 : ray_ti air M = 1). { rewrite Et, <- H. exact K. }
        destruct (rayleigh_ti_max air M' G ltac:(lra)) as (t & E & _ & U). rewrite RaTi_eval in E by exact G. injection E as E. 
        destruct (rayleigh_ti_max air M G ltac:(lra)) as (t2 & E2 & _ & U2). rewrite RaTi_eval in E2 by exact G. injection E2 as E2.
        rewrite (proj1 U) by lra. rewrite (proj1 U2) by lra. reflexivity.
      * apply (ti_inj air); try assumption; [right; split; [now apply C2|apply S2; lra]|lra].
  - destruct (heating_point M0 n 0 HM Hn ltac:(lia)) as (M & E & PM & Et & S1 & S2). rewrite sample_first in E, Et by assumption. rewrite Rmult_1_l in Et.
    replace M0 with M at 2; [exact E|]. apply (ti_inj air); try assumption. destruct (Rlt_dec M0 1); [left; split; [now apply S1|lra]|right; split; [apply S2|]; lra].
  - destruct (heating_point M0 n n HM Hn ltac:(lia)) as (M & E & PM & Et & S1 & S2). rewrite sample_last in E, Et by assumption.
    replace (1 / ray_ti air M0 * ray_ti air M0) with 1 in Et by (field; lra).
    replace M with 1 in E; [exact E|]. destruct (rayleigh_ti_max air M G ltac:(lra)) as (t & Eq & _ & U). rewrite RaTi_eval in Eq by exact G. injection Eq as Eq. symmetry. apply U. lra.
  - intros T M HT PM H. apply heats_iff in H; [|assumption|lra|assumption|assumption]. pose proof (ti_le1 air M G).
    assert (1 / ray_ti air M0 * ray_ti air M0 < T * ray_ti air M0) by (apply Rmult_lt_compat_r; assumption). replace (1 / ray_ti air M0 * ray_ti air M0) with 1 in H1 by (field; lra). lra.
Qed.
(*@P C103_monotone: Along every drawn heating curve the Mach number strictly increases with the heating when the flow starts subsonic, and strictly decreases when it starts supersonic. *)
Lemma heating_monotone : forall M0 n i j T M T' M', 0 < M0 -> M0 <> 1 -> (1 <= n)%nat -> (i < j <= n)%nat ->
  on_curve (heating_curve n (Some air) (Some M0)) i T M -> on_curve (heating_curve n (Some air) (Some M0)) j T' M' ->
  T < T' /\ (M0 < 1 -> M < M') /\ (1 < M0 -> M' < M).
Proof.
  intros M0 n i j T M T' M' HM N1 Hn Hij A B. pose proof air_gt1 as G. pose proof (ti_pos air M0 G HM) as P0.
  assert (P1 : ray_ti air M0 < 1). { destruct (rayleigh_ti_max air M0 G ltac:(lra)) as (t & Eq & R1 & U). rewrite RaTi_eval in Eq by exact G. injection Eq as Eq. destruct (Req_dec t 1) as [E|]; [elim N1; apply U, E|lra]. }
  assert (Hm : 1 < 1 / ray_ti air M0) by (apply over_gt1; lra).
  destruct (heating_point M0 n i HM Hn ltac:(lia)) as (Ma & Ea & PM & Et & S1 & S2). destruct (heating_point M0 n j HM Hn ltac:(lia)) as (Mb & Eb & PM' & Et' & S1' & S2').
  destruct (on_curve_inj _ _ _ _ _ _ A Ea) as [-> ->]. destruct (on_curve_inj _ _ _ _ _ _ B Eb) as [-> ->].
  pose proof (sample_incr 1 (1 / ray_ti air M0) n i j Hm Hn ltac:(lia)) as Q. split; [exact Q|].
  assert (Ht : ray_ti air Ma < ray_ti air Mb) by (rewrite Et, Et'; now apply Rmult_lt_compat_r). split; intros L.
  - destruct (Rlt_le_dec Ma Mb) as [|[C|C]]; [assumption| |subst; lra]. pose proof (ti_incr air Mb Ma G ltac:(lra) C (S1 L)). lra.
  - destruct (Rlt_le_dec Mb Ma) as [|[C|C]]; [assumption| |subst; lra]. pose proof (ti_decr air Ma Mb G (S2 ltac:(lra)) C). lra.
Qed.
(*@P C103_stages: Heating in stages: if (T1, M1) is on the curve of M0, (T2, M2) on the curve drawn for M1, and (T3, M3) on the curve of M0 with T3 = T1 T2, then M3 = M2, whatever the numbers of points. *)
Lemma heating_stages : forall M0 n m k i j l T1 M1 T2 M2 T3 M3, 0 < M0 -> M0 <> 1 -> (1 <= n)%nat -> (1 <= m)%nat -> (1 <= k)%nat -> (i <= n)%nat -> (j <= m)%nat -> (l <= k)%nat ->
  on_curve (heating_curve n (Some air) (Some M0)) i T1 M1 -> on_curve (heating_curve m (Some air) (Some M1)) j T2 M2 ->
  on_curve (heating_curve k (Some air) (Some M0)) l T3 M3 -> T3 = T1 * T2 -> M3 = M2.
Proof.
  intros M0 n m k i j l T1 M1 T2 M2 T3 M3 HM N1 Hn Hm Hk Hi Hj Hl A B C E. pose proof air_gt1 as G.
  destruct (heating_point M0 n i HM Hn Hi) as (Ma & Ea & PM & Et & S1 & S2). destruct (on_curve_inj _ _ _ _ _ _ A Ea) as [-> ->].
  destruct (heating_point Ma m j PM Hm Hj) as (Mb & Eb & PM' & Et' & S1' & S2'). destruct (on_curve_inj _ _ _ _ _ _ B Eb) as [-> ->].
  destruct (heating_point M0 k l HM Hk Hl) as (Mc & Ec & PM'' & Et'' & S1'' & S2''). destruct (on_curve_inj _ _ _ _ _ _ C Ec) as [E3 ->].
  assert (Q : ray_ti air Mc = ray_ti air Mb) by (rewrite Et'', <- E3, E, Et', Et; ring).
  apply (ti_inj air); try assumption. destruct (Rlt_dec M0 1) as [L|L].
  - left. split; [auto|]. destruct (Rlt_dec Ma 1) as [L2|L2]; [auto|]. assert (Ma = 1) by (specialize (S1 L); lra). subst Ma. 
    pose proof (sample_range (1 / ray_ti air 1) m j) as SR. rewrite ti_one in SR, Et' by exact G. specialize (SR ltac:(lra) Hm Hj). rewrite Rmult_1_r in Et'.
    assert (K : ray_ti air Mb = 1) by (rewrite Et'; lra). destruct (rayleigh_ti_max air Mb G ltac:(lra)) as (t & Eq & _ & U). rewrite RaTi_eval in Eq by exact G. injection Eq as Eq. rewrite (proj1 U); lra.
  - right. split; [apply S2''; lra|]. apply S2', S2. lra.
Qed.
(*@P C103_figure: The script draws one curve per starting Mach number, 0.1 to 0.9 and 1.2 to 20, each the heating curve above with 101 points. *)
Lemma heating_figure_is : List.length heating_figure = 17%nat /\
  forall k d, nth_error heating_figure k = Some d -> exists M0, nth_error heating_starts k = Some (Some M0) /\ 0 < M0 /\ M0 <> 1 /\ d = heating_curve 100 (Some air) (Some M0).
Proof.
  split; [reflexivity|]. intros k d H. unfold heating_figure in H. rewrite nth_error_map in H. destruct (nth_error heating_starts k) as [x|] eqn:E; [|discriminate].
  cbn [option_map] in H. injection H as <-. apply nth_error_In in E. assert (P : exists M, x = Some M /\ 0 < M /\ M <> 1).
  { unfold heating_starts in E. repeat (destruct E as [<-|E]; [eexists; split; [reflexivity|lra]|]). destruct E. }
  destruct P as (M & -> & P1 & P2). exists M. auto.
Qed.
(*@P C103_gamma_refuted: The script does not survive a change of its constant gam: for every gamma > 1 other than 1.4, every M0 > 0 other than 1 and every number of points, the curve does not start at (1, M0) - the choking limit is always computed for 1.4. *)
Lemma heating_gamma : forall g M0 n, 1 < g -> g <> 14 / 10 -> 0 < M0 -> M0 <> 1 -> (1 <= n)%nat ->
  ~ on_curve (heating_curve n (Some g) (Some M0)) 0 1 M0.
Proof.
  intros g M0 n Hg Ng HM N1 Hn [_ H]. pose proof air_gt1 as G. pose proof (ti_pos air M0 G HM) as P0. pose proof (ti_le1 air M0 G) as P1. set (t0 := ray_ti air M0) in *.
  assert (0 < 1 / t0) by pos.
  destruct (heating_nth n g M0 (1 / t0) 1 0 _ ltac:(lra) Hn ltac:(lia) (air_max M0 (Some g) HM) ltac:(now rewrite sample_first) eq_refl) as [_ E].
  rewrite H in E. apply (f_equal (fun o => match o with Some x => x | None => None end)) in E. cbn beta iota in E. replace (1 / (1 / t0)) with t0 in E by (field; lra).
  assert (K : Ra_Ti_Ticri (Some M0) (Some g) = Some t0).
  { destruct (Rlt_dec M0 1) as [L|L].
    - destruct (rayleigh_sub g Hg) as [_ S2]. destruct (S2 t0 ltac:(lra)) as (M & E2 & _ & E3). rewrite E2 in E. injection E as ->. exact E3.
    - destruct (rayleigh_sup g Hg) as (_ & S2 & S3). destruct (Rlt_dec (1 - 1 / g ^ 2) t0) as [Q|Q].
      + destruct (S2 t0 ltac:(lra)) as (M & E2 & _ & E3). rewrite E2 in E. injection E as ->. exact E3.
      + rewrite S3 in E by lra. discriminate. }
  apply (maxTi_refuted M0 g t0 Hg Ng HM N1 K). apply air_max, HM.
Qed.
(*@E C103_example: From Mach 1/2 the choking ratio is 81/56, and the curve drawn with 4 intervals ends at (81/56, 1). *)
Lemma heating_example : on_curve (heating_curve 4 (Some air) (Some (1/2))) 4 (81/56) 1 /\ on_curve (heating_curve 4 (Some air) (Some (1/2))) 0 1 (1/2) /\
  In (Some (5/10)) heating_starts.
Proof.
  destruct (heating_curve_points (1/2) 4 ltac:(lra) ltac:(lia)) as (Tm & _ & _ & A & B & _). 
  destruct (heating_nth 4 air (1/2) (1 / ray_ti air (1/2)) (1 / ray_ti air (1/2)) 4 _ ltac:(pose proof (ti_pos air (1/2) air_gt1 ltac:(lra)); pos) ltac:(lia) ltac:(lia) (air_max (1/2) _ ltac:(lra)) ltac:(now rewrite sample_last by lia) eq_refl) as [X _].
  assert (E : 1 / ray_ti air (1/2) = 81/56) by (unfold ray_ti, rd, tt, air; field). rewrite E in X. destruct B as [B1 B2].
  split; [split; [exact X|exact B2]|]. split; [exact A|]. unfold heating_starts. cbn [In]. tauto.
Qed.
