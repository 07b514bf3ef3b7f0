(** * C27, C69, C22: runs of the secant iteration that cannot diverge *)
From Coquelicot Require Import Coquelicot.
From Verif Require Import L_Num Spec NumSpec M_IterSolve L_Secant.
Open Scope R_scope.

(** z is between the root r and the point at signed distance t*U from it (t = 1 or -1 is the side) *)
Definition beside (r t U z : R) : Prop := 0 <= t * (z - r) <= U.

(** one step from two distinct points on the same side of the root *)
Lemma secant_step r t U y (F : R -> R) p q : (t = 1 \/ t = -1) ->
  F r = y -> (forall a b, beside r t U a -> beside r t U b -> a <> r -> b <> r -> 0 < (F a - y) * (F b - y)) ->
  (forall a b, beside r t U a -> beside r t U b -> Rabs (a - r) <= Rabs (b - r) -> Rabs (F a - y) * Rabs (b - r) <= Rabs (F b - y) * Rabs (a - r)) ->
  beside r t U p -> beside r t U q -> p <> q ->
  let z := q + (q - p) / (F q - F p) * (y - F q) in
  F q - F p <> 0 /\ beside r t U z /\ Rabs (z - r) <= Rabs (p - r) /\ Rabs (z - r) <= Rabs (q - r).
Proof.
  intros Ht Hr Hs Hstar.
  (* first for p closer to the root than q, then by symmetry of the formula *)
  assert (K : forall p q, beside r t U p -> beside r t U q -> Rabs (p - r) < Rabs (q - r) ->
    F q - F p <> 0 /\ beside r t U (q + (q - p) / (F q - F p) * (y - F q)) /\ Rabs (q + (q - p) / (F q - F p) * (y - F q) - r) <= Rabs (p - r)).
  { clear p q. intros p q Hp Hq Hd.
    assert (Ep : exists u, 0 <= u <= U /\ p = r + t * u /\ Rabs (p - r) = u).
    { exists (t * (p - r)). split; [exact Hp|]. destruct Ht as [-> | ->]; unfold beside in Hp; (split; [ring|]).
      - rewrite Rabs_pos_eq; lra. - rewrite Rabs_left1; lra. }
    assert (Eq : exists v, 0 <= v <= U /\ q = r + t * v /\ Rabs (q - r) = v).
    { exists (t * (q - r)). split; [exact Hq|]. destruct Ht as [-> | ->]; unfold beside in Hq; (split; [ring|]).
      - rewrite Rabs_pos_eq; lra. - rewrite Rabs_left1; lra. }
    destruct Ep as (u & Hu & Ep & Au). destruct Eq as (v & Hv & Eq & Av). rewrite Au, Av in Hd.
    assert (Hqr : q <> r). { intros E. rewrite E in Av. replace (r - r) with 0 in Av by ring. rewrite Rabs_R0 in Av. lra. }
    (* the sign of F - y beside the root *)
    assert (Es : exists s, (s = 1 \/ s = -1) /\ Rabs (F q - y) = s * (F q - y) /\ 0 < s * (F q - y) /\ Rabs (F p - y) = s * (F p - y) /\ 0 <= s * (F p - y)).
    { destruct (Rtotal_order (F q - y) 0) as [L|[L|L]].
      - exists (-1). split; [now right|]. split; [rewrite Rabs_left; lra|]. split; [lra|].
        assert (F p - y <= 0). { destruct (Req_dec p r) as [->|N]; [lra|]. pose proof (Hs p q Hp Hq N Hqr). nra. }
        rewrite Rabs_left1; lra.
      - exfalso. pose proof (Hs q q Hq Hq Hqr Hqr). nra.
      - exists 1. split; [now left|]. split; [rewrite Rabs_pos_eq; lra|]. split; [lra|].
        assert (0 <= F p - y). { destruct (Req_dec p r) as [->|N]; [lra|]. pose proof (Hs p q Hp Hq N Hqr). nra. }
        rewrite Rabs_pos_eq; lra. }
    destruct Es as (s & Hsg & Bq & Pq & Bp & Pp).
    pose proof (Hstar p q Hp Hq ltac:(rewrite Au, Av; lra)) as St. rewrite Au, Av, Bq, Bp in St.
    set (b := s * (F q - y)) in *. set (a := s * (F p - y)) in *.
    assert (Eb : F q = y + s * b). { unfold b. destruct Hsg as [-> | ->]; ring. }
    assert (Ea : F p = y + s * a). { unfold a. destruct Hsg as [-> | ->]; ring. }
    assert (Hab : a < b) by nra.
    assert (Hd' : F q - F p = s * (b - a)) by (rewrite Eb, Ea; ring). assert (Hs0 : s <> 0) by (destruct Hsg; lra).
    split. { rewrite Hd'. apply Rmult_integral_contrapositive_currified; lra. }
    assert (Ez : q + (q - p) / (F q - F p) * (y - F q) = r + t * ((u * b - v * a) / (b - a))).
    { rewrite Hd', Eb, Eq, Ep. field. split; lra. }
    rewrite Ez. set (w := (u * b - v * a) / (b - a)).
    assert (Hw : 0 <= w <= u). { unfold w. split.
      - apply Rmult_le_reg_r with (b - a); [lra|]. unfold Rdiv. rewrite Rmult_assoc, Rinv_l, Rmult_0_l by lra. nra.
      - apply Rmult_le_reg_r with (b - a); [lra|]. unfold Rdiv. rewrite Rmult_assoc, Rinv_l by lra. nra. }
    assert (tt1 : t * t = 1) by (destruct Ht as [-> | ->]; ring).
    split. { unfold beside. replace (t * (r + t * w - r)) with (t * t * w) by ring. rewrite tt1. lra. }
    replace (r + t * w - r) with (t * w) by ring. rewrite Rabs_mult. replace (Rabs t) with 1 by (destruct Ht as [-> | ->]; [rewrite Rabs_pos_eq|rewrite Rabs_left]; lra).
    rewrite (Rabs_pos_eq w), Au; lra. }
  intros Hp Hq Hne z.
  assert (Hne' : Rabs (p - r) <> Rabs (q - r)). { unfold beside in *. intros E. apply Hne. destruct Ht as [-> | ->].
    - rewrite !Rabs_pos_eq in E; lra. - rewrite !Rabs_left1 in E; lra. }
  destruct (Rlt_le_dec (Rabs (p - r)) (Rabs (q - r))) as [L|L].
  - destruct (K p q Hp Hq L) as (K1 & K2 & K3). split; [exact K1|]. split; [exact K2|]. split; [exact K3|]. unfold z. lra.
  - destruct (K q p Hq Hp ltac:(lra)) as (K1 & K2 & K3).
    assert (E : z = p + (p - q) / (F p - F q) * (y - F p)). { unfold z. field. split; lra. }
    rewrite E. split; [lra|]. split; [exact K2|]. lra.
Qed.
Lemma test_ne a b : ngt (nabs (nsub (Some a) (Some b))) (nmax secant_tol (nmul secant_tol (nabs (Some a)))) = Some true -> a <> b.
Proof. intros H E. subst. rewrite test_same in H. discriminate. Qed.
Section One_side.
  Variables (f : num -> num) (F : R -> R) (r t U y : R).
  Hypotheses (Ht : t = 1 \/ t = -1) (Hf : forall z, beside r t U z -> f (Some z) = Some (F z)) (Hr : F r = y)
    (Hs : forall a b, beside r t U a -> beside r t U b -> a <> r -> b <> r -> 0 < (F a - y) * (F b - y))
    (Hstar : forall a b, beside r t U a -> beside r t U b -> Rabs (a - r) <= Rabs (b - r) -> Rabs (F a - y) * Rabs (b - r) <= Rabs (F b - y) * Rabs (a - r)).
  Lemma one_sided_loop : forall n ox nx, beside r t U ox -> beside r t U nx ->
    let run := secant_loop n f (Some y) secant_tol (Some ox) (Some (F ox)) (Some nx) in
    exists z, s_result run = Some z /\ beside r t U z /\ Rabs (z - r) <= Rabs (nx - r) /\ (s_evals run <> nil -> Rabs (z - r) <= Rabs (ox - r)) /\
      List.Forall (fun e => exists a, e = Some a /\ beside r t U a /\ Rabs (z - r) <= Rabs (a - r)) (s_evals run).
  Proof.
    induction n as [|n IH]; intros ox nx Ho Hn.
    { exists nx. cbn. split; [reflexivity|]. split; [exact Hn|]. split; [lra|]. split; [congruence|constructor]. }
    cbv zeta. rewrite secant_loop_S. destruct (test_pos nx ox) as [T|T]; rewrite T.
    2:{ exists nx. cbn. split; [reflexivity|]. split; [exact Hn|]. split; [lra|]. split; [congruence|constructor]. }
    apply test_ne in T. destruct (secant_step r t U y F ox nx Ht Hr Hs Hstar Ho Hn ltac:(congruence)) as (S1 & S2 & S3 & S4).
    rewrite (Hf nx Hn). cbv zeta. cbn [nsub]. rewrite ndiv_Some by assumption. cbn [nmul nadd s_result s_evals].
    destruct (IH nx _ Hn S2) as (z & Z1 & Z2 & Z3 & Z4 & Z5). exists z. split; [exact Z1|]. split; [exact Z2|]. split; [lra|]. split; [lra|].
    constructor; [exists nx; split; [reflexivity|]; split; [exact Hn|lra]|exact Z5].
  Qed.
End One_side.
(*@P C27_one_sided: Runs that cannot diverge. Let r be a root of f = y, and let the start x (|x| > 0.01) and 0.999 x lie on the same side of r. If, on that side, f - y keeps one sign and the chords from the root steepen with the distance (as for a function bending away from the root's tangent), then every point at which f is evaluated and the answer lie between r and the farther of the two start points, and the answer is at least as close to r as every point evaluated. *)
Lemma secant_one_sided : forall f F r t U y x, (t = 1 \/ t = -1) -> 1/100 < Rabs x ->
  (forall z, beside r t U z -> f (Some z) = Some (F z)) -> F r = y ->
  (forall a b, beside r t U a -> beside r t U b -> a <> r -> b <> r -> 0 < (F a - y) * (F b - y)) ->
  (forall a b, beside r t U a -> beside r t U b -> Rabs (a - r) <= Rabs (b - r) -> Rabs (F a - y) * Rabs (b - r) <= Rabs (F b - y) * Rabs (a - r)) ->
  beside r t U x -> beside r t U (x * (999/1000)) ->
  exists z, secant_solve f (Some y) (Some x) = Some z /\ beside r t U z /\
    List.Forall (fun e => exists a, e = Some a /\ beside r t U a /\ Rabs (z - r) <= Rabs (a - r)) (s_evals (secant_run_of f (Some y) (Some x) secant_tol)).
Proof.
  intros f F r t U y x Ht Hx Hf Hr Hs Hstar H0 H1. rewrite secant_solve_run. unfold secant_run_of. change 19%nat with (S 18). generalize 18%nat. intros k. rewrite (Hf x H0). cbn [nmul].
  destruct (one_sided_loop f F r t U y Ht Hf Hr Hs Hstar (S k) x (x * (999/1000)) H0 H1) as (z & Z1 & Z2 & Z3 & Z4 & Z5).
  exists z. cbn [s_result s_evals]. split; [exact Z1|]. split; [exact Z2|].
  constructor; [|exact Z5]. exists x. split; [reflexivity|]. split; [exact H0|]. apply Z4.
  rewrite secant_loop_S, start_test. destruct (Rlt_dec _ _); [|contradiction]. cbv zeta. cbn [s_evals]. discriminate.
Qed.

(** the same in terms of the slope: start below the root, slope of one sign whose size does not increase towards the root *)
Lemma below_root (F G : R -> R) lo r e : (e = 1 \/ e = -1) -> lo <= r ->
  (forall z, lo <= z <= r -> is_derive F z (G z)) -> (forall z, lo <= z < r -> 0 < e * G z) ->
  (forall a b, lo <= a -> a < b -> b <= r -> e * G b <= e * G a) ->
  (forall a b, beside r (-1) (r - lo) a -> beside r (-1) (r - lo) b -> a <> r -> b <> r -> 0 < (F a - F r) * (F b - F r)) /\
  (forall a b, beside r (-1) (r - lo) a -> beside r (-1) (r - lo) b -> Rabs (a - r) <= Rabs (b - r) -> Rabs (F a - F r) * Rabs (b - r) <= Rabs (F b - F r) * Rabs (a - r)).
Proof.
  intros He Hlo HD HP HM.
  assert (MV : forall a b, lo <= a -> a < b -> b <= r -> exists c, F b - F a = G c * (b - a) /\ a < c < b).
  { intros a b Ha Hab Hb. destruct (MVT_cor2 F G a b Hab) as (c & E & Hc); [|exists c; auto].
    intros c Hc. apply is_derive_Reals, HD. lra. }
  assert (Sg : forall a, lo <= a < r -> 0 < e * (F r - F a)).
  { intros a Ha. destruct (MV a r) as (c & E & Hc); try lra. rewrite E. pose proof (HP c ltac:(lra)). nra. }
  assert (ee : e * e = 1) by (destruct He as [-> | ->]; ring).
  assert (Ab : forall a, lo <= a <= r -> Rabs (F a - F r) = e * (F r - F a)).
  { intros a Ha. destruct (Req_dec a r) as [->|N]; [rewrite !Rminus_eq_0, Rabs_R0; ring|]. pose proof (Sg a ltac:(lra)). destruct He as [-> | ->].
    - rewrite Rabs_left1; lra. - rewrite Rabs_pos_eq; lra. }
  unfold beside. split.
  - intros a b Ha Hb Na Nb. pose proof (Sg a ltac:(lra)). pose proof (Sg b ltac:(lra)). assert (0 < (e * (F r - F a)) * (e * (F r - F b))) by pos. nra.
  - intros a b Ha Hb Hd. rewrite !Ab by lra. rewrite !Rabs_left1 in * by lra.
    destruct (Req_dec a r) as [->|Na]. { rewrite !Rminus_eq_0. lra. }
    destruct (Req_dec a b) as [->|Nb]; [lra|].
    destruct (MV a r) as (c1 & E1 & H1); try lra. destruct (MV b a) as (c2 & E2 & H2); try lra.
    pose proof (HM c2 c1 ltac:(lra) ltac:(lra) ltac:(lra)) as K.
    replace (F r - F b) with ((F r - F a) + (F a - F b)) by ring. rewrite E1, E2.
    assert (0 < (r - a) * (a - b)) by nra. nra.
Qed.
(*@P C27_concave: In particular, for every f that is differentiable between the start and a root above it, with a slope of one sign that gets no steeper towards the root: from a positive start x > 0.01 below the root r the answer z satisfies x <= z <= r, and no point beyond r is ever evaluated. *)
Lemma secant_below : forall f F G r e x, (e = 1 \/ e = -1) -> 1/100 < x -> x <= r ->
  (forall z, x * (999/1000) <= z <= r -> f (Some z) = Some (F z) /\ is_derive F z (G z)) ->
  (forall z, x * (999/1000) <= z < r -> 0 < e * G z) ->
  (forall a b, x * (999/1000) <= a -> a < b -> b <= r -> e * G b <= e * G a) ->
  exists z, secant_solve f (Some (F r)) (Some x) = Some z /\ x <= z <= r /\
    List.Forall (fun p => exists a, p = Some a /\ x * (999/1000) <= a <= r) (s_evals (secant_run_of f (Some (F r)) (Some x) secant_tol)).
Proof.
  intros f F G r e x He Hx Hr HF HP HM.
  destruct (below_root F G (x * (999/1000)) r e He ltac:(lra) ltac:(intros; now apply HF) HP HM) as [K1 K2].
  destruct (secant_one_sided f F r (-1) (r - x * (999/1000)) (F r) x) as (z & Z1 & Z2 & Z3); auto; unfold beside in *; try lra.
  - rewrite Rabs_pos_eq; lra.
  - intros z Hz. apply HF. lra.
  - exists z. split; [exact Z1|]. split.
    + destruct (secant_evals f (Some (F r)) (Some x) secant_tol) as [_ Hh]. destruct (s_evals _) as [|h l]; [discriminate|]. injection Hh as ->.
      apply List.Forall_inv in Z3. destruct Z3 as (a & Ea & Ba & Da). injection Ea as <-. rewrite !Rabs_left1 in Da by lra. lra.
    + eapply List.Forall_impl; [|exact Z3]. intros p (a & -> & Ba & _). exists a. split; [reflexivity|lra].
Qed.
