(** * C27, C28: secant runs that start beyond the root of a concave function *)
From Coquelicot Require Import Coquelicot.
From Verif Require Import L_Num Spec NumSpec M_IterSolve L_Secant L_Secant2.
Open Scope R_scope.

Section Both_sides.
  Variables (F G : R -> R) (lo hi r : R).
  Hypotheses (HD : forall z, lo <= z <= hi -> is_derive F z (G z)) (HP : forall z, lo <= z <= hi -> 0 < G z)
    (HM : forall a b, lo <= a -> a < b -> b <= hi -> G b <= G a) (Hr : lo <= r <= hi)
    (HN : G hi * (hi - lo) >= F hi - F r).
  Lemma mv a b : lo <= a -> a < b -> b <= hi -> exists c, F b - F a = G c * (b - a) /\ a < c < b.
  Proof.
    intros Ha Hab Hb. destruct (MVT_cor2 F G a b Hab) as (c & E & Hc); [|exists c; auto]. intros c Hc. apply is_derive_Reals, HD. lra.
  Qed.
  (** one step from two distinct points of the interval *)
  Lemma bracket_step p q : lo <= p <= hi -> lo <= q <= hi -> p <> q ->
    F q - F p <> 0 /\ lo <= q + (q - p) / (F q - F p) * (F r - F q) <= hi.
  Proof.
    assert (K : forall p q, lo <= p -> p < q -> q <= hi -> F q - F p <> 0 /\ lo <= q + (q - p) / (F q - F p) * (F r - F q) <= hi).
    { clear p q. intros p q Hp Hpq Hq. destruct (mv p q Hp Hpq Hq) as (c & E & Hc). pose proof (HP c ltac:(lra)) as Gc.
      assert (P0 : 0 < F q - F p) by (rewrite E; nra). split; [lra|].
      set (z := q + (q - p) / (F q - F p) * (F r - F q)).
      assert (Zq : (z - q) * G c = F r - F q) by (unfold z; rewrite E; field; lra).
      assert (Zp : (z - p) * G c = F r - F p) by (replace (F r - F p) with ((F r - F q) + (F q - F p)) by ring; rewrite <- Zq, E; ring).
      destruct (Rle_lt_dec r p) as [L|L].
      - assert (Pr : 0 <= F p - F r). { destruct L as [L|L]; [|subst; lra]. destruct (mv r p) as (u & Eu & Hu); try lra. pose proof (HP u ltac:(lra)). nra. }
        assert (z <= p) by nra. split; [|lra].
        assert (Hh : G hi * (hi - p) <= F hi - F p).
        { destruct (Req_dec p hi) as [->|N]; [lra|]. destruct (mv p hi) as (u & Eu & Hu); try lra. rewrite Eu. pose proof (HM u hi ltac:(lra) ltac:(lra) ltac:(lra)). nra. }
        assert (Gh : G hi <= G c) by (destruct (Req_dec c hi) as [->|N]; [lra|apply HM; lra]). pose proof (HP hi ltac:(lra)).
        (* G hi (p - lo) >= F p - F r = (p - z) G c >= (p - z) G hi *)
        assert (F p - F r <= G hi * (p - lo)) by lra. nra.
      - destruct (Rle_lt_dec q r) as [L2|L2].
        + assert (Pr : 0 <= F r - F q <= G c * (r - q)).
          { destruct L2 as [L2|L2]; [|subst; lra]. destruct (mv q r) as (u & Eu & Hu); try lra. pose proof (HP u ltac:(lra)). pose proof (HM c u ltac:(lra) ltac:(lra) ltac:(lra)). rewrite Eu. nra. }
          nra.
        + destruct (mv p r) as (u & Eu & Hu); try lra. pose proof (HP u ltac:(lra)). destruct (mv r q) as (v & Ev & Hv); try lra. pose proof (HP v ltac:(lra)).
          assert (0 < (z - p) * G c) by nra. assert (0 < (q - z) * G c) by nra. split; nra. }
    intros Hp Hq Hne. destruct (Rlt_le_dec p q) as [L|L]; [apply K; lra|].
    destruct (K q p) as [K1 K2]; try lra. split; [lra|].
    replace (q + (q - p) / (F q - F p) * (F r - F q)) with (p + (p - q) / (F p - F q) * (F r - F p)) by (field; split; lra). exact K2.
  Qed.
  Variable f : num -> num.
  Hypothesis Hf : forall z, lo <= z <= hi -> f (Some z) = Some (F z).
  Lemma bracket_loop : forall n ox nx, lo <= ox <= hi -> lo <= nx <= hi ->
    let run := secant_loop n f (Some (F r)) secant_tol (Some ox) (Some (F ox)) (Some nx) in
    exists z, s_result run = Some z /\ lo <= z <= hi /\ List.Forall (fun e => exists a, e = Some a /\ lo <= a <= hi) (s_evals run).
  Proof.
    induction n as [|n IH]; intros ox nx Ho Hn.
    { exists nx. cbn. split; [reflexivity|]. split; [exact Hn|constructor]. }
    cbv zeta. rewrite secant_loop_S. destruct (test_pos nx ox) as [T|T]; rewrite T.
    2:{ exists nx. cbn. split; [reflexivity|]. split; [exact Hn|constructor]. }
    apply test_ne in T. destruct (bracket_step ox nx Ho Hn ltac:(congruence)) as (S1 & S2).
    rewrite (Hf nx Hn). cbv zeta. cbn [nsub]. rewrite ndiv_Some by assumption. cbn [nmul nadd s_result s_evals].
    destruct (IH nx _ Hn S2) as (z & Z1 & Z2 & Z3). exists z. split; [exact Z1|]. split; [exact Z2|].
    constructor; [exists nx; split; [reflexivity|exact Hn]|exact Z3].
  Qed.
End Both_sides.
(*@P C27_trapped: Runs that stay in an interval. Let f be differentiable on [lo, hi] with a positive, non-increasing slope, let r be the root of f = f(r) in it, and let the tangent at hi fall to the value f(r) at lo or later. Then from every start x with lo <= 0.999 x and 0.01 < x <= hi, on either side of r, every point at which f is evaluated and the answer lie in [lo, hi]. *)
Lemma secant_trapped : forall f F G lo hi r x, lo <= r <= hi -> lo <= x * (999/1000) -> 1/100 < x <= hi ->
  (forall z, lo <= z <= hi -> f (Some z) = Some (F z) /\ is_derive F z (G z) /\ 0 < G z) ->
  (forall a b, lo <= a -> a < b -> b <= hi -> G b <= G a) -> lo <= hi - (F hi - F r) / G hi ->
  exists z, secant_solve f (Some (F r)) (Some x) = Some z /\ lo <= z <= hi /\
    List.Forall (fun p => exists a, p = Some a /\ lo <= a <= hi) (s_evals (secant_run_of f (Some (F r)) (Some x) secant_tol)).
Proof.
  intros f F G lo hi r x Hr H1 H0 HF HM HN. rewrite secant_solve_run. unfold secant_run_of. generalize 19%nat. intros k.
  assert (Hx : lo <= x <= hi) by lra. destruct (HF x Hx) as [E _]. rewrite E. cbn [nmul].
  assert (N' : G hi * (hi - lo) >= F hi - F r).
  { destruct (HF hi ltac:(lra)) as (_ & _ & P). assert ((F hi - F r) / G hi <= hi - lo) by lra.
    assert (K := Rmult_le_compat_l (G hi) _ _ ltac:(lra) H). replace (G hi * ((F hi - F r) / G hi)) with (F hi - F r) in K by (field; lra). lra. }
  destruct (bracket_loop F G lo hi r ltac:(intros; now apply HF) ltac:(intros; now apply HF) HM Hr N' f ltac:(intros; now apply HF) k x (x * (999/1000)) Hx ltac:(lra)) as (z & Z1 & Z2 & Z3).
  exists z. cbn [s_result s_evals]. split; [exact Z1|]. split; [exact Z2|]. constructor; [|exact Z3]. exists x. split; [reflexivity|exact Hx].
Qed.
(*@E C27_trapped_example: f(x) = 4x - x^2 on [1/2, 3/2] with the root 1 of f = 3, started beyond the root at 3/2, meets the hypotheses of C27_trapped. *)
Lemma secant_trapped_ex : exists (F G : R -> R) (lo hi r x : R), F = (fun z => 4 * z - z ^ 2) /\ G = (fun z => 4 - 2 * z) /\ lo = 1/2 /\ hi = 3/2 /\ r = 1 /\ x = 3/2 /\ F r = 3 /\
  lo <= r <= hi /\ lo <= x * (999/1000) /\ 1/100 < x <= hi /\ (forall z, lo <= z <= hi -> is_derive F z (G z) /\ 0 < G z) /\
  (forall a b, lo <= a -> a < b -> b <= hi -> G b <= G a) /\ lo <= hi - (F hi - F r) / G hi.
Proof.
  exists (fun z => 4 * z - z ^ 2), (fun z => 4 - 2 * z), (1/2), (3/2), 1, (3/2). do 6 (split; [reflexivity|]).
  split; [lra|]. split; [lra|]. split; [lra|]. split; [lra|]. split; [|split; [intros; lra|lra]].
  intros z Hz. split; [auto_derive; [exact I|ring]|lra].
Qed.
