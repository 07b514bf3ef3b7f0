From Coquelicot Require Import Coquelicot.
From Verif Require Import L_Num Spec NumSpec M_Degree M_IterSolve M_ShockWave L_Degree L_Shock L_Oblique.
Open Scope R_scope.

(*@P C27_evaluations: For every f, target, start and tolerance, one call evaluates f at most 20 times (and the first time at the given start). *)
Lemma secant_evals : forall f y x tol,
  (length (s_evals (secant_run_of f y x tol)) <= 20)%nat /\
  head (s_evals (secant_run_of f y x tol)) = Some x.
Proof.
  intros f y x tol.
  assert (H : forall n ox oy nx, (length (s_evals (secant_loop n f y tol ox oy nx)) <= n)%nat).
  { induction n as [|n IH]; intros ox oy nx; [cbn; lia|]. cbn [secant_loop].
    destruct (ngt _ _) as [[|]|]; cbn [s_evals length]; try lia. apply le_n_S. apply IH. }
  change 20%nat with (S 19). unfold secant_run_of. generalize 19%nat. intros k.
  cbn [s_evals length head]. split; [apply le_n_S, H|reflexivity].
Qed.
Lemma secant_loop_S k f y tol ox oy nx : secant_loop (S k) f y tol ox oy nx =
  match ngt (nabs (nsub nx ox)) (nmax tol (nmul tol (nabs nx))) with
  | Some true =>
      let ny := f nx in
      let run := secant_loop k f y tol nx ny (nadd nx (nmul (ndiv (nsub nx ox) (nsub ny oy)) (nsub y ny))) in
      mk_secant (s_result run) (nx :: s_evals run) (s_warned run)
  | Some false => mk_secant nx [] false
  | None => mk_secant None [] false
  end.
Proof. reflexivity. Qed.
Lemma secant_loop_None k f y tol ox oy : secant_loop (S k) f y tol ox oy None = mk_secant None [] false.
Proof. rewrite secant_loop_S. cbn [nsub nabs nmul]. unfold ngt, nlt. destruct (nmax _ _); reflexivity. Qed.
(** invariant of the loop: the last evaluated point and the stopping test *)
Lemma secant_loop_spec : forall n f y tol ox oy nx r,
  let run := secant_loop n f (Some y) (Some tol) (Some ox) (Some oy) (Some nx) in
  f (Some ox) = Some oy -> s_warned run = false -> s_result run = Some r -> s_evals run <> nil ->
  exists a b va vb, (In (Some a) (Some ox :: s_evals run)) /\ In (Some b) (s_evals run) /\ last (s_evals run) None = Some b /\
    f (Some a) = Some va /\ f (Some b) = Some vb /\ vb - va <> 0 /\
    r = b + (b - a) / (vb - va) * (y - vb) /\ Rabs (r - b) <= Rmax tol (tol * Rabs r).
Proof.
  induction n as [|n IH]; intros f y tol ox oy nx r; cbn [secant_loop].
  - cbn. discriminate.
  - cbn zeta. intros Hf. destruct (_ >? _)%num as [[|]|] eqn:T; cbn [s_result s_evals s_warned]; try (intros; congruence).
    destruct (f (Some nx)) as [ny|] eqn:Hn.
    2:{ destruct n; cbn [secant_loop s_result s_evals s_warned]; [discriminate|]. ncbn. intros; discriminate. }
    ncbn. unfold ndiv. destruct (Req_EM_T (ny - oy) 0) as [E|E].
    { destruct n; cbn [secant_loop s_result s_evals s_warned]; [discriminate|]. ncbn. intros; discriminate. }
    ncbn. set (nn := nx + (nx - ox) / (ny - oy) * (y - ny)).
    intros HW HR _.
    destruct (s_evals (secant_loop n f (Some y) (Some tol) (Some nx) (Some ny) (Some nn))) eqn:EV.
    + exists ox, nx, oy, ny. cbn [In last]. split; [auto|]. split; [auto|]. split; [reflexivity|].
      split; [assumption|]. split; [assumption|]. split; [assumption|].
      destruct n as [|n]; [cbn in HW; discriminate|]. rewrite secant_loop_S in HW, HR, EV. cbv zeta in HW, HR, EV.
      destruct (ngt (nabs (nsub (Some nn) (Some nx))) (nmax (Some tol) (nmul (Some tol) (nabs (Some nn))))) as [[|]|] eqn:T2; cbn [s_evals s_result s_warned] in *; try discriminate.
      injection HR as <-. split; [reflexivity|]. ncbn. unfold ngt, nlt in T2. injection T2 as T2.
      destruct (Rlt_dec _ _); [discriminate|]. lra.
    + assert (NE : s_evals (secant_loop n f (Some y) (Some tol) (Some nx) (Some ny) (Some nn)) <> nil) by (rewrite EV; discriminate).
      destruct (IH f y tol nx ny nn r Hn HW HR NE) as (a & b & va & vb & I1 & I2 & L & K).
      rewrite EV in *. exists a, b, va, vb. split; [now right|]. split; [now right|]. split; [exact L|exact K].
Qed.
(*@P C27_residual: If a call returns r without the warning after more than one evaluation, and f is L-Lipschitz between the points it is evaluated at, then |f - y| at the last evaluated point is at most L*max(tol, tol*|r|), and at r itself (when r is in the Lipschitz region) at most twice that. *)
Lemma secant_residual : forall (f : num -> num) (D : R -> Prop) L y x tol r, 0 <= L ->
  let run := secant_run_of f (Some y) (Some x) (Some tol) in
  (forall a b u v, D a -> D b -> f (Some a) = Some u -> f (Some b) = Some v -> Rabs (u - v) <= L * Rabs (a - b)) ->
  (forall a, In (Some a) (s_evals run) -> D a) ->
  s_warned run = false -> s_result run = Some r -> (2 <= length (s_evals run))%nat ->
  exists b v, last (s_evals run) None = Some b /\ f (Some b) = Some v /\
    Rabs (v - y) <= L * Rmax tol (tol * Rabs r) /\
    (forall w, D r -> f (Some r) = Some w -> Rabs (w - y) <= 2 * L * Rmax tol (tol * Rabs r)).
Proof.
  intros f D L y x tol r HL. unfold secant_run_of. generalize 19%nat. intros k HLip HD HW HR HE. cbn [s_result s_evals s_warned length] in *.
  destruct (f (Some x)) as [vx|] eqn:Hx.
  2:{ exfalso. cbn [nmul] in *. destruct k as [|k]; [discriminate HW|]. rewrite secant_loop_S in HW, HR, HE. cbv zeta in *. destruct (ngt _ _) as [[|]|] eqn:T; cbn [s_evals s_result s_warned] in *; try (cbn in HE; lia); try discriminate.
      assert (K : forall v, nsub v None = None) by (intros [|]; reflexivity).
      rewrite K in HR. cbn [nadd nsub nmul ndiv] in HR.
      destruct k as [|k]; [discriminate HR|]. rewrite secant_loop_None in HR. discriminate HR. }
  cbn [nmul] in *.
  set (run' := secant_loop k f (Some y) (Some tol) (Some x) (Some vx) (Some (x * (999/1000)))) in *.
  assert (NE : s_evals run' <> nil). { destruct (s_evals run'); [cbn in HE; lia|discriminate]. }
  destruct (secant_loop_spec k f y tol x vx (x * (999/1000)) r Hx HW HR NE) as (a & b & va & vb & I1 & I2 & Hl & Ha & Hb & Hn & Er & Ht).
  fold run' in I1, I2, Hl. exists b, vb. split.
  { destruct (s_evals run') as [|h l] eqn:EV; [contradiction|]. exact Hl. }
  split; [assumption|].
  assert (Da : D a) by (apply HD; exact I1). assert (Db : D b) by (apply HD; now right).
  assert (Hba : b - a <> 0). { intros E. pose proof (HLip b a vb va Db Da Hb Ha) as K. rewrite E, Rabs_R0, Rmult_0_r in K.
    pose proof (Rabs_pos_lt (vb - va) Hn). lra. }
  assert (Hres : y - vb = (vb - va) / (b - a) * (r - b)). { rewrite Er. field. split; assumption. }
  assert (Hsl : Rabs ((vb - va) / (b - a)) <= L).
  { unfold Rdiv. rewrite Rabs_mult, Rabs_inv. pose proof (Rabs_pos_lt _ Hba).
    apply (Rmult_le_reg_r (Rabs (b - a))); [assumption|]. rewrite Rmult_assoc, Rinv_l by lra. rewrite Rmult_1_r.
    now apply HLip. }
  assert (Hb1 : Rabs (vb - y) <= L * Rmax tol (tol * Rabs r)).
  { rewrite Rabs_minus_sym, Hres, Rabs_mult. apply Rmult_le_compat; try apply Rabs_pos; assumption. }
  split; [assumption|]. intros w Dr Hw. pose proof (HLip r b w vb Dr Db Hw Hb) as K.
  replace (w - y) with ((w - vb) + (vb - y)) by ring. eapply Rle_trans; [apply Rabs_triang|].
  assert (L * Rabs (r - b) <= L * Rmax tol (tol * Rabs r)) by (now apply Rmult_le_compat_l). lra.
Qed.
Lemma secant_solve_run f y x : secant_solve f y x = s_result (secant_run_of f y x secant_tol).
Proof. unfold secant_solve. reflexivity. Qed.
Lemma start_test x : ngt (nabs (nsub (Some (x * (999/1000))) (Some x))) (nmax secant_tol (nmul secant_tol (nabs (Some (x * (999/1000))))))
  = Some (if Rlt_dec (1/100) (Rabs x) then true else false).
Proof.
  unfold secant_tol. ncbn. unfold ngt, nlt. f_equal.
  replace (x * (999/1000) - x) with (- (x * (1/1000))) by field. rewrite Rabs_Ropp, !Rabs_mult.
  rewrite (Rabs_pos_eq (1/1000)), (Rabs_pos_eq (999/1000)) by lra. pose proof (Rabs_pos x).
  destruct (Rlt_dec (1/100) (Rabs x)); destruct (Rlt_dec _ _) as [l0|n0]; try reflexivity; exfalso.
  - apply n0. apply Rmax_lub_lt; lra.
  - apply Rmax_Rlt in l0. lra.
Qed.
(*@P C27_start: With the default tolerance, f is consulted beyond its start exactly when the start exceeds 0.01 in absolute value. *)
Lemma secant_start : forall f y x, 
  (2 <= length (s_evals (secant_run_of f y (Some x) secant_tol)))%nat <-> 1/100 < Rabs x.
Proof.
  intros f y x. unfold secant_run_of. change 19%nat with (S 18). generalize 18%nat. intros k. cbn [s_evals length nmul]. rewrite secant_loop_S. rewrite start_test. cbv zeta.
  destruct (Rlt_dec (1/100) (Rabs x)); cbn [s_evals length]; split; intros; try lia; try assumption. contradiction.
Qed.
(*@P C27_small_start_refuted: From any start with |x| <= 0.01 (0 included) secant_solve returns 0.999*x whatever f and the target are, without a warning: the answer does ignore f there. *)
Lemma secant_small : forall f y x, Rabs x <= 1/100 ->
  secant_solve f y (Some x) = Some (x * (999/1000)) /\ s_warned (secant_run_of f y (Some x) secant_tol) = false.
Proof.
  intros f y x Hx. unfold secant_solve, secant_run_of. change 19%nat with (S (S (S 16))). generalize 16%nat. intros k. cbn [s_result s_warned nmul]. rewrite secant_loop_S. rewrite start_test. cbv zeta.
  destruct (Rlt_dec (1/100) (Rabs x)); [lra|]. split; reflexivity.
Qed.
Lemma test_pos a b : ngt (nabs (nsub (Some a) (Some b))) (nmax secant_tol (nmul secant_tol (nabs (Some a)))) = Some true \/
  ngt (nabs (nsub (Some a) (Some b))) (nmax secant_tol (nmul secant_tol (nabs (Some a)))) = Some false.
Proof. unfold secant_tol; ncbn; unfold ngt, nlt. destruct (Rlt_dec _ _); auto. Qed.
Lemma test_same a : ngt (nabs (nsub (Some a) (Some a))) (nmax secant_tol (nmul secant_tol (nabs (Some a)))) = Some false.
Proof.
  unfold secant_tol; ncbn; unfold ngt, nlt. f_equal. destruct (Rlt_dec _ _) as [l|]; [exfalso|reflexivity].
  replace (a - a) with 0 in l by ring. rewrite Rabs_R0 in l. apply Rmax_Rlt in l. lra.
Qed.
(** one exact step, then stop *)
Lemma secant_exact_step f y x r vx vn : 1/100 < Rabs x ->
  f (Some x) = Some vx -> f (Some (x * (999/1000))) = Some vn -> vn - vx <> 0 ->
  x * (999/1000) + (x * (999/1000) - x) / (vn - vx) * (y - vn) = r -> f (Some r) = Some y ->
  secant_solve f (Some y) (Some x) = Some r /\ s_warned (secant_run_of f (Some y) (Some x) secant_tol) = false.
Proof.
  intros Hx H1 H2 Hn Hr H3. unfold secant_solve, secant_run_of. change 19%nat with (S (S (S 16))). generalize 16%nat. intros k. cbn [s_result s_warned nmul]. rewrite H1.
  rewrite secant_loop_S. rewrite start_test. cbv zeta. destruct (Rlt_dec (1/100) (Rabs x)); [|lra]. rewrite H2. cbn [s_result s_warned nsub nmul nadd].
  rewrite ndiv_Some by assumption. cbn [nmul nadd]. rewrite Hr.
  rewrite secant_loop_S. cbv zeta. destruct (test_pos r (x * (999/1000))) as [T|T]; rewrite T; [|split; reflexivity].
  rewrite H3. cbn [s_result s_warned nsub nmul nadd].
  assert (Hyn : y - vn <> 0).
  { intros E. rewrite E, Rmult_0_r, Rplus_0_r in Hr. subst r. rewrite test_same in T. discriminate. }
  rewrite ndiv_Some by assumption. cbn [nmul nadd]. replace (y - y) with 0 by ring. rewrite Rmult_0_r, Rplus_0_r.
  rewrite secant_loop_S, test_same. split; reflexivity.
Qed.
(*@P C27_affine: For every affine f with non-zero slope and every start with |x| > 0.01 the answer is the exact root, without a warning. *)
Lemma secant_affine : forall f a b y x, a <> 0 -> 1/100 < Rabs x ->
  (forall z, f (Some z) = Some (a * z + b)) ->
  secant_solve f (Some y) (Some x) = Some ((y - b) / a) /\
  s_warned (secant_run_of f (Some y) (Some x) secant_tol) = false.
Proof.
  intros f a b y x Ha Hx Hf. assert (x <> 0). { intros ->. rewrite Rabs_R0 in Hx. lra. }
  assert (Hn : a * (x * (999/1000)) + b - (a * x + b) <> 0).
  { replace (a * (x * (999/1000)) + b - (a * x + b)) with (- (a * x / 1000)) by field.
    apply Ropp_neq_0_compat. unfold Rdiv. repeat apply Rmult_integral_contrapositive_currified; lra. }
  apply (secant_exact_step f y x _ (a * x + b) (a * (x * (999/1000)) + b) Hx); auto.
  - field. split; [assumption|]. intros E. apply Hn. lra.
  - rewrite Hf. f_equal. field. assumption.
Qed.
(*@P C27_root_fixed: If the start multiplied by 0.999 is already a root (and f differs there from its start value) it is returned. *)
Lemma secant_root : forall f y x vx, 1/100 < Rabs x -> f (Some x) = Some vx -> vx <> y ->
  f (Some (x * (999/1000))) = Some y ->
  secant_solve f (Some y) (Some x) = Some (x * (999/1000)) /\
  s_evals (secant_run_of f (Some y) (Some x) secant_tol) = [Some x; Some (x * (999/1000))] /\
  s_warned (secant_run_of f (Some y) (Some x) secant_tol) = false.
Proof.
  intros f y x vx Hx H1 Hne H2.
  unfold secant_solve, secant_run_of. change 19%nat with (S (S (S 16))). generalize 16%nat. intros k. cbn [s_result s_warned s_evals nmul]. rewrite H1.
  rewrite secant_loop_S. rewrite start_test. cbv zeta. destruct (Rlt_dec (1/100) (Rabs x)); [|lra]. rewrite H2. cbn [s_result s_warned s_evals nsub nmul nadd].
  rewrite ndiv_Some by lra. cbn [nmul nadd]. replace (y - y) with 0 by ring. rewrite Rmult_0_r, Rplus_0_r.
  rewrite secant_loop_S, test_same. repeat split; reflexivity.
Qed.
(*@E C27_example: a run that meets every hypothesis of C27_residual: f(z) = 2z from 1 towards 3. *)
Lemma secant_ex : forall f : num -> num, (forall z, f (Some z) = Some (2 * z)) ->
  secant_solve f (Some 3) (Some 1) = Some (3/2) /\
  s_warned (secant_run_of f (Some 3) (Some 1) secant_tol) = false /\
  (2 <= length (s_evals (secant_run_of f (Some 3%R) (Some 1%R) secant_tol)))%nat.
Proof.
  intros f Hf. assert (H1 : 1/100 < Rabs 1) by (rewrite Rabs_R1; lra).
  assert (Hf' : forall z, f (Some z) = Some (2 * z + 0)) by (intros z; rewrite Hf; f_equal; ring).
  pose proof (secant_affine f 2 0 3 1 ltac:(lra) H1 Hf') as AB.
  replace ((3 - 0) / 2) with (3 / 2) in AB by lra. 
  exact (conj (proj1 AB) (conj (proj2 AB) (proj2 (secant_start f (Some 3) 1) H1))).
Qed.
