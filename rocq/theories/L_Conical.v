(** * C58: conical shocks *)
From Verif Require Import Num L_Num M_Degree M_IterSolve M_ShockWave M_Ode M_Conical ConicalSpec L_Ode L_Secant.
From Coquelicot Require Import Coquelicot.
Open Scope R_scope.

Lemma loop_exit step tol : forall fuel phi th ma h conv r, tol <= Rabs conv ->
  conical_loop fuel step tol phi th ma h conv = Some r ->
  marches step tol (phi, th, ma) r /\ Rabs (snd (fst r) - fst (fst r)) < tol.
Proof.
  assert (G : forall fuel phi th ma h conv r,
    conical_loop fuel step tol phi th ma h conv = Some r -> (Rabs conv < tol -> Rabs (th - phi) < tol) ->
    marches step tol (phi, th, ma) r /\ Rabs (snd (fst r) - fst (fst r)) < tol).
  { induction fuel as [|k IH]; intros phi th ma h conv r; cbn [conical_loop].
    - destruct (Rle_dec tol (Rabs conv)) as [|D]; [discriminate|]. intros E H. injection E as <-. cbn [fst snd]. split; [constructor|]. apply H. lra.
    - destruct (Rle_dec tol (Rabs conv)) as [D|D].
      2:{ intros E H. injection E as <-. cbn [fst snd]. split; [constructor|]. apply H. lra. }
      destruct (step phi (th, ma) h) as [[[dth dma] err]|] eqn:ES; [|discriminate].
      destruct (Rle_dec err tol) as [He|He].
      2:{ intros E H. exact (IH _ _ _ _ _ _ E H). }
      cbv zeta.
      assert (A : conv = conv -> forall r, ~ (h - dth <> 0 /\ (th - phi) / (h - dth) < 1) -> (h - dth = 0 -> ~ th - phi < 0) ->
        conical_loop k step tol (phi + h) (th + dth) (ma + dma) h (th - phi) = Some r ->
        marches step tol (phi, th, ma) r /\ Rabs (snd (fst r) - fst (fst r)) < tol).
      { intros _ r0 H1 H2 E. destruct (IH _ _ _ _ _ _ E) as [I1 I2].
        - intros HC. replace (th + dth - (phi + h)) with ((th - phi) - (h - dth)) by ring. set (c := th - phi) in *. set (s := h - dth) in *.
          destruct (Req_dec s 0) as [Z|Z]; [rewrite Z, Rminus_0_r; exact HC|].
          assert (Q : 1 <= c / s) by (destruct (Rlt_dec (c / s) 1); [elim H1; auto|lra]).
          assert (Cs : c = c / s * s) by (field; exact Z). set (q := c / s) in *. clearbody q. rewrite Cs in HC |- *.
          replace (q * s - s) with ((q - 1) * s) by ring. rewrite Rabs_mult in *. pose proof (Rabs_pos s).
          rewrite (Rabs_right q) in HC by lra. rewrite (Rabs_right (q - 1)) by lra. nra.
        - split; [|exact I2]. exact (march_step step tol phi th ma h dth dma err r0 ES He I1). }
      specialize (A eq_refl r). destruct (Req_EM_T (h - dth) 0) as [Z|Z].
      + destruct (Rlt_dec (th - phi) 0) as [N|N].
        * destruct (Rle_dec tol (Rabs (th - phi))); [discriminate|]. intros E _. injection E as <-. cbn [fst snd]. split; [constructor|]. lra.
        * intros E _. apply A; [tauto|auto|exact E].
      + destruct (Rlt_dec ((th - phi) / (h - dth)) 1) as [Q|Q].
        * intros E _. apply (IH _ _ _ _ _ _ E). auto.
        * intros E _. apply A; [tauto|tauto|exact E]. }
  intros fuel phi th ma h conv r Hc E. apply (G _ _ _ _ _ _ _ E). intros; lra.
Qed.
Lemma Some_inj' {A} (a b : A) : Some a = Some b -> a = b.
Proof. intros H. now injection H. Qed.
(*@P C58_wall: Whatever M, gamma, shock angle |sigma| >= tol and tolerance: when conical_deflection_Mach_sigma returns d, then from the state just behind the shock (ray sigma, flow angle of the plane oblique shock, Mach number whose component normal to the shock is the downstream normal Mach number) a chain of accepted steps - error estimate at most tol - of the conical equations leads to a ray phi where the flow angle theta is within tol of phi, and d is midway, within tol/2 of both. *)
Lemma conical_wall : forall fuel Mach sigma gamma tol d, tol <= Rabs sigma ->
  conical_deflection_Mach_sigma fuel Mach (Some sigma) gamma tol = Some d ->
  let step (phi : R) (y : R * R) (h : R) := match rkf45_2 (conical_rhs gamma) (Some phi) (Some (fst y), Some (snd y)) (Some h) with
      | (Some dth, Some dma, Some err) => Some (dth, dma, err) | _ => None end in
  exists th0 mn ma0 phi th ma, deflection_Mach_sigma Mach (Some sigma) gamma = Some th0 /\
  downstream_Mn (nmul Mach (dsin (Some sigma))) gamma = Some mn /\ ma0 * sin ((sigma - th0) * (PI / 180)) = mn /\
  marches step tol (sigma, th0, ma0) (phi, th, ma) /\
  Rabs (th - phi) < tol /\ Rabs (d - th) < tol / 2 /\ Rabs (d - phi) < tol / 2.
Proof.
  intros fuel Mach sigma gamma tol d Hs H step. revert H. change step with (conical_step gamma). clear step. unfold conical_deflection_Mach_sigma.
  destruct (conical_start Mach (Some sigma) gamma) as [[th0|] [ma0|]] eqn:ST; try discriminate. unfold conical_start in ST. injection ST as S1 S2. rewrite S1 in S2.
  destruct (downstream_Mn (nmul Mach (dsin (Some sigma))) gamma) as [mn|]; [|discriminate S2]. unfold dsin in S2. cbn [nsub nradians nsin] in S2.
  destruct (Req_EM_T (sin ((sigma - th0) * (PI / 180))) 0) as [Z|Z]; [rewrite Z in S2; unfold ndiv in S2; destruct (Req_EM_T 0 0); congruence|]. rewrite ndiv_Some in S2 by exact Z. apply Some_inj' in S2.
  destruct (conical_loop _ _ _ _ _ _ _ _) as [[[phi th] ma]|] eqn:E; [|discriminate]. intros Q. injection Q as <-.
  destruct (loop_exit _ _ _ _ _ _ _ _ _ Hs E) as [M1 M2]. cbn [fst snd] in M2.
  exists th0, mn, ma0, phi, th, ma. split; [exact S1|]. split; [reflexivity|]. split; [rewrite <- S2; field; exact Z|]. split; [exact M1|]. split; [exact M2|].
  revert M2. unfold Rabs. repeat destruct (Rcase_abs _); intros; lra.
Qed.
Lemma solveE f y x : secant_solve f y x = s_result (secant_run_of f y x (Some (1 / 100000))).
Proof. reflexivity. Qed.
Lemma inverse_aux (f : num -> num) (D : R -> Prop) L y s0 r : 0 <= L ->
  let run := secant_run_of f (Some y) (Some s0) (Some (1 / 100000)) in
  (forall a b u v, D a -> D b -> f (Some a) = Some u -> f (Some b) = Some v -> Rabs (u - v) <= L * Rabs (a - b)) ->
  (forall a, In (Some a) (s_evals run) -> D a) -> s_warned run = false -> (2 <= length (s_evals run))%nat ->
  secant_solve f (Some y) (Some s0) = Some r ->
  forall w, D r -> f (Some r) = Some w -> Rabs (w - y) <= 2 * L * Rmax (1 / 100000) (1 / 100000 * Rabs r).
Proof.
  intros HL run HLip HD HW HE HR w Dr Hw. rewrite solveE in HR. fold run in HR.
  destruct (secant_residual f D L y s0 (1 / 100000) r HL HLip HD HW HR HE) as (b & v & _ & _ & _ & G). exact (G w Dr Hw).
Qed.
(*@P C58_shock_angle: The converse functions: conical_sigma_Mach_walldeflection and conical_Mach_walldeflection_sigma are the root finder of C27 applied to the function above; a shock angle not above the deflection is an AssertionError; and when the search ends without a warning, in a region where the wall deflection is L-Lipschitz, the result reproduces the deflection within 2 L max(tol, tol*|result|) with tol = 1e-5. *)
Lemma conical_inverse : forall fuel, 
  (forall deflection sigma gamma, sigma <= deflection -> conical_Mach_walldeflection_sigma fuel (Some deflection) (Some sigma) gamma = None) /\
  (forall Mach deflection gamma s0 (D : R -> Prop) L r,
    let f := fun sig => conical_deflection_Mach_sigma fuel Mach sig gamma (1 / 1000000) in
    nadd (dasin (ndiv (Some 1) Mach)) (Some deflection) = Some s0 -> 0 <= L ->
    let run := secant_run_of f (Some deflection) (Some s0) (Some (1 / 100000)) in
    (forall a b u v, D a -> D b -> f (Some a) = Some u -> f (Some b) = Some v -> Rabs (u - v) <= L * Rabs (a - b)) ->
    (forall a, In (Some a) (s_evals run) -> D a) -> s_warned run = false -> (2 <= length (s_evals run))%nat ->
    conical_sigma_Mach_walldeflection fuel Mach (Some deflection) gamma = Some r ->
    forall w, D r -> f (Some r) = Some w -> Rabs (w - deflection) <= 2 * L * Rmax (1 / 100000) (1 / 100000 * Rabs r)) /\
  (forall deflection sigma gamma s0 (D : R -> Prop) L r, deflection < sigma ->
    let f := fun mach => conical_deflection_Mach_sigma fuel mach (Some sigma) gamma (1 / 1000000) in
    ndiv (Some 1) (dsin (Some (sigma - 1 / 2 * deflection))) = Some s0 -> 0 <= L ->
    let run := secant_run_of f (Some deflection) (Some s0) (Some (1 / 100000)) in
    (forall a b u v, D a -> D b -> f (Some a) = Some u -> f (Some b) = Some v -> Rabs (u - v) <= L * Rabs (a - b)) ->
    (forall a, In (Some a) (s_evals run) -> D a) -> s_warned run = false -> (2 <= length (s_evals run))%nat ->
    conical_Mach_walldeflection_sigma fuel (Some deflection) (Some sigma) gamma = Some (Some r) ->
    forall w, D r -> f (Some r) = Some w -> Rabs (w - deflection) <= 2 * L * Rmax (1 / 100000) (1 / 100000 * Rabs r)).
Proof.
  intros fuel. split; [|split].
  - intros deflection sigma gamma H. unfold conical_Mach_walldeflection_sigma, ngt, nlt. destruct (Rlt_dec deflection sigma); [lra|reflexivity].
  - intros Mach deflection gamma s0 D L r f E0 HL run HLip HD HW HE HR w Dr Hw.
    apply (inverse_aux f D L deflection s0 r HL HLip HD HW HE); [|exact Dr|exact Hw].
    rewrite <- HR. unfold conical_sigma_Mach_walldeflection. rewrite E0. reflexivity.
  - intros deflection sigma gamma s0 D L r Hd f E0 HL run HLip HD HW HE HR w Dr Hw.
    apply (inverse_aux f D L deflection s0 r HL HLip HD HW HE); [|exact Dr|exact Hw].
    apply Some_inj'. etransitivity; [|exact HR]. unfold conical_Mach_walldeflection_sigma, ngt, nlt. destruct (Rlt_dec deflection sigma); [|lra].
    assert (E1 : nsub (Some sigma) (nmul (Some (1 / 2)) (Some deflection)) = Some (sigma - 1 / 2 * deflection)) by reflexivity.
    rewrite E1, E0. reflexivity.
Qed.
(*@P C58_same_rule: For right-hand sides with two finite components, the step used here is the _rkf45 of the integrators (C56). *)
Lemma same_rule : forall (F : rhs) x y h,
  rkf45_2 (fun t u => match t, u with
                      | Some t, (Some a, Some b) => let f := F t (fun i => match i with O => a | _ => b end) in (Some (f 0%nat), Some (f 1%nat))
                      | _, _ => (None, None) end) (Some x) (Some (y 0%nat), Some (y 1%nat)) (Some h) =
  let F' : rhs := fun t u => F t (fun i => match i with O => u 0%nat | _ => u 1%nat end) in
  (Some (rkf45_dy F' x y h 0%nat), Some (rkf45_dy F' x y h 1%nat), Some (rkf45_e 2 F' x y h)).
Proof.
  intros F x y h. cbv zeta. set (F' := fun (t : R) (u : state) => F t (fun i => match i with O => u 0%nat | _ => u 1%nat end)).
  set (G := fun (t : num) (u : num * num) => _).
  set (K := rkf45_K F' x y h).
  assert (Q0 : forall i, K 0%nat i = h * F' x y i) by reflexivity.
  assert (Q1 : forall i, K 1%nat i = h * F' (x + 1 / 5 * h) (fun i => y i + 1 / 5 * K 0%nat i) i) by reflexivity.
  assert (Q2 : forall i, K 2%nat i = h * F' (x + 3 / 10 * h) (fun i => y i + 3 / 40 * K 0%nat i + 9 / 40 * K 1%nat i) i) by reflexivity.
  assert (Q3 : forall i, K 3%nat i = h * F' (x + 3 / 5 * h) (fun i => y i + 3 / 10 * K 0%nat i - 9 / 10 * K 1%nat i + 6 / 5 * K 2%nat i) i) by reflexivity.
  assert (Q4 : forall i, K 4%nat i = h * F' (x + h) (fun i => y i - 11 / 54 * K 0%nat i + 5 / 2 * K 1%nat i - 70 / 27 * K 2%nat i + 35 / 27 * K 3%nat i) i) by reflexivity.
  assert (Q5 : forall i, K 5%nat i = h * F' (x + 7 / 8 * h) (fun i => y i + 1631 / 55296 * K 0%nat i + 175 / 512 * K 1%nat i + 575 / 13824 * K 2%nat i
        + 44275 / 110592 * K 3%nat i + 253 / 4096 * K 4%nat i) i) by reflexivity.
  unfold rkf45_dy, rkf45_e, rkf45_E. cbv zeta. fold K. clearbody K.
  set (k := fun s => (Some (K s 0%nat), Some (K s 1%nat)) : num * num).
  assert (EG : forall t u a b, u = (Some a, Some b) -> scal2 (Some h) (G (Some t) u) =
    (Some (h * F t (fun i => match i with O => a | _ => b end) 0%nat), Some (h * F t (fun i => match i with O => a | _ => b end) 1%nat))).
  { intros t u a b ->. reflexivity. }
  assert (E0 : scal2 (Some h) (G (Some x) (Some (y 0%nat), Some (y 1%nat))) = k 0%nat) by (unfold k; rewrite !Q0; reflexivity).
  assert (E1 : scal2 (Some h) (G (nadd (Some x) (nmul (Some (1/5)) (Some h))) (lc2 (Some (y 0%nat), Some (y 1%nat)) ((Some (1/5), k 0%nat) :: nil))) = k 1%nat).
  { cbn [nmul nadd]. rewrite (EG _ _ (y 0%nat + 1/5 * K 0%nat 0%nat) (y 1%nat + 1/5 * K 0%nat 1%nat)).
    - unfold k. rewrite !Q1. reflexivity.
    - unfold k. cbn [lc2 fold_left fst snd nmul nadd]. f_equal; f_equal; field. }
  assert (E2 : scal2 (Some h) (G (nadd (Some x) (nmul (Some (3/10)) (Some h))) (lc2 (Some (y 0%nat), Some (y 1%nat)) [(Some (3/40), k 0%nat); (Some (9/40), k 1%nat)])) = k 2%nat).
  { cbn [nmul nadd]. rewrite (EG _ _ (y 0%nat + 3/40 * K 0%nat 0%nat + 9/40 * K 1%nat 0%nat) (y 1%nat + 3/40 * K 0%nat 1%nat + 9/40 * K 1%nat 1%nat)).
    - unfold k. rewrite !Q2. reflexivity.
    - unfold k. cbn [lc2 fold_left fst snd nmul nadd]. f_equal; f_equal; field. }
  assert (E3 : scal2 (Some h) (G (nadd (Some x) (nmul (Some (3/5)) (Some h))) (lc2 (Some (y 0%nat), Some (y 1%nat)) [(Some (3/10), k 0%nat); (Some (-9/10), k 1%nat); (Some (6/5), k 2%nat)])) = k 3%nat).
  { cbn [nmul nadd]. rewrite (EG _ _ (y 0%nat + 3/10 * K 0%nat 0%nat - 9/10 * K 1%nat 0%nat + 6/5 * K 2%nat 0%nat) (y 1%nat + 3/10 * K 0%nat 1%nat - 9/10 * K 1%nat 1%nat + 6/5 * K 2%nat 1%nat)).
    - unfold k. rewrite !Q3. reflexivity.
    - unfold k. cbn [lc2 fold_left fst snd nmul nadd]. f_equal; f_equal; field. }
  assert (E4 : scal2 (Some h) (G (nadd (Some x) (Some h)) (lc2 (Some (y 0%nat), Some (y 1%nat)) [(Some (-11/54), k 0%nat); (Some (5/2), k 1%nat); (Some (-70/27), k 2%nat); (Some (35/27), k 3%nat)])) = k 4%nat).
  { cbn [nmul nadd]. rewrite (EG _ _ (y 0%nat - 11/54 * K 0%nat 0%nat + 5/2 * K 1%nat 0%nat - 70/27 * K 2%nat 0%nat + 35/27 * K 3%nat 0%nat) (y 1%nat - 11/54 * K 0%nat 1%nat + 5/2 * K 1%nat 1%nat - 70/27 * K 2%nat 1%nat + 35/27 * K 3%nat 1%nat)).
    - unfold k. rewrite !Q4. reflexivity.
    - unfold k. cbn [lc2 fold_left fst snd nmul nadd]. f_equal; f_equal; field. }
  assert (E5 : scal2 (Some h) (G (nadd (Some x) (nmul (Some (7/8)) (Some h))) (lc2 (Some (y 0%nat), Some (y 1%nat)) [(Some (1631/55296), k 0%nat); (Some (175/512), k 1%nat); (Some (575/13824), k 2%nat); (Some (44275/110592), k 3%nat); (Some (253/4096), k 4%nat)])) = k 5%nat).
  { cbn [nmul nadd]. rewrite (EG _ _ (y 0%nat + 1631/55296 * K 0%nat 0%nat + 175/512 * K 1%nat 0%nat + 575/13824 * K 2%nat 0%nat + 44275/110592 * K 3%nat 0%nat + 253/4096 * K 4%nat 0%nat) (y 1%nat + 1631/55296 * K 0%nat 1%nat + 175/512 * K 1%nat 1%nat + 575/13824 * K 2%nat 1%nat + 44275/110592 * K 3%nat 1%nat + 253/4096 * K 4%nat 1%nat)).
    - unfold k. rewrite !Q5. reflexivity.
    - unfold k. cbn [lc2 fold_left fst snd nmul nadd]. f_equal; f_equal; field. }
  unfold rkf45_2. cbv zeta. rewrite E0, E1, E2, E3, E4, E5. clear E0 E1 E2 E3 E4 E5 EG.
  cbn [map seq combine lc2 fold_left fst snd rsum_state]. unfold k. cbn [fst snd nmul nadd npowi].
  rewrite ndiv_Some by lra.
  match goal with |- context [nsqrt (Some ?q)] => rewrite (nsqrt_Some q) by (apply Rmult_le_pos; [apply Rplus_le_le_0_compat; apply pow2_ge_0|lra]) end.
  f_equal. f_equal. f_equal. replace (INR 2) with 2 by (simpl; ring).
  match goal with |- (?a ^ 2 + ?b ^ 2) / 2 = _ => generalize a b end. intros a b. field.
Qed.
Lemma rhs_inv g phi th ma F0 F1 : conical_rhs (Some g) (Some phi) (Some th, Some ma) = (Some F0, Some F1) ->
  let d x := x * (PI / 180) in
  let k := 1 - (ma * sin (d (phi - th))) ^ 2 in
  sin (d phi) <> 0 /\ k <> 0 /\ F0 = - sin (d th) * cos (d (phi - th)) / sin (d phi) / k /\
  F1 = PI / 180 * sin (d th) * sin (d (phi - th)) / sin (d phi) / k * ma * (1 + 1 / 2 * (g - 1) * ma * ma).
Proof.
  cbv zeta. unfold conical_rhs, dsin, dcos. cbn [nradians nsub nsin ncos nmul npowi nopp]. unfold npi. rewrite (ndiv_Some PI 180) by lra. cbn [nmul nadd nsub].
  unfold ndiv. destruct (Req_EM_T (sin (phi * (PI / 180))) 0) as [|Hs]; [discriminate|].
  destruct (Req_EM_T (1 - (ma * sin ((phi - th) * (PI / 180))) ^ 2) 0) as [|Hk]; [discriminate|].
  intros E. injection E as <- <-. repeat split; assumption.
Qed.
Lemma is_derive_speed g m dm (f : R -> R) x : 1 < g -> 0 < m -> f x = m -> is_derive f x dm ->
  is_derive (fun t => speed g (f t)) x (speed g m * (dm / (m * (1 + (g - 1) / 2 * m ^ 2)))).
Proof.
  intros Hg Hm Ef Hd. assert (Hm2 : 0 < m ^ 2) by nra.
  assert (HA : 0 < (g - 1) / 2) by lra.
  assert (H1 : 0 < 1 + (g - 1) / 2 * m ^ 2) by nra.
  assert (Hq : 0 < (g - 1) / 2 * m ^ 2 / (1 + (g - 1) / 2 * m ^ 2)) by (apply Rdiv_lt_0_compat; nra).
  unfold speed. evar_last.
  - apply (is_derive_comp (fun m => sqrt ((g - 1) / 2 * m ^ 2 / (1 + (g - 1) / 2 * m ^ 2))) f); [|exact Hd].
    rewrite Ef. auto_derive; [|reflexivity]. split; [intros E; lra|]. split; [|trivial]. exact Hq.
  - unfold scal; cbn; unfold mult; cbn. set (A := (g - 1) / 2) in *.
    set (q := A * (m * (m * 1)) / (1 + A * (m * (m * 1)))). assert (Q : sqrt q * sqrt q = q) by (apply sqrt_sqrt; unfold q; cbn in Hq; lra).
    assert (Qp : 0 < sqrt q) by (apply sqrt_lt_R0; unfold q; cbn in Hq; lra).
    apply (Rmult_eq_reg_l (sqrt q)); [|lra]. cbn in H1.
    unfold Rdiv in q. fold q. transitivity (q * (dm / (m * (1 + A * (m * (m * 1)))))).
    + assert (Eq : q = A * (m * (m * 1)) * / (1 + A * (m * (m * 1)))) by reflexivity. clearbody q A. rewrite Eq at 3. field. repeat split; lra.
    + set (z := dm / (m * (1 + A * (m * (m * 1))))). transitivity (sqrt q * sqrt q * z); [rewrite Q; reflexivity|ring].
Qed.
(*@P C58_taylor_maccoll: For every gamma > 1 and flow angle and Mach number fields theta(phi), M(phi) whose derivatives at phi are the right-hand side of the code, the velocity components along and normal to the ray, in units of the limit velocity, satisfy the Taylor-Maccoll equations at phi. *)
Lemma solves_taylor_maccoll : forall g th ma phi F0 F1, 1 < g -> 0 < ma phi ->
  conical_rhs (Some g) (Some phi) (Some (th phi), Some (ma phi)) = (Some F0, Some F1) ->
  is_derive th phi F0 -> is_derive ma phi F1 ->
  let deg w := w * (180 / PI) in
  let beta w := w - th (deg w) * (PI / 180) in
  let vr w := speed g (ma (deg w)) * cos (beta w) in
  let vw w := - speed g (ma (deg w)) * sin (beta w) in
  let w := phi * (PI / 180) in
  exists dvr dvw, is_derive vr w dvr /\ is_derive vw w dvw /\ taylor_maccoll g w (vr w) (vw w) dvr dvw.
Proof.
  intros g th ma phi F0 F1 Hg Hm HF Hth Hma deg beta vr vw w.
  pose proof PI_RGT_0 as HPI.
  assert (Dw : deg w = phi) by (unfold deg, w; field; lra).
  destruct (rhs_inv g phi (th phi) (ma phi) F0 F1 HF) as (Hs & Hk & E0 & E1). cbv beta in *.
  assert (Bw : (phi - th phi) * (PI / 180) = beta w) by (unfold beta; rewrite Dw; unfold w; ring).
  rewrite Bw in *. fold w in Hs, E0, E1. set (t := th phi * (PI / 180)) in *. set (m := ma phi) in *. set (b := beta w) in *.
  set (k := 1 - (m * sin b) ^ 2) in *.
  assert (Ew : w = b + t) by (unfold b, beta; rewrite Dw; unfold t; ring).
  assert (Ddeg : is_derive deg w (180 / PI)) by (unfold deg; auto_derive; [trivial|]; cbn; ring).
  assert (Dm : is_derive (fun w => ma (deg w)) w (180 / PI * F1)).
  { apply (is_derive_comp ma deg); [rewrite Dw; exact Hma|exact Ddeg]. }
  assert (Dt : is_derive (fun w => th (deg w)) w (180 / PI * F0)).
  { apply (is_derive_comp th deg); [rewrite Dw; exact Hth|exact Ddeg]. }
  assert (Db : is_derive beta w (1 - F0)).
  { unfold beta. evar_last; [apply (is_derive_minus (fun w => w) (fun w => th (deg w) * (PI / 180))); [apply is_derive_id|]|].
    - apply (is_derive_ext (fun w => scal (PI / 180) (th (deg w)))); [intros; apply Rmult_comm|]. apply is_derive_scal. exact Dt.
    - unfold minus, plus, opp, one; cbn. field. lra. }
  assert (Ds := is_derive_speed g m _ (fun w => ma (deg w)) w Hg Hm ltac:(cbv beta; rewrite Dw; reflexivity) Dm).
  set (V := speed g m) in *. set (A := (g - 1) / 2) in *.
  assert (HA : 0 < A) by (unfold A; lra). assert (Mp : 0 < m ^ 2) by (apply pow_lt; exact Hm). assert (AM : 0 < A * m ^ 2) by (apply Rmult_lt_0_compat; assumption). assert (H1 : 0 < 1 + A * m ^ 2) by lra.
  set (r := sin t * sin b / sin w / k).
  assert (Er : 180 / PI * F1 / (m * (1 + A * m ^ 2)) = r).
  { rewrite E1. unfold r. replace (1 / 2 * (g - 1) * m * m) with (A * m ^ 2) by (unfold A; field). field. repeat split; lra. }
  rewrite Er in Ds.
  assert (V2 : V ^ 2 * (1 + A * m ^ 2) = A * m ^ 2).
  { unfold V, speed. fold A. rewrite pow2_sqrt by (apply Rlt_le, Rdiv_lt_0_compat; assumption). field. lra. }
  exists (V * r * cos b - V * sin b * (1 - F0)), (- (V * r) * sin b - V * cos b * (1 - F0)).
  assert (Dc : is_derive (fun w => cos (beta w)) w (- sin b * (1 - F0))).
  { evar_last; [apply (is_derive_comp cos beta); [apply is_derive_cos|exact Db]|]. unfold scal; cbn; unfold mult; cbn. fold b. ring. }
  assert (Dsn : is_derive (fun w => sin (beta w)) w (cos b * (1 - F0))).
  { evar_last; [apply (is_derive_comp sin beta); [apply is_derive_sin|exact Db]|]. unfold scal; cbn; unfold mult; cbn. fold b. ring. }
  assert (Vw : speed g (ma (deg w)) = V) by (rewrite Dw; reflexivity).
  assert (vrw : vr w = V * cos b) by (unfold vr; rewrite Vw; reflexivity).
  assert (vww : vw w = - V * sin b) by (unfold vw; rewrite Vw; reflexivity).
  split; [|split].
  - unfold vr. evar_last; [apply (is_derive_mult (fun w => speed g (ma (deg w))) (fun w => cos (beta w)) w _ _ Ds Dc Rmult_comm)|].
    unfold plus, mult; cbn. rewrite Vw. fold b. ring.
  - assert (Dn : is_derive (fun w => - speed g (ma (deg w))) w (- (V * r))) by exact (is_derive_opp _ _ _ Ds).
    pose proof (is_derive_mult (fun w => - speed g (ma (deg w))) (fun w => sin (beta w)) w _ _ Dn Dsn Rmult_comm) as XX.
    unfold vw. evar_last; [exact XX|]. unfold plus, mult; cbn. rewrite Vw. fold b. ring.
  - rewrite vrw, vww. clear vrw vww Vw Dc Dsn Ds Dm Dt Db Ddeg Er HF Hth Hma vr vw.
    assert (Rr : r * cos b + sin b * F0 = 0) by (unfold r; rewrite E0; field; split; assumption).
    split; [transitivity (V * (r * cos b + sin b * F0) - V * sin b); [ring|rewrite Rr; ring]|].
    fold A. pose proof (sin2_cos2 b) as Tb. unfold Rsqr in Tb.
    replace (1 - (V * cos b) ^ 2 - (- V * sin b) ^ 2) with (1 - V ^ 2 * (sin b * sin b + cos b * cos b)) by ring. rewrite Tb.
    assert (Sw : sin w = sin b * cos t + cos b * sin t) by (rewrite Ew; apply sin_plus).
    assert (Cw : cos w = cos b * cos t - sin b * sin t) by (rewrite Ew; apply cos_plus).
    assert (A1 : m ^ 2 * (A * (1 - V ^ 2 * 1)) = V ^ 2) by nra.
    assert (Hm2 : m ^ 2 <> 0) by nra.
    apply (Rmult_eq_reg_l (m ^ 2)); [|exact Hm2]. rewrite Rmult_0_r, Rmult_minus_distr_l.
    rewrite <- (Rmult_assoc (m ^ 2)), A1. clear A1.
    set (D := - r * sin b - cos b + cos b * F0).
    replace (- (V * r) * sin b - V * cos b * (1 - F0)) with (V * D) by (unfold D; ring).
    assert (P : cos b + D = - sin t / (sin w * k)).
    { unfold D, r. rewrite E0. transitivity (- sin t * (sin b * sin b + cos b * cos b) / (sin w * k)); [field; split; assumption|rewrite Tb; field; split; assumption]. }
    transitivity (V ^ 3 * (cos b - sin b * (cos w / sin w) + (cos b + D) * k)); [unfold k; ring|].
    rewrite P. replace (- sin t / (sin w * k) * k) with (- sin t / sin w) by (field; split; assumption).
    transitivity (V ^ 3 * ((cos b * sin w - sin b * cos w - sin t) / sin w)); [field; exact Hs|].
    replace (cos b * sin w - sin b * cos w - sin t) with 0; [field; exact Hs|]. rewrite Sw, Cw.
    transitivity (sin t * (sin b * sin b + cos b * cos b) - sin t); [rewrite Tb|]; ring.
Qed.
