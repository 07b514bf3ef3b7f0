(** * The Rankine-Hugoniot boundary condition of Euler1D *)
From Coq Require Import String.
From Verif Require Import Num L_Num Spec M_Isentropic M_ShockWave M_Model1D M_Spectral M_Euler EulerSpec L_Isentropic L_Shock L_Model1D L_Poly L_Spectral L_Spectral2 L_Spectral3 L_Euler1 L_Euler2.
Open Scope R_scope.

Section UP.
Context (g : R) (q : flow).
Hypothesis Hg : 1 < g.
Hypothesis Hq : positive_state q.
Hypothesis Hu : 0 < f_u q.
Hypothesis HM2 : (g - 1) / (2 * g) < f_u q ^ 2 / (g * f_p q / f_rho q).

Lemma upstream : exists q0 M0, state_RH (obj g q) = obj g q0 /\
  downstream_Mn (M_Model1D.Mach (obj g q)) (Some g) = Some M0 /\
  positive_state q0 /\ 0 < M0 /\ M0 = f_u q0 / flow_sound g q0 /\
  rhor g M0 = f_rho q / f_rho q0 /\ psr g M0 = f_p q / f_p q0 /\
  f_rho q * f_u q = f_rho q0 * f_u q0 /\ rankine_hugoniot g 0 q q0.
Proof.
  pose proof (sound_pos g q ltac:(lra) Hq) as Ha.
  pose proof (sound_sq g q ltac:(lra) Hq) as H2. pose proof Hq as [Hr Hp].
  set (M := f_u q / flow_sound g q).
  assert (EM : M ^ 2 = f_u q ^ 2 / (g * f_p q / f_rho q)).
  { unfold M. replace ((f_u q / flow_sound g q) ^ 2) with (f_u q ^ 2 / flow_sound g q ^ 2) by (field; lra).
    now rewrite H2. }
  assert (Hd : sdom g M) by (unfold sdom; rewrite EM; exact HM2).
  assert (HM : 0 < M) by (unfold M; pos).
  destruct (state_RH_eval g q Hg Hq ltac:(lra)) as [E HR]. fold M in E, HR.
  pose proof (psr_pos g M Hg Hd) as HP.
  pose proof (sdom_den g M Hg Hd) as HDd. pose proof (rden_pos g M Hg) as HD.
  pose proof (md2_pos g M Hg Hd) as Hm2.
  set (q1 := mkflow (f_rho q * rhor g M) (f_u q / rhor g M) (f_p q * psr g M)) in *.
  assert (Hq1 : positive_state q1) by (split; cbn; pos).
  pose proof (sound_pos g q1 ltac:(lra) Hq1) as Ha1. pose proof (sound_sq g q1 ltac:(lra) Hq1) as H21.
  assert (HM2p : 0 < M ^ 2) by pos.
  set (M1 := f_u q1 / flow_sound g q1).
  assert (HM1 : 0 < M1) by (unfold M1; apply Rdiv_lt_0_compat; [cbn; pos|assumption]).
  assert (EM1 : M1 ^ 2 = md2 g M).
  { unfold M1. replace ((f_u q1 / flow_sound g q1) ^ 2) with (f_u q1 ^ 2 / flow_sound g q1 ^ 2) by (field; lra).
    rewrite H21. unfold q1; cbn [f_rho f_u f_p].
    replace (f_u q) with (M * flow_sound g q) by (unfold M; field; lra).
    replace ((M * flow_sound g q / rhor g M) ^ 2) with (M ^ 2 * flow_sound g q ^ 2 / rhor g M ^ 2) by (field; lra).
    rewrite H2. rewrite psr_alt by assumption. unfold rhor, md2, tt. field. repeat split; try lra; try nra. }
  assert (EM1' : sqrt (md2 g M) = M1) by (rewrite <- EM1; apply sqrt_sq; lra).
  assert (ER : rhor g M * rhor g M1 = 1).
  { unfold rhor. rewrite EM1. unfold md2, tt. field. repeat split; try lra; try nra. }
  assert (EP : psr g M * psr g M1 = 1).
  { rewrite psr_alt by assumption. rewrite (psr_alt g M1) by assumption. rewrite EM1.
    unfold md2, tt. field. repeat split; try lra; try nra. }
  exists q1, M1. split; [exact E|]. split.
  { rewrite Mach_eval by (assumption || lra). fold M. rewrite Md_eval by assumption. now rewrite EM1'. }
  split; [exact Hq1|]. split; [exact HM1|]. split; [reflexivity|].
  assert (A1 : rhor g M1 = f_rho q / f_rho q1).
  { unfold q1; cbn [f_rho]. apply (Rmult_eq_reg_l (rhor g M)); [|lra]. rewrite ER. field. lra. }
  assert (A2 : psr g M1 = f_p q / f_p q1).
  { unfold q1; cbn [f_p]. apply (Rmult_eq_reg_l (psr g M)); [|lra]. rewrite EP. field. lra. }
  split; [exact A1|]. split; [exact A2|]. split; [unfold q1; cbn; field; lra|].
  destruct (state_RH_conserves g q Hg Hq ltac:(lra)) as (q' & E' & _ & RH).
  rewrite E in E'. unfold obj in E'. injection E' as E1 E2 E3.
  destruct q' as [a b c]; cbn [f_rho f_u f_p] in E1, E2, E3. unfold q1. rewrite E1, E2, E3. exact RH.
Qed.
End UP.

Lemma matvec1 m A w i (F : nat -> R) : (forall j, (j < m)%nat -> A i j = Some (F j)) ->
  matvec m A (fun j => Some (w j)) i = Some (rsum m (fun j => F j * w j)).
Proof. intros H. unfold matvec. apply nsum_Some. intros j Hj. rewrite H by assumption. reflexivity. Qed.

(** a row with non-zero entries only at columns 0, n, 2n and 3n *)
Lemma row4 n A w i (c0 c1 c2 c3 : R) : (1 <= n)%nat ->
  (forall j, A i j = if Nat.eqb j (2 * n) then Some c2 else if Nat.eqb j n then Some c1 else if Nat.eqb j 0 then Some c0
       else if Nat.eqb j (3 * n) then Some c3 else Some 0) ->
  matvec (3 * n + 1) A (fun j => Some (w j)) i = Some (c0 * w 0%nat + c1 * w n + c2 * w (2 * n)%nat + c3 * w (3 * n)%nat).
Proof.
  intros Hn H.
  rewrite (matvec1 (3 * n + 1) A w i (fun j => c0 * delta 0 j + c1 * delta n j + c2 * delta (2 * n) j + c3 * delta (3 * n) j)).
  - f_equal.
    rewrite (rsum_ext _ _ (fun j => c0 * (delta 0 j * w j) + c1 * (delta n j * w j) + c2 * (delta (2 * n) j * w j) + c3 * (delta (3 * n) j * w j))) by (intros; ring).
    rewrite !rsum_plus, !rsum_scal, !rsum_delta by lia. ring.
  - intros j Hj. rewrite H. unfold delta. clear - Hn.
    repeat match goal with |- context [Nat.eqb ?a ?b] => destruct (Nat.eqb_spec a b); try lia end; f_equal; ring.
Qed.

(** the coefficients computed by setBC_RH *)
Lemma rh_eval n D d x q r u p dM dx q0 M0 q0p :
  let g := 14/10 in let q1 := mkflow (r 0%nat) (u 0%nat) (p 0%nat) in
  (1 <= n)%nat ->
  (forall i j, (i < n)%nat -> (j < n)%nat -> D i j = Some (d i j)) ->
  (forall i, (i < n)%nat -> e_rho q i = Some (r i) /\ e_u q i = Some (u i) /\ e_p q i = Some (p i)) ->
  state_RH (obj g q1) = obj g q0 -> downstream_Mn (M_Model1D.Mach (obj g q1)) (Some g) = Some M0 ->
  positive_state q0 -> 0 < M0 -> nsub (x 1%nat) (x 0%nat) = Some dx -> dx <> 0 ->
  state_isentropic_Mach (obj g q0) (Some (M0 + dM * dx)) = obj g q0p ->
  let k := rh_coefficients n D x q 0 (Some dM) in
  let a0 := flow_sound g q0 in
  let kr := 4 / (g + 1) * rhor g M0 ^ 2 / M0 ^ 3 in let kp := 4 * g / (g + 1) * M0 in
  let dr0 := (f_rho q0p - f_rho q0) / dx in let du0 := (f_u q0p - f_u q0) / dx in let dp0 := (f_p q0p - f_p q0) / dx in
  (forall a b, rh_1 k a b = vec3 (vec3 (Some (/ f_rho q0)) (Some (f_u q1 / f_rho q0)) (Some 0) a)
                             (vec3 (Some 0) (Some (rhor g M0)) (Some 0) a) (vec3 (Some 0) (Some 0) (Some (/ f_p q0)) a) b) /\
  rh_s k 0%nat 1%nat = Some (kr / a0) /\ rh_s k 1%nat 1%nat = Some (1 - rhor g M0) /\ rh_s k 2%nat 1%nat = Some (kp / a0) /\
  rh_s k 0%nat 0%nat = Some (- kr * dM - rhor g M0 / f_rho q0 * dr0 + / f_rho q0 * ddx n d r 0) /\
  rh_s k 1%nat 0%nat = Some (- f_u q0 / f_rho q0 * dr0 - du0 + f_u q1 / f_rho q0 * ddx n d r 0 + rhor g M0 * ddx n d u 0) /\
  rh_s k 2%nat 0%nat = Some (- kp * dM - psr g M0 / f_p q0 * dp0 + / f_p q0 * ddx n d p 0).
Proof.
  intros g q1 Hn HD Hq E1 E2 Hq0 HM0 Hx Hdx E3 k a0 kr kp dr0 du0 dp0.
  assert (Hr : forall i, (i < n)%nat -> e_rho q i = Some (r i)) by (intros; apply Hq; assumption).
  assert (Hu : forall i, (i < n)%nat -> e_u q i = Some (u i)) by (intros; apply Hq; assumption).
  assert (Hp : forall i, (i < n)%nat -> e_p q i = Some (p i)) by (intros; apply Hq; assumption).
  assert (Ea : asound (obj g q0) = Some a0) by (apply asound_eval; [unfold g; lra|assumption]).
  pose proof (sound_pos g q0 ltac:(unfold g; lra) Hq0) as Ha0. fold a0 in Ha0.
  assert (Hg : 1 < g) by (unfold g; lra).
  destruct Hq0 as [Hr0 Hp0].
  unfold k, rh_coefficients, d_rho, d_u, d_p.
  rewrite (matvec_dx n D d HD _ r 0 Hr), (matvec_dx n D d HD _ u 0 Hu), (matvec_dx n D d HD _ p 0 Hp), Hr, Hu, Hp by lia.
  change (state_init (Some (r 0%nat)) (Some (u 0%nat)) (Some (p 0%nat)) None) with (obj g q1).
  cbv zeta. change (st_g (obj g q1)) with (Some g). rewrite E1, E2, Ea. rewrite Rho_eval, Ps_eval by assumption.
  rewrite Hx. cbn [rh_1 rh_s]. cbn [nmul nadd]. rewrite E3.
  cbn [obj st_g st_rho st_u st_p state_init q1 f_rho f_u f_p].
  assert (HM3 : M0 ^ 3 <> 0) by (apply pow_nonzero; lra).
  assert (EK : ndiv (nmul (ndiv (Some 4) (Some (g + 1))) (npowi (Some (rhor g M0)) 2)) (npowi (Some M0) 3) = Some kr).
  { ncbn. rewrite ndiv_Some by lra. ncbn. rewrite ndiv_Some by assumption. reflexivity. }
  assert (EKp : nmul (ndiv (Some (4 * g)) (Some (g + 1))) (Some M0) = Some kp).
  { ncbn. rewrite ndiv_Some by lra. reflexivity. }
  rewrite EK, EKp. clear EK EKp. clearbody kr kp. generalize (rhor g M0) (psr g M0). intros rr pr.
  clear HM3 E3 E2 E1 Ea.
  split; [|split; [|split; [|split; [|split; [|split]]]]].
  - intros a b. destruct b as [|[|[|b]]]; cbn [vec3]; [| | |reflexivity]; destruct a as [|[|[|a]]]; cbn [vec3]; try reflexivity; ncbn; rewrite ?ndiv_Some by lra; f_equal; field; lra.
  - cbn [vec3]. rewrite ndiv_Some by lra. reflexivity.
  - reflexivity.
  - cbn [vec3]. rewrite ndiv_Some by lra. reflexivity.
  - cbn [vec3]. ncbn. rewrite !ndiv_Some by lra. ncbn. f_equal. unfold dr0. field. lra.
  - cbn [vec3]. ncbn. rewrite !ndiv_Some by lra. ncbn. f_equal. unfold dr0, du0. field. lra.
  - cbn [vec3]. ncbn. rewrite !ndiv_Some by lra. ncbn. f_equal. unfold dp0. field. lra.
Qed.

Lemma RH_matrices n D x q dM o : (1 <= n)%nat -> o_size o = (3 * n)%nat ->
  let k := rh_coefficients n D x q 0 (Some dM) in
  exists o', setBC_RH n D x q 0 0 (("dM0dx"%string, BNum (Some dM)) :: nil) o = (None, o') /\ o_size o' = (3 * n + 1)%nat /\
  (forall i j, o_B o' i j =
    if Nat.eqb i (2 * n) then (if Nat.eqb j (2 * n) then rh_1 k 2 2 else if Nat.eqb j n then rh_1 k 2 1 else if Nat.eqb j 0 then rh_1 k 2 0
       else if Nat.eqb j (3 * n) then rh_s k 2 0 else Some 0)
    else if Nat.eqb i (3 * n) then (if Nat.eqb j (2 * n) then rh_1 k 1 2 else if Nat.eqb j n then rh_1 k 1 1 else if Nat.eqb j 0 then rh_1 k 1 0
       else if Nat.eqb j (3 * n) then rh_s k 1 0 else Some 0)
    else if Nat.eqb i 0 then (if Nat.eqb j (2 * n) then rh_1 k 0 2 else if Nat.eqb j n then rh_1 k 0 1 else if Nat.eqb j 0 then rh_1 k 0 0
       else if Nat.eqb j (3 * n) then rh_s k 0 0 else Some 0)
    else if andb (Nat.ltb i (3 * n)) (Nat.ltb j (3 * n)) then o_B o i j else Some 0) /\
  (forall i j, o_At o' i j =
    if Nat.eqb i (2 * n) then (if Nat.eqb j (3 * n) then nopp (rh_s k 2 1) else Some 0)
    else if Nat.eqb i (3 * n) then (if Nat.eqb j (3 * n) then nopp (rh_s k 1 1) else Some 0)
    else if Nat.eqb i 0 then (if Nat.eqb j (3 * n) then nopp (rh_s k 0 1) else Some 0)
    else if andb (Nat.ltb i (3 * n)) (Nat.ltb j (3 * n)) then o_At o i j else Some 0).
Proof.
  intros Hn HN k.
  assert (W : forall o a r, o_size o = (3 * n + 1)%nat -> (r < 3 * n + 1)%nat ->
    rh_write n 0 0 k a r o = (None, mk_ops (o_size o) (set_entry r (3 * n) (nopp (rh_s k a 1)) (zero_row r (o_At o)))
      (set_entry r (2 * n) (rh_1 k a 2) (set_entry r n (rh_1 k a 1) (set_entry r 0 (rh_1 k a 0) (set_entry r (3 * n) (rh_s k a 0) (zero_row r (o_B o)))))))).
  { clear - Hn. intros o a r Ho Hr. unfold rh_write. rewrite Ho, !Nat.add_0_r. rewrite (proj2 (Nat.ltb_lt r (3 * n + 1)) Hr).
    replace (1 * n)%nat with n by lia. replace (0 * n)%nat with 0%nat by lia. reflexivity. }
  unfold setBC_RH. cbn [dget dremove String.eqb Ascii.eqb Bool.eqb]. rewrite HN, Nat.eqb_refl. fold k.
  rewrite W by (cbn [o_size]; lia). rewrite W by (cbn [o_size]; lia). rewrite W by (cbn [o_size]; lia).
  eexists. split; [reflexivity|]. split; [reflexivity|]. cbn [o_At o_B o_size].
  split; intros i j; unfold set_entry, zero_row, enlarge; clear - Hn; rngE; reflexivity.
Qed.

Lemma is_derive_eq (f : R -> R) x a b : is_derive f x a -> a = b -> is_derive f x b.
Proof. intros H <-; exact H. Qed.
Lemma der_rho g r0 r1 M0 a dr0 dr1 w0 dM X S : 1 < g -> 0 < r0 -> 0 < M0 -> 0 < a -> rhor g M0 = r1 / r0 ->
  is_derive (fun e => jump_rho g (r0 + e * (dr0 * X)) (r1 + e * (w0 + dr1 * X)) (M0 + e * (dM * X - S / a))) 0
   (/ r0 * w0 + (- (4 / (g + 1) * rhor g M0 ^ 2 / M0 ^ 3) * dM - rhor g M0 / r0 * dr0 + / r0 * dr1) * X
    + 4 / (g + 1) * rhor g M0 ^ 2 / M0 ^ 3 / a * S).
Proof.
  intros Hg H0 HM Ha ER. unfold jump_rho. pose proof (rden_pos g M0 Hg).
  auto_derive.
  - replace (M0 + 0 * (dM * X - S / a)) with M0 by ring. repeat split; cbn [pow] in *; try lra.
  - replace (M0 + 0 * (dM * X - S * / a)) with M0 by ring. replace (M0 + 0 * (dM * X - S / a)) with M0 by ring. replace r1 with (rhor g M0 * r0) by (rewrite ER; field; lra). unfold rhor. field. repeat split; lra.
Qed.
Lemma der_mass r0 u0 r1 u1 dr0 du0 dr1 du1 w0 w1 X S rr : 0 < r0 -> rr = r1 / r0 -> r1 * u1 = r0 * u0 ->
  is_derive (fun e => jump_mass (r0 + e * (dr0 * X)) (u0 + e * (du0 * X)) (r1 + e * (w0 + dr1 * X)) (u1 + e * (w1 + du1 * X)) (e * S) / r0) 0
   (u1 / r0 * w0 + rr * w1 + (- u0 / r0 * dr0 - du0 + u1 / r0 * dr1 + rr * du1) * X + (1 - rr) * S).
Proof.
  intros H0 -> E. unfold jump_mass. auto_derive; [lra|]. field. lra.
Qed.
Lemma der_p g p0 p1 M0 a dp0 dp1 w2 dM X S : 1 < g -> 0 < p0 -> 0 < a -> psr g M0 = p1 / p0 ->
  is_derive (fun e => jump_p g (p0 + e * (dp0 * X)) (p1 + e * (w2 + dp1 * X)) (M0 + e * (dM * X - S / a))) 0
   (/ p0 * w2 + (- (4 * g / (g + 1) * M0) * dM - psr g M0 / p0 * dp0 + / p0 * dp1) * X + 4 * g / (g + 1) * M0 / a * S).
Proof.
  intros Hg H0 Ha ER. unfold jump_p.
  auto_derive; [lra|]. replace p1 with (psr g M0 * p0) by (rewrite ER; field; lra). unfold psr. field. repeat split; lra.
Qed.

(*@P C50_RH_partial: At the left end, for a base flow of air whose state at the first node can be downstream of a steady shock: with the upstream state q0 given by the Rankine-Hugoniot relations (the three jump relations hold between q0 and the first node), its Mach number M0 (the conjugate of the Mach number of the first node) and the upstream gradient used by the code (difference quotient between q0 and the state returned by state_isentropic_Mach), rows 0, 3n and 2n of (B w - At v) are the derivatives of the density, mass and pressure jump relations across a shock displaced by eps X and moving at eps S, X and S being the extra unknowns; all other rows are the given ones bordered by a zero column. *)
Lemma RH_left : forall n D d x q r u p dM o w v dx,
  let g := 14/10 in let q1 := mkflow (r 0%nat) (u 0%nat) (p 0%nat) in
  (1 <= n)%nat -> (o_size o = 3 * n)%nat ->
  (forall i j, (i < n)%nat -> (j < n)%nat -> D i j = Some (d i j)) ->
  (forall i, (i < n)%nat -> e_rho q i = Some (r i) /\ e_u q i = Some (u i) /\ e_p q i = Some (p i)) ->
  positive_state q1 -> 0 < f_u q1 -> (g - 1) / (2 * g) < f_u q1 ^ 2 / (g * f_p q1 / f_rho q1) ->
  nsub (x 1%nat) (x 0%nat) = Some dx -> dx <> 0 ->
  exists q0 M0 q0p o',
    rankine_hugoniot g 0 q1 q0 /\ positive_state q0 /\ M0 = f_u q0 / flow_sound g q0 /\
    downstream_Mn (Some (f_u q1 / flow_sound g q1)) (Some g) = Some M0 /\
    jump_rho g (f_rho q0) (f_rho q1) M0 = 0 /\ jump_mass (f_rho q0) (f_u q0) (f_rho q1) (f_u q1) 0 = 0 /\ jump_p g (f_p q0) (f_p q1) M0 = 0 /\
    state_isentropic_Mach (obj g q0) (Some (M0 + dM * dx)) = obj g q0p /\
    setBC_RH n D x q 0 0 (("dM0dx"%string, BNum (Some dM)) :: nil) o = (None, o') /\ (o_size o' = 3 * n + 1)%nat /\
    (let X := w (3 * n)%nat in let S := v (3 * n)%nat in
     let rho0 e := f_rho q0 + e * ((f_rho q0p - f_rho q0) / dx * X) in
     let u0 e := f_u q0 + e * ((f_u q0p - f_u q0) / dx * X) in
     let p0 e := f_p q0 + e * ((f_p q0p - f_p q0) / dx * X) in
     let rho1 e := r 0%nat + e * (w 0%nat + ddx n d r 0 * X) in
     let u1 e := u 0%nat + e * (w n + ddx n d u 0 * X) in
     let p1 e := p 0%nat + e * (w (2 * n)%nat + ddx n d p 0 * X) in
     let M e := M0 + e * (dM * X - S / flow_sound g q0) in
     let Bw := matvec (3 * n + 1) (o_B o') (fun j => Some (w j)) in
     let Av := matvec (3 * n + 1) (o_At o') (fun j => Some (v j)) in
     exists b0 b1 b2, nsub (Bw 0%nat) (Av 0%nat) = Some b0 /\ nsub (Bw (3 * n)%nat) (Av (3 * n)%nat) = Some b1 /\
       nsub (Bw (2 * n)%nat) (Av (2 * n)%nat) = Some b2 /\
       is_derive (fun e => jump_rho g (rho0 e) (rho1 e) (M e)) 0 b0 /\
       is_derive (fun e => jump_mass (rho0 e) (u0 e) (rho1 e) (u1 e) (e * S) / f_rho q0) 0 b1 /\
       is_derive (fun e => jump_p g (p0 e) (p1 e) (M e)) 0 b2) /\
    forall i j, i <> 0%nat -> i <> (2 * n)%nat -> i <> (3 * n)%nat -> (i < 3 * n)%nat ->
      o_B o' i j = (if Nat.ltb j (3 * n) then o_B o i j else Some 0) /\
      o_At o' i j = (if Nat.ltb j (3 * n) then o_At o i j else Some 0).
Proof.
  intros n D d x q r u p dM o w v dx g q1 Hn HN HD Hq Hq1 Hu1 HM2 Hx Hdx.
  assert (Hg : 1 < g) by (unfold g; lra).
  destruct (upstream g q1 Hg Hq1 Hu1 HM2) as (q0 & M0 & E1 & E2 & Hq0 & HM0 & EM & ER & EP & EU & RH).
  destruct (isentropic_Mach g q0 (M0 + dM * dx) Hg Hq0) as (q0p & T & _ & E3 & _).
  destruct (rh_eval n D d x q r u p dM dx q0 M0 q0p Hn HD Hq E1 E2 Hq0 HM0 Hx Hdx E3) as (K1 & S0 & S1 & S2 & X0 & X1 & X2).
  set (k := rh_coefficients n D x q 0 (Some dM)) in *.
  destruct (RH_matrices n D x q dM o Hn HN) as (o' & Eo & HNo & EB & EA). fold k in EB, EA.
  exists q0, M0, q0p, o'. split; [exact RH|]. split; [exact Hq0|]. split; [exact EM|].
  split; [rewrite <- Mach_eval by (assumption || lra); exact E2|].
  split; [unfold jump_rho; rewrite <- ER; unfold rhor; ring|]. split; [unfold jump_mass; rewrite !Rminus_0_r, EU; ring|]. split; [unfold jump_p; rewrite <- EP; unfold psr; ring|].
  split; [exact E3|]. split; [exact Eo|]. split; [exact HNo|].
  assert (RB : forall i a, (i = 0 /\ a = 0 \/ i = 3 * n /\ a = 1 \/ i = 2 * n /\ a = 2)%nat ->
     forall j, o_B o' i j = if Nat.eqb j (2 * n) then rh_1 k a 2 else if Nat.eqb j n then rh_1 k a 1 else if Nat.eqb j 0 then rh_1 k a 0
       else if Nat.eqb j (3 * n) then rh_s k a 0 else Some 0).
  { intros i a Hi j. rewrite EB. clear - Hi Hn. destruct Hi as [[-> ->]|[[-> ->]|[-> ->]]]; rngE; reflexivity. }
  assert (RA : forall i a, (i = 0 /\ a = 0 \/ i = 3 * n /\ a = 1 \/ i = 2 * n /\ a = 2)%nat ->
     forall j, o_At o' i j = if Nat.eqb j (2 * n) then Some 0 else if Nat.eqb j n then Some 0 else if Nat.eqb j 0 then Some 0
       else if Nat.eqb j (3 * n) then nopp (rh_s k a 1) else Some 0).
  { intros i a Hi j. rewrite EA. clear - Hi Hn. destruct Hi as [[-> ->]|[[-> ->]|[-> ->]]]; rngE; reflexivity. }
  split.
  - intros X S rho0 u0 p0 rho1 u1 p1 M Bw Av.
    pose proof (sound_pos g q0 ltac:(lra) Hq0) as Ha0. destruct Hq0 as [Hr0 Hp0]. pose proof (rden_pos g M0 Hg) as Hden.
    eexists _, _, _. split; [|split; [|split; [|split; [|split]]]].
    + unfold Bw, Av. erewrite row4, row4; [reflexivity|assumption| |assumption| ]; cbv beta.
      * intros j. rewrite (RA 0%nat 0%nat) by (left; split; reflexivity). rewrite S0. cbn [nopp]. reflexivity.
      * intros j. rewrite (RB 0%nat 0%nat) by (left; split; reflexivity). rewrite !K1, X0. cbn [vec3]. reflexivity.
    + unfold Bw, Av. erewrite row4, row4; [reflexivity|assumption| |assumption| ]; cbv beta.
      * intros j. rewrite (RA (3 * n)%nat 1%nat) by (right; left; split; reflexivity). rewrite S1. cbn [nopp]. reflexivity.
      * intros j. rewrite (RB (3 * n)%nat 1%nat) by (right; left; split; reflexivity). rewrite !K1, X1. cbn [vec3]. reflexivity.
    + unfold Bw, Av. erewrite row4, row4; [reflexivity|assumption| |assumption| ]; cbv beta.
      * intros j. rewrite (RA (2 * n)%nat 2%nat) by (right; right; split; reflexivity). rewrite S2. cbn [nopp]. reflexivity.
      * intros j. rewrite (RB (2 * n)%nat 2%nat) by (right; right; split; reflexivity). rewrite !K1, X2. cbn [vec3]. reflexivity.
    + fold X S. unfold rho0, rho1, M. cbn [f_rho f_u f_p q1] in *.
      eapply is_derive_eq; [apply der_rho; assumption|]. fold g. match goal with |- ?a = ?b => change (@eq R a b) end. unfold Rdiv. ring.
    + fold X S. unfold rho0, rho1, u0, u1. cbn [f_rho f_u f_p q1] in *.
      eapply is_derive_eq; [apply (der_mass (f_rho q0) (f_u q0) (r 0%nat) (u 0%nat) _ _ _ _ _ _ X S (rhor g M0)); assumption|]. fold g. match goal with |- ?a = ?b => change (@eq R a b) end. unfold Rdiv. ring.
    + fold X S. unfold p0, p1, M. cbn [f_rho f_u f_p q1] in *.
      eapply is_derive_eq; [apply der_p; assumption|]. fold g. match goal with |- ?a = ?b => change (@eq R a b) end. unfold Rdiv. ring.
  - intros i j H0 H2 H3 Hi. rewrite EB, EA. clear - H0 H2 H3 Hi. rngE; split; reflexivity.
Qed.
