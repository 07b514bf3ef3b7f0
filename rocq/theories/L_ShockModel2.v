(** * examples/stability/shock.py: the assembled operators *)
From Coq Require Import String.
From Verif Require Import Num L_Num Spec M_Isentropic M_ShockWave M_Model1D M_Spectral M_Euler M_ShockModel PolySpec EulerSpec L_Isentropic L_Shock L_Poly L_Spectral L_Spectral2 L_Spectral3 L_Euler1 L_Euler2 L_Euler3 L_Euler4 L_Model1D L_ShockModel.
Open Scope R_scope.

Lemma compute_RH_sym n D x q l r h o dM o1 : l <> r -> hget h l = shock_left (Some (Some dM)) -> hget h r = shock_right ->
  setBC_RH n D x q 0 0 (("dM0dx"%string, BNum (Some dM)) :: nil) o = (None, o1) ->
  exists h', compute_BC n D x q (Some (l, r)) h o = (None, h', setBC_sym n D (n - 1) (n - 1) o1).
Proof.
  intros Hlr El Er E. unfold compute_BC. rewrite El.
  change (dget "type" (shock_left (Some (Some dM)))) with (Some (BStr "RH")). cbn [is_str String.eqb Ascii.eqb Bool.eqb].
  assert (EA : apply_BC n D x q 0 0 l h o = (None, hset h l (("dM0dx"%string, BNum (Some dM)) :: nil), o1)).
  { unfold apply_BC. rewrite El. change (dget "type" (shock_left (Some (Some dM)))) with (Some (BStr "RH")).
    change (dremove "type" (shock_left (Some (Some dM)))) with (("dM0dx"%string, BNum (Some dM)) :: nil).
    cbn [String.eqb Ascii.eqb Bool.eqb]. rewrite E. reflexivity. }
  rewrite EA. eexists. apply apply_sym. rewrite hget_hset_other by assumption. exact Er.
Qed.
Lemma matvec_border n A B (w : nat -> R) i : (forall j, A i j = if Nat.ltb j (3 * n) then B i j else Some 0) ->
  forall b, matvec (3 * n) B (fun j => Some (w j)) i = Some b -> matvec (3 * n + 1) A (fun j => Some (w j)) i = Some b.
Proof.
  intros H b E. replace (3 * n + 1)%nat with (S (3 * n)) by lia. unfold matvec. cbn [nsum].
  assert (EQ : nsum (3 * n) (fun j => nmul (A i j) (Some (w j))) = Some b).
  { rewrite <- E. apply (row_change (3 * n) A B (fun j => Some (w j)) i). intros j Hj. rewrite H. now rewrite (proj2 (Nat.ltb_lt j (3 * n)) Hj). }
  rewrite EQ, H, Nat.ltb_irrefl. ncbn. f_equal. ring.
Qed.

(*@P C93_operators: For every number of nodes n >= 2, length, supersonic M0, upstream gradient dM0dx, perturbation w and its time derivative v: the first request of the operators succeeds and returns matrices of size 3n+1 (the extra unknown being the position of the shock) in which, the differentiation matrix being exact on polynomials: at the interior nodes stand the linearised Euler equations about the base flow; at the shock, the linearised velocity equation and, in rows 0, 3n and 2n, the derivatives of the density, mass and pressure jump relations across the shock displaced by eps X and moving at eps S (upstream gradients being the difference quotients used by the code); at the wall rho_x = 0, u = 0, p_x = 0. *)
Lemma shock_operators : forall n L M0 dM h w v, (2 <= n)%nat -> 0 < L -> 1 <= M0 ->
  exists e h' o x d r u p q0 q0p dx,
  new_shock_model n (Some L) None (Some (Some M0)) (Some (Some dM)) h = (inr e, h') /\
  fst (fst (get_RHS_time_matrices h' e)) = inr o /\ o_size o = (3 * n + 1)%nat /\
  (forall i, (i < n)%nat -> cheb_x n (Some 0) (Some L) i = Some (x i)) /\ differentiates n x 1 d /\
  (exists b, eu_base e = Some b /\ finite_base n b r u p (14/10)) /\
  let q1 := mkflow (r 0%nat) (u 0%nat) (p 0%nat) in
  rankine_hugoniot (14/10) 0 q1 q0 /\ positive_state q0 /\ f_u q0 = M0 * flow_sound (14/10) q0 /\
  dx = x 1%nat - x 0%nat /\ state_isentropic_Mach (obj (14/10) q0) (Some (M0 + dM * dx)) = obj (14/10) q0p /\
  let Bw := matvec (3 * n + 1) (o_B o) (fun j => Some (w j)) in
  let Aw := matvec (3 * n + 1) (o_At o) (fun j => Some (w j)) in
  let Av := matvec (3 * n + 1) (o_At o) (fun j => Some (v j)) in
  (forall k, (0 < k < n - 1)%nat -> linearised_rows n d r u p (14/10) w Bw Aw k) /\
  (exists b, Bw n = Some b /\ Aw n = Some (w n) /\
     is_derive (fun eps => u_t n d (pert r eps w 0) (pert u eps w n) (pert p eps w (2 * n)) 0) 0 b) /\
  symmetry_rows n d w Bw Aw (n - 1) /\
  (let X := w (3 * n)%nat in let S := v (3 * n)%nat in
   let rho0 eps := f_rho q0 + eps * ((f_rho q0p - f_rho q0) / dx * X) in
   let u0 eps := f_u q0 + eps * ((f_u q0p - f_u q0) / dx * X) in
   let p0 eps := f_p q0 + eps * ((f_p q0p - f_p q0) / dx * X) in
   let rho1 eps := r 0%nat + eps * (w 0%nat + ddx n d r 0 * X) in
   let u1 eps := u 0%nat + eps * (w n + ddx n d u 0 * X) in
   let p1 eps := p 0%nat + eps * (w (2 * n)%nat + ddx n d p 0 * X) in
   let M eps := M0 + eps * (dM * X - S / flow_sound (14/10) q0) in
   exists b0 b1 b2, nsub (Bw 0%nat) (Av 0%nat) = Some b0 /\ nsub (Bw (3 * n)%nat) (Av (3 * n)%nat) = Some b1 /\
     nsub (Bw (2 * n)%nat) (Av (2 * n)%nat) = Some b2 /\
     is_derive (fun eps => jump_rho (14/10) (rho0 eps) (rho1 eps) (M eps)) 0 b0 /\
     is_derive (fun eps => jump_mass (rho0 eps) (u0 eps) (rho1 eps) (u1 eps) (eps * S) / f_rho q0) 0 b1 /\
     is_derive (fun eps => jump_p (14/10) (p0 eps) (p1 eps) (M eps)) 0 b2).
Proof.
  intros n L M0 dM h w v Hn HL HM. assert (Hg : 1 < 14/10) by lra.
  assert (HD : sdom (14/10) M0) by now apply sdom_ge1.
  assert (Em : shock_M1 None (Some (Some M0)) = Some (Some (sqrt (md2 (14/10) M0)))).
  { unfold shock_M1, dgamma. now rewrite Md_eval. }
  pose proof (md2_pos (14/10) M0 Hg HD) as Hm2. set (m := sqrt (md2 (14/10) M0)) in *.
  assert (Hm : 0 < m) by (unfold m; pos).
  destruct (base_flow n L None (Some (Some M0)) (Some (Some dM)) h m Hn HL Em) as (e & h' & b & x & q & EN & Hx & X0 & X1 & Eb & Eg & Ef & Hq & Em1 & _).
  destruct (new_model n (Some L) None (Some (Some M0)) (Some (Some dM)) h (Some m) Em) as (h2 & l & r & EN2 & Hlr & El & Er).
  rewrite EN in EN2. pose proof (f_equal snd EN2) as Eh; cbn [snd] in Eh. pose proof (f_equal fst EN2) as Ee; cbn [fst] in Ee.
  assert (Ee' : e = mk_euler (cheb_init n (Some (Some 0)) (Some (Some L))) (Some (shock_base n (cheb_x n (Some 0) (Some L)) (Some m))) (Some (l, r)) None) by exact (f_equal (fun z => match z with inr a => a | inl _ => e end) Ee).
  clear Ee EN2. subst h2.
  destruct (cheb_real n 0 L nil 1 Hn HL ltac:(lia)) as (D & d & x' & c' & ED & Hc & Hd & Hx' & Df). cbn [matder_run] in ED.
  assert (Exx : forall i, (i < n)%nat -> x' i = x i).
  { intros i Hi. pose proof (Hx i Hi) as A. rewrite (Hx' i Hi) in A. congruence. }
  assert (Df' : differentiates n x 1 d).
  { intros pl i Hpl Hi. rewrite <- (Exx i Hi). rewrite <- (Df pl i Hpl Hi). unfold ddx. change Sum with rsum. apply rsum_ext. intros j Hj. now rewrite Exx. }
  assert (Eq : b = shock_base n (cheb_x n (Some 0) (Some L)) (Some m)) by (rewrite Ee' in Eb; cbn [eu_base] in Eb; congruence).
  destruct (Hq 0%nat ltac:(lia)) as (Hp & _ & _ & _).
  pose proof (sound_pos (14/10) (q 0%nat) ltac:(lra) Hp) as Ha. pose proof (sound_sq (14/10) (q 0%nat) ltac:(lra) Hp) as Ha2.
  assert (Eu : f_u (q 0%nat) = m * flow_sound (14/10) (q 0%nat)) by (rewrite <- Em1; field; lra).
  assert (Hu : 0 < f_u (q 0%nat)) by (rewrite Eu; pos).
  assert (HM2 : (14/10 - 1) / (2 * (14/10)) < f_u (q 0%nat) ^ 2 / (14/10 * f_p (q 0%nat) / f_rho (q 0%nat))).
  { rewrite <- Ha2, Eu. replace ((m * flow_sound (14/10) (q 0%nat)) ^ 2 / flow_sound (14/10) (q 0%nat) ^ 2) with (m ^ 2) by (field; lra).
    apply (md2_involutive_dom (14/10) M0 Hg HD). }
  assert (Hx01 : x 0%nat < x 1%nat).
  { destruct (x_nodes n 0 L Hn HL) as (_ & _ & X). cbn [cheb_init cb_xmin cb_xmax] in X.
    destruct (X 0%nat 1%nat ltac:(lia) ltac:(lia)) as (a & c & Ea & Ec & Hac & _). rewrite Hx in Ea, Ec by lia. injection Ea as Ea. injection Ec as Ec. lra. }
  pose (r0 := fun i => f_rho (q i)). pose (u0 := fun i => f_u (q i)). pose (p0 := fun i => f_p (q i)).
  set (o0 := mk_ops (3 * n) euler_At (euler_B n D b)).
  assert (Hflow : mkflow (r0 0%nat) (u0 0%nat) (p0 0%nat) = q 0%nat) by (unfold r0, u0, p0; now destruct (q 0%nat)).
  destruct (RH_left n D d (cheb_x n (Some 0) (Some L)) b r0 u0 p0 dM o0 w v (x 1%nat - x 0%nat))
    as (q0 & M0' & q0p & o1 & RH & Hq0 & EM0 & EMd & J0 & J1 & J2 & EI & ER & Ns & Rows & Unch).
  { lia. } { reflexivity. } { exact Hd. } { intros i Hi. exact (Ef i Hi). }
  { rewrite Hflow; exact Hp. } { rewrite Hflow; exact Hu. } { rewrite Hflow; exact HM2. }
  { rewrite !Hx by lia. reflexivity. } { lra. }
  rewrite Hflow in RH.
  pose proof (sound_pos (14/10) q0 ltac:(lra) Hq0) as Ha0.
  assert (E0 : M0' = M0).
  { rewrite Hflow in EMd. rewrite Em1 in EMd. rewrite Md_eval in EMd by (try assumption; now apply md2_involutive_dom).
    injection EMd as <-. unfold m. rewrite md2_md2 by assumption. apply sqrt_pow2; lra. }
  rewrite E0 in *. clear E0 M0'.
  destruct (compute_RH_sym n D (cheb_x n (Some 0) (Some L)) b l r h' o0 dM o1 Hlr El Er ER) as (h3 & EC).
  set (o2 := setBC_sym n D (n - 1) (n - 1) o1) in *.
  assert (EG : fst (fst (get_RHS_time_matrices h' e)) = inr o2).
  { rewrite <- Eq in Ee'. rewrite Ee'. 
    pose proof (first_get h' (mk_euler (cheb_init n (Some (Some 0)) (Some (Some L))) (Some b) (Some (l, r)) None) b D c' eq_refl eq_refl ED) as G.
    cbv zeta in G. destruct Hc as (C1 & C2 & C3 & _). rewrite C1, C2, C3 in G. cbn [eu_BC] in G. fold o0 in G. rewrite EC in G. rewrite G. reflexivity. }
  destruct (sym_rows n D d o1 (n - 1) (n - 1) w ltac:(lia) ltac:(lia) ltac:(right; exact Ns) Hd) as (N2 & T0 & T1 & T2 & Z & U). fold o2 in N2, T0, T1, T2, Z, U.
  rewrite N2, Ns in T0, T1, T2.
  exists e, h', o2, x, d, r0, u0, p0, q0, q0p, (x 1%nat - x 0%nat).
  assert (Hfin : finite_base n b r0 u0 p0 (14/10)).
  { split; [|exact Eg]. intros i Hi. destruct (Ef i Hi) as (F1 & F2 & F3). destruct (Hq i Hi) as ([F4 _] & _).
    split; [exact F1|]. split; [exact F2|]. split; [exact F3|]. unfold r0. lra. }
  split; [exact EN|]. split; [exact EG|]. split; [rewrite N2; exact Ns|]. split; [exact Hx|]. split; [exact Df'|].
  split; [exists b; split; [exact Eb|exact Hfin]|]. intros q1. split; [unfold q1; rewrite Hflow; exact RH|]. split; [exact Hq0|].
  split; [rewrite EM0 at 1; field; lra|]. split; [reflexivity|]. split; [exact EI|].
  intros Bw Aw Av.
  (* rows kept by both conditions *)
  assert (Keep : forall i, (i < 3 * n)%nat -> i <> 0%nat -> i <> (2 * n)%nat -> i <> (n - 1)%nat -> i <> (n + (n - 1))%nat -> i <> (2 * n + (n - 1))%nat ->
     (forall c, matvec (3 * n) (euler_B n D b) (fun j => Some (w j)) i = Some c -> Bw i = Some c) /\ Aw i = Some (w i)).
  { intros i Hi H0 H2 H3 H4 H5. split.
    - intros c Ec. apply (matvec_border n (o_B o2) (euler_B n D b) w i); [|exact Ec]. intros j. destruct (U i j H3 H4 H5) as [-> _].
      destruct (Unch i j H0 H2 ltac:(lia) Hi) as [-> _]. reflexivity.
    - apply (matvec_border n (o_At o2) eye w i); [|apply eye_row; lia]. intros j. destruct (U i j H3 H4 H5) as [_ ->].
      destruct (Unch i j H0 H2 ltac:(lia) Hi) as [_ ->]. reflexivity. }
  split; [|split; [|split]].
  - intros k Hk. destruct Hfin as [Hf Hgg].
    destruct (linearisation n D d b r0 u0 p0 (14/10) w k Hd Hf Hgg ltac:(lia)) as (b0 & b1 & b2 & B0 & B1 & B2 & F0 & F1 & F2).
    destruct (Keep k ltac:(lia) ltac:(lia) ltac:(lia) ltac:(lia) ltac:(lia) ltac:(lia)) as [K0 A0].
    destruct (Keep (n + k)%nat ltac:(lia) ltac:(lia) ltac:(lia) ltac:(lia) ltac:(lia) ltac:(lia)) as [K1 A1].
    destruct (Keep (2 * n + k)%nat ltac:(lia) ltac:(lia) ltac:(lia) ltac:(lia) ltac:(lia) ltac:(lia)) as [K2 A2].
    exists b0, b1, b2. exact (conj (K0 _ B0) (conj (K1 _ B1) (conj (K2 _ B2) (conj F0 (conj F1 (conj F2 (conj A0 (conj A1 A2)))))))).
  - destruct Hfin as [Hf Hgg].
    destruct (linearisation n D d b r0 u0 p0 (14/10) w 0 Hd Hf Hgg ltac:(lia)) as (b0 & b1 & b2 & B0 & B1 & B2 & F0 & F1 & F2).
    destruct (Keep n ltac:(lia) ltac:(lia) ltac:(lia) ltac:(lia) ltac:(lia) ltac:(lia)) as [K1 A1].
    exists b1. rewrite Nat.add_0_r in B1. split; [exact (K1 _ B1)|]. split; [exact A1|exact F1].
  - split; [exact T0|]. split; [exact T1|]. split; [exact T2|].
    split; [|split]; apply zero_row_mv; intros j; destruct (Z j) as (? & ? & ?); assumption.
  - assert (V : forall i, (i = 0 \/ i = 2 * n \/ i = 3 * n)%nat -> Bw i = matvec (3 * n + 1) (o_B o1) (fun j => Some (w j)) i /\
       Av i = matvec (3 * n + 1) (o_At o1) (fun j => Some (v j)) i).
    { intros i Hi. split; apply row_change; intros j Hj; destruct (U i j) as [UA UB]; try lia; assumption. }
    destruct (V 0%nat ltac:(lia)) as [-> ->]. destruct (V (2 * n)%nat ltac:(lia)) as [-> ->]. destruct (V (3 * n)%nat ltac:(lia)) as [-> ->].
    exact Rows.
Qed.

(*@P C93_arguments: Without M1 nor M0 the construction raises AssertionError and nothing is allocated; when M1 is given, M0 is ignored. *)
Lemma shock_arguments : forall n L dM h,
  new_shock_model n L None None dM h = (inl AssertionErr, h) /\
  forall m M0, new_shock_model n L (Some m) M0 dM h = new_shock_model n L (Some m) None dM h.
Proof. intros n L dM h. split; [reflexivity|]. intros m M0. reflexivity. Qed.

(*@P C93_default_gradient_refuted: The upstream gradient has a default value (None), with which the model is built without complaint but can never be solved: the first request of the operators raises ValueError, and the second one silently returns matrices of size 3n+1 whose last row is zero in both matrices, without any condition at the shock nor at the wall. *)
Lemma shock_default_gradient : forall n L M1 M0 h m, (2 <= n)%nat -> 0 < L -> shock_M1 M1 M0 = Some (Some m) ->
  exists e h1 h2 e2 o, new_shock_model n (Some L) M1 M0 None h = (inr e, h1) /\
  get_RHS_time_matrices h1 e = (inl ValueError, h2, e2) /\ fst (fst (get_RHS_time_matrices h2 e2)) = inr o /\
  o_size o = (3 * n + 1)%nat /\ (forall j, o_B o (3 * n)%nat j = Some 0 /\ o_At o (3 * n)%nat j = Some 0) /\
  forall i j, (i < 3 * n)%nat -> (j < 3 * n)%nat -> o_At o i j = eye i j.
Proof.
  intros n L M1 M0 h m Hn HL Em.
  destruct (new_model n (Some L) M1 M0 None h (Some m) Em) as (h1 & l & r & EN & Hlr & El & Er).
  destruct (cheb_real n 0 L nil 1 Hn HL ltac:(lia)) as (D & d & x' & c' & ED & Hc & Hd & Hx' & Df). cbn [matder_run] in ED.
  set (b := shock_base n (cheb_x n (Some 0) (Some L)) (Some m)) in *.
  set (e := mk_euler _ _ _ _) in EN.
  set (o0 := mk_ops (3 * n) euler_At (euler_B n D b)).
  set (o := mk_ops (3 * n + 1) (enlarge (3 * n) (o_At o0)) (enlarge (3 * n) (o_B o0))).
  assert (EC : compute_BC n D (cheb_x n (Some 0) (Some L)) b (Some (l, r)) h1 o0 = (Some ValueError, hset h1 l nil, o)).
  { unfold compute_BC. rewrite El. change (dget "type" (shock_left None)) with (Some (BStr "RH")). cbn [is_str String.eqb Ascii.eqb Bool.eqb].
    unfold apply_BC. rewrite El. change (dget "type" (shock_left None)) with (Some (BStr "RH")). change (dremove "type" (shock_left None)) with (@nil (string * bcval)).
    cbn [String.eqb Ascii.eqb Bool.eqb]. unfold setBC_RH. cbn [dget dremove]. change (o_size o0) with (3 * n)%nat. rewrite Nat.eqb_refl. reflexivity. }
  pose proof (first_get h1 e b D c' eq_refl eq_refl ED) as G. cbv zeta in G.
  destruct Hc as (C1 & C2 & C3 & _). rewrite C1, C2, C3 in G. change (eu_BC e) with (Some (l, r)) in G. fold o0 in G. rewrite EC in G.
  exists e, h1, (hset h1 l nil), (mk_euler c' (eu_base e) (Some (l, r)) (Some o)), o.
  split; [exact EN|]. split; [exact G|]. split; [reflexivity|]. split; [reflexivity|]. split.
  - intros j. unfold o; cbn [o_B o_At]. unfold enlarge. rewrite Nat.ltb_irrefl. split; reflexivity.
  - intros i j Hi Hj. unfold o; cbn [o_At]. unfold enlarge. rewrite (proj2 (Nat.ltb_lt i _) Hi), (proj2 (Nat.ltb_lt j _) Hj). reflexivity.
Qed.

(*@P C93_not_steady_refuted: The base flow is not a steady solution of the equations the operators are linearised from: its mass flow is positive at the shock and zero at the wall, whatever the parameters. *)
Lemma shock_not_steady : forall n L M0 dM h, (2 <= n)%nat -> 0 < L -> 0 < M0 -> 1/7 < M0 ^ 2 ->
  exists e h' b r0 u0 r1 u1, new_shock_model n (Some L) None (Some (Some M0)) dM h = (inr e, h') /\ eu_base e = Some b /\
  e_rho b 0%nat = Some r0 /\ e_u b 0%nat = Some u0 /\ e_rho b (n - 1)%nat = Some r1 /\ e_u b (n - 1)%nat = Some u1 /\
  0 < r0 * u0 /\ r1 * u1 = 0.
Proof.
  intros n L M0 dM h Hn HL HM Hd. assert (Hg : 1 < 14/10) by lra.
  assert (HD : sdom (14/10) M0) by (unfold sdom; lra).
  assert (Em : shock_M1 None (Some (Some M0)) = Some (Some (sqrt (md2 (14/10) M0)))).
  { unfold shock_M1, dgamma. now rewrite Md_eval. }
  destruct (base_flow n L None (Some (Some M0)) dM h _ Hn HL Em) as (e & h' & b & x & q & EN & _ & _ & X1 & Eb & _ & Ef & Hq & _ & _).
  destruct (behind_shock n L M0 dM h Hn HL HM Hd) as (e2 & h2 & b2 & q0 & q1 & EN2 & Eb2 & F1 & F2 & F3 & [Hr _] & Hu & _).
  rewrite EN in EN2. pose proof (f_equal (fun z => match fst z with inr a => a | inl _ => e end) EN2) as Ee. cbn [fst] in Ee. subst e2.
  rewrite Eb in Eb2. injection Eb2 as <-.
  destruct (Ef (n - 1)%nat ltac:(lia)) as (G1 & G2 & _). destruct (Hq (n - 1)%nat ltac:(lia)) as (_ & _ & _ & G4).
  exists e, h', b, (f_rho q1), (f_u q1), (f_rho (q (n - 1)%nat)), (f_u (q (n - 1)%nat)).
  split; [exact EN|]. split; [exact Eb|]. split; [exact F1|]. split; [exact F2|]. split; [exact G1|]. split; [exact G2|].
  split; [pos|]. rewrite G4, X1. field. lra.
Qed.

(*@E C93_example: the case run by the script: 201 nodes, length 2.28e-3, M0 = 2.495 *)
Lemma C93_ex : (2 <= 201)%nat /\ 0 < 228/100000 /\ 1 <= 2495/1000 /\ 1/7 < (2495/1000) ^ 2 /\
  exists m, shock_M1 None (Some (Some (2495/1000))) = Some (Some m) /\ m < 1.
Proof.
  split; [lia|]. split; [lra|]. split; [lra|]. split; [lra|].
  assert (HD : sdom (14/10) (2495/1000)) by (unfold sdom; lra).
  eexists. split; [unfold shock_M1, dgamma; rewrite Md_eval by (assumption || lra); reflexivity|].
  rewrite <- sqrt_1. apply sqrt_lt_1_alt. split; [left; apply md2_pos; [lra|assumption]|]. unfold md2, tt. lra.
Qed.
