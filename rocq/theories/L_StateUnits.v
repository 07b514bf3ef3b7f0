(** * C118: states, Riemann problems and unsteady inflows do not depend on the units *)
From Coq Require Import ZArith Lra Lia.
From Verif Require Import Num L_Num M_Isentropic M_ShockWave M_Model1D M_Unsteady1D M_Riemann M_Inflow UnitsSpec StateUnitsSpec L_Units.
Open Scope num_scope.

Section W.
Variable u : units.
Hypothesis Hu : proper u.
Let c := convert u.
Lemma v_pure x : c pure x = x. Proof. exact (c_pure u x). Qed.
Lemma v_add d x y : c d x + c d y = c d (x + y). Proof. exact (c_add u d x y). Qed.
Lemma v_sub d x y : c d x - c d y = c d (x - y). Proof. exact (c_sub u d x y). Qed.
Lemma v_opp d x : - c d x = c d (- x). Proof. exact (c_opp u d x). Qed.
Lemma v_mul a b x y : c a x * c b y = c (dadd a b) (x * y). Proof. exact (c_mul u Hu a b x y). Qed.
Lemma v_div a b x y : c a x / c b y = c (dadd a (dopp b)) (x / y). Proof. exact (c_div u Hu a b x y). Qed.
Lemma v_mul_l a x y : x * c a y = c a (x * y).
Proof. rewrite <- (v_pure x) at 1. rewrite v_mul. now destruct a. Qed.
Lemma v_mul_r a x y : c a x * y = c a (x * y).
Proof. rewrite <- (v_pure y) at 1. rewrite v_mul. unfold dadd. cbn. rewrite !Z.add_0_r. now destruct a. Qed.
Lemma v_div_r a x y : c a x / y = c a (x / y).
Proof. rewrite <- (v_pure y) at 1. rewrite v_div. unfold dadd, dopp. cbn. rewrite !Z.add_0_r. now destruct a. Qed.
Lemma v_div_l a x y : x / c a y = c (dopp a) (x / y).
Proof. rewrite <- (v_pure x) at 1. rewrite v_div. now destruct a. Qed.
Lemma v_sq d x : c d x ^ 2 = c (dadd d d) (x ^ 2).
Proof. assert (H := c_powi u Hu 2 d x). cbn [dmul] in H. unfold c, convert. rewrite H. unfold dadd. cbn. now rewrite !Z.add_0_r. Qed.
Lemma v_sqrt d x : d = dadd (dhalf d) (dhalf d) -> nsqrt (c d x) = c (dhalf d) (nsqrt x). Proof. exact (c_sqrt u Hu d x). Qed.
Lemma v_pos d : (0 < factor u d)%R. Proof. apply (k_pos u Hu). Qed.
Lemma v_gt d x y : (c d x >? c d y) = (x >? y).
Proof.
  destruct x as [x|], y as [y|]; try reflexivity. cbn. assert (P := v_pos d). destruct (Rlt_dec _ _) as [A|A], (Rlt_dec y x) as [B|B]; try reflexivity; exfalso.
  - apply B. apply Rmult_lt_reg_l with (factor u d); assumption.
  - apply A. now apply Rmult_lt_compat_l.
Qed.
Lemma v_lt d x y : (c d x <? c d y) = (x <? y). Proof. apply (v_gt d y x). Qed.
Lemma v_ge d x y : (c d x >=? c d y) = (x >=? y).
Proof.
  destruct x as [x|], y as [y|]; try reflexivity. cbn. assert (P := v_pos d). destruct (Rle_dec _ _) as [A|A], (Rle_dec y x) as [B|B]; try reflexivity; exfalso.
  - apply B. apply Rmult_le_reg_l with (factor u d); assumption.
  - apply A. apply Rmult_le_compat_l; lra.
Qed.
Lemma v_neg d x : (c d x <? #0) = (x <? #0).
Proof. replace (Some 0%R) with (c d (Some 0%R)) at 1 by (cbn; f_equal; ring). apply v_lt. Qed.
Lemma v_merge a b x : c a (c b x) = c (dadd a b) x.
Proof. rewrite <- (v_pure x) at 1. unfold c, convert. destruct x as [x|]; [|reflexivity]. cbn. f_equal. fold (factor u). rewrite (k_add u Hu a b). unfold factor, pure. cbn. ring. Qed.
End W.

Ltac norm_dims :=
  repeat match goal with
  | |- context [dadd ?a ?b] => let d := eval vm_compute in (dadd a b) in change (dadd a b) with d
  | |- context [dopp ?b] => let d := eval vm_compute in (dopp b) in change (dopp b) with d
  | |- context [dhalf ?b] => let d := eval vm_compute in (dhalf b) in change (dhalf b) with d
  end;
  change (Dim 0 0 0 0) with pure.
Ltac push1 u Hu :=
  first [ rewrite (v_mul u Hu) | rewrite (v_div u Hu) | rewrite (v_sq u Hu) | rewrite (v_add u) | rewrite (v_sub u) | rewrite (v_opp u)
        | rewrite (v_sqrt u Hu) by reflexivity | rewrite (v_mul_l u Hu) | rewrite (v_mul_r u Hu) | rewrite (v_div_r u Hu) | rewrite (v_div_l u Hu)
        | rewrite (v_merge u Hu) | rewrite (v_pure u)
        | rewrite (v_gt u Hu) | rewrite (v_lt u Hu) | rewrite (v_ge u Hu) | rewrite (v_neg u Hu) ].
Ltac push u Hu := unfold density, mass_flux, pressure, velocity, energy in *; repeat (push1 u Hu; norm_dims).

Section S.
Variable u : units.
Hypothesis Hu : proper u.
Lemma s_init r v p g : state_in u (state_init r v p g) = state_init (convert u density r) (convert u velocity v) (convert u pressure p) g.
Proof. reflexivity. Qed.
Lemma s_asound q : asound (state_in u q) = convert u velocity (asound q).
Proof. unfold asound, state_in. cbn [st_g st_rho st_u st_p]. push u Hu. reflexivity. Qed.
Ltac start := intros; cbn [st_g st_rho st_u st_p state_in state_init].
Lemma s_left q : left_acoustic (state_in u q) = convert u velocity (left_acoustic q).
Proof. unfold left_acoustic. start. push u Hu. reflexivity. Qed.
Lemma s_right q : right_acoustic (state_in u q) = convert u velocity (right_acoustic q).
Proof. unfold right_acoustic. start. push u Hu. reflexivity. Qed.
Lemma s_Mach q : Mach (state_in u q) = Mach q.
Proof. unfold Mach. rewrite s_asound. start. push u Hu. reflexivity. Qed.
Lemma s_massflow q : massflow (state_in u q) = convert u mass_flux (massflow q).
Proof. unfold massflow. start. push u Hu. reflexivity. Qed.
Lemma s_Ptot q : Ptot (state_in u q) = convert u pressure (Ptot q).
Proof. unfold Ptot. rewrite s_Mach. start. push u Hu. reflexivity. Qed.
Lemma s_rTtot q : rTtot (state_in u q) = convert u energy (rTtot q).
Proof. unfold rTtot. start. push u Hu. reflexivity. Qed.
Lemma s_RH q : state_RH (state_in u q) = state_in u (state_RH q).
Proof. unfold state_RH. rewrite s_Mach. unfold state_in at 4, state_init. start. push u Hu. reflexivity. Qed.
Lemma s_pt_M q a b M : compute_from_pt_rtt_M (state_in u q) (convert u pressure a) (convert u energy b) M = state_in u (compute_from_pt_rtt_M q a b M).
Proof. unfold compute_from_pt_rtt_M. cbv zeta. rewrite s_init. start. push u Hu. reflexivity. Qed.
Lemma s_pt_u q a b v : compute_from_pt_rtt_u (state_in u q) (convert u pressure a) (convert u energy b) (convert u velocity v) = state_in u (compute_from_pt_rtt_u q a b v).
Proof. unfold compute_from_pt_rtt_u. cbv zeta. rewrite s_init. start. push u Hu. reflexivity. Qed.
Lemma s_pt_p q a b p : compute_from_pt_rtt_p (state_in u q) (convert u pressure a) (convert u energy b) (convert u pressure p) = state_in u (compute_from_pt_rtt_p q a b p).
Proof. unfold compute_from_pt_rtt_p. cbv zeta. rewrite s_init. start. push u Hu. reflexivity. Qed.
Lemma s_symmetric q : copysymmetric (state_in u q) = state_in u (copysymmetric q).
Proof. unfold copysymmetric. rewrite s_init. start. push u Hu. reflexivity. Qed.
Lemma s_ushock q w : rankinehugoniot_from_ushock (state_in u q) (convert u velocity w) = state_in u (rankinehugoniot_from_ushock q w).
Proof. unfold rankinehugoniot_from_ushock. cbv zeta. rewrite s_init, s_asound. start. push u Hu. reflexivity. Qed.
Lemma s_expansion q p : delta_u_expansion (state_in u q) (convert u pressure p) = convert u velocity (delta_u_expansion q p).
Proof. unfold delta_u_expansion. cbv zeta. rewrite s_asound. start. push u Hu. reflexivity. Qed.
Lemma s_shock q p : delta_u_shock (state_in u q) (convert u pressure p) = convert u velocity (delta_u_shock q p).
Proof. unfold delta_u_shock. start. push u Hu. reflexivity. Qed.
Lemma s_rho_shock q p : rho_through_shock (state_in u q) (convert u pressure p) = convert u density (rho_through_shock q p).
Proof. unfold rho_through_shock. cbv zeta. start. push u Hu. reflexivity. Qed.
Lemma s_rho_isentropic q p : rho_through_isentropic (state_in u q) (convert u pressure p) = convert u density (rho_through_isentropic q p).
Proof. unfold rho_through_isentropic. start. push u Hu. reflexivity. Qed.
Lemma s_delta q p : delta_uK (state_in u q) (convert u pressure p) = convert u velocity (delta_uK q p).
Proof. unfold delta_uK. rewrite s_shock, s_expansion. cbn [st_p state_in]. rewrite (v_gt u Hu). destruct (p >? st_p q) as [[|]|]; reflexivity. Qed.
Lemma s_deltaR q p : delta_uR (state_in u q) (convert u pressure p) = convert u velocity (delta_uR q p).
Proof. exact (s_delta q p). Qed.
Lemma s_du qL qR p : riemann_du (state_in u qL) (state_in u qR) (convert u pressure p) = convert u velocity (riemann_du qL qR p).
Proof. unfold riemann_du. rewrite !s_delta. start. push u Hu. reflexivity. Qed.
Lemma s_ustar qL qR p : ustar_from_pstar (state_in u qL) (state_in u qR) (convert u pressure p) = convert u velocity (ustar_from_pstar qL qR p).
Proof. unfold ustar_from_pstar. rewrite !s_delta. start. push u Hu. reflexivity. Qed.

(** powers of a pressure *)
Lemma Rpower_pos x y : (0 < Rpower x y)%R. Proof. apply exp_pos. Qed.
Lemma npow_mul k x z : (0 < k)%R -> npow (Some k * x) z = npow (Some k) z * npow x z.
Proof.
  intro K. destruct x as [x|], z as [z|]; try reflexivity; cbn [nmul npow]; [|now destruct (Rlt_dec 0 k)].
  destruct (Rlt_dec 0 k) as [_|]; [|lra].
  destruct (Rlt_dec 0 (k * x)) as [A|A], (Rlt_dec 0 x) as [B|B].
  - cbn. f_equal. now rewrite Rpower_mult_distr.
  - exfalso. apply B. apply Rmult_lt_reg_l with k; lra.
  - exfalso. apply A. now apply Rmult_lt_0_compat.
  - destruct (Req_EM_T (k * x) 0) as [C|C], (Req_EM_T x 0) as [D|D].
    + destruct (Rlt_dec 0 z); [cbn; f_equal; ring|]. destruct (Req_EM_T z 0) as [->|]; [|reflexivity]. cbn. f_equal. rewrite Rpower_O by assumption. ring.
    + exfalso. apply Rmult_integral in C. lra.
    + exfalso. apply C. rewrite D. ring.
    + destruct (Req_EM_T z (IZR (Int_part z))) as [I|I]; [|reflexivity]. cbn. apply (f_equal (@Some R)). rewrite powerRZ_mult.
      f_equal. rewrite I at 2. now rewrite <- powerRZ_Rpower.
Qed.

Lemma estimate_pow kv kp z w N a b p q : (0 < kv)%R -> (0 < kp)%R -> (z * w = 1)%R ->
  npow (Some kv * N / (Some kv * a / npow (Some kp * p) (Some z) + Some kv * b / npow (Some kp * q) (Some z))) (Some w) =
  Some kp * npow (N / (a / npow p (Some z) + b / npow q (Some z))) (Some w).
Proof.
  intros V P Z. rewrite !(npow_mul kp) by assumption. replace (npow (Some kp) (Some z)) with (Some (Rpower kp z)) by (cbn; destruct (Rlt_dec 0 kp); [reflexivity|lra]).
  set (K := Rpower kp z). assert (KP : (0 < K)%R) by apply Rpower_pos. 
  assert (D : forall x y : num, Some kv * x / (Some K * y) = Some (kv / K)%R * (x / y)).
  { intros [x|] [y|]; try reflexivity. cbn [nmul ndiv]. destruct (Req_EM_T (K * y) 0) as [A|A], (Req_EM_T y 0) as [B|B]; try reflexivity.
    - apply Rmult_integral in A. lra.
    - exfalso. apply A. rewrite B. ring.
    - cbn [nmul]. apply (f_equal (@Some R)). field. lra. }
  rewrite !D.
  assert (E : forall x y k : num, k * x + k * y = k * (x + y)) by (intros [x|] [y|] [k|]; try reflexivity; cbn; f_equal; ring).
  rewrite E.
  assert (F : forall x y : num, Some kv * x / (Some (kv / K)%R * y) = Some K * (x / y)).
  { assert (G : (kv / K <> 0)%R) by (apply Rgt_not_eq, Rdiv_lt_0_compat; assumption).
    intros [x|] [y|]; try reflexivity. cbn [nmul ndiv]. destruct (Req_EM_T (kv / K * y) 0) as [A|A], (Req_EM_T y 0) as [B|B]; try reflexivity.
    - apply Rmult_integral in A. lra.
    - exfalso. apply A. rewrite B. ring.
    - cbn [nmul]. apply (f_equal (@Some R)). field. lra. }
  rewrite F, (npow_mul K) by assumption. f_equal. cbn. destruct (Rlt_dec 0 K); [|lra]. apply (f_equal (@Some R)). unfold K. rewrite Rpower_mult, Z. now apply Rpower_1.
Qed.
Lemma s_estimate qL qR : pstar_estimate_expansion (state_in u qL) (state_in u qR) = convert u pressure (pstar_estimate_expansion qL qR).
Proof.
  unfold pstar_estimate_expansion. cbv zeta. rewrite !s_asound. cbn [st_g st_u st_p state_in]. set (g := #(1/2) * (st_g qL + st_g qR)).
  assert (N : forall a b g c d, convert u velocity a + convert u velocity b - g * (convert u velocity c - convert u velocity d) = convert u velocity (a + b - g * (c - d))) by (intros; push u Hu; reflexivity).
  rewrite N. clear N. unfold convert. set (a := asound qL). set (b := asound qR). set (n := a + b - _). clearbody g a b n.
  destruct g as [g|].
  2: { change (#(1/2) * (None - #1)) with (None : num). change ((None : num) / None) with (None : num). assert (X : forall x : num, npow x None = None) by (intros [x|]; reflexivity). rewrite !X. reflexivity. }
  cbn [nsub nmul ndiv]. set (h := (1 / 2 * (g - 1))%R).
  destruct (Req_EM_T h 0) as [A|A].
  - assert (X : forall x : num, npow x None = None) by (intros [x|]; reflexivity). rewrite !X. reflexivity.
  - destruct (Req_EM_T g 0) as [B|B].
    + assert (X : forall x : num, npow x None = None) by (intros [x|]; reflexivity). rewrite !X.
      destruct a as [a|], b as [b|], n as [n|]; reflexivity.
    + apply estimate_pow; [apply v_pos, Hu|apply v_pos, Hu|]. field. split; assumption.
Qed.
Definition side_in (r : option (state * num * num)) : option (state * num * num) :=
  option_map (fun t => let '(q, a, b) := t in (state_in u q, convert u velocity a, convert u velocity b)) r.
Lemma s_side e q p v : star_side e (state_in u q) (convert u pressure p) (convert u velocity v) = side_in (star_side e q p v).
Proof.
  unfold star_side. cbv zeta. rewrite s_rho_shock, s_rho_isentropic, s_massflow, s_asound. cbn [st_p st_g st_rho st_u state_in]. rewrite (v_gt u Hu).
  destruct (p >? st_p q) as [[|]|]; cbn [nif side_in option_map]; [| |reflexivity].
  - apply f_equal. rewrite s_init. push u Hu. reflexivity.
  - rewrite <- s_init, s_asound. apply f_equal. push u Hu. reflexivity.
Qed.
Lemma s_riemann newton newton' qL qR :
  same_answer u newton newton' (riemann_du qL qR) (riemann_du (state_in u qL) (state_in u qR)) (pstar_estimate_expansion qL qR) (pstar_estimate_expansion (state_in u qL) (state_in u qR)) ->
  riemann_pb newton' (state_in u qL) (state_in u qR) = option_map (riemann_in u) (riemann_pb newton qL qR).
Proof.
  unfold same_answer, riemann_pb. cbv zeta. change (uq_copy (state_in u qL)) with (state_in u qL). change (uq_copy (state_in u qR)) with (state_in u qR). change (uq_copy qL) with qL. change (uq_copy qR) with qR.
  intros ->. set (p := newton _ _). rewrite s_ustar, !s_side.
  destruct (star_side (-1) qL p _) as [[[sL a] b]|]; cbn [side_in option_map]; [|reflexivity].
  destruct (star_side 1 qR p _) as [[[sR d] f]|]; reflexivity.
Qed.
Definition tri_in (t : tri) : tri := let '(r, v, p) := t in (convert u density r, convert u velocity v, convert u pressure p).
Lemma s_tri q : tri_of (state_in u q) = tri_in (tri_of q).
Proof. reflexivity. Qed.
Lemma s_fan_left q x : fan_left (state_in u q) (convert u velocity x) = tri_in (fan_left q x).
Proof.
  unfold fan_left. cbv zeta. cbn [tri_in]. rewrite !s_asound. cbn [st_g st_u st_p state_in].
  match goal with |- (rho_through_isentropic _ ?P', ?U', _) = (_, convert _ _ ?U, convert _ _ ?P) => assert (EU : U' = convert u velocity U) by (push u Hu; reflexivity); rewrite EU;
    assert (EP : P' = convert u pressure P) by (rewrite EU; push u Hu; reflexivity) end.
  match type of EP with _ = ?Y => match goal with |- (_, _, ?P') = _ => assert (EP' : P' = Y) by (push u Hu; reflexivity) end end. rewrite EP'. now rewrite s_rho_isentropic.
Qed.
Lemma s_fan_right q x : fan_right (state_in u q) (convert u velocity x) = tri_in (fan_right q x).
Proof.
  unfold fan_right. cbv zeta. cbn [tri_in]. rewrite !s_asound. cbn [st_g st_u st_p state_in].
  match goal with |- (rho_through_isentropic _ ?P', ?U', _) = (_, convert _ _ ?U, convert _ _ ?P) => assert (EU : U' = convert u velocity U) by (push u Hu; reflexivity); rewrite EU;
    assert (EP : P' = convert u pressure P) by (rewrite EU; push u Hu; reflexivity) end.
  match type of EP with _ = ?Y => match goal with |- (_, _, ?P') = _ => assert (EP' : P' = Y) by (push u Hu; reflexivity) end end. rewrite EP'. now rewrite s_rho_isentropic.
Qed.
Lemma s_assign c v t : assign_if c (tri_in v) (tri_in t) = option_map tri_in (assign_if c v t).
Proof. destruct c as [[|]|]; reflexivity. Qed.
Lemma s_qsol S x : qsol (riemann_in u S) (convert u velocity x) = option_map (state_in u) (qsol S x).
Proof.
  unfold qsol. cbv zeta. cbn [r_qL r_qR r_pstar r_qsL r_qsR r_w0 r_w1 r_w2 r_w3 r_w4 riemann_in]. rewrite !s_tri, s_fan_left, s_fan_right.
  cbn [st_p state_in st_g]. rewrite !(v_ge u Hu), !(v_lt u Hu), !(v_gt u Hu), (v_neg u Hu). rewrite !s_assign.
  destruct (assign_if (andb3 (x >=? r_w1 S) (x <? r_w2 S)) _ _) as [t1|]; cbn [option_map]; [|reflexivity]. rewrite s_assign.
  destruct (assign_if (andb3 (x >=? r_w2 S) (x <? r_w3 S)) _ _) as [t2|]; cbn [option_map]; [|reflexivity]. rewrite s_assign.
  destruct (assign_if (x >=? r_w4 S) _ _) as [t3|]; cbn [option_map]; [|reflexivity]. rewrite s_assign.
  assert (K : forall b A B (T : tri), A = option_map tri_in B -> nif b A (Some (tri_in T)) = option_map tri_in (nif b B (Some T))) by (intros [[|]|] A B T ->; reflexivity).
  rewrite (K _ _ _ t3 eq_refl).
  destruct (nif (r_pstar S <? st_p (r_qL S)) _ _) as [t4|]; cbn [option_map]; [|reflexivity]. rewrite s_assign. rewrite (K _ _ _ t4 eq_refl).
  destruct (nif (r_pstar S <? st_p (r_qR S)) _ _) as [[[r v] p]|]; cbn [option_map tri_in]; [|reflexivity].
  destruct (x <? #0) as [[|]|]; reflexivity.
Qed.
Lemma s_pt0 q p b : pt0_from_pstar_rtt0 (state_in u q) (convert u pressure p) (convert u energy b) = convert u pressure (pt0_from_pstar_rtt0 q p b).
Proof. unfold pt0_from_pstar_rtt0. cbv zeta. rewrite s_deltaR. start. push u Hu. reflexivity. Qed.
Lemma s_in_estimate q a : inflow_estimate (state_in u q) (convert u pressure a) = convert u pressure (inflow_estimate q a).
Proof. unfold inflow_estimate. start. push u Hu. reflexivity. Qed.
Lemma s_solve solve solve' o a b :
  same_answer u solve solve' (fun p => pt0_from_pstar_rtt0 (in_qR o) p b - a)
    (fun p => pt0_from_pstar_rtt0 (state_in u (in_qR o)) p (convert u energy b) - convert u pressure a) (inflow_estimate (in_qR o) a) (inflow_estimate (state_in u (in_qR o)) (convert u pressure a)) ->
  solve_with_pt0_rtt0 solve' (inflow_in u o) (convert u pressure a) (convert u energy b) = option_map (inflow_in u) (solve_with_pt0_rtt0 solve o a b).
Proof.
  unfold same_answer, solve_with_pt0_rtt0. cbv zeta. cbn [in_qR in_waves inflow_in]. intros ->. set (p := solve _ _). rewrite s_deltaR, s_rho_shock, s_rho_isentropic. cbn [st_u st_p st_g state_in].
  rewrite (v_add u), (v_gt u Hu). change (uq_copy (state_in u (in_qR o))) with (state_in u (in_qR o)). change (uq_copy (in_qR o)) with (in_qR o).
  rewrite s_pt_u. destruct (p >? st_p (in_qR o)) as [[|]|]; reflexivity.
Qed.
Lemma s_solve_all solve solve' l : unit_free u pressure solve solve' -> forall o,
  solve_all solve' (inflow_in u o) (map (request_in u) l) = option_map (inflow_in u) (solve_all solve o l).
Proof.
  intro F. induction l as [|[a b] l IH]; intro o; cbn [solve_all map request_in fst snd]; [reflexivity|]. rewrite (s_solve solve solve').
  - destruct (solve_with_pt0_rtt0 solve o a b); cbn [option_map]; [apply IH|reflexivity].
  - rewrite s_in_estimate. apply F. intro p. rewrite s_pt0. apply (v_sub u).
Qed.
Lemma s_secant d : d = velocity \/ d = pressure -> unit_free u d secant secant.
Proof.
  intros D f f' x E. unfold same_answer, secant. cbv zeta. rewrite (v_mul_l u Hu), !E.
  destruct D as [-> | ->]; push u Hu; reflexivity.
Qed.
Lemma zero_in d (y : num) : convert u d y = Some 0%R <-> y = Some 0%R.
Proof.
  destruct y as [y|]; [|now split]. cbn. assert (P := v_pos u Hu d). split; intro E; injection E as E.
  - apply Rmult_integral in E. destruct E; [lra|now subst].
  - subst. f_equal. ring.
Qed.
End S.

(*@P C118_states: The state of the unsteady solvers is the same in every system of units of pressure and velocity, undefined values included: sound and wave speeds, Mach number, mass flux, total pressure and r times total temperature of the converted state are the converted ones, and so are the state behind a shock, the states built from total conditions, the mirrored state, the state behind a given moving shock, and the velocity change and density behind a given pressure. *)
Lemma states : forall u q, proper u ->
  asound (state_in u q) = convert u velocity (asound q) /\ left_acoustic (state_in u q) = convert u velocity (left_acoustic q) /\
  right_acoustic (state_in u q) = convert u velocity (right_acoustic q) /\ Mach (state_in u q) = Mach q /\
  massflow (state_in u q) = convert u mass_flux (massflow q) /\ Ptot (state_in u q) = convert u pressure (Ptot q) /\ rTtot (state_in u q) = convert u energy (rTtot q) /\
  state_RH (state_in u q) = state_in u (state_RH q) /\ copysymmetric (state_in u q) = state_in u (copysymmetric q) /\
  (forall pt rtt x, compute_from_pt_rtt_M (state_in u q) (convert u pressure pt) (convert u energy rtt) x = state_in u (compute_from_pt_rtt_M q pt rtt x) /\
    compute_from_pt_rtt_u (state_in u q) (convert u pressure pt) (convert u energy rtt) (convert u velocity x) = state_in u (compute_from_pt_rtt_u q pt rtt x) /\
    compute_from_pt_rtt_p (state_in u q) (convert u pressure pt) (convert u energy rtt) (convert u pressure x) = state_in u (compute_from_pt_rtt_p q pt rtt x)) /\
  (forall w, rankinehugoniot_from_ushock (state_in u q) (convert u velocity w) = state_in u (rankinehugoniot_from_ushock q w)) /\
  (forall p, delta_u_expansion (state_in u q) (convert u pressure p) = convert u velocity (delta_u_expansion q p) /\
    delta_u_shock (state_in u q) (convert u pressure p) = convert u velocity (delta_u_shock q p) /\
    rho_through_shock (state_in u q) (convert u pressure p) = convert u density (rho_through_shock q p) /\
    rho_through_isentropic (state_in u q) (convert u pressure p) = convert u density (rho_through_isentropic q p)).
Proof.
  intros u q Hu. repeat split; intros.
  - now apply s_asound.
  - now apply s_left.
  - now apply s_right.
  - now apply s_Mach.
  - now apply s_massflow.
  - now apply s_Ptot.
  - now apply s_rTtot.
  - now apply s_RH.
  - now apply s_symmetric.
  - now apply s_pt_M.
  - now apply s_pt_u.
  - now apply s_pt_p.
  - now apply s_ushock.
  - now apply s_expansion.
  - now apply s_shock.
  - now apply s_rho_shock.
  - now apply s_rho_isentropic.
Qed.
(*@P C118_isentropic_refuted: The state at a given Mach number derived by state_isentropic_Mach does depend on the units: whenever its pressure is a non-zero number and the factor of pressure is not the square of the factor of velocity, the derived state of the converted state is not the converted derived state (its pressure is computed from r times the total temperature). *)
Lemma isentropic_units_refuted : forall u q M x, proper u -> st_p (state_isentropic_Mach q M) = Some x -> x <> 0%R -> u_p u <> (u_v u ^ 2)%R ->
  st_p (state_isentropic_Mach (state_in u q) M) <> convert u pressure (st_p (state_isentropic_Mach q M)).
Proof.
  intros u q M x Hu E X N H. apply N. unfold state_isentropic_Mach in H, E. cbv zeta in H, E. cbn [st_p state_init] in H, E. rewrite (s_rTtot u Hu), (v_div_r u Hu) in H. cbn [st_g state_in] in H. rewrite E in H.
  cbn [convert nmul] in H. injection H as H. unfold factor in H. cbn in H. change (Pos.to_nat 2) with 2%nat in H. change (Pos.to_nat 1) with 1%nat in H. cbn in H.
  apply (Rmult_eq_reg_r x) in H; [|assumption]. cbn. lra.
Qed.
(*@P C118_riemann: Neither does the Riemann problem, for all pairs of states: the mismatch function of the converted states is the converted one, with the same roots, the starting pressure is the converted one (powers of pressures included), and when the root finder returns the converted answer the whole solution (states, star values, waves) is the converted solution and its sampling at every converted speed is the converted sample. *)
Lemma riemann_units : forall u qL qR, proper u ->
  (forall p, riemann_du (state_in u qL) (state_in u qR) (convert u pressure p) = convert u velocity (riemann_du qL qR p)) /\
  (forall p, riemann_du (state_in u qL) (state_in u qR) (convert u pressure p) = Some 0%R <-> riemann_du qL qR p = Some 0%R) /\
  pstar_estimate_expansion (state_in u qL) (state_in u qR) = convert u pressure (pstar_estimate_expansion qL qR) /\
  (forall newton newton',
    same_answer u newton newton' (riemann_du qL qR) (riemann_du (state_in u qL) (state_in u qR)) (pstar_estimate_expansion qL qR) (pstar_estimate_expansion (state_in u qL) (state_in u qR)) ->
    riemann_pb newton' (state_in u qL) (state_in u qR) = option_map (riemann_in u) (riemann_pb newton qL qR)) /\
  (forall S x, qsol (riemann_in u S) (convert u velocity x) = option_map (state_in u) (qsol S x)).
Proof.
  intros u qL qR Hu. split; [intro; now apply s_du|]. split; [intro p; rewrite (s_du u Hu); now apply zero_in|]. split; [now apply s_estimate|]. split; [intros; now apply s_riemann|]. intros; now apply s_qsol.
Qed.
(*@P C118_inflow: Nor does the unsteady inflow: the pressure function to be solved and its starting point are the converted ones, and every sequence of solve calls on the converted object with converted requests, with a solver that does not look at the units, gives the converted object. *)
Lemma inflow_units : forall u, proper u ->
  (forall q p rtt, pt0_from_pstar_rtt0 (state_in u q) (convert u pressure p) (convert u energy rtt) = convert u pressure (pt0_from_pstar_rtt0 q p rtt)) /\
  (forall q pt, inflow_estimate (state_in u q) (convert u pressure pt) = convert u pressure (inflow_estimate q pt)) /\
  (forall q, inflow_init (state_in u q) = inflow_in u (inflow_init q)) /\
  (forall solve solve' o l, unit_free u pressure solve solve' ->
   solve_all solve' (inflow_in u o) (map (request_in u) l) = option_map (inflow_in u) (solve_all solve o l)).
Proof.
  intros u Hu. split; [intros; now apply s_pt0|]. split; [intros; now apply s_in_estimate|]. split; [reflexivity|]. intros; now apply s_solve_all.
Qed.
(*@E C118_example: Millibars and kilometres per second are proper units; the secant step from the starting point and its double does not look at the units, neither as solver of the Riemann problem (the hypothesis of C118_riemann for all states) nor of the inflow; and a state at rest with unit pressure and density meets the hypotheses of the refutation. *)
Lemma state_units_example : let u := {| u_m := 1; u_p := / 100; u_t := 1; u_v := / 1000 |} in proper u /\ unit_free u pressure secant secant /\
  (forall qL qR, same_answer u secant secant (riemann_du qL qR) (riemann_du (state_in u qL) (state_in u qR)) (pstar_estimate_expansion qL qR) (pstar_estimate_expansion (state_in u qL) (state_in u qR))) /\
  (exists x, st_p (state_isentropic_Mach (mk_state (Some (14 / 10)%R) (Some 1%R) (Some 0%R) (Some 1%R)) (Some 0%R)) = Some x /\ x <> 0%R) /\ u_p u <> (u_v u ^ 2)%R.
Proof.
  cbv zeta. assert (P : proper {| u_m := 1; u_p := / 100; u_t := 1; u_v := / 1000 |}) by (unfold proper; cbn; lra).
  split; [exact P|]. split; [apply s_secant; [exact P|now right]|]. split; [|split].
  - intros qL qR. rewrite (s_estimate _ P). apply (s_secant _ P velocity); [now left|]. intro p. now apply s_du.
  - unfold state_isentropic_Mach, PtPs_Mach, TtTs_Mach, rTtot. cbn.
    replace (1 + 1 / 2 * (14 / 10 - 1) * (0 * (0 * 1)))%R with 1%R by lra.
    destruct (Req_EM_T 1 0); [lra|]. destruct (Req_EM_T (14 / 10) 0); [lra|]. destruct (Req_EM_T (14 / 10 - 1) 0); [lra|]. destruct (Rlt_dec 0 1); [|lra].
    assert (E : forall b, Rpower 1 b = 1%R) by (intro b; unfold Rpower; rewrite ln_1, Rmult_0_r; apply exp_0). rewrite E. cbn. destruct (Req_EM_T 1 0); [lra|].
    eexists. split; [reflexivity|]. lra.
  - cbn. lra.
Qed.
