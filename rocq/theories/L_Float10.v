(** * Binary64 isentropic pressure, area ratio and mass flow *)
From Coq Require Import Bool Reals List ZArith Lra Lia Psatz.
From Flocq Require Import Core.
From Verif Require Import Num M_Isentropic M_MassFlow M_Fanno M_Rayleigh L_Isentropic L_MassFlow L_Fanno L_Rayleigh M_Float M_FloatPow FloatSpec L_Float L_Float2 L_Float6 L_Float7 L_Float8 L_Float9.
Open Scope R_scope.

Definition dM M : fexp := FC M (-10) 4.
Definition dg1 g : fexp := FC (g - 1) (-3) 0.
Definition dh g : fexp := FC (1 / 2 * (g - 1)) (-4) (-1).
Definition dT g M : fexp := FAdd c1 (FMul (dh g) (FMul (dM M) (dM M))).
Definition dQ g M : fexp := FMul (FDiv c2 (FAdd (cg g) c1)) (dT g M).
Definition dE g : fexp := FDiv (cg g) (dg1 g).
Definition dS g : fexp := FDiv (FMul (FC (1 / 2) (-1) (-1)) (FAdd (cg g) c1)) (dg1 g).
Definition dS2 g : fexp := FDiv (FDiv (FAdd (cg g) c1) c2) (dg1 g).
Definition range g M : Prop := F g /\ F M /\ 9 / 8 <= g <= 2 /\ / 1024 <= M <= 16.
Lemma range_facts g M : range g M -> F g /\ F M /\ 1 < g <= 2 /\ 0 < M /\ wf (cg g) /\ wf c1 /\ wf c2 /\ wf (dM M) /\ wf (dg1 g) /\ wf (dh g) /\ wf (FC (1 / 2) (-1) (-1)).
Proof.
  intros (Fg & FM & G & H). assert (Fg1 : F (g - 1)) by (apply gm1; [exact Fg|lra]). assert (Fh : F (1 / 2 * (g - 1))) by (apply halfg_F; [exact Fg|lra]).
  assert (Fhalf : F (1 / 2)) by (replace (1 / 2) with (bpow radix2 (-1)) by (cbn; lra); apply F_bpow; lia).
  cbn [cg c1 c2 dM dg1 dh wf]. change (bpow radix2 0) with 1. change (bpow radix2 1) with 2. change (bpow radix2 (-10)) with (/ 1024). change (bpow radix2 4) with 16.
  change (bpow radix2 (-3)) with (/ 8). change (bpow radix2 (-4)) with (/ 16). change (bpow radix2 (-1)) with (/ 2).
  pose proof F1. pose proof F2. repeat split; first [assumption|lra].
Qed.
Lemma dQ_r g M : 1 < g -> fxr (dQ g M) = 2 / (g + 1) * tt g M.
Proof. intros G. cbn [dQ dT dM dh fxr c1 c2 cg]. unfold tt. field. lra. Qed.
Lemma dT_r g M : fxr (dT g M) = tt g M.
Proof. cbn [dT dM fxr c1 dh]. unfold tt. ring. Qed.
(** a power followed by other operations: [o] uses the power [v] as a leaf, [X] is what [o] would be with the exact power *)
Lemma pow_then p a b neg (o : R -> fexp) X n f : libm_pow p -> wf a -> chk a = true -> wf b -> chk b = true -> (pk a b <=? 1000)%Z = true -> (Z.of_nat (cnt a) <=? 1000000)%Z = true -> (Z.of_nat (cnt b) <=? 1000000)%Z = true ->
  (forall v, F v -> inb (- pk a b - 1, pk a b + 1)%Z v -> wf (o v)) -> (forall v, chk (o v) = chk (o 0)) -> chk (o 0) = true -> (forall v, cnt (o v) = cnt (o 0)) ->
  (forall v, fpow p (fxf a) (fneg neg (fxf b)) = Some v -> f = fxf (o v)) ->
  (forall v k, near k v (Rpower (fxr a) (rneg neg (fxr b))) -> near k (fxr (o v)) X) ->
  (cnt (o 0%R) + pcnt a b <? 2 ^ n)%nat = true -> (n <= 20)%nat -> close_to (53 - n) f (Some X).
Proof.
  intros L Wa Ca Wb Cb HK Na Nb Wo Co C0 Ko Ef Er Hn Hn2. apply Z.leb_le in Na, Nb. apply Nat.ltb_lt in Hn.
  destruct (pow_sound p a b neg L Wa Ca Wb Cb HK Na Nb) as (v & E & Fv & Bv & Nv). specialize (Ef v E).
  destruct (fexp_sound (o v) (Wo v Fv Bv)) as (w & Ew & Nw & _); [now rewrite Co|]. specialize (Er v _ Nv).
  assert (N := near_trans _ _ _ _ _ Nw Er). rewrite Ko in N. exists w, X. split; [now rewrite Ef|]. split; [reflexivity|]. split; [apply N|]. now apply (near_close _ n) in N.
Qed.
Lemma near_scale k v x c : 0 < c -> near k v x -> near k (c * v) (c * x).
Proof. intros C N. change k with (0 + k)%nat. apply near_mul; [now apply near_refl|exact N]. Qed.
Lemma bpow_inb K v : inb K v -> bpow radix2 (fst K) <= v <= bpow radix2 (snd K). Proof. easy. Qed.
Ltac pw p a b neg o n := apply (pow_then p a b neg o _ n); [assumption|cbn [wf dT dQ dE dS dS2]; tauto|reflexivity|cbn [wf dT dQ dE dS dS2]; tauto|reflexivity|reflexivity|reflexivity|reflexivity| |intro; reflexivity|reflexivity|intro; reflexivity| | |reflexivity|lia].

(*@P C114_pressure: Whatever accurate C library computes the power: for every double 9/8 <= gamma <= 2 and every double Mach number between 2^-10 and 16, the total to static pressure ratio computed in binary64 arithmetic is the exact value of the formula with a relative error of at most 2^-45. *)
Lemma PtPs_close : forall p gamma M, libm_pow p -> b64 gamma -> b64 M -> 9 / 8 <= gamma <= 2 -> / 1024 <= M <= 16 ->
  close_to 45 (float_PtPs_Mach p (Some M) (Some gamma)) (PtPs_Mach (Some M) (Some gamma)).
Proof.
  intros p g M L [Fg _] [FM _] G H. destruct (range_facts g M) as (_ & _ & G1 & M0 & Wg & W1 & W2 & WM & Wg1 & Wh & Wk); [easy|].
  rewrite PtPs_eval by lra. change 45%nat with (53 - 8)%nat. pw p (dT g M) (dE g) false (fun v => FC v (-129) 129) 8%nat.
  - intros v Fv Bv. cbn [wf]. split; [exact Fv|exact Bv].
  - intros v E. cbn [fxf]. rewrite <- E. unfold float_PtPs_Mach. rewrite half1, sub1 by assumption. reflexivity.
  - intros v k N. cbn [fxr]. rewrite dT_r in N. exact N.
Qed.
(*@P C114_area: For the same doubles, the ratio of the section to the critical section computed in binary64 arithmetic is the exact value with a relative error of at most 2^-43. *)
Lemma Sigma_close : forall p gamma M, libm_pow p -> b64 gamma -> b64 M -> 9 / 8 <= gamma <= 2 -> / 1024 <= M <= 16 ->
  close_to 43 (float_Sigma_Mach p (Some M) (Some gamma)) (Sigma_Mach (Some M) (Some gamma)).
Proof.
  intros p g M L [Fg _] [FM _] G H. destruct (range_facts g M) as (_ & _ & G1 & M0 & Wg & W1 & W2 & WM & Wg1 & Wh & Wk); [easy|]. assert (g1 : 1 < g) by lra.
  rewrite Sigma_eval, sig_form by assumption. change 43%nat with (53 - 10)%nat. pw p (dQ g M) (dS g) false (fun v => FDiv (FC v (-145) 145) (dM M)) 10%nat.
  - intros v Fv Bv. cbn [wf]. split; [split; [exact Fv|exact Bv]|exact WM].
  - intros v E. cbn [fxf]. rewrite <- E. unfold float_Sigma_Mach. rewrite half1, sub1 by assumption. reflexivity.
  - intros v k N. cbn [fxr dM rneg] in *. rewrite dQ_r in N by assumption. change (fxr (dS g)) with (sexp g) in N. rewrite <- (Nat.add_0_r k). apply near_div; [exact N|now apply near_refl].
Qed.
Lemma fl_neg x v : fl x = Some v -> fl (- x) = Some (- v).
Proof.
  unfold fl. assert (E : rn (- x) = - rn x) by apply round_NE_opp. rewrite E, Rabs_Ropp. destruct (Rlt_dec _ _); [|discriminate]. intro Q. injection Q as <-. reflexivity.
Qed.
Lemma dS_neg g v : fxf (dS g) = Some v -> fdiv (fmul (Some (- (1 / 2))) (fadd (Some g) (Some 1))) (Some (g - 1)) = fneg true (fxf (dS g)).
Proof.
  intros E. rewrite E. revert E. cbn [dS fxf cg c1 dg1 fneg]. destruct (fadd (Some g) (Some 1)) as [a|]; [|discriminate]. unfold fmul, fop2. rewrite Ropp_mult_distr_l_reverse.
  destruct (fl (1 / 2 * a)) as [b|] eqn:E1; [|discriminate]. rewrite (fl_neg _ _ E1). unfold fdiv. destruct (Req_EM_T (g - 1) 0); [discriminate|]. intro E2. unfold Rdiv. rewrite Ropp_mult_distr_l_reverse. now apply fl_neg.
Qed.
(*@P C114_flow: For the same doubles, the reduced mass flow computed in binary64 arithmetic is the exact value with a relative error of at most 2^-44. *)
Lemma Weight_close : forall p gamma M r, libm_pow p -> b64 gamma -> b64 M -> 9 / 8 <= gamma <= 2 -> / 1024 <= M <= 16 ->
  close_to 44 (float_WeightMassFlow p (Some M) (Some gamma)) (WeightMassFlow (Some M) r (Some gamma)).
Proof.
  intros p g M r L [Fg _] [FM _] G H. destruct (range_facts g M) as (_ & _ & G1 & M0 & Wg & W1 & W2 & WM & Wg1 & Wh & Wk); [easy|]. assert (g1 : 1 < g) by lra.
  rewrite WMF_eval by assumption. change 44%nat with (53 - 9)%nat. pw p (dT g M) (dS g) true (fun v => FMul (FMul (FSqrt (cg g)) (dM M)) (FC v (-129) 129)) 9%nat.
  - intros v Fv Bv. cbn [wf]. split; [tauto|split; [exact Fv|exact Bv]].
  - intros v E. destruct (fxf (dS g)) as [e|] eqn:Ee; [|exfalso; revert E; unfold fpow; cbn [fneg]; destruct (fxf (dT g M)); discriminate].
    assert (Q := dS_neg g e Ee). rewrite Ee in Q. cbn [fxf]. rewrite <- E, <- Q. unfold float_WeightMassFlow. rewrite half1, sub1 by assumption. reflexivity.
  - intros v k N. cbn [fxr dM cg rneg] in *. rewrite dT_r in N. change (fxr (dS g)) with (1 / 2 * (g + 1) / (g - 1)) in N. unfold wmf.
    replace (-1 / 2 * (g + 1) / (g - 1)) with (- (1 / 2 * (g + 1) / (g - 1))) by (field; lra). apply near_scale; [|exact N]. apply Rmult_lt_0_compat; [apply sqrt_lt_R0; lra|lra].
Qed.
(*@P C114_fanno: For the same doubles, the total pressure column of the Fanno table computed in binary64 arithmetic is the exact value with a relative error of at most 2^-43. *)
Lemma FaPi_close : forall p gamma M, libm_pow p -> b64 gamma -> b64 M -> 9 / 8 <= gamma <= 2 -> / 1024 <= M <= 16 ->
  close_to 43 (float_Fa_Pi_Picri p (Some M) (Some gamma)) (Fa_Pi_Picri (Some M) (Some gamma)).
Proof.
  intros p g M L [Fg _] [FM _] G H. destruct (range_facts g M) as (_ & _ & G1 & M0 & Wg & W1 & W2 & WM & Wg1 & Wh & Wk); [easy|]. assert (g1 : 1 < g) by lra.
  rewrite FaPi_eval, sig_form by assumption. change 43%nat with (53 - 10)%nat. pw p (dQ g M) (dS2 g) false (fun v => FMul (FDiv c1 (dM M)) (FC v (-145) 145)) 10%nat.
  - intros v Fv Bv. cbn [wf]. split; [tauto|split; [exact Fv|exact Bv]].
  - intros v E. cbn [fxf]. rewrite <- E. unfold float_Fa_Pi_Picri, float_fa_t. rewrite half2, sub1 by assumption. reflexivity.
  - intros v k N. cbn [fxr dM c1 rneg] in *. rewrite dQ_r in N by assumption. replace (fxr (dS2 g)) with (sexp g) in N by (cbn [fxr dS2 cg c1 c2 dg1]; unfold sexp; field; lra).
    replace (Rpower (2 / (g + 1) * tt g M) (sexp g) / M) with (1 / M * Rpower (2 / (g + 1) * tt g M) (sexp g)) by (field; lra). apply near_scale; [|exact N]. apply Rdiv_lt_0_compat; lra.
Qed.
(*@P C114_rayleigh: For the same doubles, the total pressure column of the Rayleigh table computed in binary64 arithmetic is the exact value with a relative error of at most 2^-45. *)
Lemma RaPi_close : forall p gamma M, libm_pow p -> b64 gamma -> b64 M -> 9 / 8 <= gamma <= 2 -> / 1024 <= M <= 16 ->
  close_to 45 (float_Ra_Pi_Picri p (Some M) (Some gamma)) (Ra_Pi_Picri (Some M) (Some gamma)).
Proof.
  intros p g M L [Fg _] [FM _] G H. destruct (range_facts g M) as (_ & _ & G1 & M0 & Wg & W1 & W2 & WM & Wg1 & Wh & Wk); [easy|]. assert (g1 : 1 < g) by lra.
  rewrite RaPi_eval by assumption. change 45%nat with (53 - 8)%nat. pw p (dQ g M) (dE g) false (fun v => FMul (FDiv (FAdd (cg g) c1) (FAdd c1 (FMul (cg g) (FMul (dM M) (dM M))))) (FC v (-145) 145)) 8%nat.
  - intros v Fv Bv. cbn [wf]. split; [tauto|split; [exact Fv|exact Bv]].
  - intros v E. cbn [fxf]. rewrite <- E. unfold float_Ra_Pi_Picri, float_fa_t. rewrite half2, sub1 by assumption. reflexivity.
  - intros v k N. cbn [fxr dM c1 cg rneg] in *. rewrite dQ_r in N by assumption. change (fxr (dE g)) with (g / (g - 1)) in N. unfold rd, fq.
    replace (1 + g * M ^ 2) with (1 + g * (M * M)) by ring. apply near_scale; [|exact N]. apply Rdiv_lt_0_compat; nra.
Qed.
(*@E C114_example: the hypotheses hold for gamma = 1.5, the Mach number 2 and the correctly rounded power *)
Lemma C114_ex : libm_pow (fun x y => rn (Rpower x y)) /\ b64 (3 / 2) /\ b64 2 /\ 9 / 8 <= 3 / 2 <= 2 /\ / 1024 <= 2 <= 16.
Proof.
  split; [|destruct float_TtTs_example as (A & B & C & _); repeat split; first [apply A|apply B|lra]].
  intros x y _ _ _ [B _]. split; [apply F_rn|]. assert (E := rel_pos _ B). assert (Q : 0 < Rpower x y) by apply exp_pos.
  apply Rle_trans with (1 := E). unfold Rdiv. apply Rmult_le_compat_l; [lra|]. replace (2 ^ 52) with 4503599627370496 by (rewrite pw; reflexivity). lra.
Qed.
