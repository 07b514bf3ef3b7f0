(** * C40: the sampled Riemann solution *)
From Verif Require Import L_Num Spec NumSpec M_Isentropic M_MassFlow M_ShockWave M_Model1D M_Unsteady1D M_Riemann L_Isentropic L_Shock L_Model1D L_Unsteady L_Riemann1 L_Riemann2.
Open Scope R_scope.

(** ** the fan, real closed form *)
Definition fu (s g : R) (q : flow) (x : R) : R :=
  (g - 1) / (g + 1) * (f_u q + 2 / (g - 1) * (s * - flow_sound g q + x)).
Definition fc (s g : R) (q : flow) (x : R) : R := s * (x - fu s g q x).
Definition fp (s g : R) (q : flow) (x : R) : R :=
  f_p q * Rpower (fc s g q x / flow_sound g q) (2 * g / (g - 1)).
Definition fan (s g : R) (q : flow) (x : R) : flow :=
  mkflow (isrho g q (fp s g q x)) (fu s g q x) (fp s g q x).

Section fan.
Variables (s g : R) (q : flow).
Hypotheses (Hs : s = 1 \/ s = -1) (Hg : 1 < g) (Hq : positive_state q).
Let a := flow_sound g q.
Lemma fs2 : s * s = 1. Proof. destruct Hs; subst; ring. Qed.
Lemma fapos : 0 < a. Proof. apply sound_pos; [lra|exact Hq]. Qed.
Lemma fc_alt x : fc s g q x = s * (g - 1) / (g + 1) * (x - f_u q) + 2 * a / (g + 1).
Proof.
  unfold fc, fu. fold a.
  replace (2 * a / (g + 1)) with ((s * s) * (2 * a) / (g + 1)) by (rewrite fs2; field; lra). field. lra.
Qed.
Lemma fan_pos x : 0 < fc s g q x -> positive_state (fan s g q x).
Proof. intros H. pose proof Hq as [Hr Hp]. split; cbn; [now apply isrho_pos|unfold fp; pos]. Qed.
Lemma fan_isrho x : 0 < fc s g q x ->
  isrho g q (fp s g q x) = f_rho q * Rpower (fc s g q x / a) (2 / (g - 1)).
Proof.
  intros H. pose proof fapos. pose proof Hq as [Hr Hp]. unfold isrho, fp. fold a.
  pose proof (Rpower_pos (fc s g q x / a) (2 * g / (g - 1))).
  replace (f_p q * Rpower (fc s g q x / a) (2 * g / (g - 1)) / f_p q)
    with (Rpower (fc s g q x / a) (2 * g / (g - 1))) by (field; lra).
  rewrite Rpower_mult. do 2 f_equal. field. lra.
Qed.
Lemma fan_sound x : 0 < fc s g q x -> flow_sound g (fan s g q x) = fc s g q x.
Proof.
  intros H. pose proof fapos as Ha. pose proof Hq as [Hr Hp]. unfold fan.
  rewrite iso_sound; [|assumption|assumption|unfold fp; pos]. fold a. unfold fp. fold a.
  pose proof (Rpower_pos (fc s g q x / a) (2 * g / (g - 1))).
  replace (f_p q * Rpower (fc s g q x / a) (2 * g / (g - 1)) / f_p q)
    with (Rpower (fc s g q x / a) (2 * g / (g - 1))) by (field; lra).
  rewrite Rpower_mult. replace (2 * g / (g - 1) * (1 / 2 * (g - 1) / g)) with 1 by (field; lra).
  rewrite Rpower_1 by pos. field. lra.
Qed.
Lemma fan_char x : 0 < fc s g q x ->
  entropy_fn g (fan s g q x) = entropy_fn g q /\
  riemann_invariant s g (fan s g q x) = riemann_invariant s g q /\
  f_u (fan s g q x) + s * flow_sound g (fan s g q x) = x.
Proof.
  intros H. pose proof fapos as Ha. pose proof Hq as [Hr Hp].
  assert (Hpp : 0 < fp s g q x) by (unfold fp; pos).
  destruct (simple_wave g q (fp s g q x) s Hg Hq Hpp Hs) as (r1 & du & E1 & _ & _ & He & _).
  rewrite rho_through_isentropic_eval in E1 by assumption. apply Some_inj in E1. subst r1.
  split; [exact He|]. unfold riemann_invariant. rewrite fan_sound by exact H. cbn [fan f_u]. fold a.
  pose proof fs2 as S2. split.
  - unfold fc. replace (fu s g q x - s * (2 / (g - 1)) * (s * (x - fu s g q x)))
      with (fu s g q x - (s * s) * (2 / (g - 1)) * (x - fu s g q x)) by ring. rewrite S2.
    unfold fu. fold a. field. lra.
  - unfold fc. replace (fu s g q x + s * (s * (x - fu s g q x))) with (fu s g q x + (s * s) * (x - fu s g q x)) by ring.
    rewrite S2; ring.
Qed.
(** a state of the same entropy and invariant with u + s a = x is the fan state at x *)
Lemma fan_edge q1 x : positive_state q1 -> entropy_fn g q1 = entropy_fn g q ->
  riemann_invariant s g q1 = riemann_invariant s g q -> x = f_u q1 + s * flow_sound g q1 ->
  fan s g q x = q1 /\ 0 < fc s g q x.
Proof.
  intros Hq1 He Hi Hx. pose proof fapos as Ha. pose proof Hq as [Hr Hp]. pose proof fs2 as S2.
  pose proof (sound_pos g q1 ltac:(lra) Hq1) as Ha1. pose proof Hq1 as [Hr1 Hp1].
  unfold riemann_invariant in Hi. fold a in Hi.
  assert (Eu : fu s g q x = f_u q1).
  { unfold fu. fold a. rewrite Hx.
    assert (E : f_u q = f_u q1 - s * (2 / (g - 1)) * flow_sound g q1 + s * (2 / (g - 1)) * a) by lra.
    rewrite E. field. lra. }
  assert (Ec : fc s g q x = flow_sound g q1).
  { unfold fc. rewrite Eu, Hx. replace (s * (f_u q1 + s * flow_sound g q1 - f_u q1)) with ((s * s) * flow_sound g q1) by ring.
    rewrite S2; ring. }
  split; [|rewrite Ec; exact Ha1].
  (* the isentrope determines p and rho from the sound speed *)
  unfold entropy_fn in He.
  assert (Hrr : f_p q1 / f_p q = Rpower (f_rho q1 / f_rho q) g).
  { rewrite Rpower_div_base by assumption. pose proof (Rpower_pos (f_rho q) g). pose proof (Rpower_pos (f_rho q1) g).
    apply (Rmult_eq_reg_r (f_p q / Rpower (f_rho q1) g)); [|apply pos_nz; pos].
    replace (f_p q1 / f_p q * (f_p q / Rpower (f_rho q1) g)) with (f_p q1 / Rpower (f_rho q1) g) by (field; lra).
    rewrite He. field. lra. }
  assert (Hr2 : isrho g q (f_p q1) = f_rho q1).
  { unfold isrho. rewrite Hrr. rewrite Rpower_inv_exp; [field; lra|pos|field; lra]. }
  assert (Hsnd : flow_sound g q1 = a * Rpower (f_p q1 / f_p q) (1/2 * (g - 1) / g)).
  { unfold a. rewrite <- (iso_sound g q (f_p q1) (f_u q1)) by assumption. rewrite Hr2. destruct q1; reflexivity. }
  assert (Ep : fp s g q x = f_p q1).
  { unfold fp. fold a. rewrite Ec, Hsnd.
    pose proof (Rpower_pos (f_p q1 / f_p q) (1/2 * (g - 1) / g)).
    replace (a * Rpower (f_p q1 / f_p q) (1/2 * (g - 1) / g) / a) with (Rpower (f_p q1 / f_p q) (1/2 * (g - 1) / g)) by (field; lra).
    rewrite Rpower_inv_exp; [field; lra|pos|field; lra]. }
  unfold fan. rewrite Ep, Eu, Hr2. destruct q1; reflexivity.
Qed.
(** derivatives *)
Lemma fu_derive x : is_derive (fu s g q) x (2 / (g + 1)).
Proof. unfold fu. auto_derive; [exact I|]. field. lra. Qed.
Lemma fc_derive x : is_derive (fc s g q) x (s * (g - 1) / (g + 1)).
Proof.
  apply (is_derive_ext (fun x => s * (g - 1) / (g + 1) * (x - f_u q) + 2 * a / (g + 1))).
  - intros t. symmetry. apply fc_alt.
  - auto_derive; [exact I|]. field. lra.
Qed.
Lemma pow_derive (f : R -> R) x l k b : 0 < b -> 0 < f x -> is_derive f x l ->
  is_derive (fun t => Rpower (f t / b) k) x (Rpower (f x / b) k * (k * l / f x)).
Proof.
  intros Hb Hf Hl. unfold Rpower. auto_derive.
  - split; [exists l; exact Hl|]. split; [|exact I]. change (0 < f x / b). pos.
  - change (Derive (fun x0 : R => f x0) x) with (Derive f x). rewrite (is_derive_unique _ _ _ Hl). change (f x * / b) with (f x / b). field. lra.
Qed.
Lemma fp_derive x : 0 < fc s g q x ->
  is_derive (fp s g q) x (fp s g q x * (2 * g * s / ((g + 1) * fc s g q x))).
Proof.
  intros H. unfold fp. fold a.
  pose proof (pow_derive (fc s g q) x _ (2 * g / (g - 1)) a fapos H (fc_derive x)) as D.
  apply (is_derive_scal _ x (f_p q)) in D.
  replace (f_p q * Rpower (fc s g q x / a) (2 * g / (g - 1)) * (2 * g * s / ((g + 1) * fc s g q x)))
    with (f_p q * (Rpower (fc s g q x / a) (2 * g / (g - 1)) * (2 * g / (g - 1) * (s * (g - 1) / (g + 1)) / fc s g q x)))
    by (field; lra).
  exact D.
Qed.
Definition fr (x : R) : R := isrho g q (fp s g q x).
Lemma fc_pos_near x : 0 < fc s g q x -> locally x (fun t => 0 < fc s g q t).
Proof.
  intros H. pose proof (derive_continuous _ _ _ (fc_derive x)) as C.
  exact (C (fun t => 0 < t) (open_gt 0 (fc s g q x) H)).
Qed.
Lemma fr_derive x : 0 < fc s g q x ->
  is_derive fr x (fr x * (2 * s / ((g + 1) * fc s g q x))).
Proof.
  intros H. unfold fr at 2. rewrite fan_isrho by exact H.
  apply (is_derive_ext_loc (fun t => f_rho q * Rpower (fc s g q t / a) (2 / (g - 1)))).
  - generalize (fc_pos_near x H). apply filter_imp. intros t Ht. symmetry. now apply fan_isrho.
  - pose proof (pow_derive (fc s g q) x _ (2 / (g - 1)) a fapos H (fc_derive x)) as D.
    apply (is_derive_scal _ x (f_rho q)) in D.
    replace (f_rho q * Rpower (fc s g q x / a) (2 / (g - 1)) * (2 * s / ((g + 1) * fc s g q x)))
      with (f_rho q * (Rpower (fc s g q x / a) (2 / (g - 1)) * (2 / (g - 1) * (s * (g - 1) / (g + 1)) / fc s g q x)))
      by (field; lra).
    exact D.
Qed.
Lemma fan_euler x : 0 < fc s g q x -> euler_self_similar g (fan s g q) x.
Proof.
  intros H. pose proof (fan_pos x H) as [Hr1 Hp1]. cbn [fan f_rho f_p] in Hr1, Hp1. fold (fr x) in Hr1.
  pose proof (fan_sound x H) as Hsnd. pose proof (sound_sq g _ ltac:(lra) (fan_pos x H)) as Hsq.
  rewrite Hsnd in Hsq. cbn [fan f_p f_rho] in Hsq. fold (fr x) in Hsq.
  pose proof (fr_derive x H) as Dr. pose proof (fu_derive x) as Du. pose proof (fp_derive x H) as Dp.
  pose proof fs2 as S2.
  assert (Ex : x = fu s g q x + s * fc s g q x).
  { unfold fc. replace (fu s g q x + s * (s * (x - fu s g q x))) with (fu s g q x + (s * s) * (x - fu s g q x)) by ring.
    rewrite S2; ring. }
  assert (Ep : fp s g q x = fr x * fc s g q x ^ 2 / g) by (rewrite Hsq; field; lra).
  set (c := fc s g q x) in *.
  set (r' := fr x * (2 * s / ((g + 1) * c))) in *. set (p' := fp s g q x * (2 * g * s / ((g + 1) * c))) in *.
  set (u' := 2 / (g + 1)) in *.
  assert (ex_r : ex_derive fr x) by (exists r'; exact Dr). assert (ex_u : ex_derive (fu s g q) x) by (exists u'; exact Du).
  assert (ex_p : ex_derive (fp s g q) x) by (exists p'; exact Dp).
  assert (dr : Derive fr x = r') by (now apply is_derive_unique).
  assert (du : Derive (fu s g q) x = u') by (now apply is_derive_unique).
  assert (dp : Derive (fp s g q) x = p') by (now apply is_derive_unique).
  assert (Hss : s ^ 2 = 1) by (rewrite <- S2; ring).
  assert (Hs3 : s ^ 3 = s) by (replace (s ^ 3) with (s ^ 2 * s) by ring; rewrite Hss; ring).
  assert (Ex2 : x = fu s g q x + s * c) by exact Ex.
  Ltac fin := match goal with Ex2 : ?x = fu ?s ?g ?q ?x + ?s * ?c, Hs : ?s = 1 \/ ?s = -1 |- _ =>
    let U := fresh "U" in let R0 := fresh "R0" in
    set (U := fu s g q x) in *; set (R0 := fr x) in *; clearbody U R0 c;
    rewrite Ex2; destruct Hs as [E|E]; rewrite E; field; lra end.
  unfold euler_self_similar, conservation_at.
  split; [|split].
  - exists r'. split; apply is_derive_Reals.
    + exact Dr.
    + change (is_derive (fun t => fr t * fu s g q t) x (x * r')). auto_derive; [auto 6|]. change (Derive (fun x0 : R => fr x0) x) with (Derive fr x); change (Derive (fun x0 : R => fu s g q x0) x) with (Derive (fu s g q) x). rewrite dr, du.
      unfold r', u'. fin.
  - exists (r' * fu s g q x + fr x * u'). split; apply is_derive_Reals.
    + change (is_derive (fun t => fr t * fu s g q t) x (r' * fu s g q x + fr x * u')).
      auto_derive; [auto 6|]. change (Derive (fun x0 : R => fr x0) x) with (Derive fr x); change (Derive (fun x0 : R => fu s g q x0) x) with (Derive (fu s g q) x). rewrite dr, du. ring.
    + change (is_derive (fun t => fr t * fu s g q t ^ 2 + fp s g q t) x (x * (r' * fu s g q x + fr x * u'))).
      auto_derive; [auto 6|]. change (Derive (fun x0 : R => fr x0) x) with (Derive fr x); change (Derive (fun x0 : R => fu s g q x0) x) with (Derive (fu s g q) x); change (Derive (fun x0 : R => fp s g q x0) x) with (Derive (fp s g q) x). rewrite dr, du, dp. unfold p'. rewrite Ep. unfold r', u'. fin.
  - exists (p' / (g - 1) + (r' * fu s g q x ^ 2 / 2 + fr x * fu s g q x * u')). split; apply is_derive_Reals.
    + change (is_derive (fun t => fp s g q t / (g - 1) + fr t * fu s g q t ^ 2 / 2) x
        (p' / (g - 1) + (r' * fu s g q x ^ 2 / 2 + fr x * fu s g q x * u'))).
      auto_derive; [auto 6|]. change (Derive (fun x0 : R => fr x0) x) with (Derive fr x); change (Derive (fun x0 : R => fu s g q x0) x) with (Derive (fu s g q) x); change (Derive (fun x0 : R => fp s g q x0) x) with (Derive (fp s g q) x). rewrite dr, du, dp. field. lra.
    + change (is_derive (fun t => fu s g q t * (fp s g q t / (g - 1) + fr t * fu s g q t ^ 2 / 2 + fp s g q t)) x
        (x * (p' / (g - 1) + (r' * fu s g q x ^ 2 / 2 + fr x * fu s g q x * u')))).
      auto_derive; [auto 6|]. change (Derive (fun x0 : R => fr x0) x) with (Derive fr x); change (Derive (fun x0 : R => fu s g q x0) x) with (Derive (fu s g q) x); change (Derive (fun x0 : R => fp s g q x0) x) with (Derive (fp s g q) x). rewrite dr, du, dp. unfold p'. rewrite Ep. unfold r', u'. fin.
Qed.
End fan.

(** ** evaluation of the sampled solution *)
Definition tri3 (q : flow) : tri := (Some (f_rho q), Some (f_u q), Some (f_p q)).
Lemma fan_left_eval g q x : 1 < g -> positive_state q -> 0 < fc (-1) g q x ->
  fan_left (obj g q) (Some x) = tri3 (fan (-1) g q x).
Proof.
  intros Hg Hq H. pose proof (sound_pos g q ltac:(lra) Hq) as Ha. pose proof Hq as [Hr Hp].
  unfold fan_left. rewrite asound_eval by (assumption || lra). cbn [obj st_g st_u st_p]; ncbn.
  rewrite (ndiv_Some (g - 1)) by lra. rewrite (ndiv_Some 2) by lra. ncbn.
  assert (Eu : (g - 1) / (g + 1) * (f_u q + 2 / (g - 1) * (flow_sound g q + x)) = fu (-1) g q x).
  { unfold fu. replace (-1 * - flow_sound g q) with (flow_sound g q) by ring. reflexivity. }
  rewrite Eu. assert (Ec : fu (-1) g q x - x = fc (-1) g q x) by (unfold fc; ring). rewrite Ec.
  rewrite (ndiv_Some (fc (-1) g q x)) by lra. rewrite (ndiv_Some (2 * g)) by lra.
  rewrite npow_Some by pos. ncbn. fold (fp (-1) g q x).
  change (mk_state (Some g) (Some (f_rho q)) (Some (f_u q)) (Some (f_p q))) with (obj g q).
  rewrite rho_through_isentropic_eval; [reflexivity|assumption|assumption|unfold fp; pos].
Qed.
Lemma fan_right_eval g q x : 1 < g -> positive_state q -> 0 < fc 1 g q x ->
  fan_right (obj g q) (Some x) = tri3 (fan 1 g q x).
Proof.
  intros Hg Hq H. pose proof (sound_pos g q ltac:(lra) Hq) as Ha. pose proof Hq as [Hr Hp].
  unfold fan_right. rewrite asound_eval by (assumption || lra). cbn [obj st_g st_u st_p]; ncbn.
  rewrite (ndiv_Some (g - 1)) by lra. rewrite (ndiv_Some 2) by lra. ncbn.
  assert (Eu : (g - 1) / (g + 1) * (f_u q + 2 / (g - 1) * (- flow_sound g q + x)) = fu 1 g q x).
  { unfold fu. rewrite Rmult_1_l. reflexivity. }
  rewrite Eu. assert (Ec : x - fu 1 g q x = fc 1 g q x) by (unfold fc; ring). rewrite Ec.
  rewrite (ndiv_Some (fc 1 g q x)) by lra. rewrite (ndiv_Some (2 * g)) by lra.
  rewrite npow_Some by pos. ncbn. fold (fp 1 g q x).
  change (mk_state (Some g) (Some (f_rho q)) (Some (f_u q)) (Some (f_p q))) with (obj g q).
  rewrite rho_through_isentropic_eval; [reflexivity|assumption|assumption|unfold fp; pos].
Qed.
(** between the fan edges the fan is defined *)
Lemma fan_dom s g q p x : 1 < g -> positive_state q -> 0 < p -> s = 1 \/ s = -1 ->
  s * win s g q p <= s * x -> p <= f_p q -> 0 < fc s g q x.
Proof.
  intros Hg Hq Hp Hs Hx Hpp. pose proof (sq_pos s g q p Hg Hq Hp) as Hq1.
  destruct (joined s g q p Hg Hq Hp Hs) as [(h & _)|(_ & He & Hi & _ & Hw)]; [cbn in h; lra|].
  destruct (fan_edge s g q Hs Hg Hq (sq s g q p) (win s g q p) Hq1 He Hi Hw) as [_ H0].
  rewrite fc_alt in * by assumption. destruct Hq as [Hr Hpq].
  replace (s * (g - 1) / (g + 1) * (x - f_u q)) with ((g - 1) / (g + 1) * (s * x - s * f_u q)) by (field; lra).
  replace (s * (g - 1) / (g + 1) * (win s g q p - f_u q)) with ((g - 1) / (g + 1) * (s * win s g q p - s * f_u q)) in H0 by (field; lra).
  assert (0 < (g - 1) / (g + 1)) by pos. nra.
Qed.
Lemma no_fan s g q p : f_p q <= p -> 1 < g -> positive_state q -> 0 < p -> win s g q p = wout s g q p.
Proof.
  intros h Hg Hq Hp. unfold win, wout. destruct (Rlt_dec (f_p q) p); [reflexivity|].
  assert (p = f_p q) by lra. subst p.
  unfold sq, srho, fK. destruct (Rlt_dec (f_p q) (f_p q)); [lra|]. rewrite exdu_0 by assumption.
  rewrite iso_sound by assumption. replace (f_p q / f_p q) with 1 by (field; lra). rewrite Rpower_one; ring.
Qed.

(** the values of the solution object built by riemann_pb, named *)
Definition the_solution (gL gR : R) (qL qR : flow) (p : R) : riemann :=
  mk_riemann (obj gL qL) (obj gR qR) (Some p) (Some (f_u qL - fK gL qL p))
      (obj gL (sq (-1) gL qL p)) (obj gR (sq 1 gR qR p))
      (Some (wout (-1) gL qL p)) (Some (win (-1) gL qL p)) (Some (f_u qL - fK gL qL p))
      (Some (win 1 gR qR p)) (Some (wout 1 gR qR p)).
Definition with_gas (gL gR x : R) (q : flow) : state :=
  obj (if Rlt_dec x 0 then gL else gR) q.

Lemma andb3_r a b : andb3 (nlt (Some a) (Some b)) (Some false) = Some false.
Proof. unfold nlt; destruct (Rlt_dec a b); reflexivity. Qed.
Lemma andb3_l a b : andb3 (Some false) (nlt (Some a) (Some b)) = Some false.
Proof. unfold nlt; destruct (Rlt_dec a b); reflexivity. Qed.
Ltac cmp := repeat (match goal with
  | |- context [andb3 (nlt (Some ?a) (Some ?b)) (Some false)] => rewrite andb3_r
  | |- context [andb3 (Some false) (nlt (Some ?a) (Some ?b))] => rewrite andb3_l
  | |- context [nlt (Some ?a) (Some ?b)] => first [rewrite (nlt_true a b) by lra | rewrite (nlt_false a b) by lra]
  | |- context [nle (Some ?a) (Some ?b)] => first [rewrite (nle_true a b) by lra | rewrite (nle_false a b) by lra]
  end; cbn [andb3 andb assign_if nif]).

Section sample.
Variables (gL gR : R) (qL qR : flow) (p : R).
Hypotheses (HgL : 1 < gL) (HgR : 1 < gR) (HL : positive_state qL) (HR : positive_state qR)
  (Hp : 0 < p) (Hd : duR gL gR qL qR p = 0).
Let S := the_solution gL gR qL qR p.
Let w0 := wout (-1) gL qL p. Let w1 := win (-1) gL qL p. Let w2 := f_u qL - fK gL qL p.
Let w3 := win 1 gR qR p. Let w4 := wout 1 gR qR p.
Lemma s_order : w0 <= w1 < w2 /\ w2 < w3 <= w4.
Proof.
  unfold duR in Hd.
  pose proof (wave_order (-1) gL qL p HgL HL Hp (or_intror eq_refl)) as [A1 A2].
  pose proof (wave_order 1 gR qR p HgR HR Hp (or_introl eq_refl)) as [B1 B2].
  unfold w0, w1, w2, w3, w4. repeat split; lra.
Qed.
Lemma s_final x f :
  match Some (tri3 f), nlt (Some x) (Some 0) with
  | Some (rho, u, p), Some neg =>
      Some (state_init rho u p (Some (if neg then st_g (r_qL S) else st_g (r_qR S))))
  | _, _ => None end = Some (with_gas gL gR x f).
Proof.
  unfold nlt, with_gas, obj, tri3. destruct (Rlt_dec x 0); reflexivity.
Qed.
Lemma qsol_unfold x : qsol S (Some x) =
  let bindt (o : option tri) (k : tri -> option tri) := match o with Some t => k t | None => None end in
  match (bindt (assign_if (andb3 (nle (Some w1) (Some x)) (nlt (Some x) (Some w2))) (tri3 (sq (-1) gL qL p)) (tri3 qL)) (fun t1 =>
    bindt (assign_if (andb3 (nle (Some w2) (Some x)) (nlt (Some x) (Some w3))) (tri3 (sq 1 gR qR p)) t1) (fun t2 =>
    bindt (assign_if (nle (Some w4) (Some x)) (tri3 qR) t2) (fun t3 =>
    bindt (nif (nlt (Some p) (Some (f_p qL)))
             (assign_if (andb3 (nlt (Some w0) (Some x)) (nlt (Some x) (Some w1))) (fan_left (obj gL qL) (Some x)) t3) (Some t3)) (fun t4 =>
           nif (nlt (Some p) (Some (f_p qR)))
             (assign_if (andb3 (nlt (Some w3) (Some x)) (nlt (Some x) (Some w4))) (fan_right (obj gR qR) (Some x)) t4) (Some t4)))))),
    nlt (Some x) (Some 0) with
  | Some (rho, u, p), Some neg =>
      Some (state_init rho u p (Some (if neg then st_g (r_qL S) else st_g (r_qR S))))
  | _, _ => None end.
Proof. reflexivity. Qed.
Lemma s_nofanL : f_p qL <= p -> w1 = w0.
Proof. intros; now apply no_fan. Qed.
Lemma s_nofanR : f_p qR <= p -> w3 = w4.
Proof. intros; now apply no_fan. Qed.
Ltac go := rewrite qsol_unfold; cbv zeta; pose proof s_order as [O1 O2];
  destruct (Rlt_dec p (f_p qL)) as [hL|hL]; [|pose proof (s_nofanL ltac:(lra))];
  (destruct (Rlt_dec p (f_p qR)) as [hR|hR]; [|pose proof (s_nofanR ltac:(lra))]);
  try lra; cmp; try apply s_final.
Lemma q_left x : x < w0 -> qsol S (Some x) = Some (with_gas gL gR x qL).
Proof. intros H. go. Qed.
Lemma q_left_edge x : x = w0 -> w0 < w1 -> qsol S (Some x) = Some (with_gas gL gR x qL).
Proof. intros H H1. go. Qed.
Lemma q_starL x : w1 <= x < w2 -> qsol S (Some x) = Some (with_gas gL gR x (sq (-1) gL qL p)).
Proof. intros H. go. Qed.
Lemma q_starR x : w2 <= x < w3 -> qsol S (Some x) = Some (with_gas gL gR x (sq 1 gR qR p)).
Proof. intros H. go. Qed.
Lemma q_right x : w4 <= x -> qsol S (Some x) = Some (with_gas gL gR x qR).
Proof. intros H. go. Qed.
Lemma q_bug x : x = w3 -> w3 < w4 -> qsol S (Some x) = Some (with_gas gL gR x qL).
Proof. intros H H1. go. Qed.
Lemma q_fanL x : w0 < x < w1 -> qsol S (Some x) = Some (with_gas gL gR x (fan (-1) gL qL x)) /\ 0 < fc (-1) gL qL x.
Proof.
  intros H. assert (hL : p < f_p qL).
  { destruct (Rlt_dec p (f_p qL)) as [h|h]; [exact h|]. pose proof (s_nofanL ltac:(lra)). lra. }
  assert (Hc : 0 < fc (-1) gL qL x).
  { apply (fan_dom (-1) gL qL p x); try assumption; [lra|fold w1; lra|lra]. }
  split; [|exact Hc]. rewrite qsol_unfold; cbv zeta. pose proof s_order as [O1 O2].
  rewrite fan_left_eval by assumption.
  destruct (Rlt_dec p (f_p qR)) as [hR|hR]; [|pose proof (s_nofanR ltac:(lra))]; cmp; apply s_final.
Qed.
Lemma q_fanR x : w3 < x < w4 -> qsol S (Some x) = Some (with_gas gL gR x (fan 1 gR qR x)) /\ 0 < fc 1 gR qR x.
Proof.
  intros H. assert (hR : p < f_p qR).
  { destruct (Rlt_dec p (f_p qR)) as [h|h]; [exact h|]. pose proof (s_nofanR ltac:(lra)). lra. }
  assert (Hc : 0 < fc 1 gR qR x).
  { apply (fan_dom 1 gR qR p x); try assumption; [lra|fold w3; lra|lra]. }
  split; [|exact Hc]. rewrite qsol_unfold; cbv zeta. pose proof s_order as [O1 O2].
  rewrite fan_right_eval by assumption.
  destruct (Rlt_dec p (f_p qL)) as [hL|hL]; [|pose proof (s_nofanL ltac:(lra))]; cmp; apply s_final.
Qed.
End sample.

(*@P C40_regions_partial: With an exact root finder and no vacuum, at every x/t: qsol gives the left state before the left wave (including its outer edge when it is a fan), the left star state from the inner edge of the left wave up to the contact (contact excluded), the right star state from the contact to the right wave (edge excluded), the right state from the outer edge of the right wave on; strictly inside a fan it gives the unique state with the side's entropy and Riemann invariant whose acoustic speed u -/+ a is x/t. Not covered: x/t exactly equal to the inner edge of a right fan, where the result is wrong (C40_right_fan_edge_refuted); and the attached gas (C40_gas_refuted). *)
Lemma qsol_regions : forall newton gL gR qL qR S, solves 0 newton -> 1 < gL -> 1 < gR ->
  positive_state qL -> positive_state qR ->
  f_u qR - f_u qL < 2 * flow_sound gL qL / (gL - 1) + 2 * flow_sound gR qR / (gR - 1) ->
  riemann_pb newton (obj gL qL) (obj gR qR) = Some S ->
  exists w0 w1 w2 w3 w4 sL sR,
    r_w0 S = Some w0 /\ r_w1 S = Some w1 /\ r_w2 S = Some w2 /\ r_w3 S = Some w3 /\ r_w4 S = Some w4 /\
    r_qsL S = obj gL sL /\ r_qsR S = obj gR sR /\
    forall x, exists g q, (g = gL \/ g = gR) /\ qsol S (Some x) = Some (obj g q) /\
      (x < w0 -> q = qL) /\ (x = w0 -> w0 < w1 -> q = qL) /\
      (w0 < x < w1 -> positive_state q /\ entropy_fn gL q = entropy_fn gL qL /\
         riemann_invariant (-1) gL q = riemann_invariant (-1) gL qL /\ f_u q - flow_sound gL q = x) /\
      (w1 <= x < w2 -> q = sL) /\ (w2 <= x < w3 -> q = sR) /\
      (w3 < x < w4 -> positive_state q /\ entropy_fn gR q = entropy_fn gR qR /\
         riemann_invariant 1 gR q = riemann_invariant 1 gR qR /\ f_u q + flow_sound gR q = x) /\
      (w4 <= x -> q = qR).
Proof.
  intros newton gL gR qL qR S Hn HgL HgR HL HR Hv E.
  destruct (riemann_eval newton gL gR qL qR S Hn HgL HgR HL HR Hv E) as (p & Hp & Hd & ES).
  change (S = the_solution gL gR qL qR p) in ES. subst S.
  pose proof (s_order gL gR qL qR p HgL HgR HL HR Hp Hd) as [O1 O2].
  do 7 eexists. do 7 (split; [reflexivity|]). intros x.
  set (w0 := wout (-1) gL qL p) in *. set (w1 := win (-1) gL qL p) in *. set (w2 := f_u qL - fK gL qL p) in *.
  set (w3 := win 1 gR qR p) in *. set (w4 := wout 1 gR qR p) in *.
  assert (Hgas : (if Rlt_dec x 0 then gL else gR) = gL \/ (if Rlt_dec x 0 then gL else gR) = gR)
    by (destruct (Rlt_dec x 0); auto).
  assert (C : x < w0 \/ (x = w0 /\ w0 < w1) \/ w0 < x < w1 \/ w1 <= x < w2 \/ w2 <= x < w3 \/ (x = w3 /\ w3 < w4)
    \/ w3 < x < w4 \/ w4 <= x).
  { destruct (Rlt_dec x w0); [auto|]. destruct (Rlt_dec x w1).
    - destruct (Req_EM_T x w0); [right; left; lra|right; right; left; lra].
    - destruct (Rlt_dec x w2); [do 3 right; left; lra|]. destruct (Rlt_dec x w3); [do 4 right; left; lra|].
      destruct (Rlt_dec x w4); [|do 7 right; lra]. destruct (Req_EM_T x w3); [do 5 right; left; lra|do 6 right; left; lra]. }
  eexists (if Rlt_dec x 0 then gL else gR).
  destruct C as [C|[[C C']|[C|[C|[C|[[C C']|[C|C]]]]]]].
  - exists qL. split; [exact Hgas|]. split; [now apply q_left|]. repeat split; intros; try reflexivity; exfalso; lra.
  - exists qL. split; [exact Hgas|]. split; [now apply q_left_edge|]. repeat split; intros; try reflexivity; exfalso; lra.
  - destruct (q_fanL gL gR qL qR p HgL HgR HL HR Hp Hd x C) as [EQ Hc].
    exists (fan (-1) gL qL x). split; [exact Hgas|]. split; [exact EQ|].
    destruct (fan_char (-1) gL qL (or_intror eq_refl) HgL HL x Hc) as (A1 & A2 & A3).
    pose proof (fan_pos (-1) gL qL HL x Hc) as A0.
    split; [intros; exfalso; lra|]. split; [intros; exfalso; lra|].
    split; [intros _; split; [exact A0|]; split; [exact A1|]; split; [exact A2|lra]|].
    repeat split; intros; exfalso; lra.
  - exists (sq (-1) gL qL p). split; [exact Hgas|]. split; [now apply q_starL|]. repeat split; intros; try reflexivity; exfalso; lra.
  - exists (sq 1 gR qR p). split; [exact Hgas|]. split; [now apply q_starR|]. repeat split; intros; try reflexivity; exfalso; lra.
  - exists qL. split; [exact Hgas|]. split; [now apply q_bug|]. repeat split; intros; try reflexivity; exfalso; lra.
  - destruct (q_fanR gL gR qL qR p HgL HgR HL HR Hp Hd x C) as [EQ Hc].
    exists (fan 1 gR qR x). split; [exact Hgas|]. split; [exact EQ|].
    destruct (fan_char 1 gR qR (or_introl eq_refl) HgR HR x Hc) as (A1 & A2 & A3).
    pose proof (fan_pos 1 gR qR HR x Hc) as A0.
    do 5 (split; [intros; exfalso; lra|]).
    split; [intros _; split; [exact A0|]; split; [exact A1|]; split; [exact A2|lra]|]. intros; exfalso; lra.
  - exists qR. split; [exact Hgas|]. split; [now apply q_right|]. repeat split; intros; try reflexivity; exfalso; lra.
Qed.

Lemma fan_continuous s g q x : s = 1 \/ s = -1 -> 1 < g -> positive_state q -> 0 < fc s g q x ->
  continuity_pt (fun t => f_rho (fan s g q t)) x /\ continuity_pt (fun t => f_u (fan s g q t)) x /\
  continuity_pt (fun t => f_p (fan s g q t)) x.
Proof.
  intros Hs Hg Hq H. repeat split; apply derivable_continuous_pt.
  - eexists; apply is_derive_Reals; exact (fr_derive s g q Hs Hg Hq x H).
  - eexists; apply is_derive_Reals; exact (fu_derive s g q Hg x).
  - eexists; apply is_derive_Reals; exact (fp_derive s g q Hs Hg Hq x H).
Qed.
(*@P C40_fans_solve_euler: Strictly inside each fan the sampled solution is a differentiable function of x/t satisfying the three Euler conservation laws (mass, momentum, energy), and it joins the neighbouring constant states continuously at both edges. *)
Lemma fans_solve_euler : forall newton gL gR qL qR S, solves 0 newton -> 1 < gL -> 1 < gR ->
  positive_state qL -> positive_state qR ->
  f_u qR - f_u qL < 2 * flow_sound gL qL / (gL - 1) + 2 * flow_sound gR qR / (gR - 1) ->
  riemann_pb newton (obj gL qL) (obj gR qR) = Some S ->
  exists w0 w1 w3 w4 sL sR, r_w0 S = Some w0 /\ r_w1 S = Some w1 /\ r_w3 S = Some w3 /\ r_w4 S = Some w4 /\
    r_qsL S = obj gL sL /\ r_qsR S = obj gR sR /\
    (w0 < w1 -> exists q : R -> flow,
       (forall x, w0 < x < w1 -> exists g, qsol S (Some x) = Some (obj g (q x))) /\
       (forall x, w0 < x < w1 -> euler_self_similar gL q x) /\
       q w0 = qL /\ q w1 = sL /\
       (forall x, w0 <= x <= w1 -> continuity_pt (fun t => f_rho (q t)) x /\
          continuity_pt (fun t => f_u (q t)) x /\ continuity_pt (fun t => f_p (q t)) x)) /\
    (w3 < w4 -> exists q : R -> flow,
       (forall x, w3 < x < w4 -> exists g, qsol S (Some x) = Some (obj g (q x))) /\
       (forall x, w3 < x < w4 -> euler_self_similar gR q x) /\
       q w3 = sR /\ q w4 = qR /\
       (forall x, w3 <= x <= w4 -> continuity_pt (fun t => f_rho (q t)) x /\
          continuity_pt (fun t => f_u (q t)) x /\ continuity_pt (fun t => f_p (q t)) x)).
Proof.
  intros newton gL gR qL qR S Hn HgL HgR HL HR Hv E.
  destruct (riemann_eval newton gL gR qL qR S Hn HgL HgR HL HR Hv E) as (p & Hp & Hd & ES).
  change (S = the_solution gL gR qL qR p) in ES. subst S.
  pose proof (s_order gL gR qL qR p HgL HgR HL HR Hp Hd) as [O1 O2].
  do 6 eexists. do 6 (split; [reflexivity|]).
  pose proof (@or_intror (-1 = 1) (-1 = -1) eq_refl) as Hm. pose proof (@or_introl (1 = 1) (1 = -1) eq_refl) as Hone.
  split.
  - intros Hw. exists (fan (-1) gL qL).
    assert (hL : p < f_p qL).
    { destruct (Rlt_dec p (f_p qL)) as [h|h]; [exact h|].
      pose proof (no_fan (-1) gL qL p ltac:(lra) HgL HL Hp). lra. }
    assert (Hdom : forall x, x <= win (-1) gL qL p -> 0 < fc (-1) gL qL x).
    { intros x Hx. apply (fan_dom (-1) gL qL p x); try assumption; lra. }
    split. { intros x Hx. eexists. exact (proj1 (q_fanL gL gR qL qR p HgL HgR HL HR Hp Hd x Hx)). }
    split. { intros x Hx. apply fan_euler; try assumption. apply Hdom; lra. }
    destruct (joined (-1) gL qL p HgL HL Hp Hm) as [(h & _)|(_ & He & Hi & Hwo & Hwi)]; [cbn in h; lra|].
    split. { apply (fan_edge (-1) gL qL Hm HgL HL qL); try assumption; try reflexivity. }
    split. { apply (fan_edge (-1) gL qL Hm HgL HL); try assumption. now apply sq_pos. }
    intros x Hx. apply fan_continuous; try assumption. apply Hdom; lra.
  - intros Hw. exists (fan 1 gR qR).
    assert (hR : p < f_p qR).
    { destruct (Rlt_dec p (f_p qR)) as [h|h]; [exact h|].
      pose proof (no_fan 1 gR qR p ltac:(lra) HgR HR Hp). lra. }
    assert (Hdom : forall x, win 1 gR qR p <= x -> 0 < fc 1 gR qR x).
    { intros x Hx. apply (fan_dom 1 gR qR p x); try assumption; lra. }
    split. { intros x Hx. eexists. exact (proj1 (q_fanR gL gR qL qR p HgL HgR HL HR Hp Hd x Hx)). }
    split. { intros x Hx. apply fan_euler; try assumption. apply Hdom; lra. }
    destruct (joined 1 gR qR p HgR HR Hp Hone) as [(h & _)|(_ & He & Hi & Hwo & Hwi)]; [cbn in h; lra|].
    split. { apply (fan_edge 1 gR qR Hone HgR HR); try assumption. now apply sq_pos. }
    split. { apply (fan_edge 1 gR qR Hone HgR HR qR); try assumption; try reflexivity. }
    intros x Hx. apply fan_continuous; try assumption. apply Hdom; lra.
Qed.

(*@P C40_right_fan_edge_refuted: For every problem with a genuine right fan, sampling exactly at its inner edge (x/t = waves[3]) returns the LEFT undisturbed state: none of the half-open masks covers that point. *)
Lemma right_fan_edge : forall newton gL gR qL qR S w3 w4, solves 0 newton -> 1 < gL -> 1 < gR ->
  positive_state qL -> positive_state qR ->
  f_u qR - f_u qL < 2 * flow_sound gL qL / (gL - 1) + 2 * flow_sound gR qR / (gR - 1) ->
  riemann_pb newton (obj gL qL) (obj gR qR) = Some S ->
  r_w3 S = Some w3 -> r_w4 S = Some w4 -> w3 < w4 ->
  exists g, qsol S (r_w3 S) = Some (obj g qL).
Proof.
  intros newton gL gR qL qR S w3 w4 Hn HgL HgR HL HR Hv E E3 E4 Hlt.
  destruct (riemann_eval newton gL gR qL qR S Hn HgL HgR HL HR Hv E) as (p & Hp & Hd & ES).
  change (S = the_solution gL gR qL qR p) in ES. subst S.
  cbn in E3, E4. injection E3 as <-. injection E4 as <-.
  eexists. exact (q_bug gL gR qL qR p HgL HgR HL HR Hp Hd (win 1 gR qR p) eq_refl Hlt).
Qed.

(*@P C40_gas_refuted: The gas attached to the sampled state is the left one exactly for x/t < 0, whatever the contact speed: to the right of x/t = 0 but left of the contact (or left of 0 but right of the contact) the density, velocity and pressure are those of one side with the gamma of the other. *)
Lemma gas_refuted : forall newton gL gR qL qR S x u, solves 0 newton -> 1 < gL -> 1 < gR ->
  positive_state qL -> positive_state qR ->
  f_u qR - f_u qL < 2 * flow_sound gL qL / (gL - 1) + 2 * flow_sound gR qR / (gR - 1) ->
  riemann_pb newton (obj gL qL) (obj gR qR) = Some S -> r_ustar S = Some u ->
  exists s, qsol S (Some x) = Some s /\
   (0 <= x < u -> st_g s = Some gR) /\ (u <= x < 0 -> st_g s = Some gL) /\
   (forall w1, r_w1 S = Some w1 -> 0 <= x -> w1 <= x < u ->
      s = mk_state (Some gR) (st_rho (r_qsL S)) (st_u (r_qsL S)) (st_p (r_qsL S))).
Proof.
  intros newton gL gR qL qR S x u Hn HgL HgR HL HR Hv E Eu.
  pose proof (qsol_regions newton gL gR qL qR S Hn HgL HgR HL HR Hv E) as HH.
  destruct (riemann_eval newton gL gR qL qR S Hn HgL HgR HL HR Hv E) as (p & Hp & Hd & ES).
  change (S = the_solution gL gR qL qR p) in ES. subst S.
  destruct HH as (w0 & w1 & w2 & w3 & w4 & sL & sR & _ & _ & _ & _ & _ & _ & _ & HH).
  destruct (HH x) as (g & q & _ & EQ & _). exists (obj g q). split; [exact EQ|].
  assert (Hg : Some g = Some (if Rlt_dec x 0 then gL else gR)).
  { rewrite qsol_unfold in EQ. cbv zeta in EQ.
    match type of EQ with (match ?m with _ => _ end) = _ => destruct m as [[[a b] c]|] end;
      [|discriminate].
    apply (f_equal (option_map st_g)) in EQ.
    unfold nlt in EQ. destruct (Rlt_dec x 0); cbn in EQ; congruence. }
  split; [intros H; cbn; rewrite Hg; destruct (Rlt_dec x 0); [lra|reflexivity]|].
  split; [intros H; cbn; rewrite Hg; destruct (Rlt_dec x 0); [reflexivity|lra]|].
  intros w1' E1 H0 H1. cbn in E1, Eu. injection E1 as <-. injection Eu as <-.
  pose proof (q_starL gL gR qL qR p HgL HgR HL HR Hp Hd x ltac:(split; lra)) as EQ2.
  rewrite EQ in EQ2. apply Some_inj in EQ2. rewrite EQ2. unfold with_gas.
  cbn. destruct (Rlt_dec x 0); [lra|reflexivity].
Qed.
(*@E C40_example: the receding flows of C37_example have a genuine right fan and, in the sampled solution at its inner edge, the velocity is -1 (the left state) although every state in that region moves at 0 or faster *)
Lemma C40_example_lemma : exists S w3 w4 g, riemann_pb (lazy_newton 0) (obj (14/10) qm) (obj (14/10) qp) = Some S /\
  r_w3 S = Some w3 /\ r_w4 S = Some w4 /\ w3 < w4 /\ qsol S (r_w3 S) = Some (obj g qm) /\ f_u qm = -1.
Proof.
  destruct C37_example_lemma as (Hn & Hm & Hq & Hv & S & p & E & Ep & Hp).
  assert (Hg : 1 < 14/10) by lra.
  destruct (riemann_eval _ _ _ _ _ S Hn Hg Hg Hm Hq Hv E) as (p' & Hp' & Hd & ES).
  change (S = the_solution (14/10) (14/10) qm qp p') in ES. assert (p' = p) by (subst S; cbn in Ep; congruence). subst p'.
  assert (Hlt : win 1 (14/10) qp p < wout 1 (14/10) qp p).
  { unfold win, wout. change (f_p qp) with 1. destruct (Rlt_dec 1 p); [lra|].
    assert (Es : flow_sound (14/10) (sq 1 (14/10) qp p) = flow_sound (14/10) qp * Rpower (p / 1) (1/2 * (14/10 - 1) / (14/10))).
    { unfold sq, srho. change (f_p qp) with 1. destruct (Rlt_dec 1 p); [lra|]. now apply iso_sound. }
    rewrite Es. unfold fK. change (f_p qp) with 1. destruct (Rlt_dec 1 p); [lra|]. unfold exdu. change (f_p qp) with 1.
    unfold qp. rewrite sound_qm.
    assert (HP : Rpower (p / 1) (1/2 * (14/10 - 1) / (14/10)) < 1) by (apply Rpower_lt_1; lra).
    pose proof (Rpower_pos (p / 1) (1/2 * (14/10 - 1) / (14/10))). set (P := Rpower _ _) in *. clearbody P. lra. }
  exists S, (win 1 (14/10) qp p), (wout 1 (14/10) qp p).
  destruct (right_fan_edge (lazy_newton 0) (14/10) (14/10) qm qp S _ _ Hn Hg Hg Hm Hq Hv E
    ltac:(rewrite ES; reflexivity) ltac:(rewrite ES; reflexivity) Hlt) as [g EQ].
  exists g. split; [exact E|]. split; [rewrite ES; reflexivity|]. split; [rewrite ES; reflexivity|].
  split; [exact Hlt|]. split; [exact EQ|reflexivity].
Qed.
