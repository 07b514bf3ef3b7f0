(** * C67: extended variables *)
From Coq Require Import String Ascii.
From Verif Require Import Num L_Num M_DicoVar DicoVarSpec M_ExtendVar CalculatorSpec L_DicoVar.
Open Scope R_scope.

Lemma append_assoc a b c : append (append a b) c = append a (append b c).
Proof. induction a as [|x a IH]; [reflexivity|]. cbn [append]. now rewrite IH. Qed.
Lemma append_nil a : append a EmptyString = a.
Proof. induction a as [|x a IH]; [reflexivity|]. cbn [append]. now rewrite IH. Qed.
Lemma tokens_word w : forall acc s, all_word w = true -> tokens acc (append w s) = tokens (append acc w) s.
Proof.
  induction w as [|c w IH]; intros acc s H; [now rewrite append_nil|]. cbn [all_word] in H. apply andb_prop in H. destruct H as [H1 H2].
  cbn [append tokens]. rewrite H1, IH by exact H2. now rewrite append_assoc.
Qed.
Lemma flush_name w l : w <> EmptyString -> flush w l = Word w :: l.
Proof. destruct w; [congruence|reflexivity]. Qed.
Ltac lex1 := match goal with |- context [tokens ?a (String ?c ?s)] =>
  let b := eval vm_compute in (word_char c) in
  lazymatch b with true => change (tokens a (String c s)) with (tokens (append a (String c EmptyString)) s)
  | false => change (tokens a (String c s)) with (flush a (Sym c :: tokens EmptyString s)) end; cbn [append] end.
Ltac lex := repeat (lex1 || (rewrite tokens_word by assumption; cbn [append]) || (rewrite flush_name by assumption) || (progress cbn [flush]));
  repeat match goal with |- context [tokens ?a EmptyString] => change (tokens a EmptyString) with (flush a []); cbn [flush]; rewrite ?flush_name by assumption end.


Ltac prs := unfold parse; cbn [append]; lex; cbv -[starts_digit]; repeat match goal with H : starts_digit ?w = false |- context [starts_digit ?w] => rewrite H end; reflexivity.
Definition sound_f (P rho : string) : formula := Apply "sqrt" (Op "/" (Op "*" (Number "1.4") (Field P)) (Field rho)).
Lemma parse_Pt P rho Vel : field_name P -> field_name rho -> field_name Vel ->
  parse (P ++ "*(1+" ++ "0.2" ++ "*(mag(" ++ Vel ++ "))^2/(" ++ "1.4" ++ "*" ++ P ++ "/" ++ rho ++ "))^" ++ "3.5")%string =
  Some (Op "*" (Field P) (Op "^" (Op "+" (Number "1") (Op "/" (Op "*" (Number "0.2") (Op "^" (Apply "mag" (Field Vel)) (Number "2")))
     (Op "/" (Op "*" (Number "1.4") (Field P)) (Field rho)))) (Number "3.5"))).
Proof. intros (? & ? & ?) (? & ? & ?) (? & ? & ?). prs. Qed.
Lemma parse_T P rho : field_name P -> field_name rho -> parse (P ++ "/" ++ rho ++ "/287.1")%string = Some (Op "/" (Op "/" (Field P) (Field rho)) (Number "287.1")).
Proof. intros (? & ? & ?) (? & ? & ?). prs. Qed.
Lemma parse_S P rho : field_name P -> field_name rho -> parse ("ln(" ++ P ++ "/" ++ rho ++ "^" ++ "1.4" ++ ")")%string = Some (Apply "ln" (Op "/" (Field P) (Op "^" (Field rho) (Number "1.4")))).
Proof. intros (? & ? & ?) (? & ? & ?). prs. Qed.
Lemma parse_V Vel : field_name Vel -> parse ("mag(" ++ Vel ++ ")")%string = Some (Apply "mag" (Field Vel)).
Proof. intros (? & ? & ?). prs. Qed.
Lemma parse_a P rho : field_name P -> field_name rho -> parse ("sqrt(" ++ "1.4" ++ "*" ++ P ++ "/" ++ rho ++ ")")%string = Some (sound_f P rho).
Proof. intros (? & ? & ?) (? & ? & ?). prs. Qed.
Lemma parse_Mach P rho Vel : field_name P -> field_name rho -> field_name Vel ->
  parse ("mag(" ++ Vel ++ ")/" ++ "sqrt(" ++ "1.4" ++ "*" ++ P ++ "/" ++ rho ++ ")")%string = Some (Op "/" (Apply "mag" (Field Vel)) (sound_f P rho)).
Proof. intros (? & ? & ?) (? & ? & ?) (? & ? & ?). prs. Qed.
Lemma parse_Mx P rho : field_name P -> field_name rho ->
  parse ("U_X/" ++ "sqrt(" ++ "1.4" ++ "*" ++ P ++ "/" ++ rho ++ ")")%string = Some (Op "/" (Field "U_X") (sound_f P rho)).
Proof. intros (? & ? & ?) (? & ? & ?). prs. Qed.
Lemma parse_alpha Vx Vy : field_name Vx -> field_name Vy ->
  parse ("atan(" ++ Vy ++ "/" ++ Vx ++ ")*180/acos(-1)")%string = Some (Op "/" (Op "*" (Apply "atan" (Op "/" (Field Vy) (Field Vx))) (Number "180")) (Apply "acos" (Minus (Number "1")))).
Proof. intros (? & ? & ?) (? & ? & ?). prs. Qed.

(** ** the dictionary *)
Lemma fold_store_lookup : forall d e k, NoDup (map fst d) -> lookup (fold_left (fun e kv => store (fst kv) (snd kv) e) d e) k = match lookup d k with Some v => Some v | None => lookup e k end.
Proof.
  induction d as [|[a v] d IH]; intros e k N; [reflexivity|]. cbn [map fst] in N. apply NoDup_cons_iff in N. destruct N as [N1 N2].
  cbn [fold_left fst snd lookup]. rewrite IH by exact N2. rewrite lookup_store. destruct (String.eqb_spec k a) as [E|N].
  - subst a. destruct (string_dec k k); [|congruence]. rewrite lookup_In in N1. destruct (lookup d k); [exfalso; apply N1; discriminate|reflexivity].
  - destruct (string_dec k a); [congruence|]. reflexivity.
Qed.
Definition new_names : list string := ["Pt"; "T"; "S"; "V"; "a"; "Mach"; "Mx"; "alpha"]%string.
(** the names the function needs *)
Definition named (d : dict) (P rho Vel Vx Vy : string) : Prop :=
  lookup d "P" = Some P /\ lookup d "rho" = Some rho /\ lookup d "V" = Some Vel /\ lookup d "Vx" = Some Vx /\ lookup d "Vy" = Some Vy /\
  List.Forall field_name [P; rho; Vel; Vx; Vy].
Lemma entries d P rho Vel Vx Vy : NoDup (map fst d) -> named d P rho Vel Vx Vy -> exists x, expressions_from_rhopv d = Some x /\
  (forall k, ~ In k new_names -> lookup x k = lookup d k) /\
  lookup x "Pt" = Some (P ++ "*(1+" ++ "0.2" ++ "*(mag(" ++ Vel ++ "))^2/(" ++ "1.4" ++ "*" ++ P ++ "/" ++ rho ++ "))^" ++ "3.5")%string /\
  lookup x "T" = Some (P ++ "/" ++ rho ++ "/287.1")%string /\ lookup x "S" = Some ("ln(" ++ P ++ "/" ++ rho ++ "^" ++ "1.4" ++ ")")%string /\
  lookup x "V" = Some ("mag(" ++ Vel ++ ")")%string /\ lookup x "a" = Some ("sqrt(" ++ "1.4" ++ "*" ++ P ++ "/" ++ rho ++ ")")%string /\
  lookup x "Mach" = Some ("mag(" ++ Vel ++ ")/" ++ "sqrt(" ++ "1.4" ++ "*" ++ P ++ "/" ++ rho ++ ")")%string /\
  lookup x "Mx" = Some ("U_X/" ++ "sqrt(" ++ "1.4" ++ "*" ++ P ++ "/" ++ rho ++ ")")%string /\
  lookup x "alpha" = Some ("atan(" ++ Vy ++ "/" ++ Vx ++ ")*180/acos(-1)")%string.
Proof.
  intros N (E1 & E2 & E3 & E4 & E5 & _). unfold expressions_from_rhopv. rewrite E1, E2, E3, E4, E5. eexists. split; [reflexivity|]. cbv zeta.
  split; [|repeat split; rewrite !lookup_store; reflexivity].
  intros k K. rewrite !lookup_store. unfold new_names in K. cbn [In] in K.
  repeat match goal with |- context [string_dec k ?z] => destruct (string_dec k z) as [Z|_]; [exfalso; apply K; rewrite Z; tauto|] end.
  rewrite fold_store_lookup by exact N. destruct (lookup d k); reflexivity.
Qed.
(** ** the meaning of the expressions *)
Section Meaning.
Context (env : fields) (P rho Vel Vx Vy : string) (p r u v w : R).
Context (HP : env P = Some (Scalar (Some p))) (HR : env rho = Some (Scalar (Some r))) (HV : env Vel = Some (Vector u v w))
  (HX : env Vx = Some (Scalar (Some u))) (HY : env Vy = Some (Scalar (Some v))) (p0 : 0 < p) (r0 : 0 < r).
Ltac num w := replace (decimal w false 0 1) with (decimal w false 0 1) by reflexivity.
Lemma m_sound : meaning env (sound_f P rho) = Some (Scalar (Some (sqrt (14 / 10 * p / r)))).
Proof using HP HR p0 r0.
  cbn [sound_f meaning String.eqb Ascii.eqb Bool.eqb]. rewrite HP, HR. change (decimal "1.4" false 0 1) with (14 / 10). cbn [nmul].
  rewrite ndiv_Some by lra. rewrite nsqrt_Some; [reflexivity|]. apply Rlt_le, Rdiv_lt_0_compat; lra.
Qed.
Lemma a_pos : 0 < sqrt (14 / 10 * p / r).
Proof using p0 r0. apply sqrt_lt_R0. apply Rdiv_lt_0_compat; lra. Qed.
Lemma m_mag : meaning env (Apply "mag" (Field Vel)) = Some (Scalar (Some (sqrt (u ^ 2 + v ^ 2 + w ^ 2)))).
Proof using HV. cbn [meaning]. rewrite HV. reflexivity. Qed.
End Meaning.
Lemma npow_2 x : 0 <= x -> npow (Some x) (Some 2) = Some (x ^ 2).
Proof.
  intros H. destruct (Req_EM_T x 0) as [->|N].
  - unfold npow. destruct (Rlt_dec 0 0); [lra|]. destruct (Req_EM_T 0 0); [|lra]. destruct (Rlt_dec 0 2); [|lra]. f_equal. ring.
  - rewrite npow_Some by lra. f_equal. apply Rpower_pow2. lra.
Qed.

(** a flow field at a point: pressure, density and velocity under the names of the dictionary *)
Definition at_point (env : fields) (P rho Vel Vx Vy : string) (p r u v w : R) : Prop :=
  env P = Some (Scalar (Some p)) /\ env rho = Some (Scalar (Some r)) /\ env Vel = Some (Vector u v w) /\
  env Vx = Some (Scalar (Some u)) /\ env Vy = Some (Scalar (Some v)) /\ 0 < p /\ 0 < r.
Definition contents (p : process) : dict := heap p (dv p).
Definition gives (env : fields) (x : dict) (k : string) (y : R) : Prop := exists s, lookup x k = Some s /\ evaluates env s y.
(** perfect gas with gamma = 1.4 *)
Definition gas_sound (p r : R) : R := sqrt (14 / 10 * p / r).
Definition speed (u v w : R) : R := sqrt (u ^ 2 + v ^ 2 + w ^ 2).

Lemma nodup_contents h : NoDup (map fst (contents (after h imported))).
Proof. destruct imported_good as [G _]. exact (keys_ok _ (after_good h _ G)). Qed.

(*@P C67_expressions_partial: After every history of dictionary calls that leaves the names P, rho, V, Vx, Vy bound to proper field names, expressions_from_rhopv returns a dictionary in which every other name is unchanged and whose expressions, read and evaluated by the rules of the vtk calculator at any point with positive pressure and density, give: Pt the isentropic total pressure, T the temperature of a gas with r = 287.1, S = ln(p/rho^1.4), V the speed, a the speed of sound, Mach their ratio, Mx the axial Mach number if Vx is called U_X, and alpha the flow angle in degrees if the axial velocity is positive. PARTIAL: the restrictions on Mx and alpha are needed, other software lacks the names, and the module cannot be imported, see C67_expressions_refuted and C78. *)
Lemma expressions : forall h P rho Vel Vx Vy, named (contents (after h imported)) P rho Vel Vx Vy ->
  exists x, expressions_from_rhopv (contents (after h imported)) = Some x /\
  (forall k, ~ In k new_names -> lookup x k = lookup (contents (after h imported)) k) /\
  forall env p r u v w, at_point env P rho Vel Vx Vy p r u v w ->
    let a := gas_sound p r in let V := speed u v w in
    gives env x "Pt" (p * Rpower (1 + (14 / 10 - 1) / 2 * (V / a) ^ 2) ((14 / 10) / (14 / 10 - 1))) /\
    gives env x "T" (p / (r * (2871 / 10))) /\ gives env x "S" (ln (p / Rpower r (14 / 10))) /\
    gives env x "V" V /\ gives env x "a" a /\ gives env x "Mach" (V / a) /\
    (Vx = "U_X"%string -> gives env x "Mx" (u / a)) /\ (0 < u -> gives env x "alpha" (Ratan2 v u * (180 / PI))).
Proof.
  intros h P rho Vel Vx Vy Nm. pose proof Nm as (_ & _ & _ & _ & _ & F). 
  destruct (entries _ _ _ _ _ _ (nodup_contents h) Nm) as (x & E & O & L1 & L2 & L3 & L4 & L5 & L6 & L7 & L8). exists x. split; [exact E|]. split; [exact O|].
  apply List.Forall_cons_iff in F. destruct F as [F1 F]. apply List.Forall_cons_iff in F. destruct F as [F2 F]. apply List.Forall_cons_iff in F. destruct F as [F3 F].
  apply List.Forall_cons_iff in F. destruct F as [F4 F]. apply List.Forall_cons_iff in F. destruct F as [F5 _].
  intros env p r u v w (HP & HR & HV & HX & HY & p0 & r0) a V.
  assert (A0 : 0 < a) by (apply a_pos; assumption). assert (V0 : 0 <= V) by apply sqrt_pos.
  assert (AS : a ^ 2 = 14 / 10 * p / r) by (unfold a, gas_sound; rewrite sq_sqrt; [reflexivity|apply Rlt_le, Rdiv_lt_0_compat; lra]).
  pose proof (m_sound env P rho p r HP HR p0 r0) as MA. change (sqrt (14 / 10 * p / r)) with a in MA. pose proof (m_mag env Vel u v w HV) as MV. change (sqrt (u ^ 2 + v ^ 2 + w ^ 2)) with V in MV.
  pose proof PI_RGT_0 as PI0.
  repeat split.
  - eexists. split; [exact L1|]. eexists. split; [apply parse_Pt; assumption|].
    match goal with |- meaning env (Op ?c ?l (Op ?c2 (Op ?c3 ?l3 (Op ?c4 (Op ?c5 ?l5 (Op ?c6 ?l6 ?r6)) ?r4)) ?r2)) = _ => 
      change (meaning env (Op c l (Op c2 (Op c3 l3 (Op c4 (Op c5 l5 (Op c6 l6 r6)) r4)) r2))) with
      (match meaning env l, (match (match meaning env l3, (match (match meaning env l5, (match meaning env l6, meaning env r6 with Some (Scalar x), Some (Scalar y) => Some (Scalar (npow x y)) | _, _ => None end) with
         Some (Scalar x), Some (Scalar y) => Some (Scalar (nmul x y)) | _, _ => None end), meaning env r4 with Some (Scalar x), Some (Scalar y) => Some (Scalar (ndiv x y)) | _, _ => None end) with
         Some (Scalar x), Some (Scalar y) => Some (Scalar (nadd x y)) | _, _ => None end), meaning env r2 with Some (Scalar x), Some (Scalar y) => Some (Scalar (npow x y)) | _, _ => None end) with
         Some (Scalar x), Some (Scalar y) => Some (Scalar (nmul x y)) | _, _ => None end) end.
    rewrite MV. cbn [meaning Ascii.eqb Bool.eqb]. rewrite HP, HR.
    change (decimal "1.4" false 0 1) with (14 / 10). change (decimal "1" false 0 1) with (1 / 1). change (decimal "0.2" false 0 1) with (2 / 10). change (decimal "2" false 0 1) with (2 / 1). change (decimal "3.5" false 0 1) with (35 / 10).
    replace (2 / 1) with 2 by lra. rewrite npow_2 by exact V0. cbn [nmul]. rewrite (ndiv_Some _ r) by lra. cbn [nmul]. rewrite <- AS. rewrite ndiv_Some by (apply pow_nonzero; lra). cbn [nadd].
    replace (1 / 1 + 2 / 10 * V ^ 2 / a ^ 2) with (1 + (14 / 10 - 1) / 2 * (V / a) ^ 2) by (field; lra).
    rewrite npow_Some by (pose proof (sq_nonneg (V / a)); lra). cbn [nmul]. replace (14 / 10 / (14 / 10 - 1)) with (35 / 10) by lra. reflexivity.
  - eexists. split; [exact L2|]. eexists. split; [apply parse_T; assumption|]. cbn [meaning Ascii.eqb Bool.eqb]. rewrite HP, HR. change (decimal "287.1" false 0 1) with (2871 / 10).
    rewrite ndiv_Some by lra. rewrite ndiv_Some by lra. do 3 f_equal. field. lra.
  - eexists. split; [exact L3|]. eexists. split; [apply parse_S; assumption|]. cbn [meaning Ascii.eqb Bool.eqb String.eqb]. rewrite HP, HR. change (decimal "1.4" false 0 1) with (14 / 10).
    rewrite npow_Some by lra. pose proof (Rpower_pos r (14 / 10)). rewrite ndiv_Some by lra. rewrite nlog_Some by (apply Rdiv_lt_0_compat; lra). reflexivity.
  - eexists. split; [exact L4|]. eexists. split; [apply parse_V; assumption|]. exact MV.
  - eexists. split; [exact L5|]. eexists. split; [apply parse_a; assumption|]. exact MA.
  - eexists. split; [exact L6|]. eexists. split; [apply parse_Mach; assumption|].
    match goal with |- meaning env (Op ?c ?l ?m) = _ => change (meaning env (Op c l m)) with (match meaning env l, meaning env m with Some (Scalar x), Some (Scalar y) => Some (Scalar (ndiv x y)) | _, _ => None end) end.
    rewrite MV, MA, ndiv_Some by lra. reflexivity.
  - intros EX. subst Vx. eexists. split; [exact L7|]. eexists. split; [apply parse_Mx; assumption|].
    match goal with |- meaning env (Op ?c ?l ?m) = _ => change (meaning env (Op c l m)) with (match meaning env l, meaning env m with Some (Scalar x), Some (Scalar y) => Some (Scalar (ndiv x y)) | _, _ => None end) end.
    rewrite MA. cbn [meaning]. rewrite HX, ndiv_Some by lra. reflexivity.
  - intros U. eexists. split; [exact L8|]. eexists. split; [apply parse_alpha; assumption|].
    cbn [meaning Ascii.eqb Bool.eqb String.eqb]. rewrite HX, HY. rewrite ndiv_Some by lra. change (decimal "180" false 0 1) with (180 / 1). change (decimal "1" false 0 1) with (1 / 1).
    cbn [narctan nopp nmul]. rewrite narccos_Some by lra. replace (- (1 / 1)) with (Ropp 1) by lra. rewrite acos_opp, acos_1, Rminus_0_r.
    rewrite ndiv_Some by lra. unfold Ratan2. destruct (Rlt_dec 0 u); [|lra]. do 3 f_equal. field. lra.
Qed.
Lemma evaluates_parse env s e x : parse s = Some e -> evaluates env s x -> meaning env e = Some (Scalar (Some x)).
Proof. intros P (e' & P' & M). congruence. Qed.
(*@P C67_expressions_refuted: The expressions are wrong outside those restrictions. After any history that leaves the five names bound: (1) Mx reads a field called U_X whatever Vx is called, so where no field has that name it has no value; (2) at every point with negative axial velocity alpha is not the flow angle, it is off by 180 degrees; (3) where the axial velocity is zero alpha has no value. And (4) after switching to OpenFOAM, in any spelling and after any history, expressions_from_rhopv raises ValueError. *)
Lemma expressions_refuted :
  (forall h P rho Vel Vx Vy, named (contents (after h imported)) P rho Vel Vx Vy ->
     exists x, expressions_from_rhopv (contents (after h imported)) = Some x /\
     forall env p r u v w, at_point env P rho Vel Vx Vy p r u v w ->
       (env "U_X"%string = None -> forall y, ~ gives env x "Mx" y) /\
       (u < 0 -> exists y, gives env x "alpha" y /\ Rabs (y - Ratan2 v u * (180 / PI)) = 180) /\
       (u = 0 -> forall y, ~ gives env x "alpha" y)) /\
  (forall h s, denotes s OpenFOAM -> expressions_from_rhopv (contents (after (app h (SetDicoVar s :: nil)) imported)) = None).
Proof.
  split.
  - intros h P rho Vel Vx Vy Nm. pose proof Nm as (_ & _ & _ & _ & _ & F).
    destruct (entries _ _ _ _ _ _ (nodup_contents h) Nm) as (x & E & O & L1 & L2 & L3 & L4 & L5 & L6 & L7 & L8). exists x. split; [exact E|].
    apply List.Forall_cons_iff in F. destruct F as [F1 F]. apply List.Forall_cons_iff in F. destruct F as [F2 F]. apply List.Forall_cons_iff in F. destruct F as [F3 F].
    apply List.Forall_cons_iff in F. destruct F as [F4 F]. apply List.Forall_cons_iff in F. destruct F as [F5 _].
    intros env p r u v w (HP & HR & HV & HX & HY & p0 & r0). pose proof PI_RGT_0 as PI0. repeat split.
    + intros U y (s & Ls & M). assert (s = _) by (rewrite L7 in Ls; exact (eq_sym (f_equal (fun o => match o with Some z => z | None => s end) Ls))). subst s.
      apply (evaluates_parse _ _ _ _ (parse_Mx P rho F1 F2)) in M. cbn [meaning] in M. rewrite U in M. discriminate.
    + intros U. exists (atan (v / u) * 180 / PI). split.
      * eexists. split; [exact L8|]. eexists. split; [apply parse_alpha; assumption|].
        cbn [meaning Ascii.eqb Bool.eqb String.eqb]. rewrite HX, HY. rewrite ndiv_Some by lra. change (decimal "180" false 0 1) with (180 / 1). change (decimal "1" false 0 1) with (1 / 1).
        cbn [narctan nopp nmul]. rewrite narccos_Some by lra. replace (- (1 / 1)) with (Ropp 1) by lra. rewrite acos_opp, acos_1, Rminus_0_r.
        rewrite ndiv_Some by lra. do 3 f_equal. field. lra.
      * unfold Ratan2. destruct (Rlt_dec 0 u); [lra|]. destruct (Rlt_dec u 0); [|lra]. destruct (Rle_dec 0 v).
        -- replace (atan (v / u) * 180 / PI - (atan (v / u) + PI) * (180 / PI)) with (Ropp 180) by (field; lra). rewrite Rabs_Ropp. apply Rabs_pos_eq. lra.
        -- replace (atan (v / u) * 180 / PI - (atan (v / u) - PI) * (180 / PI)) with 180 by (field; lra). apply Rabs_pos_eq. lra.
    + intros U y (s & Ls & M). assert (s = _) by (rewrite L8 in Ls; exact (eq_sym (f_equal (fun o => match o with Some z => z | None => s end) Ls))). subst s.
      apply (evaluates_parse _ _ _ _ (parse_alpha Vx Vy F4 F5)) in M. cbn [meaning Ascii.eqb Bool.eqb String.eqb] in M. rewrite HX, HY, U, ndiv_zero in M by reflexivity. cbn [narctan nmul ndiv] in M. discriminate.
  - intros h s D. assert (K : forall l p, after (app l (SetDicoVar s :: nil)) p = fst (init s (after l p))).
    { induction l as [|o l IH]; intros p; [reflexivity|]. cbn [app after]. apply IH. }
    rewrite K. destruct imported_good as [G _]. pose proof (after_good h _ G) as Gh. pose proof (init_spec s _ (cx_ok _ Gh) (of_ok _ Gh)) as I.
    destruct (init s (after h imported)) as [p r]. destruct I as [_ I]; [destruct Gh; lia|]. cbn [fst].
    destruct I as [(w' & D' & _ & Sh)|(D' & _)]; [|exfalso; exact (D' _ D)].
    assert (w' = OpenFOAM) as -> by (destruct w'; try reflexivity; exfalso; eapply denotes_one; eassumption).
    unfold expressions_from_rhopv, contents. rewrite (Sh "P"%string). reflexivity.
Qed.
(*@E C67_example: Example: right after import the five names are bound to proper field names, with Vx called U_X; and a point with unit pressure and density. *)
Lemma expressions_example : named (contents (after nil imported)) "P" "RHO" "U" "U_X" "U_Y" /\
  exists env, at_point env "P" "RHO" "U" "U_X" "U_Y" 1 1 3 4 0.
Proof.
  split.
  - unfold named. do 5 (split; [reflexivity|]). repeat (apply List.Forall_cons; [split; [discriminate|split; reflexivity]|]). apply List.Forall_nil.
  - exists (fun s => if String.eqb s "P" then Some (Scalar (Some 1)) else if String.eqb s "RHO" then Some (Scalar (Some 1)) else if String.eqb s "U" then Some (Vector 3 4 0)
      else if String.eqb s "U_X" then Some (Scalar (Some 3)) else if String.eqb s "U_Y" then Some (Scalar (Some 4)) else None)%string.
    unfold at_point. cbn. repeat split; lra.
Qed.
