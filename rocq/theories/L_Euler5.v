(** * Euler1D: caching, failed calls, consumed dictionaries, shock condition (C50, C51, C54) *)
From Coq Require Import String.
From Verif Require Import Num L_Num Spec M_Isentropic M_ShockWave M_Model1D M_Spectral M_Euler PolySpec EulerSpec L_Isentropic L_Shock L_Model1D L_Poly L_Spectral L_Spectral2 L_Spectral3 L_Euler1 L_Euler2 L_Euler3 L_Euler4.
Open Scope R_scope.

Lemma get_cached h e o : eu_ops e = Some o -> get_RHS_time_matrices h e = (inr o, h, e).
Proof. intros E. unfold get_RHS_time_matrices. rewrite E. reflexivity. Qed.
Lemma step_keeps op h e o : eu_ops e = Some o -> eu_ops (snd (estep op (h, e))) = Some o.
Proof.
  intros E. destruct op as [q|L Rt|]; cbn [estep].
  - exact E.
  - unfold set_BC. destruct (check_BC L h) as [[x|l] h1]; [exact E|]. destruct (check_BC Rt h1) as [[x|r] h2]; exact E.
  - rewrite (get_cached h e o E). exact E.
Qed.
Lemma run_keeps l h e o : eu_ops e = Some o -> eu_ops (snd (erun l (h, e))) = Some o.
Proof.
  revert h e; induction l as [|op l IH]; intros h e E; cbn [erun]; [exact E|].
  pose proof (step_keeps op h e o E) as E1. destruct (estep op (h, e)) as [h1 e1]. apply IH. exact E1.
Qed.

(*@P C51_stale_refuted: Once a request has succeeded, every later request returns the same matrices, whatever base states and boundary conditions have been set in between (including failing set_BC calls). *)
Lemma stale : forall h e o h1 e1 l,
  get_RHS_time_matrices h e = (inr o, h1, e1) ->
  fst (fst (get_RHS_time_matrices (fst (erun l (h1, e1))) (snd (erun l (h1, e1))))) = inr o.
Proof.
  intros h e o h1 e1 l H.
  assert (E : eu_ops e1 = Some o).
  { unfold get_RHS_time_matrices in H. destruct (eu_ops e) as [o'|] eqn:E.
    - injection H as <- <- <-. exact E.
    - destruct (compute_operators h e) as [[[x|] h'] e']; [discriminate|]. destruct (eu_ops e') eqn:E'; [|discriminate].
      injection H as <- <- <-. exact E'. }
  pose proof (run_keeps l h1 e1 o E) as E2. destruct (erun l (h1, e1)) as [h2 e2]; cbn [fst snd] in *.
  rewrite (get_cached h2 e2 o E2). reflexivity.
Qed.

(*@P C51_failed_request_refuted: An object with a base state but no boundary condition: the first request raises ValueError, and the second one silently returns matrices without any boundary condition. *)
Lemma failed_request : forall n a b h q, (2 <= n)%nat -> a < b ->
  let e := euler_init n (Some (Some a)) (Some (Some b)) (Some q) in
  exists D x d e1, (forall i j, (i < n)%nat -> (j < n)%nat -> D i j = Some (d i j)) /\
  (forall i, (i < n)%nat -> cheb_x n (Some a) (Some b) i = Some (x i)) /\ differentiates n x 1 d /\
  get_RHS_time_matrices h e = (inl ValueError, h, e1) /\
  get_RHS_time_matrices h e1 = (inr (mk_ops (3 * n) eye (euler_B n D q)), h, e1).
Proof.
  intros n a b h q Hn Hab e. destruct (cheb_real n a b nil 1 Hn Hab ltac:(lia)) as (D & d & x & c' & E & Hc & Hd & Hx & Df).
  pose proof (first_get h e q D c' eq_refl eq_refl E) as G.
  cbv zeta in G. destruct Hc as (C1 & C2 & C3 & _). rewrite C1 in G. cbn [eu_BC e euler_init compute_BC] in G.
  exists D, x, d. eexists. split; [exact Hd|]. split; [exact Hx|]. split; [exact Df|]. split; [exact G|].
  apply get_cached. reflexivity.
Qed.

(** histories without requests *)
Definition no_get (l : list eop) : Prop := forall op, In op l -> op <> OpGet.
Fixpoint last_base (l : list eop) (q : option estate) : option estate :=
  match l with nil => q | OpBase s :: t => last_base t (Some s) | _ :: t => last_base t q end.
Lemma settings_keep l : forall h e, no_get l -> eu_ops e = None ->
  let e' := snd (erun l (h, e)) in
  eu_ops e' = None /\ eu_base e' = last_base l (eu_base e) /\ eu_cheb e' = eu_cheb e.
Proof.
  induction l as [|op l IH]; intros h e Hl E; [cbn; auto|].
  assert (Hl' : no_get l) by (intros op' H; apply Hl; right; exact H).
  cbn [erun]. destruct op as [q|L Rt|]; cbn [estep].
  - apply (IH h (set_basestate q e) Hl' E).
  - unfold set_BC. destruct (check_BC L h) as [[x|a] h1]; [apply (IH h1 e Hl' E)|].
    destruct (check_BC Rt h1) as [[x|b] h2]; [apply (IH h2 e Hl' E)|]. apply (IH h2 (mk_euler _ _ _ _) Hl' E).
  - exfalso. apply (Hl OpGet); [left; reflexivity|reflexivity].
Qed.
Lemma erun_app l1 l2 s : erun (l1 ++ l2) s = erun l2 (erun l1 s).
Proof. revert s; induction l1; intros; cbn; auto. Qed.

(*@P C51_first_request_partial: Before the first request, any sequence of set_basestate and set_BC calls (failed or not) may be made: if it ends with set_BC('sym','sym'), the first request returns the operators of the last base state set, with the symmetry conditions. *)
Lemma first_request : forall n a b h l q r u p g w, (2 <= n)%nat -> a < b -> finite_base n q r u p g ->
  no_get l -> last_base l None = Some q ->
  let s := erun (l ++ OpBC (ArgStr "sym") (ArgStr "sym") :: nil) (h, euler_init n (Some (Some a)) (Some (Some b)) None) in
  exists o x d, fst (fst (get_RHS_time_matrices (fst s) (snd s))) = inr o /\ o_size o = (3 * n)%nat /\
  (forall i, (i < n)%nat -> cheb_x n (Some a) (Some b) i = Some (x i)) /\ differentiates n x 1 d /\
  let Bw := matvec (3 * n) (o_B o) (fun j => Some (w j)) in let Aw := matvec (3 * n) (o_At o) (fun j => Some (w j)) in
  (forall k, (0 < k < n - 1)%nat -> linearised_rows n d r u p g w Bw Aw k) /\
  symmetry_rows n d w Bw Aw 0 /\ symmetry_rows n d w Bw Aw (n - 1).
Proof.
  intros n a b h l q r u p g w Hn Hab Hq Hl HL s.
  destruct (assembled_sym n a b h q r u p g w Hn Hab Hq) as (o & x & d & E & Rest).
  exists o, x, d. split; [|exact Rest]. rewrite <- E. clear E Rest.
  unfold s. rewrite erun_app. cbn [erun].
  pose proof (settings_keep l h (euler_init n (Some (Some a)) (Some (Some b)) None) Hl eq_refl) as (K1 & K2 & K3).
  destruct (erun l (h, euler_init n (Some (Some a)) (Some (Some b)) None)) as [h1 e1]. cbn [snd] in K1, K2, K3.
  cbn [euler_init eu_base eu_cheb] in K2, K3. rewrite HL in K2.
  cbn [estep].
  destruct (set_strings "sym" "sym" h1 e1 known_sym known_sym) as (h2 & l2 & r2 & Es & Hlr & El & Er). rewrite Es; cbn [fst snd].
  destruct (set_strings "sym" "sym" h (set_basestate q (euler_init n (Some (Some a)) (Some (Some b)) None)) known_sym known_sym)
    as (h2' & l2' & r2' & Es' & Hlr' & El' & Er'). rewrite Es'; cbn [fst snd].
  rewrite K1, K2, K3. cbn [set_basestate euler_init eu_cheb eu_base eu_ops].
  destruct (cheb_real n a b nil 1 Hn Hab ltac:(lia)) as (D & d' & x' & c' & E & Hc & _).
  pose proof (first_get h2 (mk_euler (cheb_init n (Some (Some a)) (Some (Some b))) (Some q) (Some (l2, r2)) None) q D c' eq_refl eq_refl E) as G.
  pose proof (first_get h2' (mk_euler (cheb_init n (Some (Some a)) (Some (Some b))) (Some q) (Some (l2', r2')) None) q D c' eq_refl eq_refl E) as G'.
  cbv zeta in G, G'. cbn [eu_BC] in G, G'. rewrite compute_sym_sym in G, G' by assumption. rewrite G, G'. reflexivity.
Qed.

(*@P C54_unknown_rejected: set_BC with a type other than 'sym', 'per', 'RH' on either side raises ValueError and leaves the object unchanged. *)
Lemma unknown_rejected : forall s t h e, s <> "sym"%string -> s <> "per"%string -> s <> "RH"%string ->
  (t = "sym"%string \/ t = "per"%string \/ t = "RH"%string) ->
  (exists h', set_BC (ArgStr s) (ArgStr t) h e = (Some ValueError, h', e)) /\
  (exists h', set_BC (ArgStr t) (ArgStr s) h e = (Some ValueError, h', e)).
Proof.
  intros s t h e N1 N2 N3 Ht.
  assert (Ks : known_BC (BStr s) = false).
  { cbn. rewrite (proj2 (String.eqb_neq _ _) N1), (proj2 (String.eqb_neq _ _) N2), (proj2 (String.eqb_neq _ _) N3). reflexivity. }
  assert (Kt : known_BC (BStr t) = true) by (destruct Ht as [H|[H|H]]; subst t; reflexivity).
  split; eexists; unfold set_BC, check_BC; fold (lit s) (lit t).
  - unfold hget at 1. rewrite app_nth2, Nat.sub_diag by lia. cbn [nth]. rewrite dget_lit, Ks. reflexivity.
  - unfold hget at 1. rewrite app_nth2, Nat.sub_diag by lia. cbn [nth]. rewrite dget_lit, Kt.
    unfold hget at 1. rewrite app_nth2, Nat.sub_diag by lia. cbn [nth]. rewrite dget_lit, Ks. reflexivity.
Qed.

(*@P C54_one_sided_periodic_refuted: A periodic condition on one side only is accepted by set_BC; the first request raises (AssertionError when the left side is periodic, TypeError when only the right one is, the other one being 'sym'), but the second request silently returns matrices that have no condition at all at the periodic side. *)
Lemma one_sided_periodic : forall n a b h q t, (2 <= n)%nat -> a < b -> t = "sym"%string \/ t = "RH"%string ->
  let e := euler_init n (Some (Some a)) (Some (Some b)) (Some q) in
  (exists h1 e1 e2 D, set_BC (ArgStr "per") (ArgStr t) h e = (None, h1, e1) /\
   get_RHS_time_matrices h1 e1 = (inl AssertionErr, h1, e2) /\
   get_RHS_time_matrices h1 e2 = (inr (mk_ops (3 * n) eye (euler_B n D q)), h1, e2)) /\
  (exists h1 e1 h2 e2 D, set_BC (ArgStr "sym") (ArgStr "per") h e = (None, h1, e1) /\
   get_RHS_time_matrices h1 e1 = (inl TypeError, h2, e2) /\
   get_RHS_time_matrices h2 e2 = (inr (setBC_sym n D 0 0 (mk_ops (3 * n) eye (euler_B n D q))), h2, e2)).
Proof.
  intros n a b h q t Hn Hab Ht e.
  destruct (cheb_real n a b nil 1 Hn Hab ltac:(lia)) as (D & d & x & c' & E & Hc & _). cbv zeta in E. destruct Hc as (C1 & C2 & C3 & _). split.
  - assert (Kt : known_BC (BStr t) = true) by (destruct Ht as [K|K]; subst t; reflexivity).
    destruct (set_strings "per" t h e known_per Kt) as (h1 & l & r & Es & Hlr & El & Er). subst e. cbn [euler_init eu_cheb eu_base eu_ops] in Es.
    pose proof (first_get h1 (mk_euler (cheb_init n (Some (Some a)) (Some (Some b))) (Some q) (Some (l, r)) None) q D c' eq_refl eq_refl E) as G.
    cbv zeta in G. rewrite C1 in G. cbn [eu_BC eu_base] in G. unfold compute_BC in G. rewrite El, Er, !dget_lit in G.
    assert (Kp : is_str "per" (BStr t) = false) by (destruct Ht as [K|K]; subst t; reflexivity). rewrite Kp in G. cbn [is_str String.eqb Ascii.eqb Bool.eqb] in G.
    do 3 eexists. exists D. split; [exact Es|]. split; [exact G|]. apply get_cached. reflexivity.
  - destruct (set_strings "sym" "per" h e known_sym known_per) as (h1 & l & r & Es & Hlr & El & Er). subst e. cbn [euler_init eu_cheb eu_base eu_ops] in Es.
    pose proof (first_get h1 (mk_euler (cheb_init n (Some (Some a)) (Some (Some b))) (Some q) (Some (l, r)) None) q D c' eq_refl eq_refl E) as G.
    cbv zeta in G. rewrite C1 in G. cbn [eu_BC eu_base] in G. unfold compute_BC in G. rewrite El, dget_lit in G. cbn [is_str String.eqb Ascii.eqb Bool.eqb] in G.
    rewrite (apply_sym n D _ q 0 0 l h1 _ El) in G. unfold apply_BC in G. rewrite hget_hset_other in G by congruence. rewrite Er, dget_lit, drm_lit in G.
    do 4 eexists. exists D. split; [exact Es|]. split; [exact G|]. apply get_cached. reflexivity.
Qed.

(*@P C54_shared_dictionary_refuted: One caller's dictionary {'type': 'sym'} passed for both sides is accepted by set_BC, but the first request raises KeyError, leaves the caller's dictionary empty, and the second request silently returns matrices with the left condition only. *)
Lemma shared_dictionary : forall n a b h q rf, (2 <= n)%nat -> a < b -> (rf < List.length h)%nat ->
  hget h rf = ("type"%string, BStr "sym") :: nil ->
  let e := euler_init n (Some (Some a)) (Some (Some b)) (Some q) in
  exists e1 h2 e2 D, set_BC (ArgDict rf) (ArgDict rf) h e = (None, h, e1) /\
  get_RHS_time_matrices h e1 = (inl KeyError, h2, e2) /\ hget h2 rf = nil /\
  get_RHS_time_matrices h2 e2 = (inr (setBC_sym n D 0 0 (mk_ops (3 * n) eye (euler_B n D q))), h2, e2).
Proof.
  intros n a b h q rf Hn Hab Hrf Hd e. fold (lit "sym") in Hd.
  destruct (cheb_real n a b nil 1 Hn Hab ltac:(lia)) as (D & d & x & c' & E & Hc & _).
  eexists (mk_euler _ _ _ _), _, (mk_euler _ _ _ _), D. split.
  - unfold set_BC, check_BC. rewrite Hd, dget_lit, known_sym, Hd, dget_lit, known_sym. reflexivity.
  - pose proof (first_get h (mk_euler (cheb_init n (Some (Some a)) (Some (Some b))) (Some q) (Some (rf, rf)) None) q D c' eq_refl eq_refl E) as G.
    cbv zeta in G. destruct Hc as (C1 & C2 & C3 & _). rewrite C1 in G. cbn [eu_BC] in G.
    unfold compute_BC in G. rewrite Hd, dget_lit in G. cbn [is_str String.eqb Ascii.eqb Bool.eqb] in G.
    rewrite (apply_sym n D _ q 0 0 rf h _ Hd) in G. unfold apply_BC in G. rewrite hget_hset_same in G by assumption.
    cbn [dget] in G. split; [exact G|]. split; [apply hget_hset_same; assumption|]. apply get_cached. reflexivity.
Qed.

Lemma dremove_keeps k k0 v d : In (k, v) d -> k <> k0 -> In (k, v) (dremove k0 d).
Proof.
  intros HI HN. induction d as [|[k' v'] t IH]; [contradiction|]. cbn [dremove]. destruct (String.eqb_spec k0 k') as [E|E].
  - destruct HI as [H|H]; [injection H as H1 H2; congruence|exact H].
  - destruct HI as [H|H]; [left; exact H|right; now apply IH].
Qed.
(*@P C54_extra_entry: A condition dictionary with an entry the condition does not know is refused by the first request, wherever the entry stands in the dictionary: with 'sym' any entry besides 'type' gives TypeError; with 'RH' any entry besides 'type' and 'dM0dx' gives ValueError. *)
Lemma extra_entry : forall n a b h q l R s k v, (2 <= n)%nat -> a < b -> dget "type" (hget h l) = Some (BStr s) ->
  In (k, v) (hget h l) -> k <> "type"%string -> s = "sym"%string \/ s = "RH"%string /\ k <> "dM0dx"%string ->
  (exists t, R = ArgStr t /\ known_BC (BStr t) = true) -> (l < List.length h)%nat ->
  let e := euler_init n (Some (Some a)) (Some (Some b)) (Some q) in
  exists h1 e1 h2 e2, set_BC (ArgDict l) R h e = (None, h1, e1) /\
  get_RHS_time_matrices h1 e1 = (inl (if String.eqb s "sym" then TypeError else ValueError), h2, e2).
Proof.
  intros n a b h q l R s k v Hn Hab Ht HI Hk Hs (t & -> & Kt) Hl e.
  destruct (cheb_real n a b nil 1 Hn Hab ltac:(lia)) as (D & d & x & c' & E & Hc & _). cbv zeta in E. destruct Hc as (C1 & C2 & C3 & _).
  assert (Ks : known_BC (BStr s) = true) by (destruct Hs as [->|[-> _]]; reflexivity).
  set (h1 := (h ++ lit t :: nil)%list).
  assert (Hh : hget h1 l = hget h l) by (unfold hget, h1; rewrite app_nth1 by exact Hl; reflexivity).
  set (e1 := mk_euler (cheb_init n (Some (Some a)) (Some (Some b))) (Some q) (Some (l, List.length h)) None).
  assert (Es : set_BC (ArgDict l) (ArgStr t) h e = (None, h1, e1)).
  { unfold set_BC, check_BC. rewrite Ht, Ks. fold (lit t). fold h1. unfold hget at 1, h1. rewrite app_nth2, Nat.sub_diag by lia. cbn [nth]. rewrite dget_lit, Kt. reflexivity. }
  pose proof (first_get h1 e1 q D c' eq_refl eq_refl E) as G. cbv zeta in G. cbn [eu_BC e1] in G. unfold compute_BC in G. rewrite Hh, Ht in G.
  assert (HK : In (k, v) (dremove "type" (hget h l))) by now apply dremove_keeps.
  assert (Kp : is_str "per" (BStr s) = false) by (destruct Hs as [->|[-> _]]; reflexivity). rewrite Kp in G. unfold apply_BC in G. rewrite Hh, Ht in G.
  destruct (dremove "type" (hget h l)) as [|kv kw] eqn:EK; [contradiction|].
  destruct Hs as [->|[-> Hk2]]; cbn [String.eqb Ascii.eqb Bool.eqb] in G |- *.
  - do 4 eexists. split; [exact Es|exact G].
  - unfold setBC_RH in G. pose proof (dremove_keeps k "dM0dx" v _ HK Hk2) as HK2. destruct (dremove "dM0dx" (kv :: kw)) as [|kv2 kw2]; [contradiction|].
    do 4 eexists. split; [exact Es|exact G].
Qed.
(*@E C54_extra_entry_example: the dictionaries {'type': 'sym', 'dM0dx': 0} and {'type': 'RH', 'dM0dx': 0, 'gradient': 1} meet the hypotheses. *)
Lemma extra_entry_ex : let d1 := (("type"%string, BStr "sym") :: ("dM0dx"%string, BNum (Some 0)) :: nil) in
  let d2 := (("type"%string, BStr "RH") :: ("dM0dx"%string, BNum (Some 0)) :: ("gradient"%string, BNum (Some 1)) :: nil) in let h := (d1 :: d2 :: nil) in
  dget "type" (hget h 0) = Some (BStr "sym") /\ In ("dM0dx"%string, BNum (Some 0)) (hget h 0) /\ dget "type" (hget h 1) = Some (BStr "RH") /\ In ("gradient"%string, BNum (Some 1)) (hget h 1).
Proof. cbv zeta. repeat split; cbn; auto. Qed.

(*@P C54_consumed_refuted: Two distinct dictionaries {'type': 'sym'}: the request works but empties both of the caller's dictionaries, so that giving either of them again to set_BC, on any object, raises KeyError. *)
Lemma consumed : forall n a b h q r1 r2, (2 <= n)%nat -> a < b -> (r1 < List.length h)%nat -> (r2 < List.length h)%nat -> r1 <> r2 ->
  hget h r1 = ("type"%string, BStr "sym") :: nil -> hget h r2 = ("type"%string, BStr "sym") :: nil ->
  let e := euler_init n (Some (Some a)) (Some (Some b)) (Some q) in
  exists e1 o h2 e2, set_BC (ArgDict r1) (ArgDict r2) h e = (None, h, e1) /\
  get_RHS_time_matrices h e1 = (inr o, h2, e2) /\ hget h2 r1 = nil /\ hget h2 r2 = nil /\
  forall e' R', set_BC (ArgDict r1) R' h2 e' = (Some KeyError, h2, e') /\ set_BC (ArgDict r2) R' h2 e' = (Some KeyError, h2, e').
Proof.
  intros n a b h q r1 r2 Hn Hab H1 H2 H12 D1 D2 e. fold (lit "sym") in D1, D2.
  destruct (cheb_real n a b nil 1 Hn Hab ltac:(lia)) as (D & d & x & c' & E & Hc & _).
  set (e1 := mk_euler (cheb_init n (Some (Some a)) (Some (Some b))) (Some q) (Some (r1, r2)) None).
  pose proof (first_get h e1 q D c' eq_refl eq_refl E) as G. cbv zeta in G. cbn [eu_BC e1] in G.
  rewrite compute_sym_sym in G by assumption. set (h2 := hset (hset h r1 nil) r2 nil) in *.
  assert (L : List.length (hset h r1 nil) = List.length h).
  { clear. revert r1; induction h; intros [|r1]; cbn; auto. }
  assert (Z2 : hget h2 r2 = nil) by (apply hget_hset_same; rewrite L; assumption).
  assert (Z1 : hget h2 r1 = nil) by (unfold h2; rewrite hget_hset_other by congruence; now apply hget_hset_same).
  eexists e1, _, h2, _. split.
  { unfold set_BC, check_BC. rewrite D1, dget_lit, known_sym, D2, dget_lit, known_sym. reflexivity. }
  split; [exact G|]. split; [exact Z1|]. split; [exact Z2|].
  intros e' R'. unfold set_BC, check_BC. rewrite Z1, Z2. cbn [dget]. split; reflexivity.
Qed.

Lemma set_strings_ex s1 s2 h e : known_BC (BStr s1) = true -> known_BC (BStr s2) = true ->
  set_BC (ArgStr s1) (ArgStr s2) h e = (None, (h ++ lit s1 :: nil) ++ lit s2 :: nil,
    mk_euler (eu_cheb e) (eu_base e) (Some (List.length h, S (List.length h))) (eu_ops e)).
Proof.
  intros K1 K2. unfold set_BC, check_BC. fold (lit s1) (lit s2). unfold hget at 1. rewrite app_nth2, Nat.sub_diag by lia. cbn [nth]. rewrite dget_lit, K1.
  unfold hget at 1. rewrite app_nth2, Nat.sub_diag by lia. cbn [nth]. rewrite dget_lit, K2.
  rewrite app_length, Nat.add_1_r. reflexivity.
Qed.
Lemma hset_length h r d : List.length (hset h r d) = List.length h.
Proof. revert r; induction h; intros [|r]; cbn; auto. Qed.
Lemma hget_old h k r : (r < List.length h)%nat -> hget (h ++ k) r = hget h r.
Proof. intros. unfold hget. now rewrite app_nth1. Qed.
(*@P C54_strings_ok: Types given as strings do not have that problem: no dictionary of the caller is touched, and set_BC can be called again afterwards. *)
Lemma strings_ok : forall n a b h q s, (2 <= n)%nat -> a < b -> (s = "sym"%string \/ s = "per"%string) ->
  let st := erun (OpBase q :: OpBC (ArgStr s) (ArgStr s) :: OpGet :: OpBC (ArgStr s) (ArgStr s) :: nil)
              (h, euler_init n (Some (Some a)) (Some (Some b)) None) in
  (forall r, (r < List.length h)%nat -> hget (fst st) r = hget h r) /\ eu_BC (snd st) <> None /\ eu_ops (snd st) <> None.
Proof.
  intros n a b h q s Hn Hab Hs st.
  destruct (cheb_real n a b nil 1 Hn Hab ltac:(lia)) as (D & d & x & c' & E & Hc & _).
  assert (K : known_BC (BStr s) = true) by (destruct Hs; subst s; reflexivity).
  set (h2 := (h ++ lit s :: nil) ++ lit s :: nil).
  set (e1 := mk_euler (cheb_init n (Some (Some a)) (Some (Some b))) (Some q) (Some (List.length h, S (List.length h))) None).
  pose proof (first_get h2 e1 q D c' eq_refl eq_refl E) as G. cbv zeta in G. cbn [eu_BC e1] in G.
  assert (E1 : hget h2 (List.length h) = lit s) by apply hget_app1.
  assert (E2 : hget h2 (S (List.length h)) = lit s).
  { unfold h2. replace (S (List.length h)) with (List.length (h ++ lit s :: nil)) by (rewrite app_length; cbn; lia). apply hget_app2. }
  assert (exists h3 o, get_RHS_time_matrices h2 e1 = (inr o, h3, mk_euler c' (Some q) (Some (List.length h, S (List.length h))) (Some o)) /\
    (List.length h <= List.length h3)%nat /\ forall r, (r < List.length h)%nat -> hget h3 r = hget h r) as (h3 & o & Eg & L & Hh).
  { destruct Hs; subst s.
    - rewrite compute_sym_sym in G by (assumption || lia). eexists _, _. split; [exact G|].
      split; [rewrite !hset_length; unfold h2; rewrite !app_length; lia|]. intros r Hr.
      rewrite !hget_hset_other by lia. unfold h2. rewrite !hget_old by (rewrite ?app_length; lia). reflexivity.
    - rewrite compute_per_per in G by assumption. eexists _, _. split; [exact G|].
      split; [unfold h2; rewrite !app_length; lia|]. intros r Hr.
      unfold h2. rewrite !hget_old by (rewrite ?app_length; lia). reflexivity. }
  unfold st. cbn [erun estep]. rewrite set_strings_ex by assumption. fold h2.
  cbn [set_basestate euler_init eu_cheb eu_base eu_ops eu_BC]. change (mk_euler (cheb_init n (Some (Some a)) (Some (Some b))) (Some q) (Some (List.length h, S (List.length h))) None) with e1. cbn [estep]. rewrite Eg.
  cbn [estep]. rewrite set_strings_ex by assumption. cbn [fst snd eu_BC eu_ops].
  split; [|split; discriminate]. intros r Hr.
  rewrite !hget_old by (rewrite ?app_length; lia). apply Hh; assumption.
Qed.

(*@E C54_example: a heap with two dictionaries *)
Lemma C54_ex : let h := (("type"%string, BStr "sym") :: nil) :: (("type"%string, BStr "sym") :: nil) :: nil in
  (0 < List.length h)%nat /\ (1 < List.length h)%nat /\ hget h 0 = ("type"%string, BStr "sym") :: nil /\ hget h 1 = ("type"%string, BStr "sym") :: nil.
Proof.
  cbn; repeat split; auto.
Qed.
(*@E C51_example: a history without request, with two base states and a failing set_BC *)
Lemma C51_ex : let q1 := mk_estate (fun _ => Some 1) (fun _ => Some 2) (fun _ => Some 3) (Some (14/10)) in
  let q2 := mk_estate (fun _ => Some 2) (fun _ => Some 2) (fun _ => Some 3) (Some (14/10)) in
  let l := OpBase q1 :: OpBC (ArgStr "per") (ArgStr "wall") :: OpBase q2 :: nil in
  no_get l /\ last_base l None = Some q2 /\ finite_base 4%nat q2 (fun _ => 2) (fun _ => 2) (fun _ => 3) (14/10).
Proof.
  cbv zeta. split; [|split; [reflexivity|split; [|reflexivity]]].
  - intros op [<-|[<-|[<-|[]]]]; discriminate.
  - intros i _. repeat split; try reflexivity. lra.
Qed.

(** ** the shock condition *)
(*@P C50_RH_right_refuted: The shock condition cannot be used at the right end: for every n >= 2, whatever the gradient, it raises IndexError, after having replaced entries of row 0 of B and zeroed row n-1. *)
Lemma RH_right : forall n D x q dM o, (2 <= n)%nat -> o_size o = (3 * n)%nat ->
  exists o', setBC_RH n D x q (n - 1) (n - 1) (("dM0dx"%string, BNum (Some dM)) :: nil) o = (Some IndexErr, o') /\
  (forall j, o_B o' (n - 1)%nat j = Some 0) /\
  o_B o' 0%nat (n - 1)%nat = rh_1 (rh_coefficients n D x q (n - 1) (Some dM)) 0 0.
Proof.
  intros n D x q dM o Hn HN. unfold setBC_RH. cbn [dget dremove String.eqb Ascii.eqb Bool.eqb]. rewrite HN, Nat.eqb_refl.
  set (k := rh_coefficients n D x q (n - 1) (Some dM)).
  unfold rh_write at 1; cbn [o_size o_At o_B]. rewrite (proj2 (Nat.ltb_lt (0 + (n - 1)) (3 * n + 1))) by lia.
  unfold rh_write at 1; cbn [o_size o_At o_B]. rewrite (proj2 (Nat.ltb_ge (3 * n + (n - 1)) (3 * n + 1))) by lia.
  eexists. split; [reflexivity|]. cbn [o_B]. unfold set_entry, zero_row, enlarge. split.
  - intros j. rngE; reflexivity.
  - rngE; reflexivity.
Qed.
(*@P C50_RH_without_gradient_refuted: Given without dM0dx (in particular as the string 'RH', which set_BC accepts), the shock condition always raises ValueError, after the matrices have been enlarged by a zero row: that row stays in the cached matrices. *)
Lemma RH_string : forall n D x q istate i0 o, o_size o = (3 * n)%nat ->
  exists o', setBC_RH n D x q istate i0 nil o = (Some ValueError, o') /\ o_size o' = (3 * n + 1)%nat /\
  forall j, o_B o' (3 * n)%nat j = Some 0 /\ o_At o' (3 * n)%nat j = Some 0.
Proof.
  intros n D x q istate i0 o HN. unfold setBC_RH. cbn [dget dremove]. rewrite HN, Nat.eqb_refl.
  eexists. split; [reflexivity|]. split; [reflexivity|]. intros j. cbn [o_B o_At]. unfold enlarge. rngE. split; reflexivity.
Qed.
(*@P C50_RH_twice_refuted: Two shock conditions on one object raise an exception: after the first one the matrices no longer have the size the second expects. *)
Lemma RH_twice : forall n D x q dM kw o o', (1 <= n)%nat -> o_size o = (3 * n)%nat ->
  setBC_RH n D x q 0 0 (("dM0dx"%string, BNum (Some dM)) :: nil) o = (None, o') ->
  setBC_RH n D x q (n - 1) (n - 1) kw o' = (Some ValueError, o').
Proof.
  intros n D x q dM kw o o' Hn HN E. destruct (RH_matrices n D x q dM o Hn HN) as (o1 & E1 & N1 & _).
  rewrite E in E1. injection E1 as <-. unfold setBC_RH. rewrite N1.
  destruct (Nat.eqb_spec (3 * n + 1) (3 * n)); [lia|]. destruct (dremove "dM0dx" kw); reflexivity.
Qed.
(*@P C50_RH_gas_refuted: The rows written by the shock condition do not depend on the gas of the base state: two base states differing only by their gamma give the same matrices (those of air). *)
Lemma RH_gas : forall n D x rho u p g g' istate i0 kw o,
  setBC_RH n D x (mk_estate rho u p g) istate i0 kw o = setBC_RH n D x (mk_estate rho u p g') istate i0 kw o.
Proof.
  reflexivity.
Qed.
(*@P C50_RH_uniform_refuted: With a uniform base flow on both sides of the shock (no downstream gradient, dM0dx = 0) moving the shock changes nothing, so the coefficient of the shock displacement must vanish; the assembled coefficient in the density equation vanishes only if the upstream total pressure equals the upstream total r T, numerically. *)
Lemma RH_uniform : forall n D d x q r u p o dx,
  let g := 14/10 in let q1 := mkflow (r 0%nat) (u 0%nat) (p 0%nat) in
  (1 <= n)%nat -> (o_size o = 3 * n)%nat ->
  (forall i j, (i < n)%nat -> (j < n)%nat -> D i j = Some (d i j)) ->
  (forall i, (i < n)%nat -> e_rho q i = Some (r i) /\ e_u q i = Some (u i) /\ e_p q i = Some (p i)) ->
  positive_state q1 -> 0 < f_u q1 -> (g - 1) / (2 * g) < f_u q1 ^ 2 / (g * f_p q1 / f_rho q1) ->
  nsub (x 1%nat) (x 0%nat) = Some dx -> dx <> 0 ->
  ddx n d r 0 = 0 -> ddx n d u 0 = 0 -> ddx n d p 0 = 0 ->
  exists q0 o' Pt T, rankine_hugoniot g 0 q1 q0 /\ positive_state q0 /\
    setBC_RH n D x q 0 0 (("dM0dx"%string, BNum (Some 0)) :: nil) o = (None, o') /\
    Ptot (obj g q0) = Some Pt /\ rTtot (obj g q0) = Some T /\ (o_B o' 0%nat (3 * n)%nat = Some 0 <-> Pt = T).
Proof.
  intros n D d x q r u p o dx g q1 Hn HN HD Hq Hq1 Hu1 HM2 Hx Hdx Z0 Z1 Z2.
  assert (Hg : 1 < g) by (unfold g; lra).
  destruct (upstream g q1 Hg Hq1 Hu1 HM2) as (q0 & M0 & E1 & E2 & Hq0 & HM0 & EM & ER & EP & EU & RH).
  set (T := f_p q0 / f_rho q0 + 1/2 * (g - 1) / g * f_u q0 ^ 2).
  assert (ET : rTtot (obj g q0) = Some T) by (apply rTtot_eval; [lra|assumption]).
  assert (ET' : T = f_p q0 / f_rho q0 * tt g M0) by (unfold T; rewrite EM; now apply rTt_tt).
  pose proof (tt_pos g M0 Hg) as Ht.
  assert (HT : 0 < T) by (rewrite ET'; destruct Hq0; pos).
  assert (E3 : state_isentropic_Mach (obj g q0) (Some (M0 + 0 * dx)) = obj g (tq g T T (M0 + 0 * dx))).
  { unfold state_isentropic_Mach; rewrite ET. exact (compute_M_eval g (Some 0) (Some 0) (Some 0) T T _ Hg HT HT). }
  destruct (rh_eval n D d x q r u p 0 dx q0 M0 _ Hn HD Hq E1 E2 Hq0 HM0 Hx Hdx E3) as (_ & _ & _ & _ & X0 & _).
  destruct (RH_matrices n D x q 0 o Hn HN) as (o' & Eo & HNo & EB & _).
  exists q0, o'. eexists. exists T. split; [exact RH|]. split; [exact Hq0|]. split; [exact Eo|].
  split; [apply (Ptot_eval g q0 Hg Hq0)|]. split; [exact ET|]. rewrite <- EM.
  assert (EV : o_B o' 0%nat (3 * n)%nat = Some (- (rhor g M0 / f_rho q0 / dx) * (f_rho (tq g T T (M0 + 0 * dx)) - f_rho q0))).
  { rewrite EB. clear EB. rngE. etransitivity; [exact X0|]. f_equal. fold g. rewrite Z0. destruct Hq0. field. lra. }
  rewrite EV. replace (M0 + 0 * dx) with M0 by ring. unfold tq; cbn [f_rho].
  pose proof (Rpower_pos (tt g M0) (g / (g - 1))) as HE. set (E := Rpower (tt g M0) (g / (g - 1))) in *.
  assert (HK : rhor g M0 / f_rho q0 / dx <> 0).
  { assert (0 < rhor g M0) by (apply rhor_pos; lra). destruct Hq0. intros Z. apply (f_equal (fun z => z * dx * f_rho q0)) in Z.
    replace (rhor g M0 / f_rho q0 / dx * dx * f_rho q0) with (rhor g M0) in Z by (field; lra). lra. }
  set (K := rhor g M0 / f_rho q0 / dx) in *. destruct Hq0 as [Hr0 Hp0].
  assert (ED : T / E / (T / tt g M0) - f_rho q0 = tt g M0 / (E * T) * (T - f_p q0 * E)).
  { rewrite ET'. field. repeat split; lra. }
  rewrite ED. split.
  - intros Z. apply Some_inj in Z. apply Rmult_integral in Z. destruct Z as [Z|Z]; [lra|]. apply Rmult_integral in Z.
    destruct Z as [Z|Z]; [|lra]. assert (0 < tt g M0 / (E * T)) by pos. lra.
  - intros Z. f_equal. rewrite Z. ring.
Qed.
(*@E C50_example: air downstream of a Mach 2 shock (density 1.4 * 8/3, velocity 3/4, pressure 4.5), uniform *)
Lemma C50_ex : let q1 := mkflow (14/10 * (8/3)) (3/4) (9/2) in
  positive_state q1 /\ 0 < f_u q1 /\ (14/10 - 1) / (2 * (14/10)) < f_u q1 ^ 2 / (14/10 * f_p q1 / f_rho q1) /\
  let q0 := mkflow (14/10) 2 1 in rankine_hugoniot (14/10) 0 q1 q0 /\
  exists Pt, Ptot (obj (14/10) q0) = Some Pt /\ rTtot (obj (14/10) q0) = Some (9/7) /\ Pt <> 9/7.
Proof.
  cbv zeta. assert (Hq : positive_state (mkflow (14/10) 2 1)) by (split; cbn; lra).
  split; [split; cbn; lra|]. split; [cbn; lra|]. split; [cbn; lra|].
  split; [unfold rankine_hugoniot, mass_flux, momentum_flux, frame_enthalpy; cbn [f_rho f_u f_p]; repeat split; field|].
  eexists. split; [apply Ptot_eval; [lra|exact Hq]|]. split; [rewrite rTtot_eval by (assumption || lra); cbn [f_rho f_u f_p]; f_equal; field|].
  cbn [f_u f_p]. replace (flow_sound (14/10) (mkflow (14/10) 2 1)) with 1.
  - replace (tt (14/10) (2/1)) with (9/5) by (unfold tt; field). replace (14/10 / (14/10 - 1)) with (3 + / 2) by field.
    rewrite Rpower_plus. replace (Rpower (9/5) 3) with ((9/5) ^ 3) by (rewrite <- Rpower_pow by lra; f_equal; cbn; ring).
    assert (1 < Rpower (9/5) (/2)). { rewrite <- (Rpower_O (9/5)) by lra. apply Rpower_lt; lra. }
    intros Z. assert ((9/5) ^ 3 > 5) by (cbn; lra). nra.
  - unfold flow_sound; cbn [f_rho f_p]. replace (14/10 * 1 / (14/10)) with 1 by field. now rewrite sqrt_1.
Qed.
