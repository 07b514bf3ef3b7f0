From Verif Require Import L_Num Spec NumSpec NozzleSpec M_Isentropic M_MassFlow M_ShockWave M_DefaultGas M_Nozzle L_Isentropic L_MassFlow L_Shock L_ShockPt L_DefaultGas L_Nozzle1.
Open Scope R_scope.
Open Scope list_scope.

(** ** argmin *)
Lemma all_some_map (l : list R) : all_some (map (@Some R) l) = Some l.
Proof. induction l as [|a l IH]; [reflexivity|]; cbn [map all_some]; now rewrite IH. Qed.
Lemma argmin_R_spec l : l <> nil -> exists i b, argmin_R l = Some (i, b) /\ (i < length l)%nat /\
  nth i l 0 = b /\ (forall x, In x l -> b <= x).
Proof.
  induction l as [|a l IH]; [congruence|]; intros _. cbn [argmin_R].
  destruct l as [|a' l'].
  - exists O, a; cbn; repeat split; auto. intros x [->|[]]; lra.
  - destruct IH as (i & b & E & Hi & Hb & Hm); [discriminate|]. rewrite E.
    destruct (Rle_dec a b) as [H|H].
    + exists O, a. repeat split; [cbn; lia|]. intros x [->|Hx]; [lra|]. specialize (Hm x Hx); lra.
    + exists (S i), b. repeat split; [cbn [length] in *; lia|exact Hb|].
      intros x [->|Hx]; [lra|]. now apply Hm.
Qed.
Lemma argmin_lt l i : argmin l = Some i -> (i < length l)%nat.
Proof.
  unfold argmin. destruct (all_some l) as [t|] eqn:E; [|discriminate].
  assert (length t = length l).
  { revert t E; induction l as [|[a|] l IH]; intros t E; cbn in E; [now injection E as <-| |discriminate].
    destruct (all_some l) as [t'|]; [|discriminate]. injection E as <-. cbn; now rewrite (IH t'). }
  destruct t as [|a t]; [cbn; discriminate|].
  destruct (argmin_R_spec (a :: t)) as (j & b & E' & Hj & _); [discriminate|]. rewrite E'.
  intros Q; injection Q as <-. lia.
Qed.
Lemma map_nonnil {A B} (f : A -> B) l : l <> nil -> map f l <> nil.
Proof. destruct l; [congruence|discriminate]. Qed.
Lemma last_map_Some (l : list R) : l <> nil -> alast (map (@Some R) l) = Some (last l 0).
Proof.
  unfold alast. induction l as [|a l IH]; [congruence|intros _]. destruct l as [|b l]; [reflexivity|].
  etransitivity; [|apply IH; discriminate]. reflexivity.
Qed.
Lemma last_In (l : list R) : l <> nil -> In (last l 0) l.
Proof.
  induction l as [|a l IH]; [congruence|intros _]. destruct l as [|b l]; [now left|]. right. apply IH; discriminate.
Qed.
Lemma nth_last (l : list R) : l <> nil -> nth (length l - 1) l 0 = last l 0.
Proof.
  induction l as [|a l IH]; [congruence|intros _]. destruct l as [|b l]; [reflexivity|].
  transitivity (nth (length (b :: l) - 1) (b :: l) 0).
  - cbn [length]. replace (S (S (length l)) - 1)%nat with (S (S (length l) - 1)) by lia. reflexivity.
  - rewrite IH by discriminate. reflexivity.
Qed.

(** ** Arrays of inversions *)
Lemma SubArr_length newton l g M : MachSub_array newton l g = Some M -> length M = length l.
Proof.
  unfold MachSub_array; destruct l as [|a [|b l]]; [discriminate| |]; intros E; injection E as <-; [reflexivity|].
  cbn [length]. now rewrite map_length.
Qed.
Lemma SupArr_length newton l g M : MachSup_array newton l g = Some M -> length M = length l.
Proof.
  unfold MachSup_array; destruct l as [|a [|b l]]; [discriminate| |]; intros E; injection E as <-; [reflexivity|].
  cbn [length]. now rewrite map_length.
Qed.
Lemma SubArr_nth newton l g M i : MachSub_array newton l (Some g) = Some M -> branch_solver g newton -> 1 < g <= 14/10 ->
  forall s, nth_error l i = Some (Some s) -> 1 <= s ->
  exists m, nth_error M i = Some (Some m) /\ 0 < m <= 1 /\ sig g m = s /\ (1 < s -> m < 1).
Proof.
  intros E HN Hg s Hi Hs.
  destruct (MachSub_branch newton g s HN Hg Hs) as (m & E1 & Hm & S1 & E2 & H1). exists m.
  split; [|tauto]. unfold MachSub_array in E. destruct l as [|a [|b l]]; [discriminate| |].
  - injection E as <-. destruct i as [|i]; [|destruct i; discriminate]. cbn in Hi. injection Hi as ->. cbn [nth_error]. now rewrite E1.
  - injection E as <-.
    change (nth_error (map (fun s => Mach_Sigma_elt newton s (MachSub_guess s (Some g)) (Some g)) (a :: b :: l)) i = Some (Some m)).
    rewrite (map_nth_error _ _ _ Hi). now rewrite E2.
Qed.
Lemma SupArr_nth newton l g M i : MachSup_array newton l (Some g) = Some M -> branch_solver g newton -> 1 < g < 3 ->
  forall s, nth_error l i = Some (Some s) -> 1 <= s ->
  exists m, nth_error M i = Some (Some m) /\ 1 <= m /\ sig g m = s /\ (1 < s -> 1 < m).
Proof.
  intros E HN Hg s Hi Hs.
  destruct (MachSup_branch newton g s HN Hg Hs) as (m & E1 & Hm & S1 & E2 & H1). exists m.
  split; [|tauto]. unfold MachSup_array in E. destruct l as [|a [|b l]]; [discriminate| |].
  - injection E as <-. destruct i as [|i]; [|destruct i; discriminate]. cbn in Hi. injection Hi as ->. cbn [nth_error]. now rewrite E1.
  - injection E as <-.
    change (nth_error (map (fun s => Mach_Sigma_elt newton s (MachSup_guess s (Some g)) (Some g)) (a :: b :: l)) i = Some (Some m)).
    rewrite (map_nth_error _ _ _ Hi). now rewrite E2.
Qed.
(** below the sonic area there is no starting value, hence no result *)
Lemma guess_sub_none g s : 1 < g < 3 -> 0 < s < 1 -> MachSub_guess (Some s) (Some g) = None.
Proof.
  intros Hg Hs. unfold MachSub_guess; ncbn. rewrite !ndiv_Some by lra; ncbn.
  rewrite nsqrt_neg; [reflexivity|]. pose proof (guess_coef g ltac:(lra) ltac:(lra)).
  assert (1 < 1 / s). { apply (Rmult_lt_reg_r s); [lra|]. unfold Rdiv; rewrite Rmult_assoc, Rinv_l by lra. lra. } nra.
Qed.
Lemma SubArr_none newton l g M i : MachSub_array newton l (Some g) = Some M -> branch_solver g newton -> 1 < g < 3 ->
  forall s, nth_error l i = Some (Some s) -> 0 < s < 1 -> nth_error M i = Some None.
Proof.
  intros E [_ HN] Hg s Hi Hs. pose proof (guess_sub_none g s Hg Hs) as G.
  unfold MachSub_array in E. destruct l as [|a [|b l]]; [discriminate| |].
  - injection E as <-. destruct i as [|i]; [|destruct i; discriminate]. cbn in Hi. injection Hi as ->. cbn [nth_error].
    unfold MachSub_Sigma, Mach_Sigma. now rewrite G, HN.
  - injection E as <-.
    change (nth_error (map (fun s => Mach_Sigma_elt newton s (MachSub_guess s (Some g)) (Some g)) (a :: b :: l)) i = Some None).
    rewrite (map_nth_error _ _ _ Hi). unfold Mach_Sigma_elt. rewrite G. cbn [nif nle]. now rewrite HN.
Qed.
Lemma nth_combine_map (P M : list num) (f : num * num -> num) i p m :
  nth_error P i = Some p -> nth_error M i = Some m -> nth_error (map f (combine P M)) i = Some (f (p, m)).
Proof.
  revert P M; induction i as [|i IH]; intros [|p' P] [|m' M]; cbn; try discriminate.
  - intros E1 E2; injection E1 as ->; injection E2 as ->; reflexivity.
  - intros E1 E2; now apply IH.
Qed.

(*@P C43_shape: Whatever the section law, gamma, NPR, default gas and root finder: if set_NPR succeeds, the Mach, total and static pressure arrays have the length of the section, and at every station Ps = Pt / PtPs(M) - with the nozzle's gamma in the unchoked regime, with gamma = 1.4 in the others. *)
Lemma flow_shape : forall newton cur n NPR M Pt Ps,
  flow_at newton cur n NPR = Some (M, Pt, Ps) ->
  length M = length (nz_AxoAc n) /\ length Pt = length (nz_AxoAc n) /\ length Ps = length (nz_AxoAc n) /\
  exists g, (g = nz_gamma n /\ nlt NPR (NPR0 (nz_lim n)) = Some true \/
             g = Some (14/10) /\ nlt NPR (NPR0 (nz_lim n)) = Some false) /\
   forall i m p, nth_error M i = Some m -> nth_error Pt i = Some p -> nth_error Ps i = Some (ndiv p (PtPs_Mach m g)).
Proof.
  intros newton cur n NPR M Pt Ps. unfold flow_at.
  destruct (nlt NPR (NPR0 (nz_lim n))) as [[|]|] eqn:C; cbn [nif]; [| |discriminate].
  - destruct (MachSub_array _ _ _) as [M0|] eqn:EM; [|discriminate].
    intros E; injection E as <- <- <-. apply SubArr_length in EM. rewrite map_length in EM.
    split; [exact EM|]. split; [apply map_length|].
    split; [rewrite map_length, combine_length, map_length, EM; apply Nat.min_id|]. exists (nz_gamma n); split; [auto|].
    intros i m p Hm Hp. now rewrite (nth_combine_map _ _ _ i p m Hp Hm).
  - destruct (MachSub_array newton (firstn _ _) _) as [M1|] eqn:E1; [|discriminate].
    destruct (MachSup_array newton (skipn _ _) _) as [M2|] eqn:E2; [|discriminate].
    apply SubArr_length in E1. apply SupArr_length in E2.
    assert (LM : length (M1 ++ M2) = length (nz_AxoAc n)).
    { rewrite app_length, E1, E2, <- app_length, firstn_skipn. reflexivity. }
    destruct (nlt NPR (NPRsw (nz_lim n))) as [[|]|]; cbn [nif]; [| |discriminate].
    + destruct (argmin _) as [ish|] eqn:EA; [|discriminate]. apply argmin_lt in EA. rewrite map_length, LM in EA.
      destruct (MachSub_array newton (map _ _) dgamma) as [M3|] eqn:E3; [|discriminate].
      intros E; injection E as <- <- <-. apply SubArr_length in E3. rewrite map_length, skipn_length in E3.
      assert (LM' : length (firstn ish (M1 ++ M2) ++ M3) = length (nz_AxoAc n)).
      { rewrite app_length, firstn_length, LM, E3. lia. }
      assert (LP : length (firstn ish (@map num num (fun _ => Some 1) (nz_AxoAc n)) ++
         map (fun _ => ndiv (PtPs_Mach (Ms_from_AsAc_NPR newton cur (nz_AsoAc n) NPR) dgamma) NPR)
           (skipn ish (@map num num (fun _ => Some 1) (nz_AxoAc n)))) = length (nz_AxoAc n)).
      { rewrite app_length, map_length, firstn_length, skipn_length, !map_length. lia. }
      split; [exact LM'|]. split; [exact LP|]. split.
      * rewrite map_length, combine_length, LM', LP. apply Nat.min_id.
      * exists (Some (14/10)); split; [auto|]. intros i m p Hm Hp. now rewrite (nth_combine_map _ _ _ i p m Hp Hm).
    + intros E; injection E as <- <- <-. split; [exact LM|]. split; [apply map_length|]. split.
      * rewrite map_length, combine_length, LM, map_length. apply Nat.min_id.
      * exists (Some (14/10)); split; [auto|]. intros i m p Hm Hp. now rewrite (nth_combine_map _ _ _ i p m Hp Hm).
Qed.

(** ** A nozzle built from a section law *)
Definition amin_R (l : list R) : R := match argmin_R l with Some (_, b) => b | None => 0 end.
Lemma init_eval newton st sec g NPR : sec <> nil -> (forall a, In a sec -> 0 < a) ->
  exists it, let c := amin_R sec in let s := last sec 0 / c in
  let n := mk_nozzle g (Some s) (@map R num (fun a => Some (a / c)) sec) it (NPR_Ms_list newton (Some s)) None in
  (it < length sec)%nat /\ nth it sec 0 = c /\ 0 < c /\ (forall a, In a sec -> c <= a) /\
  forall AsoAc, truthy AsoAc = false ->
  nozzle_init newton st (map (@Some R) sec) AsoAc g NPR =
   let s1 := mk_defgas (dg_gamma st) (dg_r st) (Some (dg_r st, dg_gamma st)) (captured st) in
   (s1, if truthy NPR then set_NPR newton s1 n (match NPR with Some v => v | None => None end) else Some n).
Proof.
  intros Hne Hpos.
  destruct (argmin_R_spec sec Hne) as (i0 & c & EC & Hi0 & Hnth0 & Hmin).
  assert (Hc : 0 < c) by (rewrite <- Hnth0; apply Hpos, nth_In; assumption).
  assert (EA : amin_R sec = c) by (unfold amin_R; now rewrite EC).
  pose proof (Hpos _ (last_In sec Hne)) as Hl.
  set (A := map (fun a => a / c) sec).
  destruct (argmin_R_spec A) as (it & b & EI & Hit & Hnth & HminA); [now apply map_nonnil|].
  unfold A in Hit; rewrite map_length in Hit.
  assert (Hthr : nth it sec 0 = c).
  { assert (Hle : c <= nth it sec 0) by (apply Hmin, nth_In; assumption).
    assert (In 1 A) by (unfold A; apply in_map_iff; exists c; split; [field; lra|rewrite <- Hnth0; now apply nth_In]).
    specialize (HminA _ H). unfold A in Hnth.
    assert (H0 : nth it (map (fun a => a / c) sec) 0 = nth it sec 0 / c).
    { rewrite <- (map_nth (fun a => a / c)). apply nth_indep. rewrite map_length; assumption. }
    rewrite Hnth in H0.
    destruct (Req_dec (nth it sec 0) c); [assumption|].
    assert (c <= nth it sec 0) by (apply Hmin, nth_In; assumption).
    assert (1 < nth it sec 0 / c).
    { apply (Rmult_lt_reg_r c); [assumption|]. unfold Rdiv; rewrite Rmult_assoc, Rinv_l by lra. lra. }
    lra. }
  exists it. rewrite EA. cbv zeta.
  do 4 (split; [assumption|]). intros AsoAc HT. unfold nozzle_init. rewrite HT.
  rewrite last_map_Some by assumption.
  assert (EM : amin (map (@Some R) sec) = Some c) by (unfold amin; now rewrite all_some_map, EC).
  rewrite EM. rewrite ndiv_Some by lra.
  assert (EX : map (fun a => ndiv (nmul a (Some (last sec 0 / c))) (Some (last sec 0))) (map (@Some R) sec)
     = @map R num (fun a => Some (a / c)) sec).
  { rewrite map_map. apply map_ext. intros a. ncbn. rewrite ndiv_Some by lra. f_equal. field; lra. }
  rewrite EX.
  assert (EI' : argmin (map nabs (@map R num (fun a => Some (a / c)) sec)) = Some it).
  { assert (Q : map nabs (@map R num (fun a => Some (a / c)) sec) = map (@Some R) A).
    { unfold A. rewrite !map_map. apply map_ext_in. intros a Ha. cbn [nabs]. f_equal. apply Rabs_pos_eq.
      specialize (Hpos a Ha). left; pos. }
    rewrite Q. unfold argmin. now rewrite all_some_map, EI. }
  rewrite EI'. cbn [gas_step].
  set (s1 := mk_defgas _ _ _ _). set (n := mk_nozzle _ _ _ _ _ _).
  destruct (truthy NPR).
  - destruct (set_NPR newton s1 n _); reflexivity.
  - reflexivity.
Qed.

(** ** The flow at each station *)
Lemma nth_error_map_some (f : R -> num) (l : list R) i : (i < length l)%nat ->
  nth_error (map f l) i = Some (f (nth i l 0)).
Proof. intros H. apply map_nth_error. now apply nth_error_nth'. Qed.
Lemma amin_unique sec c : sec <> nil -> In c sec -> (forall a, In a sec -> c <= a) -> amin_R sec = c.
Proof.
  intros Hne Hc Hm. destruct (argmin_R_spec sec Hne) as (i & b & E & Hi & Hb & Hmin).
  unfold amin_R; rewrite E. specialize (Hmin c Hc). assert (c <= b) by (apply Hm; rewrite <- Hb; now apply nth_In). lra.
Qed.
Lemma nth_error_ones (l : list R) i : (i < length l)%nat ->
  nth_error (@map num num (fun _ => Some 1) (map (fun a => Some (a / 1)) l)) i = Some (Some 1).
Proof. intros H. rewrite map_map. now rewrite nth_error_map_some. Qed.
Lemma ratio_ge1 a c : 0 < c -> c <= a -> 1 <= a / c.
Proof. intros Hc H. apply (Rmult_le_reg_r c); [assumption|]. unfold Rdiv; rewrite Rmult_assoc, Rinv_l by lra. lra. Qed.
Lemma ratio_gt1 a c : 0 < c -> c < a -> 1 < a / c.
Proof. intros Hc H. apply (Rmult_lt_reg_r c); [assumption|]. unfold Rdiv; rewrite Rmult_assoc, Rinv_l by lra. lra. Qed.
Lemma mass_of_sig g a c k m p : 1 < g -> 0 < m -> 0 < c -> 0 < k -> sig g m = a / c * k ->
  a * wmf g m * p = c * wmf g 1 * (p / k).
Proof.
  intros Hg Hm Hc Hk E. rewrite (sig_wmf g m Hg Hm) in E. pose proof (wmf_pos g m Hg Hm) as W.
  assert (E' : wmf g 1 = a / c * k * wmf g m) by (rewrite <- E; field; lra). rewrite E'. field. lra.
Qed.

(*@P C43_unchoked: Below the choking limit (and above 1) the nozzle is built, every station is subsonic with total pressure 1, Pt/Ps = PtPs(M) at each station, area times mass flow is the same at all stations, and the exit static pressure is exactly Pt/NPR. Every positive section law whose exit is larger than its throat; any default gas. *)
Lemma profile_unchoked : forall newton st sec c n n0, branch_solver (14/10) newton ->
  (forall a, In a sec -> 0 < a) -> In c sec -> (forall a, In a sec -> c <= a) -> c < last sec 0 ->
  NPR_choked_subsonic newton (Some (last sec 0 / c)) = Some n0 -> 1 < n < n0 ->
  exists st' nz M Pt Ps W, nozzle_init newton st (map (@Some R) sec) None (Some (14/10)) (Some (Some n)) = (st', Some nz) /\
    nz_flow nz = Some (M, Pt, Ps) /\ 0 < W /\
    forall i, (i < length sec)%nat -> exists m ps q w,
      nth_error M i = Some (Some m) /\ nth_error Pt i = Some (Some 1) /\ nth_error Ps i = Some (Some ps) /\
      0 < m < 1 /\ PtPs_Mach (Some m) (Some (14/10)) = Some q /\ ps * q = 1 /\
      WeightMassFlow (Some m) (Some 1) (Some (14/10)) = Some w /\ nth i sec 0 * w * 1 = W /\
      (i = (length sec - 1)%nat -> ps = 1 / n).
Proof.
  intros newton st sec c n n0 HN Hpos Hc Hmin Hlast E0 Hn.
  assert (Hne : sec <> nil) by (intros ->; destruct Hc).
  destruct (init_eval newton st sec (Some g0) (Some (Some n)) Hne Hpos) as (it & Hit & Hthr & Hc0 & Hm & HI).
  rewrite (amin_unique sec c Hne Hc Hmin) in *. specialize (HI None eq_refl).
  set (s := last sec 0 / c) in *. assert (Hs : 1 < s) by (now apply ratio_gt1).
  destruct (Ms_regimes newton s n HN Hs ltac:(lra)) as (m0 & M0 & nsw & E1 & E2 & Hm0 & HM0 & S1 & S2 & EN & F0 & Fsw & F1 & L & O & HRg).
  rewrite F0 in E0; injection E0 as <-.
  assert (HT : truthy (Some (Some n)) = true) by (cbn; destruct (Req_EM_T n 0); [lra|reflexivity]).
  rewrite HT in HI. cbv zeta in HI.
  destruct (Ms_unchoked newton None s n (pp g0 m0) m0 HN Hs ltac:(lra) F0 ltac:(lra) E1) as (Ms & EMs & HMs & Hm1 & EPt).
  destruct (HRg None) as (R1 & _). rewrite R1 in EMs by lra. unfold dgamma in EMs.
  assert (HMs0 : 0 < Ms).
  { destruct (Req_dec Ms 0) as [->|]; [|lra]. exfalso. rewrite PtPs_eval in EPt by lra. injection EPt as EPt.
    unfold tt in EPt. replace (1 + 1 / 2 * (14 / 10 - 1) * 0 ^ 2) with 1 in EPt by ring. rewrite Rpower_one in EPt. lra. }
  assert (HsM : s < sig g0 Ms) by (rewrite <- S1; apply sig_decr; lra).
  unfold set_NPR, flow_at in HI. cbn [nz_AxoAc nz_gamma nz_lim nz_AsoAc nz_ithroat] in HI. rewrite L in HI; cbn [NPR0 NPRsw] in HI.
  rewrite nlt_true in HI by lra. cbn [nif] in HI. rewrite EMs in HI. unfold dgamma in HI. rewrite Sigma_eval in HI by lra.
  rewrite map_map in HI.
  set (sl := map (fun x => nmul (ndiv (Some (x / c)) (Some s)) (Some (sig g0 Ms))) sec) in HI.
  assert (Hsl : forall i, (i < length sec)%nat -> nth_error sl i = Some (Some (nth i sec 0 / c * (sig g0 Ms / s)))
            /\ 1 < nth i sec 0 / c * (sig g0 Ms / s)).
  { intros i Hi. unfold sl. rewrite nth_error_map_some by assumption. rewrite ndiv_Some by lra. cbn [nmul].
    split; [do 2 f_equal; field; lra|].
    assert (1 <= nth i sec 0 / c) by (apply ratio_ge1; [lra|apply Hmin, nth_In; assumption]).
    assert (1 < sig g0 Ms / s) by (apply ratio_gt1; lra). nra. }
  destruct (MachSub_array newton sl (Some g0)) as [M|] eqn:EM.
  2:{ exfalso. unfold MachSub_array in EM. unfold sl in EM. destruct sec as [|a [|b l]]; [congruence|discriminate|discriminate]. }
  do 6 eexists. split; [exact HI|]. cbn [nz_flow]. split; [reflexivity|].
  assert (W1 : 0 < wmf g0 1) by (apply wmf_pos; lra).
  assert (Hk : 0 < sig g0 Ms / s) by (assert (1 < sig g0 Ms / s) by (apply ratio_gt1; lra); lra).
  split; [instantiate (1 := c * wmf g0 1 * (1 / (sig g0 Ms / s))); pos|].
  intros i Hi. destruct (Hsl i Hi) as [Hsi Hsi1].
  destruct (SubArr_nth newton sl g0 M i EM HN ltac:(lra) _ Hsi ltac:(lra)) as (m & EmI & Hm' & Sm & Hm1').
  specialize (Hm1' Hsi1). pose proof (pp_pos g0 m) as Hp.
  exists m, (1 / pp g0 m), (pp g0 m), (wmf g0 m).
  assert (HPt : nth_error (@map num num (fun _ => Some 1) (@map R num (fun a => Some (a / c)) sec)) i = Some (Some 1)).
  { rewrite map_map. now rewrite nth_error_map_some. }
  split; [exact EmI|]. split; [exact HPt|]. split.
  { erewrite nth_combine_map; [|exact HPt|exact EmI]. cbn [fst snd]. rewrite PtPs_eval by lra. fold (pp g0 m).
    now rewrite ndiv_Some by lra. }
  split; [lra|]. split; [now rewrite PtPs_eval by lra|]. split; [field; lra|].
  split; [apply WMF_eval; lra|]. split; [apply (mass_of_sig g0 _ c (sig g0 Ms / s)); lra || assumption|].
  intros ->. rewrite nth_last in Sm by assumption.
  assert (Q : sig g0 m = sig g0 Ms) by (rewrite Sm; unfold s; field; split; lra).
  assert (m = Ms).
  { destruct (Rtotal_order m Ms) as [G|[G|G]]; [|assumption|].
    - pose proof (sig_decr g0 m Ms ltac:(lra)); lra.
    - pose proof (sig_decr g0 Ms m ltac:(lra)); lra. }
  subst m. rewrite PtPs_eval in EPt by lra. injection EPt as EPt. fold (pp g0 Ms) in EPt. now rewrite EPt.
Qed.

(** the choked solution without shock, on arrays *)
Lemma choked_arrays newton sec c it g : branch_solver g newton -> 1 < g <= 14/10 ->
  (forall a, In a sec -> 0 < a) -> (forall a, In a sec -> c <= a) -> 0 < c -> (it < length sec)%nat -> nth it sec 0 = c ->
  c < last sec 0 ->
  let A := @map R num (fun a => Some (a / c)) sec in
  (S it < length sec)%nat /\
  exists M1 M2, MachSub_array newton (firstn (S it) A) (Some g) = Some M1 /\
    MachSup_array newton (skipn (S it) A) (Some g) = Some M2 /\ length M1 = S it /\ length (M1 ++ M2) = length sec /\
    forall i, (i < length sec)%nat -> exists m, nth_error (M1 ++ M2) i = Some (Some m) /\ 0 < m /\
      sig g m = nth i sec 0 / c /\ ((i <= it)%nat -> m <= 1) /\ ((it < i)%nat -> 1 <= m).
Proof.
  intros HN Hg Hpos Hmin Hc Hit Hthr Hlast A.
  assert (Hne : sec <> nil) by (intros ->; cbn in Hit; lia).
  assert (HS : (S it < length sec)%nat).
  { destruct (Nat.eq_dec (S it) (length sec)) as [Q|]; [|lia]. exfalso.
    rewrite <- (nth_last sec Hne) in Hlast. replace (length sec - 1)%nat with it in Hlast by lia. lra. }
  split; [assumption|].
  assert (LA : length A = length sec) by (unfold A; apply map_length).
  assert (LF : length (firstn (S it) A) = S it) by (rewrite firstn_length; lia).
  assert (LK : length (skipn (S it) A) = (length sec - S it)%nat) by (rewrite skipn_length; lia).
  destruct (MachSub_array newton (firstn (S it) A) (Some g)) as [M1|] eqn:E1.
  2:{ exfalso. unfold MachSub_array in E1. destruct (firstn (S it) A) as [|a [|b l]]; [discriminate LF|discriminate|discriminate]. }
  destruct (MachSup_array newton (skipn (S it) A) (Some g)) as [M2|] eqn:E2.
  2:{ exfalso. unfold MachSup_array in E2. destruct (skipn (S it) A) as [|a [|b l]]; [cbn [length] in LK; lia|discriminate|discriminate]. }
  pose proof (SubArr_length _ _ _ _ E1) as L1. pose proof (SupArr_length _ _ _ _ E2) as L2.
  pose proof (eq_trans L1 LF) as L1'. pose proof (eq_trans L2 LK) as L2'. clear L1 L2.
  exists M1, M2. split; [reflexivity|]. split; [reflexivity|]. split; [exact L1'|].
  split; [rewrite app_length; lia|].
  intros i Hi. assert (Hge : 1 <= nth i sec 0 / c) by (apply ratio_ge1; [lra|apply Hmin, nth_In; assumption]).
  assert (HA : nth_error A i = Some (Some (nth i sec 0 / c))) by (unfold A; now rewrite nth_error_map_some).
  destruct (le_lt_dec i it) as [Hle|Hlt].
  - destruct (SubArr_nth newton _ g M1 i E1 HN Hg (nth i sec 0 / c)) as (m & Em & Hm & Sm & _); [|assumption|].
    { rewrite <- (firstn_skipn (S it) A) in HA. rewrite nth_error_app1 in HA by lia. exact HA. }
    exists m. rewrite nth_error_app1 by lia. repeat split; try assumption; try lra. intros; lia.
  - destruct (SupArr_nth newton _ g M2 (i - S it) E2 HN ltac:(lra) (nth i sec 0 / c)) as (m & Em & Hm & Sm & _); [|assumption|].
    { rewrite <- (firstn_skipn (S it) A) in HA. rewrite nth_error_app2 in HA by lia. rewrite LF in HA. exact HA. }
    exists m. rewrite nth_error_app2 by lia. rewrite L1'.
    repeat split; try assumption; try lra. intros; lia.
Qed.

(*@P C43_supersonic: From the shock-at-exit limit on the nozzle is built, sonic or subsonic up to the throat and sonic or supersonic after it, with total pressure 1, Pt/Ps = PtPs(M), and at every station area times mass flow equals that of the sonic throat. *)
Lemma profile_supersonic : forall newton st sec c n nsw, branch_solver (14/10) newton ->
  (forall a, In a sec -> 0 < a) -> In c sec -> (forall a, In a sec -> c <= a) -> c < last sec 0 ->
  NPR_shock_at_exit newton (Some (last sec 0 / c)) = Some nsw -> nsw <= n ->
  exists st' nz M Pt Ps k w1, nozzle_init newton st (map (@Some R) sec) None (Some (14/10)) (Some (Some n)) = (st', Some nz) /\
    nz_flow nz = Some (M, Pt, Ps) /\ nth k sec 0 = c /\ (k < length sec - 1)%nat /\
    WeightMassFlow (Some 1) (Some 1) (Some (14/10)) = Some w1 /\
    forall i, (i < length sec)%nat -> exists m ps q w,
      nth_error M i = Some (Some m) /\ nth_error Pt i = Some (Some 1) /\ nth_error Ps i = Some (Some ps) /\
      0 < m /\ ((i <= k)%nat -> m <= 1) /\ ((k < i)%nat -> 1 <= m) /\
      PtPs_Mach (Some m) (Some (14/10)) = Some q /\ ps * q = 1 /\
      WeightMassFlow (Some m) (Some 1) (Some (14/10)) = Some w /\ nth i sec 0 * w * 1 = c * w1.
Proof.
  intros newton st sec c n nsw' HN Hpos Hc Hmin Hlast Esw Hn.
  assert (Hne : sec <> nil) by (intros ->; destruct Hc).
  destruct (init_eval newton st sec (Some g0) (Some (Some n)) Hne Hpos) as (it & Hit & Hthr & Hc0 & Hm & HI).
  rewrite (amin_unique sec c Hne Hc Hmin) in *. specialize (HI None eq_refl).
  set (s := last sec 0 / c) in *. assert (Hs : 1 < s) by (now apply ratio_gt1).
  destruct (lims newton s HN Hs) as (m0 & M0 & E1 & E2 & Hm0 & HM0 & S1 & S2 & L).
  destruct (limits_order g0 m0 M0 s ltac:(lra) Hm0 HM0 S1 S2) as (_ & O1 & O2 & _).
  destruct (NPR_list newton (Some s)) as (_ & L2 & _). rewrite <- L2, L in Esw. cbn [NPRsw] in Esw. injection Esw as <-.
  assert (HT : truthy (Some (Some n)) = true) by (cbn; destruct (Req_EM_T n 0); [lra|reflexivity]).
  rewrite HT in HI. cbv zeta in HI.
  unfold set_NPR, flow_at in HI. cbn [nz_AxoAc nz_gamma nz_lim nz_AsoAc nz_ithroat] in HI. rewrite L in HI; cbn [NPR0 NPRsw] in HI.
  rewrite !nlt_false in HI by lra. cbn [nif] in HI.
  destruct (choked_arrays newton sec c it g0 HN ltac:(lra) Hpos Hmin Hc0 Hit Hthr Hlast) as (HS & M1 & M2 & EA & EB & _ & LL & HM).
  rewrite EA, EB in HI.
  do 5 eexists. exists it, (wmf g0 1). split; [exact HI|]. cbn [nz_flow]. split; [reflexivity|]. split; [assumption|].
  split; [lia|]. split; [apply WMF_eval; lra|].
  intros i Hi. destruct (HM i Hi) as (m & Em & Hm' & Sm & Hsub & Hsup). pose proof (pp_pos g0 m) as Hp.
  exists m, (1 / pp g0 m), (pp g0 m), (wmf g0 m).
  assert (HPt : nth_error (@map num num (fun _ => Some 1) (@map R num (fun a => Some (a / c)) sec)) i = Some (Some 1)).
  { rewrite map_map. now rewrite nth_error_map_some. }
  split; [exact Em|]. split; [exact HPt|]. split.
  { erewrite nth_combine_map; [|exact HPt|exact Em]. cbn [fst snd]. unfold dgamma. rewrite PtPs_eval by lra. fold (pp g0 m).
    now rewrite ndiv_Some by lra. }
  do 3 (split; [assumption|]). split; [now rewrite PtPs_eval by lra|]. split; [field; lra|].
  split; [apply WMF_eval; lra|].
  rewrite (mass_of_sig g0 _ c 1 m 1) by (lra || assumption). field.
Qed.

(*@P C43_shocked: Between the first limit and the shock-at-exit limit (default gas unchanged), whenever set_NPR succeeds there is a station index from which total pressure is a constant loss in (0,1], total pressure being 1 before it; before it the flow is the choked sub/supersonic one; from it on, at every station whose area is at least the sonic area of the shocked flow, the flow is subsonic, Pt/Ps = PtPs(M), and area times mass flow is that of the throat; the exit static pressure is exactly Pt/NPR. *)
Lemma profile_shocked : forall newton st sec c n n0 nsw st' nz M Pt Ps, branch_solver (14/10) newton ->
  (forall a, In a sec -> 0 < a) -> In c sec -> (forall a, In a sec -> c <= a) -> c < last sec 0 ->
  dg_gamma st = Some (14/10) ->
  NPR_choked_subsonic newton (Some (last sec 0 / c)) = Some n0 ->
  NPR_shock_at_exit newton (Some (last sec 0 / c)) = Some nsw -> n0 <= n < nsw ->
  nozzle_init newton st (map (@Some R) sec) None (Some (14/10)) (Some (Some n)) = (st', Some nz) ->
  nz_flow nz = Some (M, Pt, Ps) ->
  exists k ish loss w1, nth k sec 0 = c /\ (k < length sec - 1)%nat /\ (ish < length sec)%nat /\ 0 < loss <= 1 /\
    WeightMassFlow (Some 1) (Some 1) (Some (14/10)) = Some w1 /\
    (forall i, (i < length sec)%nat -> nth_error Pt i = Some (Some (if (i <? ish)%nat then 1 else loss))) /\
    (forall i, (i < length sec)%nat -> (i < ish)%nat \/ c <= nth i sec 0 * loss ->
     exists m ps q w,
      nth_error M i = Some (Some m) /\ nth_error Ps i = Some (Some ps) /\ 0 < m /\
      ((i < ish)%nat -> ((i <= k)%nat -> m <= 1) /\ ((k < i)%nat -> 1 <= m)) /\
      ((ish <= i)%nat -> m <= 1) /\
      PtPs_Mach (Some m) (Some (14/10)) = Some q /\ ps * q = (if (i <? ish)%nat then 1 else loss) /\
      WeightMassFlow (Some m) (Some 1) (Some (14/10)) = Some w /\
      nth i sec 0 * w * (if (i <? ish)%nat then 1 else loss) = c * w1) /\
    nth_error Ps (length sec - 1) = Some (Some (1 / n)) /\
    (forall i, (ish <= i < length sec)%nat -> nth i sec 0 * loss < c -> nth_error M i = Some None).
Proof.
  intros newton st sec c n n0 nsw' st' nz M Pt Ps HN Hpos Hc Hmin Hlast Hst E0 Esw Hn HIn HF.
  assert (Hne : sec <> nil) by (intros ->; destruct Hc).
  destruct (init_eval newton st sec (Some g0) (Some (Some n)) Hne Hpos) as (it & Hit & Hthr & Hc0 & Hm & HI).
  rewrite (amin_unique sec c Hne Hc Hmin) in *. specialize (HI None eq_refl).
  set (s := last sec 0 / c) in *. assert (Hs : 1 < s) by (now apply ratio_gt1).
  assert (Hn0 : 0 < n).
  { destruct (NPR_order newton s HN Hs) as (a & b & d & Ea & _ & _ & Ha & _). rewrite Ea in E0; injection E0 as <-. lra. }
  destruct (Ms_regimes newton s n HN Hs ltac:(lra)) as (m0 & M0 & nsw & E1 & E2 & Hm0 & HM0 & S1 & S2 & EN & F0 & Fsw & F1 & L & O & HRg).
  rewrite F0 in E0; injection E0 as <-. rewrite Fsw in Esw; injection Esw as <-.
  assert (HT : truthy (Some (Some n)) = true) by (cbn; destruct (Req_EM_T n 0); [lra|reflexivity]).
  rewrite HT in HI. cbv zeta in HI. rewrite HIn in HI. injection HI as _ HI. symmetry in HI.
  unfold set_NPR, flow_at in HI. cbn [nz_AxoAc nz_gamma nz_lim nz_AsoAc nz_ithroat dg_gamma] in HI. rewrite L in HI; cbn [NPR0 NPRsw] in HI.
  rewrite (nlt_false n) in HI by lra. rewrite (nlt_true n) in HI by lra. cbn [nif] in HI.
  destruct (choked_arrays newton sec c it g0 HN ltac:(lra) Hpos Hmin Hc0 Hit Hthr Hlast) as (HS & M1 & M2 & EA & EB & _ & LL & HM).
  rewrite EA, EB in HI.
  destruct (HRg (dg_gamma st)) as (_ & R2 & _). rewrite R2 in HI by lra. rewrite Hst in HI.
  destruct (shocked_eval g0 s n ltac:(lra) ltac:(lra) ltac:(lra)) as (Ms & EMs & HMs & EF). rewrite EMs in HI.
  pose proof (shocked_loss g0 s n Ms ltac:(lra) ltac:(lra) ltac:(lra) HMs EF) as SL.
  destruct (shocked_between g0 s m0 M0 n Ms ltac:(lra) Hm0 HM0 S1 S2 HMs EF) as (B1 & B2 & _).
  specialize (B1 ltac:(lra)). specialize (B2 ltac:(lra)). pose proof (md_lt1 g0 M0 ltac:(lra) HM0) as Hmd.
  unfold dgamma in HI. rewrite PtPs_eval in HI by lra. fold (pp g0 Ms) in HI. rewrite ndiv_Some in HI by lra.
  rewrite Sigma_eval in HI by lra. pose proof (pp_pos g0 Ms) as HpMs.
  set (loss := pp g0 Ms / n) in *. assert (Hloss : 0 < loss) by (unfold loss; pos).
  assert (Hloss1 : loss <= 1).
  { assert (sig g0 Ms <= s). { destruct (Req_dec Ms m0) as [->|]; [lra|]. rewrite <- S1. left; apply sig_decr; lra. }
    rewrite SL in H. destruct (Rle_lt_dec loss 1); [assumption|nra]. }
  destruct (argmin _) as [ish|] eqn:EAM; [|discriminate]. apply argmin_lt in EAM. rewrite map_length, LL in EAM.
  set (A := @map R num (fun a => Some (a / c)) sec) in *.
  assert (LA : length A = length sec) by (unfold A; apply map_length).
  set (sl := map (fun a => ndiv (nmul a (Some (sig g0 Ms))) (Some s)) (skipn ish A)) in *.
  destruct (MachSub_array newton sl (Some g0)) as [M3|] eqn:E3; [|discriminate].
  injection HI as HI. subst nz. cbn [nz_flow] in HF. injection HF as <- <- <-.
  assert (L3 : length M3 = (length sec - ish)%nat).
  { rewrite (SubArr_length _ _ _ _ E3). unfold sl. rewrite map_length, skipn_length. lia. }
  assert (Hsl : forall i, (ish <= i < length sec)%nat -> nth_error sl (i - ish) = Some (Some (nth i sec 0 / c * loss))).
  { intros i Hi. unfold sl.
    assert (HA : nth_error (skipn ish A) (i - ish) = Some (Some (nth i sec 0 / c))).
    { assert (HA : nth_error A i = Some (Some (nth i sec 0 / c))) by (unfold A; apply nth_error_map_some; lia).
      rewrite <- (firstn_skipn ish A) in HA. rewrite nth_error_app2 in HA by (rewrite firstn_length; lia).
      rewrite firstn_length in HA. replace (Nat.min ish (length A)) with ish in HA by lia. exact HA. }
    rewrite (map_nth_error _ _ _ HA). cbn [nmul]. rewrite ndiv_Some by lra. do 2 f_equal. rewrite SL. field; lra. }
  assert (HLF : length (firstn ish (M1 ++ M2)) = ish) by (rewrite firstn_length; lia).
  assert (HPt : forall i, (i < length sec)%nat ->
     nth_error (firstn ish (@map num num (fun _ => Some 1) A) ++ @map num num (fun _ => Some loss) (skipn ish (@map num num (fun _ => Some 1) A))) i
     = Some (Some (if (i <? ish)%nat then 1 else loss))).
  { intros i Hi. assert (LP : length (firstn ish (@map num num (fun _ => Some 1) A)) = ish) by (rewrite firstn_length, map_length; lia).
    destruct (Nat.ltb_spec i ish) as [Hlt|Hge].
    - rewrite nth_error_app1 by lia.
      assert (HA : nth_error (@map num num (fun _ => Some 1) A) i = Some (Some 1)) by (unfold A; rewrite map_map; now rewrite nth_error_map_some).
      rewrite <- (firstn_skipn ish (map _ A)) in HA. rewrite nth_error_app1 in HA by lia. exact HA.
    - rewrite nth_error_app2 by lia. rewrite LP.
      destruct (nth_error (skipn ish (@map num num (fun _ => Some 1) A)) (i - ish)) as [x|] eqn:EX.
      + now rewrite (map_nth_error _ _ _ EX).
      + apply nth_error_None in EX. rewrite skipn_length, map_length in EX. lia. }
  assert (HMst : forall i, (i < length sec)%nat -> (i < ish)%nat \/ c <= nth i sec 0 * loss ->
     exists m, nth_error (firstn ish (M1 ++ M2) ++ M3) i = Some (Some m) /\ 0 < m /\
      ((i < ish)%nat -> sig g0 m = nth i sec 0 / c /\ ((i <= it)%nat -> m <= 1) /\ ((it < i)%nat -> 1 <= m)) /\
      ((ish <= i)%nat -> sig g0 m = nth i sec 0 / c * loss /\ m <= 1)).
  { intros i Hi Hor. destruct (lt_dec i ish) as [Hlt|Hge].
    - destruct (HM i Hi) as (m & Em & Hm' & Sm & Hsub & Hsup). exists m. rewrite nth_error_app1 by lia.
      split; [|split; [assumption|split; [tauto|intros; lia]]].
      rewrite <- (firstn_skipn ish (M1 ++ M2)) in Em. rewrite nth_error_app1 in Em by lia. exact Em.
    - destruct (SubArr_nth newton sl g0 M3 (i - ish) E3 HN ltac:(lra) (nth i sec 0 / c * loss)) as (m & Em & Hm' & Sm & _).
      + apply Hsl; lia.
      + destruct Hor as [|Hor]; [lia|].
        replace (nth i sec 0 / c * loss) with (nth i sec 0 * loss / c) by (field; lra). now apply ratio_ge1.
      + exists m. rewrite nth_error_app2 by lia. rewrite HLF. split; [exact Em|].
        split; [lra|]. split; [intros; lia|]. intros _; split; [exact Sm|lra]. }
  exists it, ish, loss, (wmf g0 1). split; [assumption|]. split; [lia|]. split; [assumption|]. split; [lra|].
  split; [apply WMF_eval; lra|]. split; [exact HPt|].
  assert (HPs : forall i m, (i < length sec)%nat -> nth_error (firstn ish (M1 ++ M2) ++ M3) i = Some (Some m) ->
     nth_error (map (fun pm => ndiv (fst pm) (PtPs_Mach (snd pm) (Some (14 / 10))))
       (combine (firstn ish (@map num num (fun _ => Some 1) A) ++ @map num num (fun _ => Some loss) (skipn ish (@map num num (fun _ => Some 1) A)))
          (firstn ish (M1 ++ M2) ++ M3))) i = Some (Some ((if (i <? ish)%nat then 1 else loss) / pp g0 m))).
  { intros i m Hi Em. erewrite nth_combine_map; [|apply HPt; exact Hi|exact Em]. cbn [fst snd].
    rewrite PtPs_eval by lra. fold (pp g0 m). pose proof (pp_pos g0 m). now rewrite ndiv_Some by lra. }
  split; [|split].
  - intros i Hi Hor. destruct (HMst i Hi Hor) as (m & Em & Hm' & Ha & Hb). pose proof (pp_pos g0 m) as Hp.
    exists m, ((if (i <? ish)%nat then 1 else loss) / pp g0 m), (pp g0 m), (wmf g0 m).
    split; [exact Em|]. split; [now apply HPs|]. split; [assumption|]. split; [tauto|]. split; [tauto|].
    split; [now rewrite PtPs_eval by lra|]. split; [field; lra|]. split; [apply WMF_eval; lra|].
    destruct (Nat.ltb_spec i ish) as [Hlt|Hge].
    + rewrite (mass_of_sig g0 _ c 1 m 1); try lra. destruct (Ha Hlt) as [-> _]. ring.
    + rewrite (mass_of_sig g0 _ c loss m loss); try lra; [field; lra|]. now destruct (Hb Hge) as [-> _].
  - assert (Hl : (length sec - 1 < length sec)%nat) by lia.
    destruct (HMst (length sec - 1)%nat Hl) as (m & Em & Hm' & _ & Hb).
    { right. rewrite nth_last by assumption. assert (1 <= s * loss).
      { rewrite <- SL. left; apply sig_gt_1; lra. }
      unfold s in H. apply (Rmult_le_compat_r c) in H; [|lra].
      replace (last sec 0 / c * loss * c) with (last sec 0 * loss) in H by (field; lra). lra. }
    rewrite (HPs _ m Hl Em). destruct (Nat.ltb_spec (length sec - 1) ish) as [Hlt|Hge]; [lia|].
    destruct (Hb Hge) as [Sm Hm1]. rewrite nth_last in Sm by assumption. fold s in Sm. rewrite <- SL in Sm.
    assert (m = Ms).
    { destruct (Rtotal_order m Ms) as [G|[G|G]]; [|assumption|].
      - pose proof (sig_decr g0 m Ms ltac:(lra)); lra.
      - pose proof (sig_decr g0 Ms m ltac:(lra)); lra. }
    subst m. do 2 f_equal. unfold loss. field. split; lra.
  - intros i Hi Hlt. rewrite nth_error_app2 by lia. rewrite HLF.
    apply (SubArr_none newton sl g0 M3 (i - ish) E3 HN ltac:(lra) _ (Hsl i Hi)).
    assert (0 < nth i sec 0) by (apply Hpos, nth_In; lia).
    split; [apply Rmult_lt_0_compat; [|assumption]; pos|].
    apply (Rmult_lt_reg_r c); [lra|]. replace (nth i sec 0 / c * loss * c) with (nth i sec 0 * loss) by (field; lra). lra.
Qed.

(*@P C43_coarse_grid_refuted: On a coarse grid the profile is not a flow: with three stations (inlet, throat, exit), for every NPR strictly inside the shocked range for which the computed shock Mach number is nearer to the throat's Mach number 1 than to the exit or inlet Mach numbers, the solver is asked at the throat for an area below the sonic area of the shocked flow, and the Mach number stored at the throat is not a number. *)
Lemma coarse_grid : forall newton st a s n n0 nsw Ms q h mi Msup st' nz M Pt Ps, branch_solver (14/10) newton ->
  1 < a -> 1 < s -> dg_gamma st = Some (14/10) ->
  NPR_choked_subsonic newton (Some s) = Some n0 -> NPR_shock_at_exit newton (Some s) = Some nsw -> n0 < n < nsw ->
  Ms_from_AsAc_NPR newton (Some (14/10)) (Some s) (Some n) = Some Ms ->
  PtPs_Mach (Some Ms) (Some (14/10)) = Some q -> Mn_Pi_ratio (Some (q / n)) (Some (14/10)) = Some h ->
  Sigma_Mach (Some mi) (Some (14/10)) = Some a -> 0 < mi < 1 ->
  Sigma_Mach (Some Msup) (Some (14/10)) = Some s -> 1 < Msup ->
  (mi + 1) / 2 < h < (1 + Msup) / 2 ->
  nozzle_init newton st (Some a :: Some 1 :: Some s :: nil) None (Some (14/10)) (Some (Some n)) = (st', Some nz) ->
  nz_flow nz = Some (M, Pt, Ps) -> nth_error M 1 = Some None.
Proof.
  intros newton st a s n n0 nsw' Ms q h mi Msup st' nz M Pt Ps HN Ha Hs Hst E0 Esw Hn EMs Eq Eh Smi Hmi Ssup Hsup Hh HIn HF.
  set (sec := a :: 1 :: s :: nil).
  assert (Hne : sec <> nil) by discriminate.
  assert (Hpos : forall x, In x sec -> 0 < x) by (intros x [<-|[<-|[<-|[]]]]; lra).
  assert (Hmin : forall x, In x sec -> 1 <= x) by (intros x [<-|[<-|[<-|[]]]]; lra).
  assert (Hc : In 1 sec) by (right; now left).
  destruct (init_eval newton st sec (Some g0) (Some (Some n)) Hne Hpos) as (it & Hit & Hthr & Hc0 & Hm & HI).
  rewrite (amin_unique sec 1 Hne Hc Hmin) in *. specialize (HI None eq_refl).
  assert (it = 1)%nat.
  { destruct it as [|[|[|it]]]; cbn in Hthr, Hit; [lra|reflexivity|lra|lia]. } subst it.
  replace (last sec 0 / 1) with s in * by (cbn; lra).
  assert (Hn0 : 1 < n).
  { destruct (NPR_order newton s HN Hs) as (x & y & z & Ea & _ & _ & Hx & _). rewrite Ea in E0; injection E0 as <-. lra. }
  destruct (Ms_regimes newton s n HN Hs ltac:(lra)) as (m0 & M0 & nsw & E1 & E2 & Hm0 & HM0 & S1 & S2 & EN & F0 & Fsw & F1 & L & O & HRg).
  rewrite F0 in E0; injection E0 as <-. rewrite Fsw in Esw; injection Esw as <-.
  assert (HT : truthy (Some (Some n)) = true) by (cbn; destruct (Req_EM_T n 0); [lra|reflexivity]).
  rewrite HT in HI. cbv zeta in HI. change (map (@Some R) sec) with (Some a :: Some 1 :: Some s :: nil) in HI.
  rewrite HIn in HI. apply (f_equal snd) in HI; cbn [snd] in HI. symmetry in HI.
  unfold set_NPR, flow_at in HI. cbn [nz_AxoAc nz_gamma nz_lim nz_AsoAc nz_ithroat dg_gamma] in HI. rewrite L in HI; cbn [NPR0 NPRsw] in HI.
  rewrite (nlt_false n) in HI by lra. rewrite (nlt_true n) in HI by lra. cbn [nif] in HI.
  destruct (choked_arrays newton sec 1 1 g0 HN ltac:(lra) Hpos Hmin Hc0 Hit Hthr) as (HS & M1 & M2 & EA & EB & _ & LL & HM).
  { cbn; lra. }
  rewrite EA, EB in HI.
  destruct (HM 0%nat) as (x0 & X0 & P0 & G0 & B0 & _); [cbn; lia|].
  destruct (HM 1%nat) as (x1 & X1 & P1 & G1 & _ & _); [cbn; lia|].
  destruct (HM 2%nat) as (x2 & X2 & P2 & G2 & _ & B2); [cbn; lia|].
  cbn [nth sec] in G0, G1, G2. specialize (B0 ltac:(lia)). specialize (B2 ltac:(lia)).
  rewrite Sigma_eval in Smi, Ssup by lra. injection Smi as Smi. injection Ssup as Ssup.
  assert (x0 = mi).
  { destruct (Rtotal_order x0 mi) as [G|[G|G]]; [|assumption|].
    - pose proof (sig_decr g0 x0 mi ltac:(lra)); lra.
    - pose proof (sig_decr g0 mi x0 ltac:(lra)); lra. }
  assert (x1 = 1) by (apply (sig_sonic_unique g0); lra).
  assert (x2 = Msup).
  { destruct (Rtotal_order x2 Msup) as [G|[G|G]]; [|assumption|].
    - pose proof (sig_incr g0 x2 Msup ltac:(lra)); lra.
    - pose proof (sig_incr g0 Msup x2 ltac:(lra)); lra. }
  subst x0 x1 x2.
  assert (EMM : M1 ++ M2 = Some mi :: Some 1 :: Some Msup :: nil).
  { destruct (M1 ++ M2) as [|y0 [|y1 [|y2 [|y3 l]]]]; cbn in LL, X0, X1, X2; try discriminate. injection X0 as ->; injection X1 as ->; injection X2 as ->; reflexivity. }
  assert (LM1 : length M1 = 2%nat) by (apply SubArr_length in EA; exact EA).
  rewrite EMM in HI. rewrite Hst, EMs in HI. unfold dgamma in HI. rewrite Eq in HI. rewrite ndiv_Some in HI by lra. rewrite Eh in HI.
  assert (HMs : sig g0 Ms = s * (q / n) /\ 0 < Ms).
  { destruct (HRg (Some g0)) as (_ & R2 & _). rewrite R2 in EMs by lra.
    destruct (shocked_eval g0 s n ltac:(lra) ltac:(lra) ltac:(lra)) as (Ms' & EMs' & HMs' & EF).
    rewrite EMs' in EMs; injection EMs as <-. rewrite PtPs_eval in Eq by lra. injection Eq as <-.
    split; [apply (shocked_loss g0 s n Ms'); lra || assumption|assumption]. }
  destruct HMs as [SL HMs].
  assert (HL : 0 < q / n < 1).
  { rewrite PtPs_eval in Eq by lra. injection Eq as <-. split; [apply Rdiv_lt_0_compat; [apply Rpower_pos|lra]|].
    fold (pp g0 Ms) in *.
    destruct (HRg (Some g0)) as (_ & R2 & _). rewrite R2 in EMs by lra.
    destruct (shocked_eval g0 s n ltac:(lra) ltac:(lra) ltac:(lra)) as (Ms' & EMs' & HMs' & EF).
    rewrite EMs' in EMs; injection EMs as <-.
    destruct (shocked_between g0 s m0 M0 n Ms' ltac:(lra) Hm0 HM0 S1 S2 HMs' EF) as (C1 & C2 & _).
    specialize (C1 ltac:(lra)). specialize (C2 ltac:(lra)). pose proof (md_lt1 g0 M0 ltac:(lra) HM0).
    assert (Ms' <> m0).
    { intros ->. assert (pp g0 m0 = n).
      { rewrite S1 in SL. assert (pp g0 m0 / n = 1) by (apply (Rmult_eq_reg_l s); lra).
        apply (f_equal (fun z => z * n)) in H0. unfold Rdiv in H0; rewrite Rmult_assoc, Rinv_l in H0; lra. }
      lra. }
    assert (sig g0 Ms' < s) by (rewrite <- S1; apply sig_decr; lra).
    rewrite SL in H1. apply (Rmult_lt_reg_l s); lra. }
  assert (EAM : argmin (map (fun m => nabs (nsub m (Some h))) (Some mi :: Some 1 :: Some Msup :: nil)) = Some 1%nat).
  { cbn [map nsub nabs]. unfold argmin. cbn [all_some argmin_R].
    destruct (Rle_dec (Rabs (1 - h)) (Rabs (Msup - h))) as [Q|Q].
    - destruct (Rle_dec (Rabs (mi - h)) (Rabs (1 - h))) as [Q'|Q']; [exfalso|reflexivity].
      revert Q'. unfold Rabs. destruct (Rcase_abs (mi - h)), (Rcase_abs (1 - h)); lra.
    - exfalso; apply Q. unfold Rabs. destruct (Rcase_abs (1 - h)), (Rcase_abs (Msup - h)); lra. }
  rewrite EAM in HI. rewrite Sigma_eval in HI by lra. cbn [map skipn sec nmul] in HI.
  rewrite !ndiv_Some in HI by lra. cbn [MachSub_array] in HI. injection HI as HI. subst nz. cbn [nz_flow] in HF.
  injection HF as HF _ _. subst M. cbn [firstn app nth_error].
  replace (1 / 1 * sig g0 Ms / s) with (q / n) by (rewrite SL; field; lra).
  unfold Mach_Sigma_elt. rewrite guess_sub_none by lra. cbn [nle nif]. destruct HN as [_ HN]. now rewrite HN.
Qed.

(*@E C43_example: the section law (2, 1, 3/2, 2) meets the hypotheses on sections; with the ideal solver the unchoked and supersonic ranges are not empty *)
Lemma C43_example_lemma : let sec := 2 :: 1 :: 3/2 :: 2 :: nil in
  (forall a, In a sec -> 0 < a) /\ In 1 sec /\ (forall a, In a sec -> 1 <= a) /\ 1 < last sec 0 /\
  branch_solver (14/10) (ideal_newton (14/10)) /\
  exists n0 nsw, NPR_choked_subsonic (ideal_newton (14/10)) (Some (last sec 0 / 1)) = Some n0 /\
    NPR_shock_at_exit (ideal_newton (14/10)) (Some (last sec 0 / 1)) = Some nsw /\ 1 < (1 + n0) / 2 < n0 /\ n0 < nsw <= nsw + 1.
Proof.
  cbv zeta. pose proof (ideal_newton_branch g0 ltac:(lra)) as B.
  split; [intros a [<-|[<-|[<-|[<-|[]]]]]; lra|]. split; [right; now left|].
  split; [intros a [<-|[<-|[<-|[<-|[]]]]]; lra|]. split; [cbn; lra|]. split; [exact B|].
  destruct (NPR_order (ideal_newton g0) (last (2 :: 1 :: 3/2 :: 2 :: nil) 0 / 1) B ltac:(cbn; lra)) as (x & y & z & E1 & E2 & _ & H1 & H2 & _).
  exists x, y. repeat split; try assumption; lra.
Qed.

(** ** Side effects on the default gas (C44) *)
(*@P C44_default_unchanged: Building a nozzle, whatever its arguments and whether it succeeds or raises, leaves the default gamma and r as they were; so does set_NPR, which does not touch them at all. *)
Lemma init_default_gas : forall newton st sec AsoAc g NPR st' r,
  nozzle_init newton st sec AsoAc g NPR = (st', r) ->
  get_gamma st' = get_gamma st /\ get_r st' = get_r st.
Proof.
  intros newton st sec AsoAc g NPR st' r. unfold nozzle_init.
  destruct (argmin _); [|intros E; injection E as <- _; auto]. cbn [gas_step].
  match goal with |- context [if truthy NPR then ?a else ?b] => destruct (if truthy NPR then a else b) end;
    cbn [gas_step dg_saved]; intros E; injection E as <- _; auto.
Qed.
(*@P C44_saved_pair_refuted: The user's saved pair is overwritten: after any history, building a nozzle from any non-empty section of numbers replaces the saved pair by the current one, so a later restore_default() gives the pair current at construction, not the pair the user saved. *)
Lemma init_clobbers_saved : forall newton pre st sec AsoAc g NPR st' r, gas_run defgas0 pre = Some st ->
  argmin (map nabs (map (fun a => ndiv (nmul a (if truthy AsoAc then match AsoAc with Some a => a | None => None end
     else ndiv (alast sec) (amin sec))) (alast sec)) sec)) <> None ->
  nozzle_init newton st sec AsoAc g NPR = (st', r) ->
  exists st2, gas_step st' RestoreDefault = Some st2 /\ get_gamma st2 = get_gamma st /\ get_r st2 = get_r st /\
    dg_saved st' = Some (get_r st, get_gamma st).
Proof.
  intros newton pre st sec AsoAc g NPR st' r _ HA. unfold nozzle_init.
  destruct (argmin _); [|congruence]. cbn [gas_step].
  match goal with |- context [if truthy NPR then ?a else ?b] => destruct (if truthy NPR then a else b) end;
    cbn [gas_step dg_saved]; intros E; injection E as <- _; eexists; repeat split; reflexivity.
Qed.
(*@E C44_saved_pair_example: set_gamma(1.3), save, set_gamma(1.4), build a nozzle, restore: the user gets 1.4 instead of the saved 1.3 *)
Lemma clobber_example : exists st st' r st2,
  gas_run defgas0 (SetGamma (Some (13/10)) :: SaveDefault :: SetGamma (Some (14/10)) :: nil) = Some st /\
  nozzle_init (ideal_newton (14/10)) st (Some 2 :: Some 1 :: Some 2 :: nil) None (Some (14/10)) None = (st', r) /\
  gas_step st' RestoreDefault = Some st2 /\ get_gamma st2 = Some (14/10) /\
  (exists st3, gas_step st RestoreDefault = Some st3 /\ get_gamma st3 = Some (13/10)).
Proof.
  eexists. destruct (nozzle_init (ideal_newton (14/10)) (mk_defgas (Some (14/10)) dr (Some (dr, Some (13/10))) dgamma)
     (Some 2 :: Some 1 :: Some 2 :: nil) None (Some (14/10)) None) as [st' r] eqn:E.
  exists st', r.
  destruct (init_clobbers_saved (ideal_newton (14/10)) (SetGamma (Some (13/10)) :: SaveDefault :: SetGamma (Some (14/10)) :: nil)
    (mk_defgas (Some (14/10)) dr (Some (dr, Some (13/10))) dgamma) (Some 2 :: Some 1 :: Some 2 :: nil) None (Some (14/10)) None st' r eq_refl)
    as (st2 & H1 & H2 & _); [|exact E|].
  - cbn [truthy map alast last]. unfold amin, argmin. cbn [all_some argmin_R].
    destruct (Rle_dec 1 2); [|lra]. destruct (Rle_dec 2 1); [lra|]. rewrite !ndiv_Some by lra. cbn [nmul]. rewrite !ndiv_Some by lra.
    cbn [nabs all_some argmin_R]. repeat destruct (Rle_dec _ _); discriminate.
  - exists st2. split; [reflexivity|]. split; [exact E|]. split; [exact H1|]. split; [exact H2|]. eexists; split; reflexivity.
Qed.

(*@P C44_gamma_ignored_limits_refuted: The three limit pressure ratios and the limit Mach numbers stored in a nozzle do not depend on its gamma argument. *)
Lemma limits_ignore_gamma : forall newton st sec AsoAc g1 g2 st1 st2 n1 n2,
  nozzle_init newton st sec AsoAc g1 None = (st1, Some n1) ->
  nozzle_init newton st sec AsoAc g2 None = (st2, Some n2) -> nz_lim n1 = nz_lim n2.
Proof.
  intros newton st sec AsoAc g1 g2 st1 st2 n1 n2. unfold nozzle_init.
  destruct (argmin _); [|discriminate]. cbn [gas_step truthy dg_saved].
  intros E1 E2; injection E1 as _ <-; injection E2 as _ <-. reflexivity.
Qed.
Lemma critical_ratio_incr g h : 1 < g -> g < h -> pp g 1 < pp h 1.
Proof.
  intros Hg Hgh. unfold pp, Rpower. apply exp_increasing. rewrite !sonic_tt by lra.
  apply strict_incr with (f := fun g => g / (g - 1) * ln ((g + 1) / 2))
    (f' := fun g => g / ((g - 1) * (g + 1)) - ln ((g + 1) / 2) / (g - 1) ^ 2); [assumption| |].
  - intros x Hx. auto_derive; [repeat split; lra|].
    replace ((x + 1) * / 2) with ((x + 1) / 2) by reflexivity. set (l := ln _). field. repeat split; lra.
  - intros x Hx. cbv beta.
    assert (LN : ln ((x + 1) / 2) < (x - 1) / 2).
    { assert (EX : 1 + (x - 1) / 2 < exp ((x - 1) / 2)) by (apply exp_ineq1; lra).
      replace (1 + (x - 1) / 2) with ((x + 1) / 2) in EX by field.
      apply ln_increasing in EX; [|lra]. now rewrite ln_exp in EX. }
    apply (Rmult_lt_reg_r ((x - 1) ^ 2 * (x + 1))); [pos|].
    replace (0 * ((x - 1) ^ 2 * (x + 1))) with 0 by ring.
    replace ((x / ((x - 1) * (x + 1)) - ln ((x + 1) / 2) / (x - 1) ^ 2) * ((x - 1) ^ 2 * (x + 1)))
      with (x * (x - 1) - ln ((x + 1) / 2) * (x + 1)) by (field; lra).
    assert (ln ((x + 1) / 2) * (x + 1) < (x - 1) / 2 * (x + 1)) by (apply Rmult_lt_compat_r; lra). nra.
Qed.
(*@P C44_gamma_ignored_throat_refuted: In the choked regimes without shock the static pressure at the throat is computed with gamma = 1.4 whatever the gamma of the nozzle: for every gamma in (1, 1.4) it differs from the static pressure Pt/PtPs(1, gamma) of the sonic flow of that gas. *)
Lemma throat_ignores_gamma : forall newton st sec c g n nsw, branch_solver (14/10) newton -> branch_solver g newton ->
  1 < g < 14/10 ->
  (forall a, In a sec -> 0 < a) -> In c sec -> (forall a, In a sec -> c <= a) -> c < last sec 0 ->
  NPR_shock_at_exit newton (Some (last sec 0 / c)) = Some nsw -> nsw <= n ->
  exists st' nz M Pt Ps k q, nozzle_init newton st (map (@Some R) sec) None (Some g) (Some (Some n)) = (st', Some nz) /\
    nz_flow nz = Some (M, Pt, Ps) /\ nth k sec 0 = c /\ nth_error M k = Some (Some 1) /\ nth_error Pt k = Some (Some 1) /\
    PtPs_Mach (Some 1) (Some g) = Some q /\ exists ps, nth_error Ps k = Some (Some ps) /\ ps < 1 / q.
Proof.
  intros newton st sec c g n nsw' HN HNg Hg Hpos Hc Hmin Hlast Esw Hn.
  assert (Hne : sec <> nil) by (intros ->; destruct Hc).
  destruct (init_eval newton st sec (Some g) (Some (Some n)) Hne Hpos) as (it & Hit & Hthr & Hc0 & Hm & HI).
  rewrite (amin_unique sec c Hne Hc Hmin) in *. specialize (HI None eq_refl).
  set (s := last sec 0 / c) in *. assert (Hs : 1 < s) by (now apply ratio_gt1).
  destruct (lims newton s HN Hs) as (m0 & M0 & E1 & E2 & Hm0 & HM0 & S1 & S2 & L).
  destruct (limits_order g0 m0 M0 s ltac:(lra) Hm0 HM0 S1 S2) as (_ & O1 & O2 & _).
  destruct (NPR_list newton (Some s)) as (_ & L2 & _). rewrite <- L2, L in Esw. cbn [NPRsw] in Esw. injection Esw as <-.
  assert (HT : truthy (Some (Some n)) = true) by (cbn; destruct (Req_EM_T n 0); [lra|reflexivity]).
  rewrite HT in HI. cbv zeta in HI.
  unfold set_NPR, flow_at in HI. cbn [nz_AxoAc nz_gamma nz_lim nz_AsoAc nz_ithroat] in HI. rewrite L in HI; cbn [NPR0 NPRsw] in HI.
  rewrite !nlt_false in HI by lra. cbn [nif] in HI.
  destruct (choked_arrays newton sec c it g HNg ltac:(lra) Hpos Hmin Hc0 Hit Hthr Hlast) as (HS & M1 & M2 & EA & EB & _ & LL & HM).
  rewrite EA, EB in HI.
  do 5 eexists. exists it, (pp g 1). split; [exact HI|]. cbn [nz_flow]. split; [reflexivity|]. split; [assumption|].
  destruct (HM it Hit) as (m & Em & Hm' & Sm & Hsub & _).
  assert (m = 1). { apply (sig_sonic_unique g); try lra. rewrite Sm, Hthr. field; lra. } subst m.
  assert (HPt : nth_error (@map num num (fun _ => Some 1) (@map R num (fun a => Some (a / c)) sec)) it = Some (Some 1)).
  { rewrite map_map. now rewrite nth_error_map_some. }
  split; [exact Em|]. split; [exact HPt|]. split; [now rewrite PtPs_eval by lra|].
  exists (1 / pp g0 1). pose proof (pp_pos g0 1). pose proof (pp_pos g 1). split.
  - erewrite nth_combine_map; [|exact HPt|exact Em]. cbn [fst snd]. unfold dgamma. rewrite PtPs_eval by lra. fold (pp g0 1).
    now rewrite ndiv_Some by lra.
  - pose proof (critical_ratio_incr g g0 ltac:(lra) ltac:(lra)). unfold Rdiv. rewrite !Rmult_1_l.
    apply Rinv_lt_contravar; [apply Rmult_lt_0_compat; assumption|assumption].
Qed.

(** a solver for two gases at once: it recognises the gas from the residual at Mach 2 *)
Definition two_gas_newton (g h : R) : solver := fun f x0 =>
  match f (Some 1), f (Some 2) with
  | Some e1, Some e2 => if Req_EM_T (e2 - e1) (sig g 2 - 1) then ideal_newton g f x0 else ideal_newton h f x0
  | _, _ => None end.
Lemma two_gas_branch g h : 1 < g -> 1 < h -> sig g 2 <> sig h 2 ->
  branch_solver g (two_gas_newton g h) /\ branch_solver h (two_gas_newton g h).
Proof.
  intros Hg Hh Hne.
  assert (EV : forall k s, 1 < k -> nsub (Sigma_Mach (Some 1) (Some k)) (Some s) = Some (1 - s) /\
     nsub (Sigma_Mach (Some 2) (Some k)) (Some s) = Some (sig k 2 - s)).
  { intros k s Hk. rewrite !Sigma_eval, sig_1 by lra. split; reflexivity. }
  split; split.
  - intros s x0 Hs Hx. unfold two_gas_newton. destruct (EV g s Hg) as [-> ->].
    destruct (Req_EM_T _ _) as [_|N]; [now apply (ideal_newton_branch g Hg)|exfalso; apply N; lra].
  - intros f. unfold two_gas_newton. destruct (f (Some 1)), (f (Some 2)); try reflexivity. destruct (Req_EM_T _ _); reflexivity.
  - intros s x0 Hs Hx. unfold two_gas_newton. destruct (EV h s Hh) as [-> ->].
    destruct (Req_EM_T _ _) as [Q|_]; [exfalso; apply Hne; lra|now apply (ideal_newton_branch h Hh)].
  - intros f. unfold two_gas_newton. destruct (f (Some 1)), (f (Some 2)); try reflexivity. destruct (Req_EM_T _ _); reflexivity.
Qed.
(*@E C44_two_gases_example: a root finder meeting the contract for gamma = 4/3 and gamma = 1.4 at the same time exists *)
Lemma two_gas_example : exists newton, branch_solver (4/3) newton /\ branch_solver (14/10) newton /\ 1 < 4/3 < 14/10.
Proof.
  exists (two_gas_newton (4/3) (14/10)).
  destruct (two_gas_branch (4/3) (14/10)) as [A B]; [lra|lra| |split; [exact A|split; [exact B|lra]]].
  rewrite !sig_form by lra. unfold sexp, tt.
  replace (1 / 2 * (4 / 3 + 1) / (4 / 3 - 1)) with (7 / 2) by field.
  replace (1 / 2 * (14 / 10 + 1) / (14 / 10 - 1)) with (INR 3) by (simpl; field).
  replace (2 / (4 / 3 + 1) * (1 + 1 / 2 * (4 / 3 - 1) * 2 ^ 2)) with (10/7) by field.
  replace (2 / (14 / 10 + 1) * (1 + 1 / 2 * (14 / 10 - 1) * 2 ^ 2)) with (3/2) by field.
  rewrite Rpower_pow by lra. intros E. assert (E' : Rpower (10/7) (7/2) = 27/8) by lra.
  apply (f_equal (fun z => z * z)) in E'. rewrite <- Rpower_plus in E'.
  replace (7/2 + 7/2) with (INR 7) in E' by (simpl; lra). rewrite Rpower_pow in E' by lra. lra.
Qed.
