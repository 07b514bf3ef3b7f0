(** * C117: the engine cycles do not depend on the units *)
From Coq Require Import String List ZArith FunctionalExtensionality Lra Lia Psatz.
From Verif Require Import Num L_Num M_Isentropic M_Obj M_Engine M_Cycle L_Cycle2 UnitsSpec.
Import ListNotations.
Open Scope R_scope.

Definition dadd (a b : dim) : dim := Dim (d_m a + d_m b) (d_p a + d_p b) (d_t a + d_t b) (d_v a + d_v b).
Definition dopp (a : dim) : dim := Dim (- d_m a) (- d_p a) (- d_t a) (- d_v a).
Definition dhalf (a : dim) : dim := Dim (d_m a / 2) (d_p a / 2) (d_t a / 2) (d_v a / 2).
Fixpoint dmul (n : nat) (a : dim) : dim := match n with O => pure | S n => dadd a (dmul n a) end.

Lemma sign_le h x : 0 < h -> (0 <= h * h * x <-> 0 <= x).
Proof. intro P. assert (HH : 0 < h * h) by (now apply Rmult_lt_0_compat). split; intro A; [|apply Rmult_le_pos; lra]. apply Rmult_le_reg_l with (h * h); lra. Qed.
Lemma sign_lt h x : 0 < h -> (0 < h * h * x <-> 0 < x).
Proof. intro P. assert (HH : 0 < h * h) by (now apply Rmult_lt_0_compat). split; intro A; [|now apply Rmult_lt_0_compat]. apply Rmult_lt_reg_l with (h * h); lra. Qed.
Section U.
Variable u : units.
Hypothesis Hu : proper u.
Let k := factor u.
Lemma k_pos d : 0 < k d.
Proof. destruct Hu as (A & B & C & D). unfold k, factor. repeat apply Rmult_lt_0_compat; now apply powerRZ_lt. Qed.
Lemma k_add a b : k (dadd a b) = k a * k b.
Proof.
  destruct Hu as (A & B & C & D). unfold k, factor, dadd. cbn [d_m d_p d_t d_v]. rewrite !powerRZ_add by lra. ring.
Qed.
Lemma k_pure : k pure = 1.
Proof. unfold k, factor. cbn. ring. Qed.
Lemma k_opp a : k (dopp a) = / k a.
Proof.
  assert (E : k (dopp a) * k a = 1) by (rewrite <- k_add, <- k_pure; f_equal; unfold dadd, dopp, pure; cbn; f_equal; lia).
  assert (P := k_pos a). apply Rmult_eq_reg_r with (k a); [|lra]. rewrite E, Rinv_l; lra.
Qed.
Lemma k_mul n a : k (dmul n a) = k a ^ n.
Proof. induction n as [|n IH]; cbn [dmul pow]; [apply k_pure|]. now rewrite k_add, IH. Qed.
Lemma k_half a : a = dadd (dhalf a) (dhalf a) -> k a = k (dhalf a) * k (dhalf a).
Proof. intro E. rewrite E at 1. apply k_add. Qed.
Let c (d : dim) (x : num) : num := nmul (Some (k d)) x.
Lemma c_pure x : c pure x = x.
Proof. unfold c. rewrite k_pure. destruct x as [x|]; [|reflexivity]. cbn. f_equal. ring. Qed.
Lemma c_add d x y : nadd (c d x) (c d y) = c d (nadd x y).
Proof. destruct x, y; try reflexivity. cbn. f_equal. ring. Qed.
Lemma c_sub d x y : nsub (c d x) (c d y) = c d (nsub x y).
Proof. destruct x, y; try reflexivity. cbn. f_equal. ring. Qed.
Lemma c_opp d x : nopp (c d x) = c d (nopp x).
Proof. destruct x; try reflexivity. cbn. f_equal. ring. Qed.
Lemma c_mul a b x y : nmul (c a x) (c b y) = c (dadd a b) (nmul x y).
Proof. destruct x, y; try reflexivity. unfold c. rewrite k_add. cbn. f_equal. ring. Qed.
Lemma c_div a b x y : ndiv (c a x) (c b y) = c (dadd a (dopp b)) (ndiv x y).
Proof.
  destruct x as [x|], y as [y|]; try reflexivity. unfold c. rewrite k_add, k_opp. cbn [nmul ndiv]. assert (P := k_pos b).
  destruct (Req_EM_T (k b * y) 0) as [Z|Z], (Req_EM_T y 0) as [W|W].
  - reflexivity.
  - exfalso. apply Rmult_integral in Z. lra.
  - exfalso. apply Z. rewrite W. ring.
  - cbn [nmul]. apply (f_equal (@Some R)). field. lra.
Qed.
Lemma c_powi n d x : npowi (c d x) n = c (dmul n d) (npowi x n).
Proof. destruct x as [x|]; [|reflexivity]. unfold c. rewrite k_mul. cbn [nmul npowi]. f_equal. apply Rpow_mult_distr. Qed.
Lemma c_max d x y : nmax (c d x) (c d y) = c d (nmax x y).
Proof.
  destruct x as [x|], y as [y|]; try reflexivity. cbn. f_equal. assert (P := k_pos d). apply RmaxRmult. lra.
Qed.
Lemma c_sqrt d x : d = dadd (dhalf d) (dhalf d) -> nsqrt (c d x) = c (dhalf d) (nsqrt x).
Proof.
  intro E. destruct x as [x|]; [|reflexivity]. unfold c. rewrite (k_half d E). cbn [nmul nsqrt]. assert (P := k_pos (dhalf d)). set (h := k (dhalf d)) in *.
  destruct (Rle_dec 0 (h * h * x)) as [A|A], (Rle_dec 0 x) as [B|B].
  - cbn [nmul]. apply (f_equal (@Some R)). rewrite sqrt_mult; [|apply Rmult_le_pos; lra|lra]. rewrite sqrt_square by lra. reflexivity.
  - exfalso. now apply B, (sign_le h x P).
  - exfalso. now apply A, (sign_le h x P).
  - reflexivity.
Qed.
Lemma half_not_int : 1 / 2 <> IZR (Int_part (1 / 2)).
Proof. intro E. assert (2 * IZR (Int_part (1 / 2)) = 1) by lra. rewrite <- mult_IZR in H. apply (eq_IZR _ 1) in H. lia. Qed.
Lemma c_rpow d x : d = dadd (dhalf d) (dhalf d) -> npow (c d x) (Some (1 / 2)) = c (dhalf d) (npow x (Some (1 / 2))).
Proof.
  intro E. destruct x as [x|]; [|reflexivity]. unfold c. rewrite (k_half d E). cbn [nmul npow]. assert (P := k_pos (dhalf d)). set (h := k (dhalf d)) in *.
  assert (HH : 0 < h * h) by nra.
  destruct (Rlt_dec 0 (h * h * x)) as [A|A], (Rlt_dec 0 x) as [B|B].
  - cbn [nmul]. apply (f_equal (@Some R)). replace (1 / 2) with (/ 2) by lra. rewrite !Rpower_sqrt by assumption. rewrite sqrt_mult by lra. rewrite sqrt_square by lra. reflexivity.
  - exfalso. now apply B, (sign_lt h x P).
  - exfalso. now apply A, (sign_lt h x P).
  - destruct (Req_EM_T (h * h * x) 0) as [C|C], (Req_EM_T x 0) as [D|D].
    + destruct (Rlt_dec 0 (1 / 2)); [cbn [nmul]; f_equal; ring|lra].
    + exfalso. apply Rmult_integral in C. lra.
    + exfalso. apply C. rewrite D. ring.
    + destruct (Req_EM_T (1 / 2) (IZR (Int_part (1 / 2)))) as [I|I]; [now apply half_not_int in I|reflexivity].
Qed.
Lemma c_velocity M T r g : Velocity_MachTi M (c temperature T) (c heat_capacity r) g = c velocity (Velocity_MachTi M T r g).
Proof.
  unfold Velocity_MachTi, Velocity_MachTt. rewrite <- (c_pure g) at 1. rewrite <- (c_pure (TtTs_Mach M g)) at 1. rewrite !c_mul, c_div, c_sqrt by reflexivity.
  rewrite <- (c_pure M) at 1. now rewrite c_mul.
Qed.

(** dimension of an expression *)
Inductive typed : expr -> dim -> Prop :=
| t_V a : typed (V a) (dimension a)
| t_L v : typed (L v) pure
| t_add e f d d' : typed e d -> typed f d' -> d' = d -> typed (F2 nadd e f) d
| t_sub e f d d' : typed e d -> typed f d' -> d' = d -> typed (F2 nsub e f) d
| t_max e f d d' : typed e d -> typed f d' -> d' = d -> typed (F2 nmax e f) d
| t_mul e f d d' : typed e d -> typed f d' -> typed (F2 nmul e f) (dadd d d')
| t_div e f d d' : typed e d -> typed f d' -> typed (F2 ndiv e f) (dadd d (dopp d'))
| t_opp e d : typed e d -> typed (F1 nopp e) d
| t_powi e d n : typed e d -> typed (F1 (fun x => npowi x n) e) (dmul n d)
| t_sqrt e d : typed e d -> d = dadd (dhalf d) (dhalf d) -> typed (F1 nsqrt e) (dhalf d)
| t_rpow e d : typed e d -> d = dadd (dhalf d) (dhalf d) -> typed (F2 npow e (L (Some (1 / 2)))) (dhalf d)
| t_fun2 g e f d d' : typed e d -> d = pure -> typed f d' -> d' = pure -> typed (F2 g e f) pure
| t_velocity e1 e2 e3 e4 d1 d2 d3 d4 : typed e1 d1 -> d1 = pure -> typed e2 d2 -> d2 = temperature -> typed e3 d3 -> d3 = heat_capacity -> typed e4 d4 -> d4 = pure ->
    typed (F4 Velocity_MachTi e1 e2 e3 e4) velocity
| t_void e1 e2 e3 e4 d1 d2 d3 d4 : typed e1 d1 -> typed e2 d2 -> typed e3 d3 -> typed e4 d4 -> typed (F4 (fun _ _ _ _ => None) e1 e2 e3 e4) pure.
Lemma eval_typed o e d : typed e d -> eval (rescale u o) e = option_map (convert u d) (eval o e).
Proof.
  change (convert u) with c.
  intro T. induction T; subst; cbn [eval];
    repeat match goal with IH : eval (rescale u o) ?e = _ |- _ => rewrite IH; clear IH end;
    repeat match goal with |- context [match eval o ?e with Some _ => _ | None => _ end] => destruct (eval o e); cbn [option_map] end; try reflexivity; f_equal; rewrite ?c_pure;
    auto using c_add, c_sub, c_max, c_mul, c_div, c_opp, c_powi, c_sqrt, c_rpow, c_velocity.
  cbn [option_map]. now rewrite c_pure.
Qed.
Definition typed_prog (p : prog) : Prop := List.Forall (fun s => exists d, typed (snd s) d /\ d = dimension (fst s)) p.
Lemma rescale_upd a v o : rescale u (upd a v o) = upd a (c (dimension a) v) (rescale u o).
Proof. extensionality b. unfold rescale, upd. destruct (String.eqb_spec b a) as [->|]; reflexivity. Qed.
Lemma run_typed p : typed_prog p -> forall o, run p (rescale u o) = option_map (rescale u) (run p o).
Proof.
  intro T. induction T as [|[a e] p (d & Td & ->) Tp IH]; intro o; cbn [run]; [reflexivity|]. cbn [fst snd] in *.
  rewrite (eval_typed o e _ Td). destruct (eval o e) as [v|]; cbn [option_map]; [|reflexivity]. rewrite <- IH. f_equal. symmetry. apply rescale_upd.
Qed.
End U.

Ltac ty1 :=
  match goal with
  | |- typed (V _) _ => apply t_V
  | |- typed (L _) _ => apply t_L
  | |- typed (F2 nadd _ _) _ => eapply t_add; [ty1|ty1|reflexivity]
  | |- typed (F2 nsub _ _) _ => eapply t_sub; [ty1|ty1|reflexivity]
  | |- typed (F2 nmax _ _) _ => eapply t_max; [ty1|ty1|reflexivity]
  | |- typed (F2 nmul _ _) _ => eapply t_mul; ty1
  | |- typed (F2 ndiv _ _) _ => eapply t_div; ty1
  | |- typed (F1 nopp _) _ => eapply t_opp; ty1
  | |- typed (F1 nsqrt _) _ => eapply t_sqrt; [ty1|reflexivity]
  | |- typed (F1 (fun x => npowi x _) _) _ => eapply t_powi; ty1
  | |- typed (F2 npow _ (L (Some (1 / 2)))) _ => eapply t_rpow; [ty1|reflexivity]
  | |- typed (F2 _ _ _) _ => eapply t_fun2; [ty1|reflexivity|ty1|reflexivity]
  | |- typed (F4 Velocity_MachTi _ _ _ _) _ => eapply t_velocity; [ty1|reflexivity|ty1|reflexivity|ty1|reflexivity|ty1|reflexivity]
  | |- typed (F4 _ _ _ _ _) _ => eapply t_void; ty1
  | |- typed ?e _ => let h := eval red in e in change e with h; ty1
  end.
Ltac ty := eexists; split; [ty1|reflexivity].
Lemma gg_typed : typed_prog gg_update.
Proof. unfold gg_update. repeat constructor; cbn [fst snd]; cbv zeta; ty. Qed.
Ltac types := repeat constructor; cbn [fst snd]; cbv zeta; unfold cp_cold, cp_hot, one, two, np_root, half_power, get_cp; ty.
Lemma typed_app p q : typed_prog p -> typed_prog q -> typed_prog (p ++ q)%list.
Proof. intros. apply Forall_app. now split. Qed.
Lemma tj_typed : typed_prog tj_update.
Proof. apply typed_app; [apply gg_typed|]. types. Qed.
Lemma tf_typed : typed_prog tf_update.
Proof. apply typed_app; [apply tj_typed|]. unfold Wsp_mono. types. Qed.

Definition stage_typed (s : stage) : Prop := typed_prog (code s).
Lemma fixe_typed : List.Forall (List.Forall (fun b => List.Forall stage_typed (snd b))) fixe_methods.
Proof.
  assert (A : stage_typed InitialValues) by (unfold stage_typed; cbn [code InitialValues]; types).
  assert (B : stage_typed stage_2) by (unfold stage_typed; cbn [code stage_2]; types).
  assert (C : stage_typed stage_3) by (unfold stage_typed; cbn [code stage_3]; types).
  assert (D : stage_typed stage_4) by (unfold stage_typed; cbn [code stage_4]; types).
  assert (E : stage_typed fixe_stage_13) by (unfold stage_typed; cbn [code fixe_stage_13]; types).
  assert (F : stage_typed stage_19) by (unfold stage_typed; cbn [code stage_19]; types).
  assert (G : stage_typed fixe_stage_5) by (unfold stage_typed; cbn [code fixe_stage_5]; types).
  assert (H : stage_typed fixe_stage_9) by (unfold stage_typed; cbn [code fixe_stage_9]; unfold core_nozzle; types).
  assert (I : stage_typed perfo) by (unfold stage_typed; cbn [code perfo]; unfold delta_E, Qf; types).
  unfold fixe_methods, calculs_1_to_4, fixe_5_to_9, prim. repeat (assumption || apply Forall_nil || (apply Forall_cons; cbn [snd])).
Qed.
Lemma calc_typed : List.Forall (List.Forall (fun b => List.Forall stage_typed (snd b))) calc_methods.
Proof.
  assert (A : stage_typed InitialValues) by (unfold stage_typed; cbn [code InitialValues]; types).
  assert (B : stage_typed stage_2) by (unfold stage_typed; cbn [code stage_2]; types).
  assert (C : stage_typed stage_3) by (unfold stage_typed; cbn [code stage_3]; types).
  assert (D : stage_typed stage_4) by (unfold stage_typed; cbn [code stage_4]; types).
  assert (E : stage_typed calc_stage_4_etoile) by (unfold stage_typed; cbn [code calc_stage_4_etoile]; types).
  assert (F : stage_typed stage_19) by (unfold stage_typed; cbn [code stage_19]; types).
  assert (G : stage_typed calc_stage_5) by (unfold stage_typed; cbn [code calc_stage_5]; unfold w_uf_theo, T5; types).
  assert (H : stage_typed calc_stage_9) by (unfold stage_typed; cbn [code calc_stage_9]; unfold core_nozzle; types).
  assert (J : stage_typed calc_stage_13) by (unfold stage_typed; cbn [code calc_stage_13]; types).
  assert (I : stage_typed perfo) by (unfold stage_typed; cbn [code perfo]; unfold delta_E, Qf; types).
  unfold calc_methods, calculs_1_to_4, calc_5_to_9, prim. repeat (assumption || apply Forall_nil || (apply Forall_cons; cbn [snd])).
Qed.
Lemma inlet_typed root : (root = half_power \/ root = np_root) -> typed_prog (script_inlet root).
Proof. intros [-> | ->]; unfold script_inlet, np_root, half_power; types. Qed.
Lemma core_typed : typed_prog script_core.
Proof. unfold script_core. types. Qed.
Lemma nozzle_typed root : (root = half_power \/ root = np_root) -> typed_prog (script_core_nozzle root).
Proof. intros [-> | ->]; unfold script_core_nozzle, np_root, half_power; types. Qed.
Lemma fan_typed root p t : (root = half_power \/ root = np_root) -> dimension p = pressure -> dimension t = temperature -> typed_prog (script_fan_nozzle root p t).
Proof.
  intros R P T. unfold script_fan_nozzle. constructor; [exists pressure; split; [|reflexivity]|constructor; [exists temperature; split; [|reflexivity]|]].
  - cbn [snd]. replace pressure with (dadd pressure pure) by reflexivity. constructor; [rewrite <- P; constructor|apply (t_V "xi_tuy"%string)].
  - cbn [snd]. rewrite <- T. constructor.
  - destruct R as [-> | ->]; unfold np_root, half_power; types.
Qed.
Lemma perfo_typed : typed_prog script_perfo.
Proof. unfold script_perfo. types. Qed.
Lemma scripts_typed : typed_prog propu_be_body /\ typed_prog double_corps_body /\ typed_prog tau_optimum_body.
Proof.
  unfold propu_be_body, double_corps_body, tau_optimum_body.
  split; [|split]; repeat apply typed_app; try (apply inlet_typed || apply nozzle_typed || apply fan_typed); try apply core_typed; try apply perfo_typed; try reflexivity; try (now left); try (now right); types.
Qed.

Section Calls.
Variable u : units.
Hypothesis Hu : proper u.
Let rs := on_attrs (rescale u).
Lemma call_typed s c : stage_typed s -> call s (rs c) = option_map rs (call s c).
Proof.
  intro T. unfold call, rs, on_attrs. cbn [attrs corps fan]. destruct (guard s (corps c) (fan c)); [|reflexivity].
  rewrite (run_typed u Hu _ T). destruct (run (code s) (attrs c)); reflexivity.
Qed.
Lemma calls_typed l : List.Forall stage_typed l -> forall c, calls l (rs c) = option_map rs (calls l c).
Proof.
  intro T. induction T as [|s l Ts Tl IH]; intro c; cbn [calls]; [reflexivity|]. rewrite call_typed by assumption. destruct (call s c); cbn [option_map]; [apply IH|reflexivity].
Qed.
Lemma exec_typed m : List.Forall (fun b => List.Forall stage_typed (snd b)) m -> forall c, exec m (rs c) = option_map rs (exec m c).
Proof.
  intro T. induction T as [|[g l] m Ts Tl IH]; intro c; cbn [exec]; [reflexivity|]. cbn [snd] in Ts. cbn [rs on_attrs corps fan].
  destruct (g (corps c) (fan c)); [|apply IH]. fold (on_attrs (rescale u) c). fold rs. rewrite calls_typed by assumption. destruct (calls l c); cbn [option_map]; [apply IH|reflexivity].
Qed.
Lemma history_typed ms : List.Forall (List.Forall (fun b => List.Forall stage_typed (snd b))) ms -> forall h, List.Forall (fun m => In m ms) h ->
  forall c, history h (rs c) = option_map rs (history h c).
Proof.
  intros T h H. induction H as [|m h Hm Hh IH]; intro c; cbn [history]; [reflexivity|]. rewrite exec_typed by (rewrite Forall_forall in T; now apply T).
  destruct (exec m c); cbn [option_map]; [apply IH|reflexivity].
Qed.
End Calls.

(*@P C117_units: Gas generators, turbojets and turbofans do not depend on the units of pressure, temperature and velocity: for every change of units and every object, whatever it holds (missing or undefined attributes included), update on the object expressed in the new units fails when it fails in the old ones, and otherwise gives the old result expressed in the new units; the readings (thrust, specific energies, efficiencies, consumption) change like their dimensions. *)
Lemma units_update : forall u o, proper u ->
  run gg_update (rescale u o) = option_map (rescale u) (run gg_update o) /\
  run tj_update (rescale u o) = option_map (rescale u) (run tj_update o) /\
  run tf_update (rescale u o) = option_map (rescale u) (run tf_update o) /\
  eval (rescale u o) gg_thermal_efficiency = eval o gg_thermal_efficiency /\
  (forall W N, (W, N) = (tj_Wsp_kinEn, tj_norm_thrust) \/ (W, N) = (tf_Wsp_kinEn, tf_norm_thrust) ->
   eval (rescale u o) N = option_map (convert u velocity) (eval o N) /\ eval (rescale u o) W = option_map (convert u energy) (eval o W) /\
   eval (rescale u o) (thermal_efficiency W) = eval o (thermal_efficiency W) /\
   eval (rescale u o) (propulsive_efficiency W N) = eval o (propulsive_efficiency W N) /\
   eval (rescale u o) (thermoprop_efficiency N) = eval o (thermoprop_efficiency N) /\
   eval (rescale u o) (Sfc N) = option_map (convert u consumption) (eval o (Sfc N))).
Proof.
  intros u o Hu. split; [now apply run_typed; [|apply gg_typed]|]. split; [now apply run_typed; [|apply tj_typed]|]. split; [now apply run_typed; [|apply tf_typed]|].
  assert (K : forall e, typed e pure -> eval (rescale u o) e = eval o e).
  { intros e T. rewrite (eval_typed u Hu o e _ T). destruct (eval o e); [|reflexivity]. cbn [option_map]. f_equal. apply (c_pure u). }
  assert (Q : forall e d, (exists d', typed e d' /\ d' = d) -> typed e d) by (intros e d (d' & T & <-); exact T).
  split.
  - apply K, Q. unfold gg_thermal_efficiency, Wsp_TBP_ideal, Wsp_cc, one. cbv zeta. ty.
  - intros W N [E|E]; injection E as -> ->; repeat split;
      try (apply (eval_typed u Hu), Q; unfold tj_Wsp_kinEn, tj_norm_thrust, tf_Wsp_kinEn, tf_norm_thrust, Sfc, one; ty);
      apply K, Q; unfold thermal_efficiency, propulsive_efficiency, thermoprop_efficiency, Wsp_cc, tj_Wsp_kinEn, tj_norm_thrust, tf_Wsp_kinEn, tf_norm_thrust, one; ty.
Qed.
(*@P C117_classes: The same for the two-flow turbojet classes and every sequence of their methods from every object, and for the three script functions: the units of mass flow, pressure, temperature and velocity do not matter. *)
Lemma units_classes : forall u, proper u ->
  (forall h c, List.Forall (fun m => In m fixe_methods) h \/ List.Forall (fun m => In m calc_methods) h ->
   history h (on_attrs (rescale u) c) = option_map (on_attrs (rescale u)) (history h c)) /\
  (forall o, run propu_be_body (rescale u o) = option_map (rescale u) (run propu_be_body o) /\
   run double_corps_body (rescale u o) = option_map (rescale u) (run double_corps_body o) /\
   run tau_optimum_body (rescale u o) = option_map (rescale u) (run tau_optimum_body o)).
Proof.
  intros u Hu. split.
  - intros h c [H|H]; [exact (history_typed u Hu _ fixe_typed h H c)|exact (history_typed u Hu _ calc_typed h H c)].
  - intro o. destruct scripts_typed as (A & B & C). repeat split; now apply run_typed.
Qed.

(** ** literals: the same assignments with the values converted *)
Section Lits.
Variable u : units.
Hypothesis Hu : proper u.
Definition lits (p p' : prog) : Prop :=
  Forall2 (fun s s' => fst s' = fst s /\ exists v, snd s = L v /\ snd s' = L (convert u (dimension (fst s)) v)) p p'.
Lemma run_lits p p' : lits p p' -> forall o, run p' (rescale u o) = option_map (rescale u) (run p o).
Proof.
  intro H. induction H as [|[a e] [a' e'] p p' (Ea & v & Ev & Ev') Hp IH]; intro o; cbn [run]; [reflexivity|]. cbn [fst snd] in *. subst. cbn [eval].
  rewrite <- IH. f_equal. symmetry. apply rescale_upd.
Qed.
Lemma run_app p q o : run (p ++ q)%list o = match run p o with Some o => run q o | None => None end.
Proof. revert o. induction p as [|[a e] p IH]; intro o; cbn [run app]; [reflexivity|]. destruct (eval o e); [apply IH|reflexivity]. Qed.
Lemma run_lits_typed p p' q : lits p p' -> typed_prog q -> run (p' ++ q)%list empty_obj = option_map (rescale u) (run (p ++ q)%list empty_obj).
Proof.
  intros H T. rewrite !run_app. change empty_obj with (rescale u empty_obj) at 1. rewrite (run_lits _ _ H). destruct (run p empty_obj) as [o|]; cbn [option_map]; [|reflexivity].
  now apply run_typed.
Qed.
Lemma lits_app p p' q q' : lits p p' -> lits q q' -> lits (p ++ q)%list (p' ++ q')%list.
Proof. apply Forall2_app. Qed.
Lemma lit a v v' p p' : v' = convert u (dimension a) v -> lits p p' -> lits ((a, L v) :: p) ((a, L v') :: p').
Proof. intros -> H. constructor; [|assumption]. cbn. split; [reflexivity|]. now exists v. Qed.
Lemma lits_nil : lits [] [].
Proof. constructor. Qed.
Lemma one_unit d (x : num) (f : R) : factor u d = f -> nmul (Some f) x = convert u d x.
Proof. now intros <-. Qed.
End Lits.
Ltac lits1 := first [ apply lit; [first [symmetry; apply c_pure | reflexivity]|] | apply lits_nil ].

Lemma gg_lits u p : lits u (gg_init_body p) (gg_init_body (convert_args u p)).
Proof. unfold gg_init_body, convert_args. cbn [a_OPR a_Tt4 a_gam_cold a_gam_hot a_r_cold a_r_hot a_xi_inlet a_xi_nozzle a_xi_cc a_eta_cc a_Pci a_etapolCHP a_etapolTHP a_eta_shaft]. repeat lits1. Qed.
Lemma tj_lits u p : lits u (tj_init_body p) (tj_init_body (convert_args u p)).
Proof. apply lits_app; [apply gg_lits|]. cbn. repeat lits1. Qed.
Lemma tf_lits u p : lits u (tf_init_body p) (tf_init_body (convert_tf u p)).
Proof. apply lits_app; [exact (tj_lits u (with_xi_nozzle (a_core p) (Some 1)))|]. cbn. repeat lits1. Qed.
Lemma flight_lits u T P M : lits u (flight_conditions T P M) (flight_conditions (convert u temperature T) (convert u pressure P) M).
Proof. unfold flight_conditions. repeat lits1. Qed.

(*@P C117_arguments: From the constructor on: the gas generator, the turbojet and the turbofan built from arguments expressed in other units and flown in conditions expressed in these units give the object of the first units, expressed in the others (and fail exactly when it fails). *)
Lemma units_arguments : forall u p q T0 P0 M0, proper u ->
  let flight := flight_conditions T0 P0 M0 in
  let flight' := flight_conditions (convert u temperature T0) (convert u pressure P0) M0 in
  run (gg_init_body (convert_args u p) ++ flight' ++ gg_update)%list empty_obj = option_map (rescale u) (run (gg_init_body p ++ flight ++ gg_update)%list empty_obj) /\
  run (tj_init_body (convert_args u p) ++ flight' ++ tj_update)%list empty_obj = option_map (rescale u) (run (tj_init_body p ++ flight ++ tj_update)%list empty_obj) /\
  run (tf_init_body (convert_tf u q) ++ flight' ++ tf_update)%list empty_obj = option_map (rescale u) (run (tf_init_body q ++ flight ++ tf_update)%list empty_obj).
Proof.
  intros u p q T0 P0 M0 Hu. cbv zeta. rewrite !app_assoc.
  split; [|split]; (apply run_lits_typed; [assumption| |]).
  - apply lits_app; [apply gg_lits|apply flight_lits].
  - apply gg_typed.
  - apply lits_app; [apply tj_lits|apply flight_lits].
  - apply tj_typed.
  - apply lits_app; [apply tf_lits|apply flight_lits].
  - apply tf_typed.
Qed.

Definition only_p (k : R) : units := {| u_m := 1; u_p := k; u_t := 1; u_v := 1 |}.
Definition only_m (k : R) : units := {| u_m := k; u_p := 1; u_t := 1; u_v := 1 |}.
Lemma powerRZ_1_l z : powerRZ 1 z = 1.
Proof. destruct z as [|p|p]; cbn; rewrite ?pow1; lra. Qed.
Lemma factor_p k d : factor (only_p k) d = powerRZ k (d_p d).
Proof. unfold factor, only_p. cbn [u_m u_p u_t u_v]. rewrite !powerRZ_1_l. ring. Qed.
Lemma factor_m k d : factor (only_m k) d = powerRZ k (d_m d).
Proof. unfold factor, only_m. cbn [u_m u_p u_t u_v]. rewrite !powerRZ_1_l. ring. Qed.
Lemma proper_p k : 0 < k -> proper (only_p k).
Proof. unfold proper, only_p. cbn. lra. Qed.
Lemma proper_m k : 0 < k -> proper (only_m k).
Proof. unfold proper, only_m. cbn. lra. Qed.
Lemma convert_by u d x : convert u d x = nmul (Some (factor u d)) x.
Proof. reflexivity. Qed.
Lemma convert_1 (x : num) : nmul (Some 1) x = x.
Proof. destruct x as [x|]; [|reflexivity]. cbn. f_equal. ring. Qed.
Lemma convert_k k (x : num) : nmul (Some (k * 1)) x = nmul (Some k) x.
Proof. now rewrite Rmult_1_r. Qed.
Lemma dimension_cases a : (d_p (dimension a) = 0%Z \/ d_p (dimension a) = 1%Z) /\ (d_m (dimension a) = 0%Z \/ d_m (dimension a) = 1%Z).
Proof.
  assert (K : List.Forall (fun e => (d_p (snd e) = 0%Z \/ d_p (snd e) = 1%Z) /\ (d_m (snd e) = 0%Z \/ d_m (snd e) = 1%Z)) table).
  { unfold table. repeat (apply Forall_nil || (apply Forall_cons; [cbn; auto|])). }
  unfold dimension. destruct (find _ table) as [e|] eqn:E; [|cbn; auto]. apply find_some in E. rewrite Forall_forall in K. now apply K.
Qed.
Lemma pressurised_rescale k o : pressurised k o = rescale (only_p k) o.
Proof.
  extensionality a. unfold pressurised, rescale, convert. rewrite factor_p. destruct (dimension_cases a) as [[-> | ->] _]; cbn; destruct (o a) as [x|]; cbn [option_map]; try reflexivity; f_equal.
  - symmetry. apply convert_1.
  - symmetry. apply convert_k.
Qed.
Lemma sized_rescale k o : sized k o = rescale (only_m k) o.
Proof.
  extensionality a. unfold sized, rescale, convert. rewrite factor_m. destruct (dimension_cases a) as [_ [-> | ->]]; cbn; destruct (o a) as [x|]; cbn [option_map]; try reflexivity; f_equal.
  - symmetry. apply convert_1.
  - symmetry. apply convert_k.
Qed.

(*@P C117_altitude: Multiplying the ambient pressure of a gas generator, a turbojet or a turbofan by k > 0 multiplies every pressure by k and leaves every other attribute (temperatures, velocities, specific thrust ...) as it was: at a given Mach number and temperature the engine does not see the altitude. *)
Lemma altitude : forall k p q T0 P0 M0, 0 < k ->
  let flight := flight_conditions T0 P0 M0 in
  let flight' := flight_conditions T0 (nmul (Some k) P0) M0 in
  run (gg_init_body p ++ flight' ++ gg_update)%list empty_obj = option_map (pressurised k) (run (gg_init_body p ++ flight ++ gg_update)%list empty_obj) /\
  run (tj_init_body p ++ flight' ++ tj_update)%list empty_obj = option_map (pressurised k) (run (tj_init_body p ++ flight ++ tj_update)%list empty_obj) /\
  run (tf_init_body q ++ flight' ++ tf_update)%list empty_obj = option_map (pressurised k) (run (tf_init_body q ++ flight ++ tf_update)%list empty_obj).
Proof.
  intros k p q T0 P0 M0 Hk. cbv zeta. assert (E : pressurised k = rescale (only_p k)) by (extensionality o; apply pressurised_rescale).
  assert (N : forall d x, d_p d = 0%Z -> convert (only_p k) d x = x) by (intros d x Z; rewrite convert_by, factor_p, Z; apply convert_1).
  assert (A : forall r, convert_args (only_p k) r = r) by (intro r; unfold convert_args; rewrite !N by reflexivity; now destruct r).
  assert (B : convert_tf (only_p k) q = q) by (unfold convert_tf; rewrite A; now destruct q).
  assert (U := units_arguments (only_p k) p q T0 P0 M0 (proper_p k Hk)). cbv zeta in U. rewrite A, B, (N temperature) in U by reflexivity.
  replace (convert (only_p k) pressure P0) with (nmul (Some k) P0) in U; [now rewrite E|].
  rewrite convert_by, factor_p. cbn [d_p pressure]. change (powerRZ k 1) with (k * 1). symmetry. apply convert_k.
Qed.

Lemma m_lit k a v p p' : d_m (dimension a) = 0%Z -> lits (only_m k) p p' -> lits (only_m k) ((a, L v) :: p) ((a, L v) :: p').
Proof. intros Z H. apply lit; [|assumption]. rewrite convert_by, factor_m, Z. symmetry. apply convert_1. Qed.
Lemma m_flow k m p p' : lits (only_m k) p p' -> lits (only_m k) (("m"%string, L m) :: p) (("m"%string, L (nmul (Some k) m)) :: p').
Proof. intro H. apply lit; [|assumption]. rewrite convert_by, factor_m. change (powerRZ k (d_m (dimension "m"))) with (k * 1). symmetry. apply convert_k. Qed.
Ltac m_lits := repeat (apply m_flow || (apply m_lit; [reflexivity|]) || apply lits_nil).
Lemma init_lits k l pc t4 m g gf : lits (only_m k) (init_1_to_4 l pc t4 m g gf) (init_1_to_4 l pc t4 (nmul (Some k) m) g gf).
Proof. unfold init_1_to_4, class_attrs, attrs_with, gaz_init. cbn [app append]. m_lits. Qed.
Lemma fixe_lits k l pc t4 m g gf x : lits (only_m k) (init_fixe l pc t4 m g gf x) (init_fixe l pc t4 (nmul (Some k) m) g gf x).
Proof. apply lits_app; [apply init_lits|]. m_lits. Qed.
Lemma calc_lits k l pc t4 m g gf x : lits (only_m k) (init_calcule l pc t4 m g gf x) (init_calcule l pc t4 (nmul (Some k) m) g gf x).
Proof. apply lits_app; [apply init_lits|]. m_lits. Qed.
Lemma construct_lits u p p' : proper u -> lits u p p' -> construct p' = option_map (on_attrs (rescale u)) (construct p).
Proof.
  intros Hu H. unfold construct. change empty_obj with (rescale u empty_obj) at 1. rewrite (run_lits u p p' H). destruct (run p empty_obj) as [o|]; cbn [option_map]; [|reflexivity].
  apply (exec_typed u Hu calculs_1_to_4) with (c := {| attrs := o; corps := 0%nat; fan := 0%nat |}).
  assert (T := fixe_typed). unfold fixe_methods in T. rewrite Forall_forall in T. apply T. cbn. auto 20.
Qed.
Lemma built_size k p p' ms h : 0 < k -> List.Forall (List.Forall (fun b => List.Forall stage_typed (snd b))) ms -> List.Forall (fun m => In m ms) h -> lits (only_m k) p p' ->
  built p' h = option_map (on_attrs (sized k)) (built p h).
Proof.
  intros Hk T H Li. assert (E : sized k = rescale (only_m k)) by (extensionality o; apply sized_rescale). rewrite E. unfold built.
  rewrite (construct_lits _ _ _ (proper_m k Hk) Li). destruct (construct p) as [c|]; cbn [option_map]; [|reflexivity]. apply (history_typed _ (proper_m k Hk) ms T h H).
Qed.
(*@P C117_size: For all arguments, a two-flow turbojet object of either class built with k > 0 times the mass flow and put through any sequence of method calls holds k times the flows, thrusts and powers and the same pressures, temperatures, velocities, specific thrust, efficiencies and specific consumption as the one built with the given flow and put through the same calls; the same holds of the three script functions. *)
Lemma size : forall k, 0 < k ->
  (forall l pc t4 m g gf x h, List.Forall (fun f => In f fixe_methods) h ->
   built (init_fixe l pc t4 (nmul (Some k) m) g gf x) h = option_map (on_attrs (sized k)) (built (init_fixe l pc t4 m g gf x) h)) /\
  (forall l pc t4 m g gf x h, List.Forall (fun f => In f calc_methods) h ->
   built (init_calcule l pc t4 (nmul (Some k) m) g gf x) h = option_map (on_attrs (sized k)) (built (init_calcule l pc t4 m g gf x) h)) /\
  (forall l pc t4 pf m, propu_be_calculs script_globals l pc t4 pf (nmul (Some k) m) = option_map (sized k) (propu_be_calculs script_globals l pc t4 pf m)) /\
  (forall l pc t4 m x, double_corps_calculs script_globals l pc t4 (nmul (Some k) m) x = option_map (sized k) (double_corps_calculs script_globals l pc t4 m x)) /\
  (forall l pc t4 m, tau_optimum script_globals l pc t4 (nmul (Some k) m) = option_map (sized k) (tau_optimum script_globals l pc t4 m)).
Proof.
  intros k Hk. assert (E : sized k = rescale (only_m k)) by (extensionality o; apply sized_rescale). destruct scripts_typed as (S1 & S2 & S3).
  split; [|split; [|split; [|split]]].
  - intros. apply (built_size k _ _ fixe_methods h Hk fixe_typed); [assumption|apply fixe_lits].
  - intros. apply (built_size k _ _ calc_methods h Hk calc_typed); [assumption|apply calc_lits].
  - intros. rewrite E. unfold propu_be_calculs. rewrite !app_assoc. apply run_lits_typed; [now apply proper_m| |assumption]. unfold script_globals, script_globals_with. cbn [app]. m_lits.
  - intros. rewrite E. unfold double_corps_calculs. rewrite !app_assoc. apply run_lits_typed; [now apply proper_m| |assumption]. unfold script_globals, script_globals_with. cbn [app]. m_lits.
  - intros. rewrite E. unfold tau_optimum. rewrite !app_assoc. apply run_lits_typed; [now apply proper_m| |assumption]. unfold script_globals, script_globals_with. cbn [app]. m_lits.
Qed.

(*@E C117_example: Grams per second, millibars, tenths of a kelvin and kilometres per second are proper units; in them the default heating value 42.8 MJ/kg of the gas generator reads 42.8 and Python's 1500 K reads 15000; a turbofan and a two-flow object of 200 kg/s can be built and updated (so the two sides of C117_arguments, C117_altitude and C117_size are objects, not failures), and for the latter the thrust is what is multiplied, the turbine outlet temperature is not. *)
Lemma units_example : let u := {| u_m := 1000; u_p := / 100; u_t := 10; u_v := / 1000 |} in proper u /\
  a_Pci (convert_args u (gg_default (Some 30) (Some 1500))) = Some (428 / 10) /\ a_Tt4 (convert_args u (gg_default (Some 30) (Some 1500))) = Some 15000 /\
  (exists o, run (tf_init_body {| a_core := gg_default (Some 30) (Some 1500); a_bpr := Some 5; a_fanpower_ratio := Some (1 / 2); a_etapolTBP := Some 1; a_etapolfan := Some 1 |} ++
     flight_conditions (Some 220) (Some 20000) (Some (8 / 10)) ++ tf_update)%list empty_obj = Some o) /\
  (exists c, built (init_fixe (Some 5) (Some 40) (Some 1600) (Some 200) gaz_default gaz_fuel (Some (3/2))) (fixe_5_to_9 :: nil) = Some c /\ In fixe_5_to_9 fixe_methods /\
     sized 2 (attrs c) "F"%string = option_map (nmul (Some 2)) (attrs c "F"%string) /\ sized 2 (attrs c) "Tt5"%string = attrs c "Tt5"%string).
Proof.
  cbv zeta. split; [unfold proper; cbn; lra|]. split; [|split; [|split]].
  - cbn. apply (f_equal (@Some R)). unfold factor. cbn. try change (Pos.to_nat 2) with 2%nat. field.
  - cbn. apply (f_equal (@Some R)). unfold factor. cbn. try change (Pos.to_nat 1) with 1%nat. field.
  - match goal with |- exists o, ?r = Some o => destruct r as [o|] eqn:E; [now exists o|discriminate E] end.
  - destruct C62_example_lemma as (c & _ & _ & _ & E & _). exists c. split; [unfold computed in E; unfold built; destruct (construct _); [cbn [history]; now rewrite E|discriminate E]|].
    split; [cbn; auto 20|]. split; reflexivity.
Qed.
