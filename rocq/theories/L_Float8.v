(** * Accuracy of the binary64 duct tables and of the flow velocity *)
From Coq Require Import Reals List ZArith Lra Lia Psatz.
From Flocq Require Import Core.
From Verif Require Import Num M_Isentropic M_ShockWave M_Fanno M_Rayleigh L_Isentropic L_Shock L_Fanno L_Rayleigh M_Float FloatSpec L_Float L_Float2 L_Float3 L_Float6 L_Float7.
Open Scope R_scope.

Definition eM M : fexp := FC M (-100) 100.
Definition eT g M : fexp := FAdd c1 (FMul (ch g) (FMul (eM M) (eM M))).
Definition eQ g M : fexp := FMul (FDiv c2 (FAdd (cg g) c1)) (eT g M).
Definition eR g M : fexp := FAdd c1 (FMul (cg g) (FMul (eM M) (eM M))).
Lemma eQ_r g M : 1 < g -> fxr (eQ g M) = fq g M.
Proof. intros G. cbn [eQ eT eM fxr c1 c2 cg ch]. unfold fq, tt. field. lra. Qed.
Lemma eR_r g M : fxr (eR g M) = rd g M.
Proof. cbn [eR eM fxr c1 cg]. unfold rd. ring. Qed.
Lemma eT_r g M : fxr (eT g M) = tt g M.
Proof. cbn [eT eM fxr c1 ch]. unfold tt. ring. Qed.
Lemma fa_t_f g M : F g -> 1 < g <= 2 -> float_fa_t (Some M) (Some g) = fxf (eT g M).
Proof. intros Fg G. unfold float_fa_t. now rewrite half2. Qed.

Definition eFaPs g M := FDiv c1 (FMul (eM M) (FSqrt (eQ g M))).
Definition eFaTs g M := FDiv (FDiv (FAdd (cg g) c1) c2) (eT g M).
Definition eFaRho g M := FMul (FDiv c1 (eM M)) (FSqrt (eQ g M)).
Definition eFaV g M := FDiv (eM M) (FSqrt (eQ g M)).
Definition eRaPs g M := FDiv (FAdd (cg g) c1) (eR g M).
Definition eRaTs g M := FMul (FMul (eM M) (eM M)) (FMul (eRaPs g M) (eRaPs g M)).
Definition eRaTi g M := FMul (FDiv (FMul (FMul c2 (FAdd (cg g) c1)) (FMul (eM M) (eM M))) (FMul (eR g M) (eR g M))) (eT g M).
Definition eRaRho g M := FDiv (eR g M) (FMul (FAdd (cg g) c1) (FMul (eM M) (eM M))).
Definition eRaV g M := FDiv (FMul (FMul (eM M) (eM M)) (FAdd (cg g) c1)) (eR g M).
Lemma eT_wf g M : F g -> F M -> 1 < g <= 2 -> bpow radix2 (-100) <= M <= bpow radix2 100 -> wf (eT g M).
Proof. intros Fg FM G H. cbn [eT eM wf c1 ch]. leaves. Qed.
Lemma c_wf g M : F g -> F M -> 1 < g <= 2 -> bpow radix2 (-100) <= M <= bpow radix2 100 -> wf c1 /\ wf c2 /\ wf (cg g) /\ wf (eM M) /\ wf (eT g M) /\ wf (eR g M).
Proof. intros Fg FM G H. pose proof (eT_wf g M Fg FM G H). cbn [c1 c2 cg eM eR wf]. leaves. Qed.
Lemma M_pos M : bpow radix2 (-100) <= M <= bpow radix2 100 -> 0 < M.
Proof. assert (P := bpow_gt_0 radix2 (-100)). lra. Qed.
Lemma close_of' e v X b n g M : F g -> F M -> 1 < g <= 2 -> bpow radix2 (-100) <= M <= bpow radix2 100 ->
  (wf c1 /\ wf c2 /\ wf (cg g) /\ wf (eM M) /\ wf (eT g M) /\ wf (eR g M) -> wf e) -> chk e = true -> (cnt e < 2 ^ n)%nat -> (n <= 20)%nat -> b = (53 - n)%nat -> v = fxf e -> X = Some (fxr e) -> close_to b v X.
Proof. intros Fg FM G H W. apply close_of. apply W. now apply c_wf. Qed.
Ltac table e g M n := apply close_of' with (e g M) n g M; [assumption|assumption|assumption|assumption|cbn [wf e eQ eRaPs]; tauto|reflexivity|cbn; lia|lia|reflexivity| |].

(*@P C113_fanno: For every double 1 < gamma <= 2 and every double Mach number between 2^-100 and 2^100, each column of the Fanno table (pressure, temperature, density, velocity over their critical values) computed in binary64 arithmetic is the exact value with a relative error of at most 2^-50. *)
Lemma fanno_close : forall gamma M, b64 gamma -> b64 M -> 1 < gamma <= 2 -> bpow radix2 (-100) <= M <= bpow radix2 100 ->
  close_to 50 (float_Fa_Ps_Pscri (Some M) (Some gamma)) (Fa_Ps_Pscri (Some M) (Some gamma))
  /\ close_to 50 (float_Fa_Ts_Tscri (Some M) (Some gamma)) (Fa_Ts_Tscri (Some M) (Some gamma))
  /\ close_to 50 (float_Fa_Rho_Rhocri (Some M) (Some gamma)) (Fa_Rho_Rhocri (Some M) (Some gamma))
  /\ close_to 50 (float_Fa_V_Vcri (Some M) (Some gamma)) (Fa_V_Vcri (Some M) (Some gamma)).
Proof.
  intros g M [Fg _] [FM _] G H. assert (M0 := M_pos M H). assert (Q := eQ_r g M (proj1 G)). assert (g1 : 1 < g) by lra. assert (Q0 := fq_pos g M g1). split; [|split; [|split]].
  - rewrite FaPs_eval by assumption. table eFaPs g M 3%nat.
    + unfold float_Fa_Ps_Pscri. rewrite fa_t_f by assumption. reflexivity.
    + unfold eFaPs. cbn [fxr c1 eM]. now rewrite Q.
  - rewrite FaTs_eval by assumption. table eFaTs g M 3%nat.
    + unfold float_Fa_Ts_Tscri. rewrite fa_t_f by assumption. reflexivity.
    + unfold eFaTs. f_equal. change (fxr (FDiv (FDiv (FAdd (cg g) c1) c2) (eT g M))) with ((g + 1) / 2 / fxr (eT g M)). rewrite eT_r. unfold fq. field. pose proof (tt_pos g M g1). lra.
  - rewrite FaRho_eval by assumption. table eFaRho g M 3%nat.
    + unfold float_Fa_Rho_Rhocri. rewrite fa_t_f by assumption. reflexivity.
    + unfold eFaRho. cbn [fxr c1 eM]. rewrite Q. f_equal. field. lra.
  - rewrite FaV_eval by assumption. table eFaV g M 3%nat.
    + unfold float_Fa_V_Vcri. rewrite fa_t_f by assumption. reflexivity.
    + unfold eFaV. cbn [fxr c1 eM]. now rewrite Q.
Qed.
(*@P C113_rayleigh: For the same doubles, the pressure, density and velocity columns of the Rayleigh table computed in binary64 arithmetic are the exact values with a relative error of at most 2^-50, the static temperature of at most 2^-49 and the stagnation temperature of at most 2^-48. *)
Lemma rayleigh_close : forall gamma M, b64 gamma -> b64 M -> 1 < gamma <= 2 -> bpow radix2 (-100) <= M <= bpow radix2 100 ->
  close_to 50 (float_Ra_Ps_Pscri (Some M) (Some gamma)) (Ra_Ps_Pscri (Some M) (Some gamma))
  /\ close_to 50 (float_Ra_Rho_Rhocri (Some M) (Some gamma)) (Ra_Rho_Rhocri (Some M) (Some gamma))
  /\ close_to 50 (float_Ra_V_Vcri (Some M) (Some gamma)) (Ra_V_Vcri (Some M) (Some gamma))
  /\ close_to 49 (float_Ra_Ts_Tscri (Some M) (Some gamma)) (Ra_Ts_Tscri (Some M) (Some gamma))
  /\ close_to 48 (float_Ti_Ticri (Some M) (Some gamma)) (Ra_Ti_Ticri (Some M) (Some gamma)).
Proof.
  intros g M [Fg _] [FM _] G H. assert (M0 := M_pos M H). assert (Q := eR_r g M). assert (g1 : 1 < g) by lra. assert (Q0 := rd_pos g M g1). split; [|split; [|split; [|split]]].
  - rewrite RaPs_eval by assumption. table eRaPs g M 3%nat; [reflexivity|].
    change (fxr (eRaPs g M)) with ((g + 1) / fxr (eR g M)). now rewrite Q.
  - rewrite RaRho_eval by assumption. table eRaRho g M 3%nat; [reflexivity|].
    change (fxr (eRaRho g M)) with (fxr (eR g M) / ((g + 1) * (M * M))). rewrite Q. do 3 f_equal. ring.
  - rewrite RaV_eval by assumption. table eRaV g M 3%nat; [reflexivity|].
    change (fxr (eRaV g M)) with (M * M * (g + 1) / fxr (eR g M)). rewrite Q. do 3 f_equal. ring.
  - rewrite RaTs_eval by assumption. table eRaTs g M 4%nat; [reflexivity|].
    change (fxr (eRaTs g M)) with (M * M * ((g + 1) / fxr (eR g M) * ((g + 1) / fxr (eR g M)))). rewrite Q. f_equal. ring.
  - rewrite RaTi_eval by assumption. table eRaTi g M 5%nat.
    + unfold float_Ti_Ticri. cbv zeta. rewrite half2 by assumption. reflexivity.
    + change (fxr (eRaTi g M)) with (2 * (g + 1) * (M * M) / (fxr (eR g M) * fxr (eR g M)) * fxr (eT g M)). rewrite Q, eT_r. unfold ray_ti. f_equal. field. lra.
Qed.
Definition eVel g M T r a b : fexp := FMul (eM M) (FSqrt (FDiv (FMul (FMul (cg g) (FC r a b)) (FC T a b)) (eT g M))).
(*@P C113_velocity: For the same doubles, every double gas constant and every double total temperature between 2^-100 and 2^100, the flow velocity computed from the Mach number and the total temperature in binary64 arithmetic is the exact one with a relative error of at most 2^-50. *)
Lemma velocity_close : forall gamma M r Tt, b64 gamma -> b64 M -> b64 r -> b64 Tt -> 1 < gamma <= 2 -> bpow radix2 (-100) <= M <= bpow radix2 100 ->
  bpow radix2 (-100) <= r <= bpow radix2 100 -> bpow radix2 (-100) <= Tt <= bpow radix2 100 ->
  close_to 50 (float_Velocity_MachTt (Some M) (Some Tt) (Some r) (Some gamma)) (Velocity_MachTt (Some M) (Some Tt) (Some r) (Some gamma)).
Proof.
  intros g M r T [Fg _] [FM _] [Fr _] [FT _] G H Hr HT. assert (M0 := M_pos M H). assert (r0 := M_pos r Hr). assert (T0 := M_pos T HT). assert (g1 : 1 < g) by lra.
  rewrite Velocity_eval by assumption. destruct (c_wf g M Fg FM G H) as (W1 & W2 & Wg & WM & WT & WR).
  apply close_of with (eVel g M T r (-100) 100) 3%nat; [cbn [wf eVel]; tauto|reflexivity|cbn; lia|lia|reflexivity| |].
  - unfold float_Velocity_MachTt, float_TtTs_Mach. rewrite half1 by assumption. reflexivity.
  - change (fxr (eVel g M T r (-100) 100)) with (M * sqrt (g * r * T / fxr (eT g M))). now rewrite eT_r.
Qed.
(*@E C113_example: the hypotheses hold for gamma = 1.5, the Mach number 2, the gas constant 287 and the total temperature 300 *)
Lemma C113_ex : b64 (3 / 2) /\ b64 2 /\ 1 < 3 / 2 <= 2 /\ bpow radix2 (-100) <= 2 <= bpow radix2 100
  /\ b64 287 /\ b64 300 /\ bpow radix2 (-100) <= 287 <= bpow radix2 100 /\ bpow radix2 (-100) <= 300 <= bpow radix2 100.
Proof.
  destruct float_TtTs_example as (A & B & C & _). split; [exact A|]. split; [exact B|]. split; [lra|].
  assert (L : bpow radix2 (-100) <= 1) by (rewrite one_bp; apply bpow_le; lia). assert (U : bpow radix2 9 <= bpow radix2 100) by (apply bpow_le; lia). change (bpow radix2 9) with 512 in U.
  split; [lra|]. split; [apply (b64_IZR 287); cbn; lia|]. split; [apply (b64_IZR 300); cbn; lia|]. lra.
Qed.
