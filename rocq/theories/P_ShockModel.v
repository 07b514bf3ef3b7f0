(** Property theorems of L_ShockModel.v. Generated by tools/gen.py; statements only, proofs are in L_ShockModel.v. *)
From Coq Require Import String.
From Verif Require Import Num L_Num Spec M_Isentropic M_ShockWave M_Model1D M_Spectral M_Euler M_ShockModel PolySpec EulerSpec L_Isentropic L_Shock L_Poly L_Spectral L_Spectral2 L_Spectral3 L_Euler1 L_Euler2 L_Euler3 L_Euler4 L_Model1D.
From Verif Require Import L_ShockModel.
Open Scope R_scope.

(** The two printed checks: at every upstream Mach number M0 > 0 and for every relative step eps > 0, the difference quotient of the pressure ratio is the printed derivative times 1 + eps/2 exactly, and that of the density ratio lies between the printed derivative times (1 + eps/2)/(1 + eps)^2 and times 1 + eps/2: both differ from the derivative by a term of order eps. *)
Theorem C93_checks : forall M0 eps, 0 < M0 -> 0 < eps ->
  (exists d, snd (shock_check_p (Some M0) (Some eps)) = Some d /\
     is_derive (fun M => 1 + 2 * (14/10) / (14/10 + 1) * (M ^ 2 - 1)) M0 d /\
     fst (shock_check_p (Some M0) (Some eps)) = Some (d * (1 + eps / 2))) /\
  (exists d k, snd (shock_check_rho (Some M0) (Some eps)) = Some d /\ 0 < d /\
     is_derive (fun M => (14/10 + 1) * M ^ 2 / (2 + (14/10 - 1) * M ^ 2)) M0 d /\
     fst (shock_check_rho (Some M0) (Some eps)) = Some k /\
     d * (1 + eps / 2) / (1 + eps) ^ 2 < k < d * (1 + eps / 2)).
Proof. exact checks. Qed.
Print Assumptions C93_checks.

(** Whatever the number of nodes (at least 2), the length, the upstream gradient and the Mach number M1 behind the shock, given directly or deduced from M0: the model is built; its base flow is air, at every node, with the total enthalpy of r Tt = 83500 and the entropy of air at rest at that total temperature and the total pressure 180000; its velocity is linear in x, from the one of Mach number M1 at the shock (first node, x = 0) to 0 at the wall (last node, x = length), where the pressure is the total pressure. *)
Theorem C93_base : forall n L M1 M0 dM h m, (2 <= n)%nat -> 0 < L -> shock_M1 M1 M0 = Some (Some m) ->
  exists e h' b (x : nat -> R) (q : nat -> flow), new_shock_model n (Some L) M1 M0 dM h = (inr e, h') /\
  (forall i, (i < n)%nat -> cheb_x n (Some 0) (Some L) i = Some (x i)) /\ x 0%nat = 0 /\ x (n - 1)%nat = L /\
  eu_base e = Some b /\ e_g b = Some (14/10) /\
  (forall i, (i < n)%nat -> e_rho b i = Some (f_rho (q i)) /\ e_u b i = Some (f_u (q i)) /\ e_p b i = Some (f_p (q i))) /\
  (forall i, (i < n)%nat -> positive_state (q i) /\ tot_enthalpy (14/10) (q i) = 14/10 / (14/10 - 1) * 83500 /\
     entropy_fn (14/10) (q i) = entropy_fn (14/10) (mkflow (180000 / 83500) 0 180000) /\
     f_u (q i) = f_u (q 0%nat) * ((L - x i) / L)) /\
  f_u (q 0%nat) / flow_sound (14/10) (q 0%nat) = m /\ f_p (q (n - 1)%nat) = 180000.
Proof. exact base_flow. Qed.
Print Assumptions C93_base.

(** With the upstream Mach number M0 given (M0^2 > 1/7, in particular any supersonic one), the state at the first node is the one behind a steady normal shock in a flow of Mach number M0: such an upstream state exists, satisfies the Rankine-Hugoniot relations with the state at the first node, has Mach number M0 and the same total enthalpy; the flow behind the shock moves towards the wall. *)
Theorem C93_shock : forall n L M0 dM h, (2 <= n)%nat -> 0 < L -> 0 < M0 -> 1/7 < M0 ^ 2 ->
  exists e h' b q0 q1, new_shock_model n (Some L) None (Some (Some M0)) dM h = (inr e, h') /\ eu_base e = Some b /\
  e_rho b 0%nat = Some (f_rho q1) /\ e_u b 0%nat = Some (f_u q1) /\ e_p b 0%nat = Some (f_p q1) /\ positive_state q1 /\ 0 < f_u q1 /\
  positive_state q0 /\ rankine_hugoniot (14/10) 0 q0 q1 /\ f_u q0 = M0 * flow_sound (14/10) q0 /\
  tot_enthalpy (14/10) q0 = 14/10 / (14/10 - 1) * 83500 /\ (1 < M0 -> f_p q0 < f_p q1 /\ f_u q1 < flow_sound (14/10) q1).
Proof. exact behind_shock. Qed.
Print Assumptions C93_shock.
