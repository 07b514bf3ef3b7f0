From Verif Require Import L_Num M_Isentropic M_MassFlow M_Supersonic M_ShockWave M_Legacy.
Open Scope R_scope.

(*@P C05_legacy_wrappers: Every CompressibleFlow function equals the current module's function for all arguments, given or omitted. *)
Lemma legacy_wrappers : forall newton (x y : num) (r m g : option num),
  CF_TtTs_Mach x g = IS_TtTs_Mach x g /\ CF_PtPs_Mach x g = IS_PtPs_Mach x g /\
  CF_Mach_TtTs x g = IS_Mach_TtTs x g /\ CF_Mach_PtPs x g = IS_Mach_PtPs x g /\
  CF_Velocity_MachTi x y r g = IS_Velocity_MachTt x y r g /\
  CF_PrandtlMeyer_Mach x g = SU_PrandtlMeyer_Mach x g /\
  CF_Mach_PrandtlMeyer newton x g = SU_Mach_PrandtlMeyer newton x g /\
  CF_deflection_Mach_IsentropicPsratio x y g = SU_deflection_Mach_IsentropicPsratio x y g /\
  CF_IsentropicPsratio_Mach_deflection newton x y g = SU_IsentropicPsratio_Mach_deflection newton x y g /\
  CF_WeightMassFlow x r g = MF_WeightMassFlow x r g /\
  CF_Sigma_Mach x g = MF_Sigma_Mach x g /\
  CF_Mach_Sigma newton x m g = MF_Mach_Sigma newton x m g.
Proof. intros newton x y [r|] [m|] [g|]; repeat split; reflexivity. Qed.
(*@P C05_aliases: The Ti/Pi names are the Tt/Pt functions. *)
Lemma aliases : forall x y r g : num,
  TiTs_Mach x g = TtTs_Mach x g /\ PiPs_Mach x g = PtPs_Mach x g /\
  Mach_PiPs x g = Mach_PtPs x g /\ Mach_TiTs x g = Mach_TtTs x g /\
  Velocity_MachTi x y r g = Velocity_MachTt x y r g /\
  Pi_ratio x g = Pt_ratio x g /\ Mn_Pi_ratio x g = Mn_Pt_ratio x g.
Proof. intros; repeat split; reflexivity. Qed.
(*@P C05_defaults: Omitting gamma means 1.4 and omitting r means 287.1, in the legacy and in the current modules. *)
Lemma defaults : forall x y : num,
  CF_TtTs_Mach x None = TtTs_Mach x (Some (14/10)) /\
  CF_PtPs_Mach x None = PtPs_Mach x (Some (14/10)) /\
  CF_Velocity_MachTi x y None None = Velocity_MachTt x y (Some (2871/10)) (Some (14/10)) /\
  CF_Sigma_Mach x None = Sigma_Mach x (Some (14/10)) /\
  IS_Velocity_MachTt x y None None = Velocity_MachTt x y (Some (2871/10)) (Some (14/10)) /\
  SU_PrandtlMeyer_Mach x None = PrandtlMeyer_Mach x (Some (14/10)) /\
  MF_Sigma_Mach x None = Sigma_Mach x (Some (14/10)).
Proof. intros; repeat split; reflexivity. Qed.
(*@P C05_given: A given argument is the one used: with gamma (and r, and the Mach number that starts the inversion of the area ratio) given, every CompressibleFlow function is the formula evaluated with them. *)
Lemma given : forall newton x y r m g : _,
  CF_TtTs_Mach x (Some g) = TtTs_Mach x g /\ CF_PtPs_Mach x (Some g) = PtPs_Mach x g /\
  CF_Mach_TtTs x (Some g) = Mach_TtTs x g /\ CF_Mach_PtPs x (Some g) = Mach_PtPs x g /\
  CF_Velocity_MachTi x y (Some r) (Some g) = Velocity_MachTi x y r g /\
  CF_PrandtlMeyer_Mach x (Some g) = PrandtlMeyer_Mach x g /\
  CF_Mach_PrandtlMeyer newton x (Some g) = Mach_PrandtlMeyer newton x g /\
  CF_deflection_Mach_IsentropicPsratio x y (Some g) = deflection_Mach_IsentropicPsratio x y g /\
  CF_IsentropicPsratio_Mach_deflection newton x y (Some g) = IsentropicPsratio_Mach_deflection newton x y g /\
  CF_WeightMassFlow x (Some r) (Some g) = WeightMassFlow x r g /\
  CF_Sigma_Mach x (Some g) = Sigma_Mach x g /\
  CF_Mach_Sigma newton x (Some m) (Some g) = Mach_Sigma newton x m g.
Proof. intros; repeat split; reflexivity. Qed.
(*@E C05_example: a legacy call with the default gamma has a value: TtTs_Mach(1.) = 1.2 *)
Lemma C05_example_lemma : CF_TtTs_Mach (Some 1) None = Some (12/10).
Proof. unfold CF_TtTs_Mach, TtTs_Mach, dflt; ncbn; f_equal; lra. Qed.
