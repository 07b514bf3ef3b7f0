(** * The ideal engine: no losses and the same gas everywhere *)
From Coq Require Import String.
From Verif Require Import Num M_Obj EngineSpec.
Open Scope R_scope.

Definition ideal (e : gas_generator) : Prop :=
  gh e = gc e /\ rh e = rc e /\ xi_inlet e = 1 /\ xi_cc e = 1 /\ eC e = 1 /\ eT e = 1 /\ eS e = 1.
(** it runs as an engine: the compressor compresses and the combustor heats *)
Definition running (e : gas_generator) : Prop := 1 <= OPR e /\ compressor_exit e < Tt4 e.
(** efficiency of the ideal Brayton cycle between the ambient temperature and the end of the compression *)
Definition brayton (e : gas_generator) : R := 1 - T0 e / compressor_exit e.
(** an object whose parameters are those of an ideal turbofan, in any state *)
Definition ideal_fan (o : obj) (e : gas_generator) (bpr fr : R) : Prop :=
  described o e /\ has o "xi_nozzle" 1 /\ has o "bpr" bpr /\ has o "fanpower_ratio" fr /\ has o "etapolTBP" 1 /\ has o "etapolfan" 1 /\
  in_range e /\ ideal e /\ running e /\ 0 < bpr /\ 0 <= fr <= 1.
(** components that lose: no efficiency or pressure recovery above 1, and a hot gas whose gamma is not above that of air *)
Definition passive (e : gas_generator) : Prop :=
  gh e <= gc e /\ xi_inlet e <= 1 /\ xi_cc e <= 1 /\ eC e <= 1 /\ eT e <= 1 /\ eS e <= 1.
(** the compressor compresses, and the combustor adds heat *)
Definition burning (e : gas_generator) : Prop := 1 <= OPR e /\ cpc e * compressor_exit e < cph e * Tt4 e.
