(** * Comparison of engines *)
From Verif Require Import Num EngineSpec.
Open Scope R_scope.
(** the same gases, fuel, combustor, pressure ratio and flight; turbine inlet temperature and every component efficiency
    of the second at least those of the first *)
Definition at_least_as_good (e f : gas_generator) : Prop :=
  gc f = gc e /\ gh f = gh e /\ rc f = rc e /\ rh f = rh e /\ xi_cc f = xi_cc e /\ Pci f = Pci e /\ OPR f = OPR e /\ T0 f = T0 e /\ P0 f = P0 e /\ M0 f = M0 e /\
  Tt4 e <= Tt4 f /\ xi_inlet e <= xi_inlet f /\ eC e <= eC f /\ eT e <= eT f /\ eS e <= eS f.
