(** Property theorems of L_Import.v. Generated by tools/gen.py; statements only, proofs are in L_Import.v. *)
From Coq Require Import String List Bool Arith Lia.
From Verif Require Import M_Import.
From Verif Require Import L_Import.
Import ListNotations.
Open Scope string_scope.
Open Scope list_scope.

(** After every session of import statements, in any order, of modules of the package or any other names, failed or not, the next import of any module of the package other than aerokit.aero.Propulsion and aerokit.common.extendvar succeeds: it runs into no missing module, missing name or import cycle, its body has run to the end, and so have the bodies of all modules then in sys.modules. PARTIAL: the two others fail, see C78_imports_refuted. *)
Theorem C78_imports_partial : forall h f, In f package -> name f <> "aerokit.aero.Propulsion" -> name f <> "aerokit.common.extendvar" ->
  exists s, import_ (name f) (session h []) = (s, true) /\ finished s (name f) = true /\ (forall q, loaded s q = true -> finished s q = true) /\
  (forall q, loaded (session h []) q = true -> loaded s q = true).
Proof. exact imports_succeed. Qed.
Print Assumptions C78_imports_partial.

(** After every session of import statements, importing aerokit.aero.Propulsion or aerokit.common.extendvar fails: the first asks for a module aerokit.IterativeSolve, the second for a top-level module dicovar, and no file has these names. *)
Theorem C78_imports_refuted : forall h, snd (import_ "aerokit.aero.Propulsion" (session h [])) = false /\ snd (import_ "aerokit.common.extendvar" (session h [])) = false.
Proof. exact imports_fail. Qed.
Print Assumptions C78_imports_refuted.

(** A session that tries Propulsion first: the attempt fails but leaves Isentropic and MassFlow imported; the stability subpackage, whose own __init__ imports a submodule, then loads, and turbofan loads turbojet and gasgenerator. *)
Example C78_example : let s := session ["aerokit.aero.Propulsion"; "aerokit.stability.Euler"; "aerokit.engine.turbofan"] [] in
  snd (import_ "aerokit.aero.Propulsion" []) = false /\ finished (fst (import_ "aerokit.aero.Propulsion" [])) "aerokit.aero.MassFlow" = true /\ loaded s "aerokit.aero.Propulsion" = false /\
  finished s "aerokit.stability._base" = true /\ finished s "aerokit.engine.gasgenerator" = true /\ loaded s "aerokit.aero.Rayleigh" = false.
Proof. exact session_example. Qed.
