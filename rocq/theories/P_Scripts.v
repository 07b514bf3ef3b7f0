(** Property theorems of L_Scripts.v. Generated by tools/gen.py; statements only, proofs are in L_Scripts.v. *)
From Coq Require Import String List Bool Arith Lia.
From Verif Require Import M_Import M_Scripts L_Import.
From Verif Require Import L_Scripts.
Import ListNotations.
Open Scope string_scope.
Open Scope list_scope.

(** In every state of the interpreter that a session of imports, failed or not, can lead to, the import statements of each example script succeed, except those of shockwave-polar.py, shockwave-polar-p.py, rayleigh-diag.py and rayleigh-heating.py, which stop at a ModuleNotFoundError: they name a package aero that does not exist. PARTIAL: the full claim, that every example script can be started, fails for these four. *)
Theorem C78_scripts_partial : forall h c, In c scripts ->
  snd (run_imports c (session h [])) = negb (mem (script_file c) ["examples/shockwave-polar.py"; "examples/shockwave-polar-p.py"; "examples/rayleigh-diag.py"; "examples/rayleigh-heating.py"]).
Proof. exact scripts_import. Qed.
Print Assumptions C78_scripts_partial.

(** Starting rayleigh-heating.py in a fresh interpreter fails; fanno-diag.py then still starts. *)
Example C78_scripts_example : exists c d, In c scripts /\ In d scripts /\ script_file c = "examples/rayleigh-heating.py" /\ script_file d = "examples/fanno-diag.py" /\
  snd (run_imports c []) = false /\ snd (run_imports d (fst (run_imports c []))) = true.
Proof. exact scripts_example. Qed.
