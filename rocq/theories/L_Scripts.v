(** * C78: the import statements of the example scripts *)
From Coq Require Import String List Bool Arith Lia.
From Verif Require Import M_Import M_Scripts L_Import.
Import ListNotations.
Open Scope string_scope.
Open Scope list_scope.

Definition importable (m : string) : bool := mem (hd "" (dotted m)) external || existsb (fun f => String.eqb (name f) m) sound_files.
Lemma importable_ok m s : importable m = true -> settled s -> exists s', import_ m s = (s', true).
Proof.
  unfold importable. intros H S. apply orb_prop in H. destruct H as [H|H].
  - exists s. unfold import_, statement. now rewrite H.
  - apply existsb_exists in H. destruct H as (f & I & E). apply String.eqb_eq in E. subst m. destruct (import_sound f s I S) as (s' & E' & _). now exists s'.
Qed.
Lemma imports_ok : forall l s, forallb importable l = true -> settled s -> snd (in_order (fun s m => import_ m s) l s) = true.
Proof.
  induction l as [|m l IH]; intros s H S; [reflexivity|]. cbn [forallb] in H. apply andb_prop in H. destruct H as [H1 H2]. cbn [in_order].
  destruct (importable_ok m s H1 S) as (s' & E). pose proof (import_settled m s S) as S'. rewrite E in S' |- *. now apply IH.
Qed.
Definition foreign (m : string) : bool := negb (mem (hd "" (dotted m)) external) && match find_file (hd "" (dotted m)) with None => true | Some _ => false end && match dotted m with nil => false | _ => true end.
Lemma foreign_fails m s : foreign m = true -> settled s -> snd (import_ m s) = false.
Proof.
  unfold foreign. intros H [K N]. apply andb_prop in H. destruct H as [H H3]. apply andb_prop in H. destruct H as [H1 H2]. apply negb_true_iff in H1.
  unfold import_, statement. rewrite H1. destruct (dotted m) as [|a l] eqn:D; [discriminate|]. cbn [hd] in H2. destruct (find_file a) eqn:F; [discriminate|].
  cbn [in_order]. assert (L : loaded s a = false). { destruct (loaded s a) eqn:L; [|reflexivity]. apply loaded_In in L. destruct L as [b B]. destruct (K a b B) as [Y _]. now elim Y. }
  rewrite load_S, L, F. reflexivity.
Qed.
Lemma imports_bad : forall l s, existsb foreign l = true -> settled s -> snd (in_order (fun s m => import_ m s) l s) = false.
Proof.
  induction l as [|m l IH]; intros s H S; [discriminate|]. cbn [existsb] in H. cbn [in_order]. pose proof (import_settled m s S) as S'.
  destruct (import_ m s) as [s' [|]] eqn:E; [|reflexivity]. cbn [fst] in S'. apply orb_prop in H. destruct H as [H|H]; [|now apply IH].
  pose proof (foreign_fails m s H S) as Q. rewrite E in Q. discriminate.
Qed.
(*@P C78_scripts_partial: In every state of the interpreter that a session of imports, failed or not, can lead to, the import statements of each example script succeed, except those of shockwave-polar.py, shockwave-polar-p.py, rayleigh-diag.py and rayleigh-heating.py, which stop at a ModuleNotFoundError: they name a package aero that does not exist. PARTIAL: the full claim, that every example script can be started, fails for these four. *)
Lemma scripts_import : forall h c, In c scripts ->
  snd (run_imports c (session h [])) = negb (mem (script_file c) ["examples/shockwave-polar.py"; "examples/shockwave-polar-p.py"; "examples/rayleigh-diag.py"; "examples/rayleigh-heating.py"]).
Proof.
  intros h c I. pose proof (session_settled h [] empty_settled) as S. unfold run_imports.
  assert (A : forallb (fun c => if mem (script_file c) ["examples/shockwave-polar.py"; "examples/shockwave-polar-p.py"; "examples/rayleigh-diag.py"; "examples/rayleigh-heating.py"]
     then existsb foreign (script_imports c) else forallb importable (script_imports c)) scripts = true) by (vm_compute; reflexivity).
  rewrite forallb_forall in A. specialize (A c I). destruct (mem (script_file c) _); cbn [negb]; [now apply imports_bad|now apply imports_ok].
Qed.
(*@E C78_scripts_example: Starting rayleigh-heating.py in a fresh interpreter fails; fanno-diag.py then still starts. *)
Lemma scripts_example : exists c d, In c scripts /\ In d scripts /\ script_file c = "examples/rayleigh-heating.py" /\ script_file d = "examples/fanno-diag.py" /\
  snd (run_imports c []) = false /\ snd (run_imports d (fst (run_imports c []))) = true.
Proof.
  exists {| script_file := "examples/rayleigh-heating.py"; script_imports := ["numpy"; "matplotlib.pyplot"; "aero.Rayleigh"] |}, {| script_file := "examples/fanno-diag.py"; script_imports := ["numpy"; "matplotlib.pyplot"; "aerokit.aero.Fanno"] |}.
  split; [unfold scripts; do 12 right; left; reflexivity|]. split; [unfold scripts; do 13 right; left; reflexivity|]. repeat split; vm_compute; reflexivity.
Qed.
