(** Property theorems of L_DicoVar.v. Generated by tools/gen.py; statements only, proofs are in L_DicoVar.v. *)
From Coq Require Import String List Bool Arith Lia.
From Verif Require Import M_DicoVar DicoVarSpec.
From Verif Require Import L_DicoVar.
Import ListNotations.
Open Scope string_scope.
Open Scope list_scope.

(** For every history of calls after import - get, dv(...), dv[...], keys, printing, addVar, setVar, setDicoVar, in any order and number - the answers are those of a partial map from names to names that starts as the IC3 denominations: the three ways of reading agree and give the last value set, or ValueError for an unknown name; keys lists every bound name once; addVar binds only unknown names and setVar only known ones, a refusal changing nothing; setDicoVar accepts every capitalisation of every name of a known software and installs that software's built-in names, whatever was edited before. (After a refused setDicoVar the map is empty, see C66.) *)
Theorem C64_behaves_like_a_map : forall h, explains (fun _ => nothing_bound) (builtin IC3) h (answers h imported).
Proof. exact behaves_like_a_map. Qed.
Print Assumptions C64_behaves_like_a_map.

(** Edits never reach the built-in databases: after any history, a setDicoVar of a known software followed by any further calls gives exactly the answers it would give right after import. *)
Theorem C64_reset : forall h s w l, denotes s w -> answers (SetDicoVar s :: l) (after h imported) = answers (SetDicoVar s :: l) imported.
Proof. exact reset. Qed.
Print Assumptions C64_reset.

(** Example: after import, reading rho by index, renaming it, adding Ma, a refused addVar, switching to OpenFOAM spelled OpenFoam, and reading rho again. *)
Example C64_example : denotes "OpenFoam" OpenFOAM /\
  answers [Item "rho"; SetVar "rho" "RHO2"; Call "rho"; AddVar "Ma" "MACH"; AddVar "rho" "x"; Get "Ma"; SetDicoVar "OpenFoam"; Item "rho"; Item "rho_avg"] imported =
  [Returns "RHO"; Nothing; Returns "RHO2"; Nothing; ValueError; Returns "MACH"; Nothing; ValueError; Returns "rhoAVG"].
Proof. exact example. Qed.

(** Names are not case-insensitive as the module notes promise (dv['U_avg'] <=> dv['u_avg']): right after import, or after switching to any known software, every name that differs from all bound names, even if only by capitals, is refused with ValueError although the name in the right capitals is found; 'U_avg' against 'u_avg' is an instance. *)
Theorem C65_case_refuted :
  (forall s w, denotes s w -> forall k u, builtin w k <> None -> same_letters u k -> builtin w u = None ->
     exists name, answers [SetDicoVar s; Get k; Get u; Item u; Call u] imported = [Nothing; Returns name; ValueError; ValueError; ValueError]) /\
  answers [Item "u_avg"; Item "U_avg"] imported = [Returns "U_AVG"; ValueError] /\ same_letters "U_avg" "u_avg".
Proof. exact case_refuted. Qed.
Print Assumptions C65_case_refuted.

(** Names that are equal letter for letter are found whatever happened before: a name read successfully once keeps being readable, in all three ways, as long as no setDicoVar intervenes. PARTIAL: only exact spelling; the promised case-insensitivity is refuted in C65_case_refuted. *)
Theorem C65_case_partial : forall h l v s, snd (step (Get v) (after h imported)) = Returns s ->
  Forall (fun o => forall n, o <> SetDicoVar n) l -> exists s', Forall (fun o => snd (step o (after l (after h imported))) = Returns s') [Get v; Call v; Item v].
Proof. exact case_partial. Qed.
Print Assumptions C65_case_partial.

(** A refused setDicoVar does not keep the current database: for every history and every software name that is not known, setDicoVar raises ValueError and leaves the dictionary empty - afterwards every name, also one that could be read before, is refused, and keys is empty - and the only ways out are addVar and another setDicoVar. *)
Theorem C66_refused_refuted : forall h s v, (forall w, ~ denotes s w) ->
  answers [SetDicoVar s; Get v; Call v; Item v; SetVar v s; Keys] (after h imported) = [ValueError; ValueError; ValueError; ValueError; ValueError; KeyList []].
Proof. exact refused_refuted. Qed.
Print Assumptions C66_refused_refuted.

(** What does survive a refused setDicoVar: the built-in databases, so that a later setDicoVar of a known software recovers all its names as after import. PARTIAL: the current database is lost, see C66_refused_refuted. *)
Theorem C66_refused_partial : forall h s s' w v, (forall w, ~ denotes s w) -> denotes s' w ->
  answers [SetDicoVar s'; Get v] (after (h ++ [SetDicoVar s]) imported) = [Nothing; match builtin w v with Some n => Returns n | None => ValueError end].
Proof. exact refused_partial. Qed.
Print Assumptions C66_refused_partial.

(** Example: fluent is not a known software name, and IC3 is; after a refused switch to fluent the density name is lost. *)
Example C66_example : (forall w, ~ denotes "fluent" w) /\ denotes "IC3" IC3 /\ answers [Item "rho"; SetDicoVar "fluent"; Item "rho"; SetDicoVar "Cx"; Item "rho"] imported =
  [Returns "RHO"; ValueError; ValueError; Nothing; Returns "RHO"].
Proof. exact refused_example. Qed.

(** a history in which a name was read successfully and then rebound, with no change of software in between. *)
Example C65_example : answers [Get "u_avg"; Call "u_avg"; Item "u_avg"; Item "U_avg"] imported = [Returns "U_AVG"; Returns "U_AVG"; Returns "U_AVG"; ValueError] /\
  snd (step (Get "u_avg") (after [Item "U_avg"] imported)) = Returns "U_AVG" /\ Forall (fun o => forall n, o <> SetDicoVar n) [Item "U_avg"; Call "u_avg"].
Proof. exact C65_example_lemma. Qed.
