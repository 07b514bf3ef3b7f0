(** * Model of aerokit/common/dicovar.py
    Dictionaries live in a heap so that sharing between the built-in databases and the object is visible.
    Simplifications: strings are sequences of ASCII characters; the printed messages are not modelled. *)
From Coq Require Import String Ascii List Bool Arith.
Import ListNotations.
Open Scope string_scope.
Open Scope list_scope.

(** Python dict with string keys and values, in insertion order *)
Definition dict := list (string * string).
Fixpoint lookup (d : dict) (k : string) : option string :=
  match d with [] => None | (a, v) :: d => if String.eqb k a then Some v else lookup d k end.
(** d[k] = v *)
Fixpoint store (k v : string) (d : dict) : dict :=
  match d with [] => [(k, v)] | (a, w) :: d => if String.eqb k a then (a, v) :: d else (a, w) :: store k v d end.
Definition contains (d : dict) (k : string) : bool := match lookup d k with Some _ => true | None => false end.

(** str.lower *)
Definition lower_char (c : ascii) : ascii :=
  let n := nat_of_ascii c in if Nat.leb 65 n && Nat.leb n 90 then ascii_of_nat (n + 32) else c.
Fixpoint lower (s : string) : string := match s with EmptyString => EmptyString | String c s => String (lower_char c) (lower s) end.
Definition elem (s : string) (l : list string) : bool := existsb (String.eqb s) l.

(** :56-75 *)
Definition cxNames : list string := ["IC3"; "ic3"; "CharlesX"; "cx"; "charlesx"].
Definition cxDico : dict :=
  [ ("P", "P"); ("p", "P"); ("Ps", "P"); ("rho", "RHO"); ("T", "T"); ("V", "U"); ("Vx", "U_X"); ("Vy", "U_Y"); ("Vz", "U_Z");
    ("u_avg", "U_AVG"); ("rho_avg", "RHO_AVG"); ("tauw_avg", "TauWallAvg"); ("mulam_avg", "MU_LAM_AVG"); ("t_avg", "T_AVG");
    ("u_rms", "U_RMS"); ("u_rey", "U_REY") ].
(** :78-86 *)
Definition ofNames : list string := ["OpenFOAM"; "of"; "openfoam"; "ofoam"].
Definition ofDico : dict :=
  [ ("u_avg", "Uavg"); ("rho_avg", "rhoAVG"); ("tauw_avg", "???"); ("mulam_avg", "???"); ("t_avg", "???"); ("u_rms", "???"); ("u_rey", "???") ].

(** the process: the heap of dictionaries, the object [dicoVar] (its attributes _dv, a reference, and _softName) *)
Record process := { heap : nat -> dict; next : nat; dv : nat; softName : string }.
Definition put (h : nat -> dict) (r : nat) (d : dict) : nat -> dict := fun r' => if Nat.eqb r' r then d else h r'.
(** :89-90, references of the two built-in dictionaries *)
Definition dataBase : list (list string * nat) := [(cxNames, 0); (ofNames, 1)].
(** :92 *)
Definition default : string := "IC3".

Inductive result := Returns (s : string) | KeyList (l : list string) | Nothing | ValueError.
(** _DicoVar.__init__, :106-122 *)
Fixpoint find_soft (software : string) (db : list (list string * nat)) (p : process) (ok : bool) : process * bool :=
  match db with
  | [] => (p, ok)
  | (names, r) :: db =>
      if elem (lower software) names
      then find_soft software db {| heap := put (heap p) (next p) (heap p r);   (* _copy.deepcopy(soft[1]) *)
                                    next := S (next p); dv := next p; softName := hd "" names |} true
      else find_soft software db p ok
  end.
Definition init (software : string) (p : process) : process * result :=
  let p := {| heap := put (heap p) (next p) []; next := S (next p); dv := next p; softName := "" |} in   (* :109-110 *)
  let (p, ok) := find_soft software dataBase p false in
  (p, if ok then Nothing else ValueError).
(** get, :131-142; __call__ and __getitem__, :178-182 *)
Definition get (var : string) (p : process) : process * result :=
  (p, match lookup (heap p (dv p)) var with Some s => Returns s | None => ValueError end).
(** addVar, :144-154 *)
Definition addVar (var sVar : string) (p : process) : process * result :=
  if contains (heap p (dv p)) var then (p, ValueError)
  else ({| heap := put (heap p) (dv p) (store var sVar (heap p (dv p))); next := next p; dv := dv p; softName := softName p |}, Nothing).
(** setVar, :156-169 *)
Definition setVar (var sVar : string) (p : process) : process * result :=
  if contains (heap p (dv p)) var
  then ({| heap := put (heap p) (dv p) (store var sVar (heap p (dv p))); next := next p; dv := dv p; softName := softName p |}, Nothing)
  else (p, ValueError).
(** import of the module: the two built-in dictionaries, then dicoVar = _DicoVar(_default), :188 *)
Definition import_heap (r : nat) : dict := match r with 0 => cxDico | 1 => ofDico | _ => [] end.
Definition imported : process := fst (init default {| heap := import_heap; next := 2; dv := 0; softName := "" |}).

(** calls a user can make; [Print] is printDatabase and printDicoVar *)
Inductive op :=
| Get (v : string) | Call (v : string) | Item (v : string) | Keys | Print
| AddVar (v s : string) | SetVar (v s : string) | SetDicoVar (software : string).
Definition step (o : op) (p : process) : process * result :=
  match o with
  | Get v | Call v | Item v => get v p
  | Keys => (p, KeyList (map fst (heap p (dv p))))      (* :125-129 *)
  | Print => (p, Nothing)                               (* :171-176, :204-206 *)
  | AddVar v s => addVar v s p
  | SetVar v s => setVar v s p
  | SetDicoVar s => init s p                            (* :191-201 *)
  end.
(** the answers to a history of calls *)
Fixpoint answers (l : list op) (p : process) : list result :=
  match l with [] => [] | o :: l => let (p, r) := step o p in r :: answers l p end.
Fixpoint after (l : list op) (p : process) : process :=
  match l with [] => p | o :: l => after l (fst (step o p)) end.
