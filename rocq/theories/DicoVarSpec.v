(** * What a dictionary of variable names must do: a partial map from names to names *)
From Coq Require Import String List.
From Verif Require Import M_DicoVar.
Import ListNotations.
Open Scope string_scope.
Open Scope list_scope.

Definition names_map := string -> option string.
Definition bind (v s : string) (m : names_map) : names_map := fun w => if string_dec w v then Some s else m w.
Definition nothing_bound : names_map := fun _ => None.
(** the built-in denominations *)
Inductive software := IC3 | OpenFOAM.
Definition builtin (s : software) : names_map :=
  match s with
  | IC3 => bind "P" "P" (bind "p" "P" (bind "Ps" "P" (bind "rho" "RHO" (bind "T" "T" (bind "V" "U" (bind "Vx" "U_X" (bind "Vy" "U_Y" (bind "Vz" "U_Z"
           (bind "u_avg" "U_AVG" (bind "rho_avg" "RHO_AVG" (bind "tauw_avg" "TauWallAvg" (bind "mulam_avg" "MU_LAM_AVG" (bind "t_avg" "T_AVG"
           (bind "u_rms" "U_RMS" (bind "u_rey" "U_REY" nothing_bound)))))))))))))))
  | OpenFOAM => bind "u_avg" "Uavg" (bind "rho_avg" "rhoAVG" (bind "tauw_avg" "???" (bind "mulam_avg" "???" (bind "t_avg" "???"
           (bind "u_rms" "???" (bind "u_rey" "???" nothing_bound))))))
  end.
(** the two strings are equal up to capital letters *)
Definition same_letters (s t : string) : Prop := lower s = lower t.
(** the names under which a software is known, in any capitalisation *)
Definition denotes (s : string) (w : software) : Prop :=
  match w with
  | IC3 => same_letters s "IC3" \/ same_letters s "CharlesX" \/ same_letters s "cx"
  | OpenFOAM => same_letters s "OpenFOAM" \/ same_letters s "of" \/ same_letters s "ofoam"
  end.
(** one call, as a relation between the map before, the answer and the map after; [refused m] is the map left by a
    setDicoVar of an unknown software *)
Inductive answered (refused : names_map -> names_map) : op -> names_map -> result -> names_map -> Prop :=
| a_found m o v s : (o = Get v \/ o = Call v \/ o = Item v) -> m v = Some s -> answered refused o m (Returns s) m
| a_missing m o v : (o = Get v \/ o = Call v \/ o = Item v) -> m v = None -> answered refused o m ValueError m
| a_keys m l : NoDup l -> (forall v, In v l <-> m v <> None) -> answered refused Keys m (KeyList l) m
| a_print m : answered refused Print m Nothing m
| a_add m v s : m v = None -> answered refused (AddVar v s) m Nothing (bind v s m)
| a_add_no m v s : m v <> None -> answered refused (AddVar v s) m ValueError m
| a_set m v s : m v <> None -> answered refused (SetVar v s) m Nothing (bind v s m)
| a_set_no m v s : m v = None -> answered refused (SetVar v s) m ValueError m
| a_dico m s w : denotes s w -> answered refused (SetDicoVar s) m Nothing (builtin w)
| a_dico_no m s : (forall w, ~ denotes s w) -> answered refused (SetDicoVar s) m ValueError (refused m).
(** a whole history and its answers; maps are compared by content *)
Definition same_map (m n : names_map) : Prop := forall v, m v = n v.
Inductive explains (refused : names_map -> names_map) : names_map -> list op -> list result -> Prop :=
| e_nil m : explains refused m [] []
| e_cons m o r m' m'' l rs : answered refused o m r m' -> same_map m' m'' -> explains refused m'' l rs -> explains refused m (o :: l) (r :: rs).
