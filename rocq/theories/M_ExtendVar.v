(** * Model of aerokit/common/extendvar.py *)
From Coq Require Import String List.
From Verif Require Import M_DicoVar.
Import ListNotations.
Open Scope string_scope.
Open Scope list_scope.

(** :20-38 expressions_from_rhopv(): [d] is the content of the variable dictionary (dico.keys(), dico[...]);
    [None] is the ValueError of dico[...] for a missing name *)
Definition expressions_from_rhopv (d : dict) : option dict :=
  match lookup d "P", lookup d "rho", lookup d "V", lookup d "Vy", lookup d "Vx" with
  | Some P, Some rho, Some Vel, Some Vy, Some Vx =>
      let extdico := fold_left (fun e kv => store (fst kv) (snd kv) e) d [] in                     (* :23-25 *)
      let g := "1.4" in let gsgmu := "3.5" in let gmusd := "0.2" in
      let a := "sqrt(" ++ g ++ "*" ++ P ++ "/" ++ rho ++ ")" in
      let extdico := store "Pt" (P ++ "*(1+" ++ gmusd ++ "*(mag(" ++ Vel ++ "))^2/(" ++ g ++ "*" ++ P ++ "/" ++ rho ++ "))^" ++ gsgmu) extdico in
      let extdico := store "T" (P ++ "/" ++ rho ++ "/287.1") extdico in
      let extdico := store "S" ("ln(" ++ P ++ "/" ++ rho ++ "^" ++ g ++ ")") extdico in
      let extdico := store "V" ("mag(" ++ Vel ++ ")") extdico in
      let extdico := store "a" a extdico in
      let extdico := store "Mach" ("mag(" ++ Vel ++ ")/" ++ a) extdico in
      let extdico := store "Mx" ("U_X/" ++ a) extdico in
      let extdico := store "alpha" ("atan(" ++ Vy ++ "/" ++ Vx ++ ")*180/acos(-1)") extdico in
      Some extdico
  | _, _, _, _, _ => None
  end%string.
