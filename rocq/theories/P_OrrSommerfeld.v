(** Property theorems of L_OrrSommerfeld.v. Generated by tools/gen.py; statements only, proofs are in L_OrrSommerfeld.v. *)
From Coq Require Import String.
From Verif Require Import Num L_Num M_Spectral M_Euler M_OrrSommerfeld PolySpec EulerSpec OrrSommerfeldSpec L_Poly L_Spectral L_Spectral2 L_Spectral3 L_Euler1 L_Euler2 L_Euler4 L_Model1D.
From Coquelicot Require Import Complex.
From Verif Require Import L_OrrSommerfeld.
Open Scope R_scope.

(** Whatever the size, matrices and vector of finite values: the wall condition for node s written at rows i0, i0+1 replaces exactly these two rows by v(s) and v'(s), with zero rows in the time matrix, and leaves the other rows of both matrices unchanged. *)
Theorem C50_wall : forall n D d o s i0 w, (s < n)%nat -> (i0 + 1 < n)%nat ->
  (forall i j, (i < n)%nat -> (j < n)%nat -> D i j = Some (d i j)) ->
  let o' := setBC_wall n D s i0 o in
  let Bw := cmatvec n (co_B o') (fun j => Some (w j)) in let Aw := cmatvec n (co_At o') (fun j => Some (w j)) in
  Bw i0 = Some (w s) /\
  Bw (i0 + 1)%nat = Some (ddx n d (fun j => fst (w j)) s, ddx n d (fun j => snd (w j)) s) /\
  Aw i0 = Some (RtoC 0) /\ Aw (i0 + 1)%nat = Some (RtoC 0) /\
  forall i j, i <> i0 -> i <> (i0 + 1)%nat -> co_B o' i j = co_B o i j /\ co_At o' i j = co_At o i j.
Proof. exact wall_rows. Qed.
Print Assumptions C50_wall.

(** For every n >= 4, interval, complex alpha, Reynolds <> 0, polynomial profile U and complex polynomial v of degree < n, a new model with this base state and wall conditions returns matrices with: at interior rows 2..n-3, B v = the Orr-Sommerfeld right-hand side and At v = v'' - alpha^2 v, exactly; rows 0, 1, n-2, n-1 are v and v' at the two walls, with zero time rows. *)
Theorem C52_exact : forall n a b al Re uf pu vr vi, (4 <= n)%nat -> a < b -> Re <> 0 ->
  (forall y, uf (Some y) = Some (peval pu y)) ->
  (length pu <= n)%nat -> (length vr <= n)%nat -> (length vi <= n)%nat ->
  exists e e1, os_init n (Some (Some a)) (Some (Some b)) (Some (mk_osdict (Some (Some al)) (Some (Some Re)) (Some uf))) = inr e /\
  os_set_BC "wall" "wall" e = (None, e1) /\
  exists o x, fst (os_get e1) = inr o /\ (forall i, (i < n)%nat -> cheb_x n (Some a) (Some b) i = Some (x i)) /\
  let Bv := cmatvec n (co_B o) (fun j => Some (cpoly vr vi (x j))) in
  let Av := cmatvec n (co_At o) (fun j => Some (cpoly vr vi (x j))) in
  (forall i, (2 <= i)%nat -> (i <= n - 3)%nat ->
     Bv i = Some (os_rhs al Re (peval pu) vr vi (x i)) /\ Av i = Some (os_lhs al vr vi (x i))) /\
  (Bv 0%nat = Some (cpoly vr vi (x 0%nat)) /\ Bv 1%nat = Some (dcpoly 1 vr vi (x 0%nat)) /\
   Bv (n - 2)%nat = Some (cpoly vr vi (x (n - 1)%nat)) /\ Bv (n - 1)%nat = Some (dcpoly 1 vr vi (x (n - 1)%nat))) /\
  (Av 0%nat = Some (RtoC 0) /\ Av 1%nat = Some (RtoC 0) /\ Av (n - 2)%nat = Some (RtoC 0) /\ Av (n - 1)%nat = Some (RtoC 0)).
Proof. exact os_exact. Qed.
Print Assumptions C52_exact.

(** For arbitrary (not necessarily polynomial) profile values u and complex vectors v, the rows before boundary conditions are the discrete Orr-Sommerfeld expressions, whatever the two differentiation matrices. *)
Theorem C52_operator : forall n D2 D4 d2 d4 X b al Re u v i,
  (forall i j, (i < n)%nat -> (j < n)%nat -> D2 i j = Some (d2 i j)) ->
  (forall i j, (i < n)%nat -> (j < n)%nat -> D4 i j = Some (d4 i j)) ->
  ob_alpha b = Some al -> ob_Re b = Some Re -> Re <> 0 ->
  (forall i, (i < n)%nat -> ob_u b (X i) = Some (u i)) -> (i < n)%nat ->
  let dv d := (ddx n d (fun j => fst (v j)) i, ddx n d (fun j => snd (v j)) i) in
  cmatvec n (os_At D2 (ob_alpha b)) (fun j => Some (v j)) i = Some (dv d2 - al * al * v i)%C /\
  cmatvec n (os_B n D2 D4 X b) (fun j => Some (v j)) i =
  Some (- Ci * al * RtoC (u i) * (dv d2 - al * al * v i) + Ci * al * RtoC (ddx n d2 u i) * v i
        + (dv d4 - RtoC 2 * (al * al) * dv d2 + al * al * (al * al) * v i) / RtoC Re)%C.
Proof. exact os_operator. Qed.
Print Assumptions C52_operator.

(** A base state lacking any of the keys alpha, Reynolds, uprofile is refused, by the constructor and by set_basestate, which leaves the object unchanged; a complete one is accepted. *)
Theorem C52_missing_keys : forall n xmin xmax s e,
  ((os_alpha s = None \/ os_Re s = None \/ os_u s = None) ->
     os_set_basestate s e = (Some OsDictKey, e) /\ os_init n xmin xmax (Some s) = inl OsDictKey) /\
  (forall a r u, os_alpha s = Some a -> os_Re s = Some r -> os_u s = Some u ->
     exists e', os_set_basestate s e = (None, e') /\ om_base e' = Some (mk_osbase a r u)).
Proof. exact missing_keys. Qed.
Print Assumptions C52_missing_keys.

(** Poiseuille(n, alpha, Reynolds) is the model on [-1, 1] with the profile 1 - y^2 and wall conditions: for n >= 4 and every complex polynomial v of degree < n its operators are exact as above. *)
Theorem C52_poiseuille : forall n al Re vr vi, (4 <= n)%nat -> Re <> 0 -> (length vr <= n)%nat -> (length vi <= n)%nat ->
  exists e, Poiseuille n (Some al) (Some Re) = inr e /\
  exists o x, fst (os_get e) = inr o /\ (forall i, (i < n)%nat -> cheb_x n (Some (-1)) (Some 1) i = Some (x i)) /\
  let Bv := cmatvec n (co_B o) (fun j => Some (cpoly vr vi (x j))) in
  let Av := cmatvec n (co_At o) (fun j => Some (cpoly vr vi (x j))) in
  (forall i, (2 <= i)%nat -> (i <= n - 3)%nat ->
     Bv i = Some (os_rhs al Re (fun y => 1 - y ^ 2) vr vi (x i)) /\ Av i = Some (os_lhs al vr vi (x i))) /\
  (Bv 0%nat = Some (cpoly vr vi (-1)) /\ Bv 1%nat = Some (dcpoly 1 vr vi (-1)) /\
   Bv (n - 2)%nat = Some (cpoly vr vi 1) /\ Bv (n - 1)%nat = Some (dcpoly 1 vr vi 1)) /\
  (Av 0%nat = Some (RtoC 0) /\ Av 1%nat = Some (RtoC 0) /\ Av (n - 2)%nat = Some (RtoC 0) /\ Av (n - 1)%nat = Some (RtoC 0)).
Proof. exact poiseuille. Qed.
Print Assumptions C52_poiseuille.

(** Orr-Sommerfeld: after one successful request, later requests return the same matrices whatever base states (alpha, Reynolds, profile) are set. *)
Theorem C51_os_stale_refuted : forall e o e1 l, os_get e = (inr o, e1) -> fst (os_get (osrun l e1)) = inr o.
Proof. exact os_stale. Qed.
Print Assumptions C51_os_stale_refuted.

(** Orr-Sommerfeld without boundary conditions: the first request raises TypeError and the second one silently returns matrices without boundary conditions. *)
Theorem C51_os_failed_request_refuted : forall n a b s, (2 <= n)%nat -> a < b -> os_alpha s <> None -> os_Re s <> None -> os_u s <> None ->
  exists e e1 o D2 D4 base, os_init n (Some (Some a)) (Some (Some b)) (Some s) = inr e /\
  os_get e = (inl OsType, e1) /\ os_get e1 = (inr o, e1) /\
  o = mk_cops (os_At D2 (ob_alpha base)) (os_B n D2 D4 (cheb_x n (Some a) (Some b)) base) /\ om_base e = Some base.
Proof. exact os_failed_request. Qed.
Print Assumptions C51_os_failed_request_refuted.

(** Before any request the last accepted base state is used: setting s1 then s2 then the walls gives the same operators as s2 alone. *)
Theorem C51_os_before_request : forall n xmin xmax s1 s2 e,
  os_init n xmin xmax (Some s1) = inr e -> os_alpha s2 <> None -> os_Re s2 <> None -> os_u s2 <> None ->
  exists e2, os_init n xmin xmax (Some s2) = inr e2 /\
  os_get (osrun (OsBase s2 :: OsBC "wall" "wall" :: nil) e) = os_get (osrun (OsBC "wall" "wall" :: nil) e2).
Proof. exact os_before. Qed.
Print Assumptions C51_os_before_request.

(** plane Poiseuille flow, alpha = 1, Re = 10000, n = 8, v = (1 - y^2)^2 *)
Example C52_example : let v := 1 :: 0 :: -2 :: 0 :: 1 :: nil in (4 <= 8)%nat /\ 10000 <> 0 /\ (length v <= 8)%nat /\
  os_rhs (RtoC 1) 10000 (fun y => 1 - y ^ 2) v nil 0 = (33/10000, 3).
Proof. exact C52_ex. Qed.
