(** Property theorems of L_Euler5.v. Generated by tools/gen.py; statements only, proofs are in L_Euler5.v. *)
From Coq Require Import String.
From Verif Require Import Num L_Num Spec M_Isentropic M_ShockWave M_Model1D M_Spectral M_Euler PolySpec EulerSpec L_Isentropic L_Shock L_Model1D L_Poly L_Spectral L_Spectral2 L_Spectral3 L_Euler1 L_Euler2 L_Euler3 L_Euler4.
From Verif Require Import L_Euler5.
Open Scope R_scope.

(** Once a request has succeeded, every later request returns the same matrices, whatever base states and boundary conditions have been set in between (including failing set_BC calls). *)
Theorem C51_stale_refuted : forall h e o h1 e1 l,
  get_RHS_time_matrices h e = (inr o, h1, e1) ->
  fst (fst (get_RHS_time_matrices (fst (erun l (h1, e1))) (snd (erun l (h1, e1))))) = inr o.
Proof. exact stale. Qed.
Print Assumptions C51_stale_refuted.

(** An object with a base state but no boundary condition: the first request raises ValueError, and the second one silently returns matrices without any boundary condition. *)
Theorem C51_failed_request_refuted : forall n a b h q, (2 <= n)%nat -> a < b ->
  let e := euler_init n (Some (Some a)) (Some (Some b)) (Some q) in
  exists D x d e1, (forall i j, (i < n)%nat -> (j < n)%nat -> D i j = Some (d i j)) /\
  (forall i, (i < n)%nat -> cheb_x n (Some a) (Some b) i = Some (x i)) /\ differentiates n x 1 d /\
  get_RHS_time_matrices h e = (inl ValueError, h, e1) /\
  get_RHS_time_matrices h e1 = (inr (mk_ops (3 * n) eye (euler_B n D q)), h, e1).
Proof. exact failed_request. Qed.
Print Assumptions C51_failed_request_refuted.

(** Before the first request, any sequence of set_basestate and set_BC calls (failed or not) may be made: if it ends with set_BC('sym','sym'), the first request returns the operators of the last base state set, with the symmetry conditions. *)
Theorem C51_first_request_partial : forall n a b h l q r u p g w, (2 <= n)%nat -> a < b -> finite_base n q r u p g ->
  no_get l -> last_base l None = Some q ->
  let s := erun (l ++ OpBC (ArgStr "sym") (ArgStr "sym") :: nil) (h, euler_init n (Some (Some a)) (Some (Some b)) None) in
  exists o x d, fst (fst (get_RHS_time_matrices (fst s) (snd s))) = inr o /\ o_size o = (3 * n)%nat /\
  (forall i, (i < n)%nat -> cheb_x n (Some a) (Some b) i = Some (x i)) /\ differentiates n x 1 d /\
  let Bw := matvec (3 * n) (o_B o) (fun j => Some (w j)) in let Aw := matvec (3 * n) (o_At o) (fun j => Some (w j)) in
  (forall k, (0 < k < n - 1)%nat -> linearised_rows n d r u p g w Bw Aw k) /\
  symmetry_rows n d w Bw Aw 0 /\ symmetry_rows n d w Bw Aw (n - 1).
Proof. exact first_request. Qed.
Print Assumptions C51_first_request_partial.

(** set_BC with a type other than 'sym', 'per', 'RH' on either side raises ValueError and leaves the object unchanged. *)
Theorem C54_unknown_rejected : forall s t h e, s <> "sym"%string -> s <> "per"%string -> s <> "RH"%string ->
  (t = "sym"%string \/ t = "per"%string \/ t = "RH"%string) ->
  (exists h', set_BC (ArgStr s) (ArgStr t) h e = (Some ValueError, h', e)) /\
  (exists h', set_BC (ArgStr t) (ArgStr s) h e = (Some ValueError, h', e)).
Proof. exact unknown_rejected. Qed.
Print Assumptions C54_unknown_rejected.

(** A periodic condition on one side only is accepted by set_BC; the first request raises (AssertionError when the left side is periodic, TypeError when only the right one is, the other one being 'sym'), but the second request silently returns matrices that have no condition at all at the periodic side. *)
Theorem C54_one_sided_periodic_refuted : forall n a b h q t, (2 <= n)%nat -> a < b -> t = "sym"%string \/ t = "RH"%string ->
  let e := euler_init n (Some (Some a)) (Some (Some b)) (Some q) in
  (exists h1 e1 e2 D, set_BC (ArgStr "per") (ArgStr t) h e = (None, h1, e1) /\
   get_RHS_time_matrices h1 e1 = (inl AssertionErr, h1, e2) /\
   get_RHS_time_matrices h1 e2 = (inr (mk_ops (3 * n) eye (euler_B n D q)), h1, e2)) /\
  (exists h1 e1 h2 e2 D, set_BC (ArgStr "sym") (ArgStr "per") h e = (None, h1, e1) /\
   get_RHS_time_matrices h1 e1 = (inl TypeError, h2, e2) /\
   get_RHS_time_matrices h2 e2 = (inr (setBC_sym n D 0 0 (mk_ops (3 * n) eye (euler_B n D q))), h2, e2)).
Proof. exact one_sided_periodic. Qed.
Print Assumptions C54_one_sided_periodic_refuted.

(** One caller's dictionary {'type': 'sym'} passed for both sides is accepted by set_BC, but the first request raises KeyError, leaves the caller's dictionary empty, and the second request silently returns matrices with the left condition only. *)
Theorem C54_shared_dictionary_refuted : forall n a b h q rf, (2 <= n)%nat -> a < b -> (rf < List.length h)%nat ->
  hget h rf = ("type"%string, BStr "sym") :: nil ->
  let e := euler_init n (Some (Some a)) (Some (Some b)) (Some q) in
  exists e1 h2 e2 D, set_BC (ArgDict rf) (ArgDict rf) h e = (None, h, e1) /\
  get_RHS_time_matrices h e1 = (inl KeyError, h2, e2) /\ hget h2 rf = nil /\
  get_RHS_time_matrices h2 e2 = (inr (setBC_sym n D 0 0 (mk_ops (3 * n) eye (euler_B n D q))), h2, e2).
Proof. exact shared_dictionary. Qed.
Print Assumptions C54_shared_dictionary_refuted.

(** A condition dictionary with an entry the condition does not know is refused by the first request, wherever the entry stands in the dictionary: with 'sym' any entry besides 'type' gives TypeError; with 'RH' any entry besides 'type' and 'dM0dx' gives ValueError. *)
Theorem C54_extra_entry : forall n a b h q l R s k v, (2 <= n)%nat -> a < b -> dget "type" (hget h l) = Some (BStr s) ->
  In (k, v) (hget h l) -> k <> "type"%string -> s = "sym"%string \/ s = "RH"%string /\ k <> "dM0dx"%string ->
  (exists t, R = ArgStr t /\ known_BC (BStr t) = true) -> (l < List.length h)%nat ->
  let e := euler_init n (Some (Some a)) (Some (Some b)) (Some q) in
  exists h1 e1 h2 e2, set_BC (ArgDict l) R h e = (None, h1, e1) /\
  get_RHS_time_matrices h1 e1 = (inl (if String.eqb s "sym" then TypeError else ValueError), h2, e2).
Proof. exact extra_entry. Qed.
Print Assumptions C54_extra_entry.

(** the dictionaries {'type': 'sym', 'dM0dx': 0} and {'type': 'RH', 'dM0dx': 0, 'gradient': 1} meet the hypotheses. *)
Example C54_extra_entry_example : let d1 := (("type"%string, BStr "sym") :: ("dM0dx"%string, BNum (Some 0)) :: nil) in
  let d2 := (("type"%string, BStr "RH") :: ("dM0dx"%string, BNum (Some 0)) :: ("gradient"%string, BNum (Some 1)) :: nil) in let h := (d1 :: d2 :: nil) in
  dget "type" (hget h 0) = Some (BStr "sym") /\ In ("dM0dx"%string, BNum (Some 0)) (hget h 0) /\ dget "type" (hget h 1) = Some (BStr "RH") /\ In ("gradient"%string, BNum (Some 1)) (hget h 1).
Proof. exact extra_entry_ex. Qed.

(** Two distinct dictionaries {'type': 'sym'}: the request works but empties both of the caller's dictionaries, so that giving either of them again to set_BC, on any object, raises KeyError. *)
Theorem C54_consumed_refuted : forall n a b h q r1 r2, (2 <= n)%nat -> a < b -> (r1 < List.length h)%nat -> (r2 < List.length h)%nat -> r1 <> r2 ->
  hget h r1 = ("type"%string, BStr "sym") :: nil -> hget h r2 = ("type"%string, BStr "sym") :: nil ->
  let e := euler_init n (Some (Some a)) (Some (Some b)) (Some q) in
  exists e1 o h2 e2, set_BC (ArgDict r1) (ArgDict r2) h e = (None, h, e1) /\
  get_RHS_time_matrices h e1 = (inr o, h2, e2) /\ hget h2 r1 = nil /\ hget h2 r2 = nil /\
  forall e' R', set_BC (ArgDict r1) R' h2 e' = (Some KeyError, h2, e') /\ set_BC (ArgDict r2) R' h2 e' = (Some KeyError, h2, e').
Proof. exact consumed. Qed.
Print Assumptions C54_consumed_refuted.

(** Types given as strings do not have that problem: no dictionary of the caller is touched, and set_BC can be called again afterwards. *)
Theorem C54_strings_ok : forall n a b h q s, (2 <= n)%nat -> a < b -> (s = "sym"%string \/ s = "per"%string) ->
  let st := erun (OpBase q :: OpBC (ArgStr s) (ArgStr s) :: OpGet :: OpBC (ArgStr s) (ArgStr s) :: nil)
              (h, euler_init n (Some (Some a)) (Some (Some b)) None) in
  (forall r, (r < List.length h)%nat -> hget (fst st) r = hget h r) /\ eu_BC (snd st) <> None /\ eu_ops (snd st) <> None.
Proof. exact strings_ok. Qed.
Print Assumptions C54_strings_ok.

(** a heap with two dictionaries *)
Example C54_example : let h := (("type"%string, BStr "sym") :: nil) :: (("type"%string, BStr "sym") :: nil) :: nil in
  (0 < List.length h)%nat /\ (1 < List.length h)%nat /\ hget h 0 = ("type"%string, BStr "sym") :: nil /\ hget h 1 = ("type"%string, BStr "sym") :: nil.
Proof. exact C54_ex. Qed.

(** a history without request, with two base states and a failing set_BC *)
Example C51_example : let q1 := mk_estate (fun _ => Some 1) (fun _ => Some 2) (fun _ => Some 3) (Some (14/10)) in
  let q2 := mk_estate (fun _ => Some 2) (fun _ => Some 2) (fun _ => Some 3) (Some (14/10)) in
  let l := OpBase q1 :: OpBC (ArgStr "per") (ArgStr "wall") :: OpBase q2 :: nil in
  no_get l /\ last_base l None = Some q2 /\ finite_base 4%nat q2 (fun _ => 2) (fun _ => 2) (fun _ => 3) (14/10).
Proof. exact C51_ex. Qed.

(** The shock condition cannot be used at the right end: for every n >= 2, whatever the gradient, it raises IndexError, after having replaced entries of row 0 of B and zeroed row n-1. *)
Theorem C50_RH_right_refuted : forall n D x q dM o, (2 <= n)%nat -> o_size o = (3 * n)%nat ->
  exists o', setBC_RH n D x q (n - 1) (n - 1) (("dM0dx"%string, BNum (Some dM)) :: nil) o = (Some IndexErr, o') /\
  (forall j, o_B o' (n - 1)%nat j = Some 0) /\
  o_B o' 0%nat (n - 1)%nat = rh_1 (rh_coefficients n D x q (n - 1) (Some dM)) 0 0.
Proof. exact RH_right. Qed.
Print Assumptions C50_RH_right_refuted.

(** Given without dM0dx (in particular as the string 'RH', which set_BC accepts), the shock condition always raises ValueError, after the matrices have been enlarged by a zero row: that row stays in the cached matrices. *)
Theorem C50_RH_without_gradient_refuted : forall n D x q istate i0 o, o_size o = (3 * n)%nat ->
  exists o', setBC_RH n D x q istate i0 nil o = (Some ValueError, o') /\ o_size o' = (3 * n + 1)%nat /\
  forall j, o_B o' (3 * n)%nat j = Some 0 /\ o_At o' (3 * n)%nat j = Some 0.
Proof. exact RH_string. Qed.
Print Assumptions C50_RH_without_gradient_refuted.

(** Two shock conditions on one object raise an exception: after the first one the matrices no longer have the size the second expects. *)
Theorem C50_RH_twice_refuted : forall n D x q dM kw o o', (1 <= n)%nat -> o_size o = (3 * n)%nat ->
  setBC_RH n D x q 0 0 (("dM0dx"%string, BNum (Some dM)) :: nil) o = (None, o') ->
  setBC_RH n D x q (n - 1) (n - 1) kw o' = (Some ValueError, o').
Proof. exact RH_twice. Qed.
Print Assumptions C50_RH_twice_refuted.

(** The rows written by the shock condition do not depend on the gas of the base state: two base states differing only by their gamma give the same matrices (those of air). *)
Theorem C50_RH_gas_refuted : forall n D x rho u p g g' istate i0 kw o,
  setBC_RH n D x (mk_estate rho u p g) istate i0 kw o = setBC_RH n D x (mk_estate rho u p g') istate i0 kw o.
Proof. exact RH_gas. Qed.
Print Assumptions C50_RH_gas_refuted.

(** With a uniform base flow on both sides of the shock (no downstream gradient, dM0dx = 0) moving the shock changes nothing, so the coefficient of the shock displacement must vanish; the assembled coefficient in the density equation vanishes only if the upstream total pressure equals the upstream total r T, numerically. *)
Theorem C50_RH_uniform_refuted : forall n D d x q r u p o dx,
  let g := 14/10 in let q1 := mkflow (r 0%nat) (u 0%nat) (p 0%nat) in
  (1 <= n)%nat -> (o_size o = 3 * n)%nat ->
  (forall i j, (i < n)%nat -> (j < n)%nat -> D i j = Some (d i j)) ->
  (forall i, (i < n)%nat -> e_rho q i = Some (r i) /\ e_u q i = Some (u i) /\ e_p q i = Some (p i)) ->
  positive_state q1 -> 0 < f_u q1 -> (g - 1) / (2 * g) < f_u q1 ^ 2 / (g * f_p q1 / f_rho q1) ->
  nsub (x 1%nat) (x 0%nat) = Some dx -> dx <> 0 ->
  ddx n d r 0 = 0 -> ddx n d u 0 = 0 -> ddx n d p 0 = 0 ->
  exists q0 o' Pt T, rankine_hugoniot g 0 q1 q0 /\ positive_state q0 /\
    setBC_RH n D x q 0 0 (("dM0dx"%string, BNum (Some 0)) :: nil) o = (None, o') /\
    Ptot (obj g q0) = Some Pt /\ rTtot (obj g q0) = Some T /\ (o_B o' 0%nat (3 * n)%nat = Some 0 <-> Pt = T).
Proof. exact RH_uniform. Qed.
Print Assumptions C50_RH_uniform_refuted.

(** air downstream of a Mach 2 shock (density 1.4 * 8/3, velocity 3/4, pressure 4.5), uniform *)
Example C50_example : let q1 := mkflow (14/10 * (8/3)) (3/4) (9/2) in
  positive_state q1 /\ 0 < f_u q1 /\ (14/10 - 1) / (2 * (14/10)) < f_u q1 ^ 2 / (14/10 * f_p q1 / f_rho q1) /\
  let q0 := mkflow (14/10) 2 1 in rankine_hugoniot (14/10) 0 q1 q0 /\
  exists Pt, Ptot (obj (14/10) q0) = Some Pt /\ rTtot (obj (14/10) q0) = Some (9/7) /\ Pt <> 9/7.
Proof. exact C50_ex. Qed.
