(** * Model of aerokit/stability/OrrSommerfeld.py and of the parts of _base.py it uses
    Complex numbers are Coquelicot's [C]; [None]: not a finite number.  The profile is a Python
    callable applied to the array of nodes: taken element by element.  The type of each boundary
    condition is taken when it is set (OrrSommerfeld.compute_BC only reads it). *)
From Coq Require Import String.
From Verif Require Import Num M_Spectral M_Euler.
From Coquelicot Require Import Complex.
Open Scope R_scope.

Definition cnum := option C.
Definition cadd (a b : cnum) : cnum := match a, b with Some x, Some y => Some (Cplus x y) | _, _ => None end.
Definition csub (a b : cnum) : cnum := match a, b with Some x, Some y => Some (Cminus x y) | _, _ => None end.
Definition cmul (a b : cnum) : cnum := match a, b with Some x, Some y => Some (Cmult x y) | _, _ => None end.
Definition cofn (a : num) : cnum := option_map RtoC a.
(** division by a real number *)
Definition cdivn (a : cnum) (b : num) : cnum := cmul a (cofn (ndiv (Some 1) b)).
Definition cvec := nat -> cnum.
Definition cmat := nat -> nat -> cnum.
Fixpoint csum (n : nat) (f : nat -> cnum) : cnum :=
  match n with O => Some (RtoC 0) | S k => cadd (csum k f) (f k) end.
Definition cmatvec (n : nat) (A : cmat) (f : cvec) : cvec := fun i => csum n (fun j => cmul (A i j) (f j)).

(** the base state dictionary: what it holds under each of the three keys *)
Record osdict := mk_osdict { os_alpha : option cnum; os_Re : option num; os_u : option (num -> num) }.
Record osbase := mk_osbase { ob_alpha : cnum; ob_Re : num; ob_u : num -> num }.

(** OrrSommerfeld.py:87 *)
Definition os_At (D2 : mat) (alpha : cnum) : cmat := fun i j =>
  csub (cofn (D2 i j)) (cmul (cmul alpha alpha) (cofn (eye i j))).
(** OrrSommerfeld.py:84-91; [x]: the nodes *)
Definition os_B (n : nat) (D2 D4 : mat) (x : vec) (b : osbase) : cmat := fun i j =>
  let alpha := ob_alpha b in
  let a2 := cmul alpha alpha in
  let u := fun k => ob_u b (x k) in
  let ddu := matvec n D2 u in
  let I := fun k l => cofn (eye k l) in
  cadd
    (cadd (cmul (cmul (cmul (Some (Copp Ci)) alpha) (cofn (u i))) (os_At D2 alpha i j))
          (if Nat.eqb i j then cmul (cmul (Some Ci) alpha) (cofn (ddu i)) else Some (RtoC 0)))
    (cdivn (cadd (csub (cofn (D4 i j)) (cmul (cmul (Some (RtoC 2)) a2) (cofn (D2 i j))))
                 (cmul (cmul a2 a2) (I i j)))
           (ob_Re b)).

Record cops := mk_cops { co_At : cmat; co_B : cmat }.
Definition czero_row (r : nat) (A : cmat) : cmat := fun i j => if Nat.eqb i r then Some (RtoC 0) else A i j.
(** OrrSommerfeld.py:101-112 *)
Definition setBC_wall (n : nat) (D : mat) (istate i0 : nat) (o : cops) : cops :=
  let zr A := czero_row (i0 + 1) (czero_row i0 A) in
  let B1 : cmat := fun i j => if andb (Nat.eqb i i0) (Nat.eqb j istate) then Some (RtoC 1) else zr (co_B o) i j in
  mk_cops (zr (co_At o))
    (fun i j => if andb (Nat.eqb i (i0 + 1)) (Nat.ltb j n) then cofn (D istate j) else B1 i j).

Inductive os_exn := OsAssertion | OsDictKey | OsType | OsValue.
Record osmodel := mk_os {
  om_cheb : cheb; om_base : option osbase; om_BC : option (string * string); om_ops : option cops }.

(** OrrSommerfeld.py:58-70, _base.py:27-29 *)
Definition os_set_basestate (s : osdict) (e : osmodel) : option os_exn * osmodel :=
  match os_alpha s, os_Re s, os_u s with
  | Some a, Some r, Some u => (None, mk_os (om_cheb e) (Some (mk_osbase a r u)) (om_BC e) (om_ops e))
  | _, _, _ => (Some OsDictKey, e)
  end.
(** _base.py:31-39 with _BC_dict of OrrSommerfeld.py:54 *)
Definition os_set_BC (l r : string) (e : osmodel) : option os_exn * osmodel :=
  if andb (String.eqb l "wall") (String.eqb r "wall")
  then (None, mk_os (om_cheb e) (om_base e) (Some (l, r)) (om_ops e))
  else (Some OsValue, e).
(** OrrSommerfeld.py:44-56, _base.py:13-17; [inl]: the exception of the constructor *)
Definition os_init (n : nat) (xmin xmax : option num) (base : option osdict) : os_exn + osmodel :=
  let e := mk_os (cheb_init n xmin xmax) None None None in
  match base with
  | None => inr e
  | Some s => match os_set_basestate s e with (Some x, _) => inl x | (None, e1) => inr e1 end
  end.
(** OrrSommerfeld.py:72-99; [n >= 2] *)
Definition os_compute (e : osmodel) : option os_exn * osmodel :=
  match om_base e with
  | None => (Some OsAssertion, e)
  | Some b =>
    match matder 4 (om_cheb e) with
    | (Matrix D4, c4) =>
      match matder 2 c4 with
      | (Matrix D2, c2) =>
        let n := cb_npts c2 in
        let x := cheb_x n (cb_xmin c2) (cb_xmax c2) in
        let o := mk_cops (os_At D2 (ob_alpha b)) (os_B n D2 D4 x b) in
        match om_BC e with
        | None => (Some OsType, mk_os c2 (om_base e) (om_BC e) (Some o))   (* None[0] *)
        | Some _ =>
          match matder 1 c2 with
          | (Matrix D1, c1) =>
            let o1 := setBC_wall n D1 0 0 o in
            let o2 := setBC_wall n D1 (n - 1) (n - 2) o1 in
            (None, mk_os c1 (om_base e) (om_BC e) (Some o2))
          | (_, c1) => (Some OsAssertion, mk_os c1 (om_base e) (om_BC e) (Some o))
          end
        end
      | (_, c2) => (Some OsAssertion, mk_os c2 (om_base e) (om_BC e) (om_ops e))
      end
    | (_, c4) => (Some OsAssertion, mk_os c4 (om_base e) (om_BC e) (om_ops e))
    end
  end.
(** _base.py:50-53 *)
Definition os_get (e : osmodel) : (os_exn + cops) * osmodel :=
  match om_ops e with
  | Some o => (inr o, e)
  | None => match os_compute e with
            | (Some x, e1) => (inl x, e1)
            | (None, e1) => (match om_ops e1 with Some o => inr o | None => inl OsAssertion end, e1)
            end
  end.
(** OrrSommerfeld.py:114-118 *)
Definition Poiseuille (n : nat) (alpha : cnum) (Reynolds : num) : os_exn + osmodel :=
  match os_init n (Some (Some (-1))) (Some (Some 1)) None with
  | inl x => inl x
  | inr e =>
    match os_set_basestate (mk_osdict (Some alpha) (Some Reynolds) (Some (fun x => nsub (Some 1) (npowi x 2)))) e with
    | (Some x, _) => inl x
    | (None, e1) => match os_set_BC "wall" "wall" e1 with (Some x, _) => inl x | (None, e2) => inr e2 end
    end
  end.

Inductive osop := OsBase (s : osdict) | OsBC (l r : string) | OsGet.
Definition osstep (op : osop) (e : osmodel) : osmodel :=
  match op with
  | OsBase s => snd (os_set_basestate s e)
  | OsBC l r => snd (os_set_BC l r e)
  | OsGet => snd (os_get e)
  end.
Fixpoint osrun (l : list osop) (e : osmodel) : osmodel :=
  match l with nil => e | op :: t => osrun t (osstep op e) end.
