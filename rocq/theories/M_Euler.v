(** * Model of aerokit/stability/_base.py (LinOperator: state, BC, cache) and
      aerokit/stability/Euler.py (Euler1D)

    Matrices as in M_Spectral.v, with their number of rows (= columns).  [np.diag(v) @ A] is
    taken as the row scaling [v_i * A_ij] (its value for finite entries); [np.diag(v)],
    [np.eye], [np.zeros], [np.tile], [np.kron], [np.block] entry by entry.
    Dictionaries given by the caller are objects of a heap, so that aliasing and mutation
    are visible.  An exception leaves the object and the heap as they were when it was
    raised. [print] calls are not modelled. *)
From Coq Require Import String.
From Verif Require Import Num M_Isentropic M_ShockWave M_Model1D M_Spectral.
Open Scope R_scope.
Open Scope num_scope.

(** ** arrays *)
Definition tile (n : nat) (v : vec) : vec := fun i => v (Nat.modulo i n).
Definition kron_eye (n : nat) (D : mat) : mat := fun i j =>
  eye (Nat.div i n) (Nat.div j n) * D (Nat.modulo i n) (Nat.modulo j n).
Definition diag_mul (v : vec) (A : mat) : mat := fun i j => v i * A i j.
Definition matdiag (v : vec) : mat := fun i j => if Nat.eqb i j then v i else Some 0%R.
Definition zeros : mat := fun _ _ => Some 0%R.
Definition in_range (a b i : nat) : bool := andb (Nat.leb a i) (Nat.ltb i b).
(** [A[r0:r1, c0:c1] = K] *)
Definition set_block (A : mat) (r0 r1 c0 c1 : nat) (K : mat) : mat := fun i j =>
  if andb (in_range r0 r1 i) (in_range c0 c1 j) then K (i - r0)%nat (j - c0)%nat else A i j.
(** [A[r, :] = 0.0] *)
Definition zero_row (r : nat) (A : mat) : mat := fun i j => if Nat.eqb i r then Some 0%R else A i j.
(** [A[r, c] = v] *)
Definition set_entry (r c : nat) (v : num) (A : mat) : mat := fun i j =>
  if andb (Nat.eqb i r) (Nat.eqb j c) then v else A i j.
(** [A[r, c0:c1] = v] *)
Definition set_row (r c0 c1 : nat) (v : vec) (A : mat) : mat := fun i j =>
  if andb (Nat.eqb i r) (in_range c0 c1 j) then v (j - c0)%nat else A i j.
(** [A[r, c0:c1] -= v] *)
Definition sub_row (r c0 c1 : nat) (v : vec) (A : mat) : mat := fun i j =>
  if andb (Nat.eqb i r) (in_range c0 c1 j) then A i j - v (j - c0)%nat else A i j.
(** [np.block([[A, 0], [0, 0]])] with one more row and column *)
Definition enlarge (k : nat) (A : mat) : mat := fun i j =>
  if andb (Nat.ltb i k) (Nat.ltb j k) then A i j else Some 0%R.

(** base state: a model1D.state holding arrays *)
Record estate := mk_estate { e_rho : vec; e_u : vec; e_p : vec; e_g : num }.

(** ** Euler.py:40-67: the operators before boundary conditions *)
(** Euler.py:51 *)
Definition euler_At : mat := eye.
(** Euler.py:54-57 *)
Definition euler_Bx (n : nat) (D : mat) (q : estate) : mat :=
  let ip := (2 * n)%nat in let N := (3 * n)%nat in
  let B1 := diag_mul (tile n (e_u q)) (kron_eye n D) in
  let B2 := set_block B1 0 n n ip (diag_mul (e_rho q) D) in
  let B3 := set_block B2 n ip ip N (diag_mul (fun i => Some 1%R / e_rho q i) D) in
  set_block B3 ip N n ip (diag_mul (fun i => e_g q * e_p q i) D).
(** Euler.py:59 (the fields of dq) *)
Definition d_rho (n : nat) (D : mat) (q : estate) : vec := matvec n D (e_rho q).
Definition d_u (n : nat) (D : mat) (q : estate) : vec := matvec n D (e_u q).
Definition d_p (n : nat) (D : mat) (q : estate) : vec := matvec n D (e_p q).
(** Euler.py:61-66 *)
Definition euler_B0 (n : nat) (D : mat) (q : estate) : mat :=
  let ip := (2 * n)%nat in let N := (3 * n)%nat in
  let B1 := set_block zeros 0 ip 0 ip (matdiag (tile n (d_u n D q))) in
  let B2 := set_block B1 ip N ip N (matdiag (fun i => e_g q * d_u n D q i)) in
  let B3 := set_block B2 0 n n ip (matdiag (d_rho n D q)) in
  let B4 := set_block B3 n ip 0 n (matdiag (fun i => - d_p n D q i / npowi (e_rho q i) 2)) in
  set_block B4 ip N n ip (matdiag (d_p n D q)).
(** Euler.py:67 *)
Definition euler_B (n : nat) (D : mat) (q : estate) : mat := fun i j =>
  - euler_Bx n D q i j - euler_B0 n D q i j.

(** a pair of square matrices (_At, _B) of the same size *)
Record ops := mk_ops { o_size : nat; o_At : mat; o_B : mat }.

(** ** Boundary conditions *)
(** Euler.py:85-101; [irow] is always given by compute_BC *)
Definition setBC_sym (n : nat) (D : mat) (istate i0 : nat) (o : ops) : ops :=
  let iu := n in let ip := (2 * n)%nat in let il := (3 * n)%nat in
  let zr A := zero_row (i0 + ip) (zero_row (i0 + iu) (zero_row (i0 + 0) A)) in
  mk_ops (o_size o) (zr (o_At o))
    (set_row (i0 + ip) ip il (D istate)
      (set_entry (i0 + iu) (iu + istate) (Some 1%R)
        (set_row i0 0 iu (D istate) (zr (o_B o))))).
(** Euler.py:103-113 *)
Definition setBC_per (n : nat) (D : mat) (o : ops) : ops :=
  let zr A := fold_left (fun A i => zero_row i A)
                (0 :: n - 1 :: n :: 2 * n - 1 :: 2 * n :: 3 * n - 1 :: nil)%nat A in
  let per1 A i :=
    sub_row (i * n + n - 1) (i * n) ((i + 1) * n) (D (n - 1)%nat)
     (set_row (i * n + n - 1) (i * n) ((i + 1) * n) (D 0%nat)
      (set_entry (i * n) (i * n + n - 1) (Some (-1)%R)
       (set_entry (i * n) (i * n) (Some 1%R) A))) in
  mk_ops (o_size o) (zr (o_At o)) (fold_left per1 (0 :: 1 :: 2 :: nil)%nat (zr (o_B o))).

(** Euler.py:140-200: the coefficients of the three linearised jump equations.
    [rh_1 k v]: coefficient of rho', u', p' (v = 0,1,2) at the shock in equation k;
    [rh_s k 0]: coefficient of the shock displacement, [rh_s k 1]: of its velocity *)
Record rh_coefs := mk_rh { rh_1 : nat -> nat -> num; rh_s : nat -> nat -> num }.
Definition vec3 (a b c : num) (k : nat) : num :=
  match k with O => a | 1 => b | 2 => c | _ => Some 0%R end%nat.
Definition rh_coefficients (n : nat) (D : mat) (x : vec) (q : estate) (istate : nat) (dM0dx : num) : rh_coefs :=
  (* Euler.py:141-154: q[istate] is built without gamma *)
  let q1 := state_init (e_rho q istate) (e_u q istate) (e_p q istate) None in
  let dq1 := state_init (d_rho n D q istate) (d_u n D q istate) (d_p n D q istate) None in
  let g := st_g q1 in
  let M1 := Mach q1 in
  let q0 := state_RH q1 in
  let M0 := downstream_Mn M1 g in
  let rhoratio := Rho_ratio M0 g in
  let pratio := Ps_ratio M0 g in
  let a0 := asound q0 in
  (* Euler.py:163-183 *)
  let drhoratio := Some 4%R / (g + Some 1%R) * npowi rhoratio 2 / npowi M0 3 in
  let dpratio := Some 4%R * g / (g + Some 1%R) * M0 in
  let z := Some 0%R in
  let bck0 k := vec3 (vec3 (- rhoratio / st_rho q0) (- st_u q0 / st_rho q0) z k)
                     (vec3 z (Some (-1)%R) z k)
                     (vec3 z z (- pratio / st_p q0) k) in
  let bck1 k := vec3 (vec3 (Some 1%R / st_rho q0) (st_u q1 / st_rho q0) z k)
                     (vec3 z rhoratio z k)
                     (vec3 z z (Some 1%R / st_p q0) k) in
  let sh0 k := vec3 (- drhoratio * dM0dx) z (- dpratio * dM0dx) k in
  let sh1 k := vec3 (drhoratio / a0) (Some 1%R - rhoratio) (dpratio / a0) k in
  (* Euler.py:187-194 *)
  let dx := x 1%nat - x 0%nat in
  let q0p := state_isentropic_Mach q0 (M0 + dM0dx * dx) in
  let dq0 := vec3 ((st_rho q0p - st_rho q0) / dx) ((st_u q0p - st_u q0) / dx) ((st_p q0p - st_p q0) / dx) in
  let sh0' k := sh0 k + bck0 k 0%nat * dq0 0%nat + bck0 k 1%nat * dq0 1%nat + bck0 k 2%nat * dq0 2%nat in
  (* Euler.py:198-200 *)
  let dq1v := vec3 (st_rho dq1) (st_u dq1) (st_p dq1) in
  let sh0'' k := sh0' k + bck1 k 0%nat * dq1v 0%nat + bck1 k 1%nat * dq1v 1%nat + bck1 k 2%nat * dq1v 2%nat in
  mk_rh (fun k v => bck1 k v)
        (fun k c => match c with O => sh0'' k | _ => sh1 k end).

Inductive exn := KeyError | ValueError | AssertionErr | TypeError | IndexErr | AttributeErr.

(** Euler.py:202-217: one pass of the loop over the three equations: equation [ibc] goes to
    row [ieq] of B, [ieq + i0] of At.  Writing a row beyond the matrix is an IndexError. *)
Definition rh_write (n : nat) (istate i0 : nat) (k : rh_coefs) (ibc ieq : nat) (o : ops) : option exn * ops :=
  let idxs := (3 * n)%nat in
  if Nat.ltb (ieq + i0) (o_size o) then
    let At1 := zero_row (ieq + i0) (o_At o) in
    let B1 := zero_row (ieq + i0) (o_B o) in
    let At2 := set_entry (ieq + i0) idxs (- rh_s k ibc 1%nat) At1 in
    let B2 := set_entry ieq idxs (rh_s k ibc 0%nat) B1 in
    (None, mk_ops (o_size o) At2
       (set_entry ieq (2 * n + istate) (rh_1 k ibc 2%nat)
         (set_entry ieq (1 * n + istate) (rh_1 k ibc 1%nat)
           (set_entry ieq (0 * n + istate) (rh_1 k ibc 0%nat) B2))))
  else (Some IndexErr, o).

(** ** Dictionaries *)
Inductive bcval := BStr (s : string) | BNum (v : num).
Definition dict := list (string * bcval).
Fixpoint dget (k : string) (d : dict) : option bcval :=
  match d with nil => None | (k', v) :: t => if String.eqb k k' then Some v else dget k t end.
Fixpoint dremove (k : string) (d : dict) : dict :=
  match d with nil => nil | (k', v) :: t => if String.eqb k k' then t else (k', v) :: dremove k t end.
Definition heap := list dict.
Definition hget (h : heap) (r : nat) : dict := nth r h nil.
Fixpoint hset (h : heap) (r : nat) (d : dict) : heap :=
  match h, r with
  | nil, _ => nil
  | _ :: t, O => d :: t
  | a :: t, S r => a :: hset t r d
  end.

(** Euler.py:115-217.  [kw]: the remaining keyword arguments *)
Definition setBC_RH (n : nat) (D : mat) (x : vec) (q : estate) (istate i0 : nat) (kw : dict) (o : ops)
  : option exn * ops :=
  let dM := dget "dM0dx" kw in
  match dremove "dM0dx" kw with
  | _ :: _ => (Some ValueError, o)
  | nil =>
    if Nat.eqb (o_size o) (3 * n) then
      let o1 := mk_ops (3 * n + 1) (enlarge (3 * n) (o_At o)) (enlarge (3 * n) (o_B o)) in
      match dM with
      | None => (Some ValueError, o1)
      | Some (BStr _) => (Some TypeError, o1)
      | Some (BNum v) =>
        let k := rh_coefficients n D x q istate v in
        match rh_write n istate i0 k 0 0 o1 with
        | (Some e, o2) => (Some e, o2)
        | (None, o2) =>
          match rh_write n istate i0 k 1 (3 * n) o2 with
          | (Some e, o3) => (Some e, o3)
          | (None, o3) => rh_write n istate i0 k 2 (2 * n) o3
          end
        end
      end
    else (Some ValueError, o)      (* np.block: sizes do not match *)
  end.

(** ** The object *)
Record euler := mk_euler {
  eu_cheb : cheb;                  (* _diffop *)
  eu_base : option estate;         (* _basestate (and nvar, set together) *)
  eu_BC : option (nat * nat);      (* _BC_type: two references to dictionaries *)
  eu_ops : option ops }.           (* _At, _B *)

(** _base.py:13-18, Euler.py:25-34 *)
Definition euler_init (n : nat) (xmin xmax : option num) (base : option estate) : euler :=
  mk_euler (cheb_init n xmin xmax) base None None.
(** _base.py:27-29, Euler.py:36-38 *)
Definition set_basestate (s : estate) (e : euler) : euler :=
  mk_euler (eu_cheb e) (Some s) (eu_BC e) (eu_ops e).

Inductive bcarg := ArgStr (s : string) | ArgDict (r : nat).
Definition known_BC (v : bcval) : bool :=
  match v with
  | BStr s => orb (String.eqb s "sym") (orb (String.eqb s "per") (String.eqb s "RH"))
  | BNum _ => false end.
(** _base.py:31-36 *)
Definition check_BC (a : bcarg) (h : heap) : (exn + nat) * heap :=
  let '(r, h1) := match a with
                  | ArgStr s => (List.length h, h ++ (("type"%string, BStr s) :: nil) :: nil)
                  | ArgDict r => (r, h) end in
  match dget "type" (hget h1 r) with
  | None => (inl KeyError, h1)
  | Some v => if known_BC v then (inr r, h1) else (inl ValueError, h1)
  end.
(** _base.py:38-39 *)
Definition set_BC (L Rt : bcarg) (h : heap) (e : euler) : option exn * heap * euler :=
  match check_BC L h with
  | (inl x, h1) => (Some x, h1, e)
  | (inr l, h1) =>
    match check_BC Rt h1 with
    | (inl x, h2) => (Some x, h2, e)
    | (inr r, h2) => (None, h2, mk_euler (eu_cheb e) (eu_base e) (Some (l, r)) (eu_ops e))
    end
  end.

(** Euler.py:78-80, 81-83: [bctype = bcdict.pop('type')], then the call *)
Definition apply_BC (n : nat) (D : mat) (x : vec) (q : estate) (istate i0 : nat) (r : nat) (h : heap) (o : ops)
  : option exn * heap * ops :=
  match dget "type" (hget h r) with
  | None => (Some KeyError, h, o)
  | Some t =>
    let kw := dremove "type" (hget h r) in
    let h1 := hset h r kw in
    match t with
    | BStr s =>
      if String.eqb s "sym" then
        match kw with nil => (None, h1, setBC_sym n D istate i0 o) | _ => (Some TypeError, h1, o) end
      else if String.eqb s "per" then (Some TypeError, h1, o)
      else if String.eqb s "RH" then
        let '(x, o1) := setBC_RH n D x q istate i0 kw o in (x, h1, o1)
      else (Some KeyError, h1, o)
    | BNum _ => (Some KeyError, h1, o)
    end
  end.
Definition is_str (s : string) (v : bcval) : bool :=
  match v with BStr t => String.eqb s t | BNum _ => false end.
(** Euler.py:70-83 *)
Definition compute_BC (n : nat) (D : mat) (x : vec) (q : estate) (bc : option (nat * nat)) (h : heap) (o : ops)
  : option exn * heap * ops :=
  match bc with
  | None => (Some ValueError, h, o)
  | Some (l, r) =>
    match dget "type" (hget h l) with
    | None => (Some KeyError, h, o)
    | Some tl =>
      if is_str "per" tl then
        match dget "type" (hget h r) with
        | None => (Some KeyError, h, o)
        | Some tr => if is_str "per" tr then (None, h, setBC_per n D o) else (Some AssertionErr, h, o)
        end
      else
        match apply_BC n D x q 0 0 l h o with
        | (Some e, h1, o1) => (Some e, h1, o1)
        | (None, h1, o1) => apply_BC n D x q (n - 1) (n - 1) r h1 o1
        end
    end
  end.

(** Euler.py:40-68.  [npts >= 1] so that matder(1) returns a matrix. *)
Definition compute_operators (h : heap) (e : euler) : option exn * heap * euler :=
  let '(m, c) := matder 1 (eu_cheb e) in
  match m with
  | Matrix D =>
    match eu_base e with
    | None => (Some AttributeErr, h, mk_euler c (eu_base e) (eu_BC e) (eu_ops e))   (* self.nvar *)
    | Some q =>
      let n := cb_npts c in
      let o := mk_ops (3 * n) euler_At (euler_B n D q) in
      let '(x, h1, o1) := compute_BC n D (cheb_x n (cb_xmin c) (cb_xmax c)) q (eu_BC e) h o in
      (x, h1, mk_euler c (eu_base e) (eu_BC e) (Some o1))
    end
  | _ => (Some AssertionErr, h, e)
  end.

(** _base.py:50-53: the returned pair, or the exception *)
Definition get_RHS_time_matrices (h : heap) (e : euler) : (exn + ops) * heap * euler :=
  match eu_ops e with
  | Some o => (inr o, h, e)
  | None =>
    match compute_operators h e with
    | (Some x, h1, e1) => (inl x, h1, e1)
    | (None, h1, e1) => (match eu_ops e1 with Some o => inr o | None => inl AttributeErr end, h1, e1)
    end
  end.

(** ** Histories *)
Inductive eop := OpBase (s : estate) | OpBC (L Rt : bcarg) | OpGet.
Definition estep (op : eop) (s : heap * euler) : heap * euler :=
  let '(h, e) := s in
  match op with
  | OpBase q => (h, set_basestate q e)
  | OpBC L Rt => let '(_, h1, e1) := set_BC L Rt h e in (h1, e1)
  | OpGet => let '(_, h1, e1) := get_RHS_time_matrices h e in (h1, e1)
  end.
Fixpoint erun (l : list eop) (s : heap * euler) : heap * euler :=
  match l with nil => s | op :: t => erun t (estep op s) end.
