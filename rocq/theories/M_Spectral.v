(** * Model of aerokit/common/numspectral.py (ChebCollocation)

    A numpy array of shape (N,) is a function [nat -> num] together with its size, a matrix
    of shape (N,N) a function [nat -> nat -> num]; only indices below the size are
    meaningful.  Arithmetic is the exact-real one of Num.v.  [npts] is a natural number
    >= 1 (negative or zero sizes, for which numpy raises, are not modelled). *)
From Verif Require Import Num.
Open Scope R_scope.
Open Scope num_scope.

Definition vec := nat -> num.
Definition mat := nat -> nat -> num.

(** a non-negative integer converted to float *)
Definition nofnat (n : nat) : num := Some (INR n).
(** [a[0] + ... + a[n-1]] ([np.sum] of [n] entries) *)
Fixpoint nsum (n : nat) (a : vec) : num :=
  match n with O => Some 0%R | S k => nsum k a + a k end.

(** numspectral.py:25-28  [xi]: [np.arange(npts) * np.pi / (npts - 1)], then [np.cos] *)
Definition cheb_xi (npts : nat) : vec := fun i =>
  ncos (nofnat i * npi / (nofnat npts - Some 1%R)).

(** numspectral.py:34-35 *)
Definition x_to_xi (xmin xmax x : num) : num :=
  Some 1%R - Some 2%R * (x - xmin) / (xmax - xmin).
(** numspectral.py:37-39 *)
Definition xi_to_x (xmin xmax xi : num) : num :=
  xmin + (xi - Some 1%R) / Some (-2)%R * (xmax - xmin).
(** numspectral.py:30-32 *)
Definition cheb_x (npts : nat) (xmin xmax : num) : vec := fun i =>
  xi_to_x xmin xmax (cheb_xi npts i).

(** numspectral.py:87-88: [Th[i][j] = j*pi/(N-1)/2];
    [DX = 2*sin(Th+Th.T)*sin(Th-Th.T)] *)
Definition Th (N : nat) : mat := fun _ j => nofnat j * npi / (nofnat N - Some 1%R) / Some 2%R.
Definition DX0 (N : nat) : mat := fun i j =>
  Some 2%R * nsin (Th N i j + Th N j i) * nsin (Th N i j - Th N j i).
(** numspectral.py:84-85,89: rows [0..N//2) of [DX], then the first [ceil(N/2)] rows
    flipped up-down and left-right and negated: row [k] of [flipud(fliplr(DX[:n2]))] is row
    [n2-1-k] of [DX] read from the last column. *)
Definition DX1 (N : nat) : mat := fun i j =>
  let n1 := Nat.div2 N in
  let n2 := (N - n1)%nat in
  if Nat.ltb i n1 then DX0 N i j
  else - DX0 N (n2 - 1 - (i - n1))%nat (N - 1 - j)%nat.
(** numspectral.py:91 *)
Definition fill_diagonal (A : mat) (v : vec) : mat := fun i j =>
  if Nat.eqb i j then v i else A i j.
Definition DX (N : nat) : mat := fill_diagonal (DX1 N) (fun _ => Some 1%R).

(** numspectral.py:93-95: symmetric Toeplitz matrix of [(-1.0)**k] *)
Definition toeplitz (col row : vec) : mat := fun i j =>
  if Nat.leb j i then col (i - j)%nat else row (j - i)%nat.
Definition altern : vec := fun k => npowi (Some (-1)%R) k.
(** numspectral.py:97-102: scalings of the first/last row and column, in this order *)
Definition scale_row (r : nat) (f : num -> num) (A : mat) : mat := fun i j =>
  if Nat.eqb i r then f (A i j) else A i j.
Definition scale_col (c : nat) (f : num -> num) (A : mat) : mat := fun i j =>
  if Nat.eqb j c then f (A i j) else A i j.
Definition Cmat (N : nat) : mat :=
  let T := toeplitz altern altern in
  let C1 := scale_row 0 (fun a => a * Some 2%R) T in
  let C2 := scale_row (N - 1) (fun a => a * Some 2%R) C1 in
  let C3 := scale_col 0 (fun a => a / Some 2%R) C2 in
  scale_col (N - 1) (fun a => a / Some 2%R) C3.

(** numspectral.py:104-106: [Z = 1/DX], zero diagonal *)
Definition Zmat (N : nat) : mat :=
  fill_diagonal (fun i j => Some 1%R / DX N i j) (fun _ => Some 0%R).
(** numspectral.py:82 *)
Definition eye : mat := fun i j => if Nat.eqb i j then Some 1%R else Some 0%R.

(** numspectral.py:112-114: one pass of the loop body on [D] *)
Definition D_step (N ell : nat) (D : mat) : mat :=
  let E : mat := fun i j =>
    Some (INR (S ell)) * Zmat N i j * (Cmat N i j * D i i - D i j) in
  fill_diagonal E (fun i => - nsum N (E i)).
(** numspectral.py:115 *)
Definition D_scaled (xmin xmax : num) (ell : nat) (D : mat) : mat := fun i j =>
  D i j * npowi (Some (-2)%R / (xmax - xmin)) (S ell).

(** numspectral.py:111-115: [for ell in range(M)]; returns [DM[:,:,0..M-1]] as a list.
    [todo] passes remain, the next one has index [ell]. *)
Fixpoint D_loop (N : nat) (xmin xmax : num) (todo ell : nat) (D : mat) : list mat :=
  match todo with
  | O => nil
  | S k => let D' := D_step N ell D in
           D_scaled xmin xmax ell D' :: D_loop N xmin xmax k (S ell) D'
  end.

(** numspectral.py:13-18: the state of a ChebCollocation object.  [cb_matder] is the
    attribute [_matder], absent before the first [compute_matder]. *)
Record cheb := mk_cheb {
  cb_npts : nat; cb_xmin : num; cb_xmax : num;
  cb_max : nat; cb_matder : option (list mat) }.
Definition cheb_init (npts : nat) (xmin xmax : option num) : cheb :=
  mk_cheb npts (match xmin with None => Some (-1)%R | Some v => v end)
          (match xmax with None => Some 1%R | Some v => v end) 0 None.

(** numspectral.py:77-117 *)
Definition compute_matder (maxorder : nat) (c : cheb) : cheb :=
  mk_cheb (cb_npts c) (cb_xmin c) (cb_xmax c) maxorder
    (Some (D_loop (cb_npts c) (cb_xmin c) (cb_xmax c) maxorder 0 eye)).

Inductive matder_result :=
  | Matrix (A : mat) | AssertionError | AttributeError | IndexError.

(** numspectral.py:71-75: the result and the new state of the object *)
Definition matder (order : nat) (c : cheb) : matder_result * cheb :=
  if Nat.ltb order 1 then (AssertionError, c) else
  let c' := if Nat.ltb (cb_max c) order then compute_matder order c else c in
  match cb_matder c' with
  | None => (AttributeError, c')
  | Some DM => (match nth_error DM (order - 1) with
                | Some A => Matrix A | None => IndexError end, c')
  end.

(** a history of requests *)
Fixpoint matder_run (orders : list nat) (c : cheb) : cheb :=
  match orders with nil => c | k :: t => matder_run t (snd (matder k c)) end.

(** matrix-vector product [A @ f] *)
Definition matvec (N : nat) (A : mat) (f : vec) : vec := fun i =>
  nsum N (fun j => A i j * f j).

(** ** Interpolation *)
(** numpy.polynomial.chebyshev.chebvander, chebval: [T_0 = 1], [T_1 = x],
    [T_{k+2} = 2 x T_{k+1} - T_k]; the pair is [(T_k, T_{k+1})] *)
Fixpoint chebT_pair (k : nat) (x : num) : num * num :=
  match k with
  | O => (Some 1%R, x)
  | S k => let '(a, b) := chebT_pair k x in (b, Some 2%R * x * b - a)
  end.
Definition chebT (k : nat) (x : num) : num := fst (chebT_pair k x).
Definition chebval (deg : nat) (coefs : vec) (x : num) : num :=
  nsum (S deg) (fun k => coefs k * chebT k x).
(** row [i], column [k]: [T_k (x_i)] *)
Definition chebvander (x : vec) : mat := fun i k => chebT k (x i).

(** numspectral.py:41-57.  [solve n A f] stands for [np.linalg.solve] on an n x n system
    ([None]: LinAlgError). *)
Definition extrapol (solve : nat -> mat -> vec -> option vec)
    (c : cheb) (fk : vec) (x : num) : num :=
  let n := cb_npts c in
  match solve n (chebvander (cheb_xi n)) fk with
  | None => None
  | Some coefs => chebval (n - 1) coefs (x_to_xi (cb_xmin c) (cb_xmax c) x)
  end.
(** numspectral.py:59-69.  [lstsq m n A f] stands for [np.linalg.lstsq] on [m] equations in
    [n] unknowns; [m] is the number of data points. *)
Definition fit_to_gauss (lstsq : nat -> nat -> mat -> vec -> option vec)
    (c : cheb) (m : nat) (x f : vec) : option vec :=
  let n := cb_npts c in
  match lstsq m n (chebvander (fun i => x_to_xi (cb_xmin c) (cb_xmax c) (x i))) f with
  | None => None
  | Some coefs => Some (fun i => chebval (n - 1) coefs (cheb_xi n i))
  end.
