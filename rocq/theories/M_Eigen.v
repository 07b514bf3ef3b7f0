(** * Model of aerokit/stability/_base.py:55-101: spectrum, selection, refinement
    [scipy.linalg.eig], [numpy.argsort] and [numpy.linalg.solve] are parameters; the theorems
    state what they assume of them.  An eigenvalue that is not finite is [None]. *)
From Coq Require Import String.
From Verif Require Import Num M_Spectral M_Euler M_OrrSommerfeld.
From Coquelicot Require Import Complex.
Open Scope R_scope.

(** ** _base.py:60-73 *)
Definition in_window (realmin realmax imagmin imagmax : R) (z : cnum) : bool :=
  match z with
  | None => false
  | Some z => andb (andb (andb (if Rlt_dec (fst z) realmax then true else false)
                               (if Rle_dec realmin (fst z) then true else false))
                         (if Rlt_dec imagmin (snd z) then true else false))
                   (if Rlt_dec (snd z) imagmax then true else false)
  end.
(** numpy.compress: along the only axis for the values, along the columns for the vectors
    (a matrix being given as its list of columns) *)
Fixpoint compress {A} (condition : list bool) (l : list A) : list A :=
  match condition, l with
  | b :: c, x :: t => if b then x :: compress c t else compress c t
  | _, _ => nil
  end.
(** the keys of a non-finite value are never used: they have been removed *)
Definition re_key (z : cnum) : R := match z with Some z => fst z | None => 0 end.
Definition neg_im_key (z : cnum) : R := match z with Some z => - snd z | None => 0 end.
Definition sortmethod (sort : string) : option (cnum -> R) :=
  if String.eqb sort "real" then Some re_key
  else if String.eqb sort "imag" then Some neg_im_key else None.

Inductive eig_exn := EigAttribute | EigKey | EigLinAlg.
(** [spec]: the attributes _vals and _vects, absent before solve_eig *)
Definition select_and_sort {col} (argsort : list R -> list nat) (spec : option (list cnum * list col))
    (realmin realmax imagmin imagmax : R) (sort : string) : eig_exn + (list cnum * list col * list nat) :=
  match spec with
  | None => inl EigAttribute
  | Some (vals0, vects0) =>
    let condition := map (in_window realmin realmax imagmin imagmax) vals0 in
    let vals := compress condition vals0 in
    let vects := compress condition vects0 in
    match sortmethod sort with
    | None => inl EigKey
    | Some key => inr (vals, vects, argsort (map key vals))
    end
  end.

(** ** _base.py:75-101 *)
Definition cdiv (a b : cnum) : cnum :=
  match a, b with
  | Some x, Some y => if Req_EM_T (fst y) 0 then if Req_EM_T (snd y) 0 then None else Some (Cdiv x y) else Some (Cdiv x y)
  | _, _ => None end.
Definition cabs2 (a : cnum) : num := match a with Some z => Some (fst z * fst z + snd z * snd z) | None => None end.
(** numpy.linalg.norm of a vector *)
Definition cnorm (n : nat) (v : cvec) : num := nsqrt (nsum n (fun i => cabs2 (v i))).
(** numpy.vdot: the first argument is conjugated *)
Definition cconj (a : cnum) : cnum := option_map Cconj a.
Definition vdot (n : nat) (a b : cvec) : cnum := csum n (fun i => cmul (cconj (a i)) (b i)).
Definition vscale (v : cvec) (s : num) : cvec := fun i => cdivn (v i) s.

Inductive solve_result := Solved (w : cvec) | Singular | OtherError.
Section CONVERGE.
Context (n : nat) (solve : cmat -> cvec -> solve_result).
(** _base.py:92-94, 96-100: one pass of the loop; [exit] is an expression without effect *)
Definition rq_step (B M : cmat) (s : cnum * cvec) : eig_exn + (cnum * cvec) :=
  let '(omega, v) := s in
  match solve (fun i j => csub (B i j) (cmul omega (M i j))) v with
  | Solved w =>
    let v' := vscale w (cnorm n w) in
    inr (cdiv (vdot n v' (cmatvec n B v')) (vdot n v' (cmatvec n M v')), v')
  | Singular => inr s
  | OtherError => inl EigLinAlg
  end.
Fixpoint rq_loop (B M : cmat) (niter : nat) (s : cnum * cvec) : eig_exn + (cnum * cvec) :=
  match niter with
  | O => inr s
  | S k => match rq_step B M s with inl x => inl x | inr s' => rq_loop B M k s' end
  end.
(** _base.py:83-101 with the matrices B, At of get_RHS_time_matrices *)
Definition converge_eigenpair (B At : cmat) (omega : cnum) (eigenmode : cvec) (niter : nat) : eig_exn + (cnum * cvec) :=
  let M : cmat := fun i j => cmul (Some (Copp Ci)) (At i j) in
  rq_loop B M niter (omega, vscale eigenmode (cnorm n eigenmode)).
End CONVERGE.
