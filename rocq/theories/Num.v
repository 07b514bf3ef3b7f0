(** * Num: exact-real semantics of the Python/numpy numeric expressions

    [num := option R].  [Some x]: the expression evaluates to the real [x] in exact
    arithmetic.  [None]: no finite real value (numpy nan/inf, ZeroDivisionError,
    complex result).  All operations are strict in [None], including comparisons.

    Simplification with respect to the implementation: binary64 rounding, overflow and
    signed zeros are not modelled; decimal literals denote the exact decimal number. *)
From Coq Require Export Reals Lra ZArith Lia List Bool.
Export ListNotations.
Open Scope R_scope.

Definition num := option R.

Declare Scope num_scope.
Delimit Scope num_scope with num.
Bind Scope num_scope with num.

Definition nadd (x y : num) : num :=
  match x, y with Some a, Some b => Some (a + b) | _, _ => None end.
Definition nsub (x y : num) : num :=
  match x, y with Some a, Some b => Some (a - b) | _, _ => None end.
Definition nmul (x y : num) : num :=
  match x, y with Some a, Some b => Some (a * b) | _, _ => None end.
Definition nopp (x : num) : num :=
  match x with Some a => Some (- a) | None => None end.
(** Division by zero has no finite result. *)
Definition ndiv (x y : num) : num :=
  match x, y with
  | Some a, Some b => if Req_EM_T b 0 then None else Some (a / b)
  | _, _ => None end.
(** [np.sqrt]: nan below zero. *)
Definition nsqrt (x : num) : num :=
  match x with
  | Some a => if Rle_dec 0 a then Some (sqrt a) else None
  | None => None end.
(** [x ** n] and [np.square] for a literal non-negative integer exponent. *)
Definition npowi (x : num) (n : nat) : num :=
  match x with Some a => Some (a ^ n) | None => None end.
(** [x ** y] with a float exponent: positive base by [exp (y ln x)]; zero base; negative
    base only when the exponent is an integer. *)
Definition npow (x y : num) : num :=
  match x, y with
  | Some a, Some b =>
      if Rlt_dec 0 a then Some (Rpower a b)
      else if Req_EM_T a 0 then
        (if Rlt_dec 0 b then Some 0 else if Req_EM_T b 0 then Some 1 else None)
      else if Req_EM_T b (IZR (Int_part b)) then Some (powerRZ a (Int_part b)) else None
  | _, _ => None end.
Definition nlog (x : num) : num :=
  match x with
  | Some a => if Rlt_dec 0 a then Some (ln a) else None
  | None => None end.
Definition nexp (x : num) : num :=
  match x with Some a => Some (exp a) | None => None end.
Definition nsin (x : num) : num :=
  match x with Some a => Some (sin a) | None => None end.
Definition ncos (x : num) : num :=
  match x with Some a => Some (cos a) | None => None end.
Definition ntan (x : num) : num :=
  match x with
  | Some a => if Req_EM_T (cos a) 0 then None else Some (tan a)
  | None => None end.
Definition narcsin (x : num) : num :=
  match x with
  | Some a => if Rle_dec (-1) a then if Rle_dec a 1 then Some (asin a) else None else None
  | None => None end.
Definition narccos (x : num) : num :=
  match x with
  | Some a => if Rle_dec (-1) a then if Rle_dec a 1 then Some (acos a) else None else None
  | None => None end.
Definition narctan (x : num) : num :=
  match x with Some a => Some (atan a) | None => None end.
(** [np.arctan2 y x]: the angle in (-pi, pi] of the point (x, y); 0 at the origin. *)
Definition Ratan2 (y x : R) : R :=
  if Rlt_dec 0 x then atan (y / x)
  else if Rlt_dec x 0 then
    (if Rle_dec 0 y then atan (y / x) + PI else atan (y / x) - PI)
  else (if Rlt_dec 0 y then PI / 2 else if Rlt_dec y 0 then - (PI / 2) else 0).
Definition narctan2 (y x : num) : num :=
  match y, x with Some a, Some b => Some (Ratan2 a b) | _, _ => None end.
Definition nabs (x : num) : num :=
  match x with Some a => Some (Rabs a) | None => None end.
Definition nmax (x y : num) : num :=
  match x, y with Some a, Some b => Some (Rmax a b) | _, _ => None end.
Definition nmin (x y : num) : num :=
  match x, y with Some a, Some b => Some (Rmin a b) | _, _ => None end.
(** [np.sign] *)
Definition Rsign (a : R) : R := if Rlt_dec 0 a then 1 else if Rlt_dec a 0 then -1 else 0.
Definition nsign (x : num) : num :=
  match x with Some a => Some (Rsign a) | None => None end.
Definition npi : num := Some PI.
(** [np.radians], [np.degrees] *)
Definition nradians (x : num) : num :=
  match x with Some a => Some (a * (PI / 180)) | None => None end.
Definition ndegrees (x : num) : num :=
  match x with Some a => Some (a * (180 / PI)) | None => None end.

(** Comparisons: [None] when an operand has no finite value. *)
Definition nlt (x y : num) : option bool :=
  match x, y with
  | Some a, Some b => Some (if Rlt_dec a b then true else false)
  | _, _ => None end.
Definition ngt (x y : num) : option bool := nlt y x.
Definition nle (x y : num) : option bool :=
  match x, y with
  | Some a, Some b => Some (if Rle_dec a b then true else false)
  | _, _ => None end.
Definition nge (x y : num) : option bool := nle y x.
(** [if c: t else: e]; no result when the test has none. *)
Definition nif {A} (c : option bool) (t e : option A) : option A :=
  match c with Some true => t | Some false => e | None => None end.

Notation "# x" := (Some (x)%R) (at level 8, x at level 8) : num_scope.
Infix "+" := nadd : num_scope.
Infix "-" := nsub : num_scope.
Infix "*" := nmul : num_scope.
Infix "/" := ndiv : num_scope.
Notation "- x" := (nopp x) : num_scope.
Infix "^" := npowi : num_scope.
Infix "**" := npow (at level 30, right associativity) : num_scope.
Infix "<?" := nlt : num_scope.
Infix ">?" := ngt (at level 70) : num_scope.
Infix "<=?" := nle : num_scope.
Infix ">=?" := nge (at level 70) : num_scope.
