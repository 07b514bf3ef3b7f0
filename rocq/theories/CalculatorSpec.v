(** * The vtk calculator language, as far as extendvar.py uses it: characters, tokens, grammar, meaning.
    Words are letters, digits, '.' and '_'.  Precedence: '^', then '*' and '/', then '+' and '-', all left-associative;
    unary minus binds tightest; a word followed by '(' is a function; a word starting with a digit is a decimal number;
    any other word is a field. *)
From Coq Require Import String Ascii.
From Verif Require Import Num.
Open Scope string_scope.
Open Scope list_scope.

Definition in_range (lo hi : nat) (c : ascii) : bool := Nat.leb lo (nat_of_ascii c) && Nat.leb (nat_of_ascii c) hi.
Definition digit (c : ascii) : bool := in_range 48 57 c.
Definition word_char (c : ascii) : bool := in_range 65 90 c || in_range 97 122 c || digit c || Ascii.eqb c "_" || Ascii.eqb c ".".
Inductive token := Word (w : string) | Sym (c : ascii).
Definition flush (acc : string) (l : list token) : list token := match acc with EmptyString => l | _ => Word acc :: l end.
Fixpoint tokens (acc s : string) : list token :=
  match s with
  | EmptyString => flush acc []
  | String c s => if word_char c then tokens (append acc (String c EmptyString)) s else flush acc (Sym c :: tokens EmptyString s)
  end.

Inductive formula :=
| Number (w : string) | Field (w : string) | Apply (f : string) (e : formula) | Minus (e : formula)
| Op (c : ascii) (a b : formula).
Definition starts_digit (w : string) : bool := match w with String c _ => digit c | _ => false end.
Definition op_level (c : ascii) : nat :=
  if Ascii.eqb c "+" || Ascii.eqb c "-" then 1 else if Ascii.eqb c "*" || Ascii.eqb c "/" then 2 else if Ascii.eqb c "^" then 3 else 0.
(** precedence climbing: [atom] reads an operand, [climb lhs lev] absorbs operators of level at least lev *)
Fixpoint atom (n : nat) (l : list token) : option (formula * list token) :=
  match n with
  | O => None
  | S n =>
    match l with
    | Sym "-" :: l => match atom n l with Some (e, l) => Some (Minus e, l) | None => None end
    | Sym "(" :: l => match sum n l with Some (e, Sym ")" :: l) => Some (e, l) | _ => None end
    | Word w :: Sym "(" :: l => match sum n l with Some (e, Sym ")" :: l) => Some (Apply w e, l) | _ => None end
    | Word w :: l => Some (if starts_digit w then Number w else Field w, l)
    | _ => None
    end
  end
with sum (n : nat) (l : list token) : option (formula * list token) :=
  match n with
  | O => None
  | S n => match atom n l with Some (e, l) => climb n 1 e l | None => None end
  end
with climb (n : nat) (lev : nat) (lhs : formula) (l : list token) : option (formula * list token) :=
  match n with
  | O => None
  | S n =>
    match l with
    | Sym c :: l' =>
        if Nat.eqb (op_level c) 0 then Some (lhs, l) else if Nat.ltb (op_level c) lev then Some (lhs, l) else
        match atom n l' with
        | Some (rhs, l'') => match climb n (S (op_level c)) rhs l'' with Some (rhs, l''') => climb n lev (Op c lhs rhs) l''' | None => None end
        | None => None end
    | _ => Some (lhs, l)
    end
  end.
Definition parse (s : string) : option formula :=
  let l := tokens EmptyString s in
  match sum (4 * List.length l + 4) l with Some (e, nil) => Some e | _ => None end.

(** ** meaning: fields are scalars or vectors at one point *)
Inductive value := Scalar (x : num) | Vector (x y z : R).
Definition fields := string -> option value.
Definition digit_value (c : ascii) : Z := Z.of_nat (nat_of_ascii c - 48).
Fixpoint decimal (s : string) (point : bool) (m : Z) (k : Z) : R :=
  match s with
  | EmptyString => (IZR m / IZR k)%R
  | String c s => if Ascii.eqb c "." then decimal s true m k else decimal s point (m * 10 + digit_value c)%Z (if point then k * 10 else k)%Z
  end.
Fixpoint meaning (env : fields) (e : formula) : option value :=
  match e with
  | Number w => Some (Scalar (Some (decimal w false 0 1)))
  | Field w => env w
  | Minus e => match meaning env e with Some (Scalar x) => Some (Scalar (nopp x)) | _ => None end
  | Apply f e =>
      match meaning env e with
      | Some (Vector x y z) => if String.eqb f "mag" then Some (Scalar (Some (sqrt (x ^ 2 + y ^ 2 + z ^ 2))))%R else None
      | Some (Scalar x) =>
          if String.eqb f "sqrt" then Some (Scalar (nsqrt x)) else if String.eqb f "ln" then Some (Scalar (nlog x))
          else if String.eqb f "atan" then Some (Scalar (narctan x)) else if String.eqb f "acos" then Some (Scalar (narccos x)) else None
      | None => None
      end
  | Op c a b =>
      match meaning env a, meaning env b with
      | Some (Scalar x), Some (Scalar y) =>
          if Ascii.eqb c "+" then Some (Scalar (nadd x y)) else if Ascii.eqb c "-" then Some (Scalar (nsub x y))
          else if Ascii.eqb c "*" then Some (Scalar (nmul x y)) else if Ascii.eqb c "/" then Some (Scalar (ndiv x y))
          else if Ascii.eqb c "^" then Some (Scalar (npow x y)) else None
      | _, _ => None
      end
  end.
Definition evaluates (env : fields) (s : string) (x : R) : Prop := exists e, parse s = Some e /\ meaning env e = Some (Scalar (Some x)).
(** a field name *)
Fixpoint all_word (s : string) : bool := match s with EmptyString => true | String c s => word_char c && all_word s end.
Definition field_name (s : string) : Prop := s <> EmptyString /\ all_word s = true /\ starts_digit s = false.
