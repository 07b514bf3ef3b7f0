(** * Binary64 versions of the functions that only use correctly rounded operations
    The other models compute with exact real numbers.  Here a float is a real number of the
    binary64 format; [None] is anything that is not a finite number (infinity after an overflow,
    nan).  +, -, *, / and sqrt are correctly rounded, ties to even, as IEEE 754 requires, and so is
    [x ** 2] (numpy computes x * x).  A result that overflows is not followed further. *)
From Coq Require Import Reals List ZArith.
From Flocq Require Import Core.
Import ListNotations.
Open Scope R_scope.

(** the binary64 format: 53 bits of mantissa, smallest positive number 2^-1074 *)
Definition fmt : Z -> Z := FLT_exp (-1074) 53.
Definition rn (x : R) : R := round radix2 fmt ZnearestE x.
Definition b64 (x : R) : Prop := generic_format radix2 fmt x /\ Rabs x < bpow radix2 1024.
Definition fnum := option R.
Definition fl (x : R) : fnum := if Rlt_dec (Rabs (rn x)) (bpow radix2 1024) then Some (rn x) else None.
Definition fop2 (f : R -> R -> R) (a b : fnum) : fnum :=
  match a, b with Some x, Some y => fl (f x y) | _, _ => None end.
Definition fadd := fop2 Rplus.
Definition fsub := fop2 Rminus.
Definition fmul := fop2 Rmult.
Definition fdiv (a b : fnum) : fnum :=
  match a, b with Some x, Some y => if Req_EM_T y 0 then None else fl (x / y) | _, _ => None end.
Definition fsqrt (a : fnum) : fnum :=
  match a with Some x => if Rlt_dec x 0 then None else fl (sqrt x) | None => None end.

(** ** aerokit/common/_ode.py:16-27 (RK4): the loop on the abscissae, with the assignments to y and Y.
    [step x y h] is the value of [y + run_kut4(F, x, y, h)], which the loop test does not depend on.
    [min(h, d)] is d if d < h, else h.  [None]: not ended after [fuel] passes (or xStop - x or x + h
    overflows, which is not followed) *)
Fixpoint float_rk4_loop {Y} (step : R -> Y -> R -> Y) (fuel : nat) (x : R) (y : Y) (xStop h : R) : option (list R * list Y) :=
  if Rlt_dec x xStop then
    match fuel with
    | O => None
    | S k =>
      match fl (xStop - x) with
      | None => None
      | Some d =>
        let h := if Rlt_dec d h then d else h in
        let y := step x y h in
        match fl (x + h) with
        | None => None
        | Some x =>
          match float_rk4_loop step k x y xStop h with None => None | Some (X, Ys) => Some (x :: X, y :: Ys) end
        end
      end
    end
  else Some ([], []).
Definition float_RK4 {Y} (step : R -> Y -> R -> Y) (fuel : nat) (x : R) (y : Y) (xStop h : R) : option (list R * list Y) :=
  match float_rk4_loop step fuel x y xStop h with None => None | Some (X, Ys) => Some (x :: X, y :: Ys) end.

(** ** aerokit/aero/Isentropic.py:45 (TtTs_Mach) *)
Definition float_TtTs_Mach (M gamma : fnum) : fnum :=
  fadd (Some 1) (fmul (fmul (Some (1 / 2)) (fsub gamma (Some 1))) (fmul M M)).
(** ** Isentropic.py:81 (Mach_TtTs) *)
Definition float_Mach_TtTs (T gamma : fnum) : fnum :=
  fsqrt (fdiv (fmul (fsub T (Some 1)) (Some 2)) (fsub gamma (Some 1))).
(** ** aerokit/aero/ShockWave.py:27 (Ps_ratio) *)
Definition float_Ps_ratio (Mn gamma : fnum) : fnum :=
  fadd (Some 1) (fmul (fdiv (fmul (Some 2) gamma) (fadd gamma (Some 1))) (fsub (fmul Mn Mn) (Some 1))).
(** ** ShockWave.py:41 (Mn_Ps_ratio) *)
Definition float_Mn_Ps_ratio (P gamma : fnum) : fnum :=
  fsqrt (fadd (Some 1) (fdiv (fmul (fsub P (Some 1)) (fadd gamma (Some 1))) (fmul (Some 2) gamma))).
(** ** aerokit/aero/Rayleigh.py:29-32 (Ti_Ticri); np.square(x) is x * x *)
Definition float_Ti_Ticri (M gamma : fnum) : fnum :=
  let m2 := fmul M M in
  let u := fadd (Some 1) (fmul gamma m2) in
  fmul (fdiv (fmul (fmul (Some 2) (fadd gamma (Some 1))) m2) (fmul u u))
       (fadd (Some 1) (fmul (fdiv (fsub gamma (Some 1)) (Some 2)) m2)).
(** ** Rayleigh.py:63-66 (SubMach_TiTicri), 69-72 (SupMach_TiTicri) *)
Definition float_SubMach_TiTicri (T gamma : fnum) : fnum :=
  let alpha := fsqrt (fsub (Some 1) T) in
  fsqrt (fdiv (fsub (Some 1) alpha) (fadd (fmul alpha gamma) (Some 1))).
Definition float_SupMach_TiTicri (T gamma : fnum) : fnum :=
  let alpha := fsqrt (fsub (Some 1) T) in
  fsqrt (fdiv (fadd (Some 1) alpha) (fsub (Some 1) (fmul alpha gamma))).
(** ** ShockWave.py:154 and 168-169: the argument of the arc sine in deflection_Mach_ShockPsratio and
    downstreamMach_Mach_ShockPsratio.  numpy's arcsin is a number for arguments in [-1, 1], nan for others *)
Definition float_shock_sine (M P gamma : fnum) : fnum := fdiv (float_Mn_Ps_ratio P gamma) M.
Definition float_arcsin_defined (x : fnum) : Prop := match x with Some s => -1 <= s <= 1 | None => False end.
(** ** ShockWave.py:54 (Rho_ratio), 67 (Ts_ratio), 80 (downstream_Mn) *)
Definition float_Rho_ratio (Mn gamma : fnum) : fnum :=
  fdiv (fmul (fadd gamma (Some 1)) (fmul Mn Mn)) (fadd (Some 2) (fmul (fsub gamma (Some 1)) (fmul Mn Mn))).
Definition float_Ts_ratio (Mn gamma : fnum) : fnum := fdiv (float_Ps_ratio Mn gamma) (float_Rho_ratio Mn gamma).
Definition float_downstream_Mn (Mn gamma : fnum) : fnum :=
  let h := fmul (Some (1 / 2)) (fsub gamma (Some 1)) in
  fsqrt (fdiv (fadd (Some 1) (fmul h (fmul Mn Mn))) (fsub (fmul gamma (fmul Mn Mn)) h)).
(** ** aerokit/aero/Fanno.py:24-26 (Ps_Pscri), 29-31 (Ts_Tscri), 34-36 (Rho_Rhocri), 48-50 (V_Vcri); [fa_t]: the expression they share *)
Definition float_fa_t (M gamma : fnum) : fnum := fadd (Some 1) (fmul (fdiv (fsub gamma (Some 1)) (Some 2)) (fmul M M)).
Definition float_Fa_Ps_Pscri (M gamma : fnum) : fnum :=
  fdiv (Some 1) (fmul M (fsqrt (fmul (fdiv (Some 2) (fadd gamma (Some 1))) (float_fa_t M gamma)))).
Definition float_Fa_Ts_Tscri (M gamma : fnum) : fnum :=
  fdiv (fdiv (fadd gamma (Some 1)) (Some 2)) (float_fa_t M gamma).
Definition float_Fa_Rho_Rhocri (M gamma : fnum) : fnum :=
  fmul (fdiv (Some 1) M) (fsqrt (fmul (fdiv (Some 2) (fadd gamma (Some 1))) (float_fa_t M gamma))).
Definition float_Fa_V_Vcri (M gamma : fnum) : fnum :=
  fdiv M (fsqrt (fmul (fdiv (Some 2) (fadd gamma (Some 1))) (float_fa_t M gamma))).
(** ** aerokit/aero/Rayleigh.py:18-20 (Ps_Pscri), 23-26 (Ts_Tscri), 35-38 (Rho_Rhocri), 51-54 (V_Vcri) *)
Definition float_Ra_Ps_Pscri (M gamma : fnum) : fnum :=
  fdiv (fadd gamma (Some 1)) (fadd (Some 1) (fmul gamma (fmul M M))).
Definition float_Ra_Ts_Tscri (M gamma : fnum) : fnum :=
  let m2 := fmul M M in
  let q := fdiv (fadd gamma (Some 1)) (fadd (Some 1) (fmul gamma m2)) in
  fmul m2 (fmul q q).
Definition float_Ra_Rho_Rhocri (M gamma : fnum) : fnum :=
  let m2 := fmul M M in fdiv (fadd (Some 1) (fmul gamma m2)) (fmul (fadd gamma (Some 1)) m2).
Definition float_Ra_V_Vcri (M gamma : fnum) : fnum :=
  let m2 := fmul M M in fdiv (fmul m2 (fadd gamma (Some 1))) (fadd (Some 1) (fmul gamma m2)).
(** ** Isentropic.py:98-111 (Velocity_MachTt) *)
Definition float_Velocity_MachTt (M Tt r gamma : fnum) : fnum :=
  fmul M (fsqrt (fdiv (fmul (fmul gamma r) Tt) (float_TtTs_Mach M gamma))).
