(** * Binary64 models of the functions that use powers
    As in M_Float.v, each operation is the correctly rounded one, in the order of the source, and [x ** 2] is x * x.
    Python's [**] on floats is the C library's [pow]: it is a parameter [p] here, and [libm_pow] says what is known of it. *)
From Coq Require Import Reals.
From Flocq Require Import Core.
From Verif Require Import M_Float.
Open Scope R_scope.

(** [p] returns doubles and is accurate to one unit in the last place (relative error 2^-52) when the exact power is in the range of doubles *)
Definition libm_pow (p : R -> R -> R) : Prop :=
  forall x y, generic_format radix2 fmt x -> generic_format radix2 fmt y -> 0 < x ->
    bpow radix2 (-1022) <= Rpower x y <= bpow radix2 1022 ->
    generic_format radix2 fmt (p x y) /\ Rabs (p x y - Rpower x y) <= Rpower x y / 2 ^ 52.
(** simplification: powers of zero and of negative numbers are not followed *)
Definition fpow (p : R -> R -> R) (a b : fnum) : fnum :=
  match a, b with Some x, Some y => if Rlt_dec 0 x then fl (p x y) else None | _, _ => None end.
Section WithPow.
Variable p : R -> R -> R.
(** ** aerokit/aero/Isentropic.py:67 (PtPs_Mach) *)
Definition float_PtPs_Mach (M gamma : fnum) : fnum :=
  fpow p (fadd (Some 1) (fmul (fmul (Some (1 / 2)) (fsub gamma (Some 1))) (fmul M M))) (fdiv gamma (fsub gamma (Some 1))).
(** ** Isentropic.py:95 (Mach_PtPs) *)
Definition float_Mach_PtPs (P gamma : fnum) : fnum :=
  fsqrt (fdiv (fmul (fsub (fpow p P (fdiv (fsub gamma (Some 1)) gamma)) (Some 1)) (Some 2)) (fsub gamma (Some 1))).
(** ** aerokit/aero/MassFlow.py:33-36 (Sigma_Mach) *)
Definition float_Sigma_Mach (M gamma : fnum) : fnum :=
  fdiv (fpow p (fmul (fdiv (Some 2) (fadd gamma (Some 1))) (fadd (Some 1) (fmul (fmul (Some (1 / 2)) (fsub gamma (Some 1))) (fmul M M))))
               (fdiv (fmul (Some (1 / 2)) (fadd gamma (Some 1))) (fsub gamma (Some 1)))) M.
(** ** MassFlow.py:25-30 (WeightMassFlow) *)
Definition float_WeightMassFlow (M gamma : fnum) : fnum :=
  fmul (fmul (fsqrt gamma) M)
       (fpow p (fadd (Some 1) (fmul (fmul (Some (1 / 2)) (fsub gamma (Some 1))) (fmul M M)))
               (fdiv (fmul (Some (- (1 / 2))) (fadd gamma (Some 1))) (fsub gamma (Some 1)))).
(** ** aerokit/aero/Fanno.py:39-45 (Pi_Picri) *)
Definition float_Fa_Pi_Picri (M gamma : fnum) : fnum :=
  fmul (fdiv (Some 1) M)
       (fpow p (fmul (fdiv (Some 2) (fadd gamma (Some 1))) (float_fa_t M gamma))
               (fdiv (fdiv (fadd gamma (Some 1)) (Some 2)) (fsub gamma (Some 1)))).
(** ** aerokit/aero/Rayleigh.py:41-48 (Pi_Picri) *)
Definition float_Ra_Pi_Picri (M gamma : fnum) : fnum :=
  fmul (fdiv (fadd gamma (Some 1)) (fadd (Some 1) (fmul gamma (fmul M M))))
       (fpow p (fmul (fdiv (Some 2) (fadd gamma (Some 1))) (float_fa_t M gamma)) (fdiv gamma (fsub gamma (Some 1)))).
End WithPow.
(** ** MassFlow.py:11-18 (__MachSub_sigma, __MachSup_sigma): the starting points of MachSub_Sigma and MachSup_Sigma *)
Definition float_MachSub_guess (sigma gamma : fnum) : fnum :=
  fsub (Some 1) (fsqrt (fmul (fsub (Some 1) (fdiv (Some 1) sigma)) (fdiv (fmul (Some 4) (fsub gamma (Some 1))) (fsub (Some 3) gamma)))).
Definition float_MachSup_guess (sigma gamma : fnum) : fnum :=
  fadd (Some 1) (fsqrt (fmul (fsub sigma (Some 1)) (fdiv (fmul (Some 4) (fsub gamma (Some 1))) (fsub (Some 3) gamma)))).
