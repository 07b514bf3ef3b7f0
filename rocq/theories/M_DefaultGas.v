(** * Model of aerokit/common/defaultgas.py and of the import-time binding of defaults *)
From Verif Require Import Num M_Isentropic.

(** defaultgas.py:2-3 and the module globals [_saved_r], [_saved_gamma] created by
    [save_default] (absent before the first call). [captured] is the value the
    flow modules evaluated for [gamma=defg._gamma] in their function signatures when they
    were imported (Isentropic.py:30 etc.): Python evaluates defaults once, at definition. *)
Record defgas := mk_defgas {
  dg_gamma : num; dg_r : num; dg_saved : option (num * num); captured : num }.

(** the state just after [import aerokit.aero...] *)
Definition defgas0 : defgas := mk_defgas dgamma dr None dgamma.

Inductive gas_op := SetGamma (g : num) | SetR (r : num) | SaveDefault | RestoreDefault.

(** [None]: the call raised NameError (defaultgas.py:30, [_saved_r] undefined); nothing changed. *)
Definition gas_step (s : defgas) (o : gas_op) : option defgas :=
  match o with
  | SetGamma g => Some (mk_defgas g (dg_r s) (dg_saved s) (captured s))   (* defaultgas.py:6-8 *)
  | SetR r => Some (mk_defgas (dg_gamma s) r (dg_saved s) (captured s))   (* defaultgas.py:15-17 *)
  | SaveDefault => (* defaultgas.py:24-27 *)
      Some (mk_defgas (dg_gamma s) (dg_r s) (Some (dg_r s, dg_gamma s)) (captured s))
  | RestoreDefault => (* defaultgas.py:30-33 *)
      match dg_saved s with
      | Some (r, g) => Some (mk_defgas g r (dg_saved s) (captured s))
      | None => None end
  end.

(** A history of calls; it stops at the first exception. *)
Fixpoint gas_run (s : defgas) (l : list gas_op) : option defgas :=
  match l with
  | [] => Some s
  | o :: l' => match gas_step s o with Some s' => gas_run s' l' | None => None end
  end.

(** defaultgas.py:11-12, 20-21 *)
Definition get_gamma (s : defgas) : num := dg_gamma s.
Definition get_r (s : defgas) : num := dg_r s.

(** A call [f(Mach)] of a flow function whose signature has [gamma=defg._gamma]
    (Isentropic.py:30, 48, 70, 84, 98; MassFlow.py; ShockWave.py; Supersonic.py). *)
Definition call_default {A} (s : defgas) (f : num -> A) (gamma : option num) : A :=
  f (match gamma with Some g => g | None => captured s end).
