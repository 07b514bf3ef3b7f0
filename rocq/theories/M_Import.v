(** * Model of the import statements of the aerokit package under Python 3
    Module-level imports of every file of aerokit/ (generated by reading the sources; line numbers in comments).
    Simplifications: sys.path holds the directory of the package, the standard library and the declared dependencies
    (pyproject.toml:24-27), nothing else; the rest of each module body runs without error. *)
From Coq Require Import String Ascii List Bool Arith.
Import ListNotations.
Open Scope string_scope.
Open Scope list_scope.

(** a module: its imports in order - "from m import n1, n2" is (m, [n1; n2]), "import m" and "from m import *" are (m, []) -
    and those of its own names that other modules import from it *)
Record file := { name : string; deps : list (string * list string); provides : list string }.
Definition sound_files : list file := [
  (* aerokit/__init__.py *)
  {| name := "aerokit"; deps := []; provides := [] |};
  (* aerokit/aero/__init__.py *)
  {| name := "aerokit.aero"; deps := []; provides := [] |};
  (* aerokit/common/__init__.py *)
  {| name := "aerokit.common"; deps := []; provides := [] |};
  (* aerokit/common/defaultgas.py *)
  {| name := "aerokit.common.defaultgas"; deps := []; provides := [] |};
  (* aerokit/aero/Isentropic.py lines 23, 24 *)
  {| name := "aerokit.aero.Isentropic"; deps := [("numpy", []); ("aerokit.common", ["defaultgas"])]; provides := [] |};
  (* aerokit/aero/MassFlow.py lines 5, 8, 9 *)
  {| name := "aerokit.aero.MassFlow"; deps := [("numpy", []); ("scipy.optimize", ["fsolve"; "newton"]); ("aerokit.common", ["defaultgas"])]; provides := [] |};
  (* aerokit/aero/IterativeSolve.py lines 1, 2 *)
  {| name := "aerokit.aero.IterativeSolve"; deps := [("numpy", []); ("inspect", [])]; provides := [] |};
  (* aerokit/aero/degree.py lines 1 *)
  {| name := "aerokit.aero.degree"; deps := [("numpy", [])]; provides := [] |};
  (* aerokit/aero/Supersonic.py lines 20, 21, 22, 23, 24, 25, 26 *)
  {| name := "aerokit.aero.Supersonic"; deps := [("math", []); ("numpy", []); ("aerokit.aero", ["IterativeSolve"]); ("aerokit.aero", ["Isentropic"]); ("aerokit.aero", ["degree"]); ("aerokit.common", ["defaultgas"]); ("scipy.optimize", ["newton"])]; provides := [] |};
  (* aerokit/aero/CompressibleFlow.py lines 5, 6, 7 *)
  {| name := "aerokit.aero.CompressibleFlow"; deps := [("aerokit.aero", ["Isentropic"]); ("aerokit.aero", ["Supersonic"]); ("aerokit.aero", ["MassFlow"])]; provides := [] |};
  (* aerokit/aero/Fanno.py lines 5 *)
  {| name := "aerokit.aero.Fanno"; deps := [("numpy", [])]; provides := [] |};
  (* aerokit/aero/Rayleigh.py lines 5 *)
  {| name := "aerokit.aero.Rayleigh"; deps := [("numpy", [])]; provides := [] |};
  (* aerokit/common/_ode.py lines 3, 4 *)
  {| name := "aerokit.common._ode"; deps := [("numpy", []); ("math", ["sqrt"])]; provides := ["_rkf45"] |};
  (* aerokit/aero/ShockWave.py lines 5, 6, 7, 8, 9, 10, 11 *)
  {| name := "aerokit.aero.ShockWave"; deps := [("math", []); ("aerokit.aero.IterativeSolve", []); ("numpy", []); ("aerokit.aero.Isentropic", []); ("aerokit.aero.degree", []); ("aerokit.common", ["defaultgas"]); ("aerokit.common._ode", ["_rkf45"])]; provides := [] |};
  (* aerokit/aero/ThermoKerosen.py lines 3 *)
  {| name := "aerokit.aero.ThermoKerosen"; deps := [("math", [])]; provides := [] |};
  (* aerokit/aero/ThermoRealGas.py lines 3 *)
  {| name := "aerokit.aero.ThermoRealGas"; deps := [("math", [])]; provides := [] |};
  (* aerokit/aero/model1D.py lines 5, 6, 7, 8, 9 *)
  {| name := "aerokit.aero.model1D"; deps := [("numpy", []); ("aerokit.common", ["defaultgas"]); ("aerokit.aero", ["Isentropic"]); ("aerokit.aero.ShockWave", []); ("typing", ["TypeVar"])]; provides := [] |};
  (* aerokit/instance/ has no __init__.py: namespace package *)
  {| name := "aerokit.instance"; deps := []; provides := [] |};
  (* aerokit/instance/nozzle.py lines 17, 18, 19, 20, 21 *)
  {| name := "aerokit.instance.nozzle"; deps := [("numpy", []); ("aerokit.common", ["defaultgas"]); ("aerokit.aero", ["Isentropic"]); ("aerokit.aero", ["MassFlow"]); ("aerokit.aero", ["ShockWave"])]; provides := [] |};
  (* aerokit/aero/nozzle.py lines 2 *)
  {| name := "aerokit.aero.nozzle"; deps := [("aerokit.instance.nozzle", [])]; provides := [] |};
  (* aerokit/aero/plot/__init__.py *)
  {| name := "aerokit.aero.plot"; deps := []; provides := [] |};
  (* aerokit/aero/plot/defaultstyle.py lines 1 *)
  {| name := "aerokit.aero.plot.defaultstyle"; deps := [("matplotlib.pyplot", [])]; provides := ["figure_theta_pressure"; "figure_theta_sigma"] |};
  (* aerokit/aero/plot/isentropicpolar.py lines 5, 6, 7, 8, 10, 11 *)
  {| name := "aerokit.aero.plot.isentropicpolar"; deps := [("numpy", []); ("aerokit.common.defaultgas", []); ("aerokit.aero.degree", []); ("aerokit.aero.Supersonic", []); ("matplotlib.pyplot", []); ("aerokit.aero.plot.defaultstyle", [])]; provides := [] |};
  (* aerokit/aero/plot/shockpolar.py lines 5, 6, 7, 8, 10, 11 *)
  {| name := "aerokit.aero.plot.shockpolar"; deps := [("numpy", []); ("aerokit.common.defaultgas", []); ("aerokit.aero.degree", []); ("aerokit.aero.ShockWave", []); ("matplotlib.pyplot", []); ("aerokit.aero.plot.defaultstyle", ["figure_theta_pressure"; "figure_theta_sigma"])]; provides := [] |};
  (* aerokit/aero/refstate.py *)
  {| name := "aerokit.aero.refstate"; deps := []; provides := [] |};
  (* aerokit/aero/unsteady1D.py lines 22, 23, 24, 25 *)
  {| name := "aerokit.aero.unsteady1D"; deps := [("copy", []); ("numpy", []); ("aerokit.aero.ShockWave", []); ("aerokit.aero.model1D", [])]; provides := [] |};
  (* aerokit/instance/riemann.py lines 18, 19, 20, 21 *)
  {| name := "aerokit.instance.riemann"; deps := [("math", []); ("numpy", []); ("scipy.optimize", ["newton"]); ("aerokit.aero.unsteady1D", [])]; provides := [] |};
  (* aerokit/aero/riemann.py lines 2 *)
  {| name := "aerokit.aero.riemann"; deps := [("aerokit.instance.riemann", [])]; provides := [] |};
  (* aerokit/common/_dev.py lines 1 *)
  {| name := "aerokit.common._dev"; deps := [("functools", [])]; provides := ["lazyprop"] |};
  (* aerokit/common/dicovar.py lines 50 *)
  {| name := "aerokit.common.dicovar"; deps := [("copy", [])]; provides := [] |};
  (* aerokit/common/numspectral.py lines 4, 5, 6, 7 *)
  {| name := "aerokit.common.numspectral"; deps := [("numpy", []); ("numpy.polynomial", ["chebyshev"]); ("scipy.linalg", ["toeplitz"]); ("aerokit.common._dev", ["lazyprop"])]; provides := [] |};
  (* aerokit/engine/__init__.py *)
  {| name := "aerokit.engine"; deps := []; provides := [] |};
  (* aerokit/engine/Cycle_Turbofan.py lines 12, 13 *)
  {| name := "aerokit.engine.Cycle_Turbofan"; deps := [("numpy", []); ("aerokit.aero.Isentropic", [])]; provides := [] |};
  (* aerokit/engine/gasgenerator.py lines 23, 24, 25 *)
  {| name := "aerokit.engine.gasgenerator"; deps := [("numpy", []); ("aerokit.common", ["defaultgas"]); ("aerokit.aero.Isentropic", [])]; provides := [] |};
  (* aerokit/engine/propu_be.py *)
  {| name := "aerokit.engine.propu_be"; deps := []; provides := [] |};
  (* aerokit/engine/propu_be_double_corps.py lines 5, 6, 7 *)
  {| name := "aerokit.engine.propu_be_double_corps"; deps := [("matplotlib.pyplot", []); ("numpy", []); ("aerokit.aero.Isentropic", [])]; provides := [] |};
  (* aerokit/engine/turbojet.py lines 23, 24, 25, 26, 27 *)
  {| name := "aerokit.engine.turbojet"; deps := [("math", []); ("numpy", []); ("aerokit.common", ["defaultgas"]); ("aerokit.aero.Isentropic", []); ("aerokit.engine.gasgenerator", [])]; provides := [] |};
  (* aerokit/engine/turbofan.py lines 23, 24, 25, 26, 27 *)
  {| name := "aerokit.engine.turbofan"; deps := [("math", []); ("numpy", []); ("aerokit.common", ["defaultgas"]); ("aerokit.aero.Isentropic", []); ("aerokit.engine.turbojet", [])]; provides := [] |};
  (* aerokit/instance/unsteady_inflow.py lines 22, 23, 24, 25, 26 *)
  {| name := "aerokit.instance.unsteady_inflow"; deps := [("math", []); ("numpy", []); ("scipy.optimize", ["fsolve"]); ("aerokit.aero.ShockWave", []); ("aerokit.aero.unsteady1D", [])]; provides := [] |};
  (* aerokit/stability/_base.py lines 1, 2, 3, 4, 5 *)
  {| name := "aerokit.stability._base"; deps := [("numpy", []); ("numpy.linalg", []); ("scipy.linalg", []); ("aerokit.common.numspectral", []); ("typing", ["Any"])]; provides := ["LinOperator"] |};
  (* aerokit/stability/__init__.py lines 1 *)
  {| name := "aerokit.stability"; deps := [("aerokit.stability._base", ["LinOperator"])]; provides := ["LinOperator"] |};
  (* aerokit/stability/Euler.py lines 17, 18, 19, 20, 21 *)
  {| name := "aerokit.stability.Euler"; deps := [("typing", ["Union"]); ("numpy", []); ("aerokit.stability._base", ["LinOperator"]); ("aerokit.aero.model1D", []); ("aerokit.aero.ShockWave", [])]; provides := [] |};
  (* aerokit/stability/OrrSommerfeld.py lines 32, 33 *)
  {| name := "aerokit.stability.OrrSommerfeld"; deps := [("numpy", []); ("aerokit.stability", ["LinOperator"])]; provides := [] |} ].
Definition broken_files : list file := [
  (* aerokit/aero/Propulsion.py lines 4, 5, 6 *)
  {| name := "aerokit.aero.Propulsion"; deps := [("aerokit.aero.Isentropic", []); ("aerokit.aero.MassFlow", []); ("aerokit.IterativeSolve", [])]; provides := [] |};
  (* aerokit/common/extendvar.py lines 16 *)
  {| name := "aerokit.common.extendvar"; deps := [("dicovar", ["dicoVar"])]; provides := [] |} ].
Definition package : list file := sound_files ++ broken_files.
(** standard library and declared dependencies that the package names *)
Definition external : list string := ["math"; "numpy"; "scipy"; "matplotlib"; "functools"; "copy"; "typing"; "inspect"].

(** ** the import system *)
(** "a.b.c" as [a; a.b; a.b.c] *)
Fixpoint parents (done s : string) : list string :=
  match s with
  | EmptyString => [done]
  | String c s => if Ascii.eqb c "." then done :: parents (append done ".") s else parents (append done (String c "")) s
  end.
Definition dotted (m : string) : list string := parents "" m.
Definition mem (a : string) (l : list string) : bool := existsb (String.eqb a) l.
(** sys.modules: name, and whether its body has been run to the end *)
Definition modules := list (string * bool).
Definition loaded (s : modules) (m : string) : bool := mem m (map fst s).
Definition finished (s : modules) (m : string) : bool := existsb (fun e => String.eqb m (fst e) && snd e) s.
Definition finish (m : string) (s : modules) : modules := map (fun e => if String.eqb (fst e) m then (m, true) else e) s.
Definition remove (m : string) (s : modules) : modules := filter (fun e => negb (String.eqb (fst e) m)) s.
Definition find_file (m : string) : option file := find (fun f => String.eqb (name f) m) package.
(** do the steps in order, stop at the first exception *)
Fixpoint in_order {A} (f : modules -> A -> modules * bool) (l : list A) (s : modules) : modules * bool :=
  match l with [] => (s, true) | a :: l => match f s a with (s, true) => in_order f l s | r => r end end.
(** the statement "from m import n1, n2", given how to load one module whose parents are loaded *)
Definition statement (load : modules -> string -> modules * bool) (s : modules) (d : string * list string) : modules * bool :=
  let (m, ns) := d in
  if mem (hd "" (dotted m)) external then (s, true) else
  match in_order load (dotted m) s with
  | (s, true) => in_order (fun s n =>
      if finished s m && match find_file m with Some f => mem n (provides f) | None => false end then (s, true)
      else load s (append m (append "." n))) ns s
  | r => r
  end.
(** load one module; on an exception its entry is removed from sys.modules *)
Fixpoint load (fuel : nat) (s : modules) (m : string) : modules * bool :=
  match fuel with
  | O => (s, false)
  | S fuel =>
      if loaded s m then (s, true) else
      match find_file m with
      | None => (s, false)                                    (* ModuleNotFoundError *)
      | Some f =>
          match in_order (statement (load fuel)) (deps f) ((m, false) :: s) with
          | (s, true) => (finish m s, true)
          | (s, false) => (remove m s, false)
          end
      end
  end.
(** "import m" by the user; the depth of imports is bounded by the number of files *)
Definition import_ (m : string) (s : modules) : modules * bool := statement (load (S (List.length package))) s (m, []).
(** a session: import statements in any order, exceptions caught *)
Fixpoint session (h : list string) (s : modules) : modules := match h with [] => s | m :: h => session h (fst (import_ m s)) end.
