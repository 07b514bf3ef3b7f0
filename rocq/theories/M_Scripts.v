(** * Model of the import statements of the example scripts and notebooks in script form
    Under the same simplifications as M_Import.v. Imports of standard library modules are left out, and "from m import names" is
    written as the import of m (the names state, Euler1D, set_gamma are defined at the top level of their modules).
    notebooks/remove_output.py is not modelled: it imports nothing of the package (and nbformat is not a declared dependency). *)
From Coq Require Import String List Bool.
From Verif Require Import M_Import.
Import ListNotations.
Open Scope string_scope.
Open Scope list_scope.

Record script := { script_file : string; script_imports : list string }.
Definition scripts : list script := [
  (* lines 3-5 *)
  {| script_file := "examples/engine/compare_engine.py"; script_imports := ["numpy"; "aerokit.engine.propu_be_double_corps"; "aerokit.engine.Cycle_Turbofan"] |};
  (* lines 15-20 *)
  {| script_file := "examples/ramjet-working.py"; script_imports := ["numpy"; "matplotlib.pyplot"; "aerokit.aero.MassFlow"; "aerokit.aero.ShockWave"; "aerokit.aero.Rayleigh"] |};
  (* lines 7-11 *)
  {| script_file := "examples/shockwave-polar-p.py"; script_imports := ["aero.degree"; "aero.CompressibleFlow"; "aero.ShockWave"; "numpy"; "matplotlib.pyplot"] |};
  (* lines 1-4 *)
  {| script_file := "examples/turbofan.py"; script_imports := ["numpy"; "aerokit.aero.Isentropic"; "matplotlib.pyplot"; "aerokit.engine.turbofan"] |};
  (* lines 7-9 *)
  {| script_file := "examples/rayleigh-diag.py"; script_imports := ["numpy"; "matplotlib.pyplot"; "aero.Rayleigh"] |};
  (* lines 6-8 *)
  {| script_file := "examples/massflow-diag.py"; script_imports := ["numpy"; "matplotlib.pyplot"; "aerokit.aero.MassFlow"] |};
  (* lines 1-5, 41 *)
  {| script_file := "examples/stability/euler1d.py"; script_imports := ["numpy"; "scipy.linalg"; "scipy.sparse.linalg"; "aerokit.aero.model1D"; "aerokit.stability.Euler"; "matplotlib.pyplot"] |};
  (* lines 1-7, 79 *)
  {| script_file := "examples/stability/shock.py"; script_imports := ["numpy"; "scipy.linalg"; "aerokit.common.defaultgas"; "aerokit.aero.model1D"; "aerokit.stability.Euler"; "aerokit.aero.ShockWave"; "aerokit.aero.Isentropic"; "matplotlib.pyplot"] |};
  (* lines 1-3, 28 *)
  {| script_file := "examples/stability/OS.py"; script_imports := ["numpy"; "scipy.linalg"; "aerokit.stability.OrrSommerfeld"; "matplotlib.pyplot"] |};
  (* lines 1-4 *)
  {| script_file := "examples/aero/validation_prandtlmeyer.py"; script_imports := ["numpy"; "aerokit.aero.Supersonic"; "matplotlib.pyplot"] |};
  (* lines 1-3 *)
  {| script_file := "examples/aero/validation_sigma_convergence.py"; script_imports := ["numpy"; "aerokit.aero.MassFlow"; "matplotlib.pyplot"] |};
  (* lines 7-11 *)
  {| script_file := "examples/shockwave-polar.py"; script_imports := ["aero.degree"; "aero.ShockWave"; "numpy"; "matplotlib.pyplot"] |};
  (* lines 7-9 *)
  {| script_file := "examples/rayleigh-heating.py"; script_imports := ["numpy"; "matplotlib.pyplot"; "aero.Rayleigh"] |};
  (* lines 7-9 *)
  {| script_file := "examples/fanno-diag.py"; script_imports := ["numpy"; "matplotlib.pyplot"; "aerokit.aero.Fanno"] |};
  (* lines 1-2 *)
  {| script_file := "notebooks/Minimum_length_nozzle.py"; script_imports := ["math"; "matplotlib.pyplot"] |};
  (* lines 7-12 *)
  {| script_file := "notebooks/Riemann-GuideVane.py"; script_imports := ["math"; "aerokit.aero.unsteady1D"; "aerokit.aero.riemann"; "aerokit.aero.Isentropic"; "aerokit.aero.MassFlow"; "aerokit.aero.degree"] |} ].
(** the import statements of a script, in order, in a given state of the interpreter; the first exception ends the script *)
Definition run_imports (c : script) (s : modules) : modules * bool := in_order (fun s m => import_ m s) (script_imports c) s.
