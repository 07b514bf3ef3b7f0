# Formal model of jgressier/aerokit in Rocq (Coq 8.16.1)

## 1. What is modelled and how

The code is numerical Python. Each function is transcribed branch by branch as a
Gallina function over `num := option R` (file `Num.v`):

* `Some x` - the Python expression evaluates, in exact real arithmetic, to the real `x`;
* `None`   - there is no finite real result: division by zero, square root or
  logarithm of a negative number, `arcsin` outside [-1,1], a non-integer power of a
  negative number, ... (numpy: `nan`/`inf`, Python: exception or a complex number).
  `None` is strict, it propagates through every operation and comparison.

So "`f (Some a) = Some v`" says: the function is *defined* at `a` and the value is
`v`. No theorem can become true because Coq's total `1/0` or `sqrt (-1)` happens to
be some junk value.  Stateful code (defaultgas, dicovar, caches, stage machines,
stability operators) is modelled as state machines with exceptions as values
(`Ok`/`Raise`).  Loops are fuelled or structural recursions with an explicit
out-of-fuel outcome.  External root finders (`scipy.optimize.newton`, `fsolve`),
and linear algebra (`numpy.linalg.solve`) are function parameters (oracles): each
theorem that needs something of them has that as an explicit hypothesis.

Layout of `rocq/theories`:

* `Num.v`            numeric semantics (operations on `num`);
* `M_*.v`            the model, one file per group of Python modules, no proofs;
* `Spec.v`           independent physical / mathematical specifications over plain R;
* `Calc.v`, `L_*.v`  lemmas and proofs;
* `P_*.v`            property theorems only, each closed by `exact`, with
                     `Print Assumptions`, and `Example`s witnessing the hypotheses.

## 2. Trusted base

See section 4.

## 3. Plan per property

| id | model | proof |
|----|-------|-------|
| C01-C04 | Isentropic.py functions over num | algebra, Rpower laws, monotonicity via derivatives |
| C05 | CompressibleFlow wrappers, aliases | unfolding against both definitions for all inputs |
| C06-C08 | MassFlow.py; newton is an oracle | derivative sign, IVT for existence, strict monotonicity for uniqueness |
| C09-C14 | normal shock functions | field algebra vs conservation-law spec; derivative for monotonicity; Pt_ratio with gamma <> 1.4 is refuted (code drops gamma) |
| C15-C19 | oblique shock functions in degrees | trigonometry; trigonometric solution of the cubic; optimality by sign of derivative in tan sigma |
| C20-C22 | Supersonic.py | atan calculus; oracle newton |
| C23-C26 | Fanno.py, Rayleigh.py | field/Rpower/ln algebra, derivative signs; maxTiratio refuted |
| C27-C28 | secant_solve loop with fuel = itmax | induction on iterations |
| C29 | degree.py | stdlib trigonometry |
| C30-C31 | defaultgas state machine + functions with import-time defaults | induction on histories; C31 refuted |
| C32-C35 | model1D.state, unsteady1D.unsteady_state | algebra; gamma loss refuted |
| C36-C40 | riemann_pb with exact-root oracle | monotonicity, IVT, case analysis on wave types; qsol edge refuted |
| C41-C44 | nozzle.py | inequalities on PtPs/Sigma/shock; arrays as lists; C44 refuted |
| C45-C47 | ChebCollocation over functions nat -> nat -> R | trigonometric identities, Lagrange interpolation |
| C48 | lazyprop object store | invariant by induction over reads |
| C49-C54,C70 | stability classes, matrices as nat -> nat -> R; heap of dictionaries for C54 | finite sums, directional derivatives, state machine induction |
| C55-C57 | RK4, _rkf45, RKF45 | induction on steps, Taylor identities by ring/field; C57 refuted |
| C58 | conical loop with fuel | invariant; Taylor-Maccoll by differentiation |
| C59-C62 | engine classes; Cycle_Turbofan stage machine | field algebra; invariant over schedules |
| C63 | thermo fits | Coquelicot derivatives |
| C64-C66 | dicovar over strings | state machine refinement to a map |
| C67 | extendvar strings + an evaluator for the vtk calculator grammar | computation + real semantics |
| C68 | inflow_pb | as Riemann |
| C69 | Propulsion.ThrustFunction | as C06 |
| C70 | converge_eigenpair with a solve oracle | induction on iterations, finite sums of complex numbers |
| C71-C72 | extrapol, fit_to_gauss; vander / numpy solve as specified oracles | Lagrange interpolation, uniqueness of polynomials |
| C73-C75 | cycle classes: attribute store + stage counters, programs as data | agreement of runs, field algebra on the stored values |
| C76 | calculs_tau_optimum | algebra; the ratio is refuted |
| C77 | thermo fits | derivative sign |
| C78 | import graph: statements of every module, sys.modules as state | invariant over import histories; two modules refuted |
| C79 | shock polars: the list of curves and markers a call hands to matplotlib | jump conditions across an oblique front (PolarSpec) at every point, monotone pressures, markers by C18/C19 |
| C80 | isentropic polars: the same | Prandtl-Meyer inversion (explicit root-finder hypothesis), monotonicity, derivative along the curve |
| C81 | RK4's loop in binary64 arithmetic (Flocq formats, round to nearest even) | invariants on the rounding of x + min(h, xStop - x) (Sterbenz); stall and overshoot refuted |
| C82-C83 | TtTs_Mach, Mach_TtTs, Ps_ratio, Mn_Ps_ratio in binary64 arithmetic | monotone rounding, relative error bounds through each operation |
| C84 | the notebook script Minimum_length_nozzle.py: Prandtl-Meyer inversion loop with fuel, table of points, wall; nan and division by zero are None | convexity of nu for Newton's global convergence; structural invariants of the table proved by induction on the characteristics, stated against a net specification (MocSpec); first axis point refuted |
| C85 | the shock, Fanno, Rayleigh and mass flow models together | mass, momentum and energy invariants of the jump, in closed form; the total pressure clause through the exponents |
| C86 | the script examples/ramjet-working.py: the figure is the record of the plotted lists, newton a parameter | monotone branches of Sigma, Ti/Ti* and of the total pressure ratio of a shock; the position of the shock by the intermediate value theorem; stated in RamjetSpec.v with mass flux, impulse and total temperature only |
| C87 | M_Float.v: the three functions with each operation rounded to binary64 | relative error budget of Ti_Ticri (17 units), error analysis of both inverses with the exact alpha = |1-M^2|/(1+gamma M^2); the counterexamples are computed step by step with the rounding lemma |
| C88 | M_Float.v: the argument of the arc sine with each operation rounded to binary64 | monotonicity of the rounded Mn_Ps_ratio and the round trip of C83; the counterexample is computed step by step |
| C89 | M_Fan: init_case, flow_prop, integ of Caract-01-expansion.ipynb; FanSpec: isentropic state, steady Euler equations at a point, midpoint step | closed form of the fan in t = rad(om - mu + 90)/c; conical fields: chain rule through atan(y/x); induction on the marching loops |
| C90 | M_SmoothWall: walls, wall_angle, mach_wall, the loop of mach with a bound on its turns, flow_prop, the focusing segments; newton and fsolve as oracles | Mean value theorem for the wall angle; invariant of the loop; the field is constant along C+ lines, hence Mx cos c + My sin c = 0, and the Euler equations follow from the derivatives of the isentropic state along the Prandtl-Meyer function; existence of the wave on the ramp by an implicit function lemma proved here; crossing lines computed explicitly. |
| C91 | M_Wedge.v shock_cell, reflexion_cells; WedgeSpec.v shock_to, inclined | C28_default for the angle, then the oblique shock algebra of C18_limit; no regular reflexion near dev_Sonic by continuity and dev_Max <= (M^2-1)/2 |
| C92 | M_Wedge.v shock_expansion_cells, wall_corners, tail_foot, fan_line; WedgeSpec.v | C22_residual for the fan, C28_default for the shocks, monotonicity of the entropy jump for the loss of total pressure |
| C93 | M_ShockModel.v (constructor, base flow, dictionaries on the heap, printed checks) | base flow from C33 lemmas and Chebyshev nodes; operators by combining C49, C50 rows; exact factorisation of difference quotients |
| C94 | M_SigmaApprox.v: the four curves | logarithms and ln(1+x) <= x; mean value theorem for the gap; Cauchy mean value theorem at the throat |
| C95 | M_Coflow.v: the notebook function with scipy newton as an explicit solver parameter | polynomial in tan(sigma) for the roots; atan Lipschitz for the residual; weak_strong_only for the library angles |
| C96 | M_GuideVane.v: the script's states and its two Riemann problems, with scipy newton as a parameter | states determined by total quantities and Mach number; monotone velocity mismatch brackets the star pressure; star states of C37 |
| C97 | M_Tube.v over M_Euler.v and M_Spectral.v | Riemann invariants of the uniform flow diagonalise each row block, including the boundary rows; specification in TubeSpec.v (collocated and continuous advection) |
| C98 | M_ShockTube.v over M_Riemann.v | sign of the mismatch function at the neighbouring pressures locates each star pressure; Lax inequalities give the order of the events; ShockTubeSpec.v |
| C99 | M_Florian.v: every function of cell 0, the triple loop with its break, the script's values | pointwise equality with M_Riemann (all pressures, nan included), uniqueness of the star pressure, monotonicity of the velocity jumps with rational bounds (7th roots, square roots), list induction for the loops |
| C100 | M_CycleNB: the two stage_9 methods and the method tables of the notebook; the rest is M_Cycle (the text is the same) | simulation relation between the two machines (same counters, same attributes present, equal outside the jet quantities) preserved by every stage, method and history; completed objects by the equations of the straight computation |
| C101 | `M_NozzleNB.v`: cells 1, 2, 3, 7, 9 and 11 of Nozzle-regimes.ipynb, the rescaled section law of Nozzle-widget.ipynb; `NozzleNBSpec.v`: stations and wanted Mach numbers; root finder a parameter | monotonicity of the sine on the grid and of Sigma on its branches; uniqueness of roots; argmin specification; exit pressure by the closed form of the shocked exit Mach number; examples of completed runs by an exact secant step |
| C102 | `M_InflowNB.v`: cell 1 of unsteady_inflow.ipynb, one inflow object over the whole range; `InflowNBSpec.v`: what a row shows; root finder a parameter | monotonicity of the inflow equation (C68), mass flow as total pressure over Sigma, Rankine-Hugoniot density bounds; intermediate value theorem for the reversed root; largest-root finder as the example |
| C103 | M_Diagrams.v: heating_curve as the list of points handed to plt.plot; np.log10(np.logspace(..)) elementwise | the conservation laws are equivalent to a ratio of total temperatures on the Rayleigh line, strictly monotone on each side of Mach 1; inverse functions of C26 |
| C104 | M_Diagrams.v: the curves handed to plt.plot | pointwise from C23-C25 and the flow laws of RamjetSpec.v; shapes from the derivatives of the entropy and from monotone pressure |
| C105 | M_DocExamples.v: one definition per notebook cell | reduction of each recipe to Tt = T tt(M), pt = p tt(M)^(g/(g-1)) and to the reduced mass flow, then monotonicity of A/A* on each side of Mach 1 |
| C106 | M_DocShock.v on top of M_Wedge.v (the first cell is that of the reflexion notebook) | the regular cell is the cell of C91; root location of the quadratic behind sigma_DevMax for subsonic flows; C18_limit and monotonicity of the sine for the irregular branch |
| C107 | M_Engine.v (gas generator, turbojet, turbofan), M_TurbofanScript.v (the grid of the example with np.arange, the object at each point, the plotted values); IdealSpec.v: ideal engine, running engine, Brayton efficiency | C107_turbofan, C107_turbojet, C107_optimum (Cauchy-Schwarz on the jets), C107_optimal_fan, C107_script, C107_target_refuted, from the station relations of C59/C60 |
| C108 | M_Engine.v; IdealSpec.v: passive components, burning engine | C108_turbojet, C108_turbofan (each pressure loss and inefficiency leaves the jet at a temperature not below T0 Tt4/Tt3, the by-pass jet not below T0), C108_overall |
| C109 | M_PolarNB.v: flin_m, finv_x, mach_grid, polar_curve, maxdev_line, sonic_line, compression_polars, ps_check (cells 2, 4, 5) | Moebius map monotone and inverse (grid); max_deflection, sonic_limit, devmax_incr, on_polar pointwise along the grid; asin(5/7) < 50 degrees from the triple angle formula; PrandtlMeyer monotone for the dot |
| C110 | M_Spectral (existing), M_SpectralNB: the functions and the error of the worked example; SmoothSpec: a function with all its derivatives on an interval | zeros of the interpolation error and Rolle's theorem iterated on chains of zeros, the node polynomial (1-x^2) U_(n-1) and its values, affine transport to [xmin, xmax]; Gaussian: three term recursion of its derivatives, bounded by K m!/r^m for every r |
| C111 | M_Article: the arrays of the notebook element by element; ShockDynSpec: a shock into a gas at rest and the rule along the characteristics | Rankine-Hugoniot relations solved (the quadratic in the density ratio), derivatives of the states behind the shock, field arithmetic with mu^2; rational function of mu for lam |
| C112 | M_Float (float_Rho_ratio, float_Ts_ratio, float_downstream_Mn), against M_ShockWave | L_Float6: a reflective error calculus: an expression of positive sums, products, quotients and square roots with k roundings is within (1-2^-53)^k of its exact value, and its exponent range is computed; L_Float7: instances, the subtraction gamma M^2 - (gamma-1)/2 by hand, and the comparison of the two rounded terms for the bound 1 |
| C113 | M_Float (float_Fa_*, float_Ra_*, float_Ti_Ticri, float_Velocity_MachTt), against M_Fanno, M_Rayleigh and M_Isentropic | instances of the error calculus of L_Float6 (L_Float8) |
| C114 | M_FloatPow (libm_pow, fpow and the five functions), against M_Isentropic, M_MassFlow, M_Fanno, M_Rayleigh | L_Float9: errors of the base are multiplied by the exponent, errors of the exponent by the logarithm of the base, both bounded from the exponent ranges of L_Float6; L_Float10: instances |
| C115 | M_FloatPow (float_Sigma_Mach, float_MachSub_guess, float_MachSup_guess) | L_Float11: lsig >= (M-1)^2/2 near the throat by monotonicity, the error bound of C114, monotonicity of rounding; the counterexample by computing each rounding, midpoint arguments for the quotient 128/161 and the product |
| C116 | M_FloatPow (float_PtPs_Mach, float_Mach_PtPs) | L_Float12: the error counts of L_Float9 through both powers, then the square-root error bound of L_Float2; for small Mach numbers the base is exactly 1, so the result is 0, nan or at least 2^-26 |
| C117 | M_Engine, M_Cycle, M_Obj; UnitsSpec (dimension table, conversion) | L_Units: a dimension checker for expressions, sound for every change of units by induction; each assignment of the modules is checked to have the dimension of its target |
| C118 | M_Model1D, M_Unsteady1D, M_Riemann, M_Inflow; StateUnitsSpec | L_StateUnits: conversions pushed through each operation with the lemmas of L_Units; powers of a pressure in the starting value cancel; case analysis of the sampling |
| C119 | M_Engine; BetterSpec (comparison) | L_Better: from the station relations of C59/C60: fuel ratio and turbine work monotone, powers monotone in base and exponent, nozzle velocity monotone in pressure and temperature |
| C120 | M_Ode, M_Spectral; ScaleSpec (changes of variable) | L_Scale: each stage of the methods commutes with the affine change of variables; induction on the passes of the loops; the scaling factor of each derivative matrix is a power of 1/(xmax-xmin), induction on requests |

## 4. Trusted base

**Kernel.** Coq 8.16.1's kernel, and the parser and elaborator that turn the text of the
statements into terms. No kernel check is switched off, there are no axioms, parameters,
functors or module types in `theories/`, no `Admitted`, no plugins beyond those loaded by
the standard library, Coquelicot and Flocq (which add no axioms). `vm_compute` is used in a few closed computations
(strings, import graphs), so the virtual machine is trusted there.

**Axioms.** `ASSUMPTIONS.md` (generated by `tools/assumptions.py`) lists what
`Print Assumptions` prints for each of the property theorems. Only four names occur, all of
the standard library, all reached through its real numbers:
`ClassicalDedekindReals.sig_forall_dec`, `ClassicalDedekindReals.sig_not_dec`,
`Classical_Prop.classic`, `FunctionalExtensionality.functional_extensionality_dep`.
(A checker that walks the compiled files also sees the opaque symbols of
`Rdefinitions.RbaseSymbolsImpl` and `ssr.ssrunder.Under_rel`: these are sealed modules of the
standard library, with definitions, not axioms.)

**The reading of the code.** The model was transcribed by hand from the Python text; each
definition cites file and lines. What the transcription assumes:

* *Numbers are exact reals*, except in `M_Float.v` and `M_FloatPow.v` (C81-C83, C87, C88, C112-C116), where they are the binary64
  numbers of Flocq with correctly rounded operations (`x ** 2` taken as the rounded x * x; a
  result that overflows becomes `None` and is not followed). Elsewhere rounding, overflow, underflow, signed zeros, `nan` payloads and
  tolerances that only matter in floating point are not modelled. Decimal literals are the
  exact rationals they denote. A consequence seen in a few places: `tan` of exactly 90
  degrees is undefined in the model (numpy gives about 1.6e16).
* *`None` is every non-finite or non-real outcome* (see section 1).
* *Arrays.* Element-wise numpy code is modelled at one element, or as a function from
  indices or a list where indices matter (nozzle, spectral, stability operators, states).
  Broadcasting between different shapes and `np.vectorize` type guessing are not modelled.
* *External solvers are oracles*: `scipy.optimize.newton` and `fsolve` (type `solver`; a
  theorem that needs a root says `solves eps newton`, or that the root is on the branch the
  iteration was started from; `C..._example`s show the hypotheses satisfiable),
  `numpy.linalg.solve / eig / argsort`, `scipy.interpolate`. The library's own iterations
  (secant_solve, RKF45, Orr-Sommerfeld and conical marching loops, inverse iteration) are
  modelled step by step.
* *Default arguments* are bound when the module is imported, as in Python
  (`M_DefaultGas.v`); elsewhere the default is passed explicitly (`dgamma`, `dr`).
* *Objects and mutation*: defaultgas globals, dicovar's tables, lazyprop caches, operators
  with their dictionaries, cycle objects, the module table of the import system are explicit
  states; exceptions are outcomes. Threads are not modelled (the code has none).

**Modelled**: all of `aerokit/aero` (Isentropic, MassFlow, ShockWave, Supersonic, Fanno,
Rayleigh, CompressibleFlow, degree, IterativeSolve, model1D, unsteady1D, Propulsion,
ThermoKerosen, ThermoRealGas and the two redirection modules), `aerokit/instance` (nozzle,
riemann, unsteady_inflow), `aerokit/engine` (all six files), `aerokit/stability` (_base,
Euler, OrrSommerfeld), `aerokit/common` (defaultgas, dicovar, extendvar, numspectral, _ode,
_dev), the shock and isentropic polars of `aerokit/aero/plot`, every import statement of
the package and of the example scripts, the scripts `notebooks/Minimum_length_nozzle.py`,
`notebooks/Riemann-GuideVane.py` and `examples/ramjet-working.py`, `examples/turbofan.py`, and the flow computations of the notebooks
`aero/Caract-01-expansion.ipynb`, `aero/Caract-02-smooth wall.ipynb`, `aero/Shock-21-reflexion.ipynb`,
`aero/Shock-21-reflexion-widget.ipynb`, `aero/Riemann-Shocktube.ipynb`, `unsteady_inflow_Florian.ipynb`, `Turbofan_pyclass_design.ipynb` (its classes)
(and its copy `docs/examples/instance.riemann.ipynb`), `aero/Shock-22-shock-expansion.ipynb`, `Shock-31-coflow.ipynb`, `Shock-00-polar.ipynb`
`aero/Nozzle-regimes.ipynb`, `aero/unsteady_inflow.ipynb`, the section law of `aero/Nozzle-widget.ipynb`
and `Sigma-approximation.ipynb`, the curves of `examples/aero/validation_sigma_convergence.py`,
the area laws of `notebooks/article-florian.ipynb`,
`examples/rayleigh-heating.py`, `rayleigh-diag.py`, `fanno-diag.py` and `massflow-diag.py`,
the worked examples `docs/examples/common.numspectral.ipynb` (without its plots), `aero.Isentropic.ipynb`, `aero.MassFlow.ipynb` and `aero.ShockWave.ipynb`,
the stability model of `examples/stability/shock.py` and the uniform tube of
`examples/stability/euler1d.py`.

**Not modelled**: the drawing itself (matplotlib calls are a list of plotted curves),
`aero/plot/defaultstyle.py`, `aero/refstate.py` (an empty shell), text printed by the engine
scripts, doctest strings, the other files of `examples/` and `notebooks/`, `tests/`, packaging.

## 5. Where the code disagrees with the property

A property that is false of the code keeps its English statement; the proved part carries the
suffix `_partial`, and a theorem with the suffix `_refuted` proves, with a quantifier as wide as
possible, that the code violates the rest. `MANIFEST.json` has status `partial` for these, with a
note. They are findings about the code, not gaps in the proofs; the real gaps are named in
the note of C58 (termination of the marching loop is not claimed).
