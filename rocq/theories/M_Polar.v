(** * Model of aerokit/aero/plot/shockpolar.py and aerokit/aero/plot/isentropicpolar.py
    What a call draws: the list, in order, of the curves and markers handed to matplotlib (a curve is its
    abscissas and ordinates). Colours, line styles and the target axes are not modelled. *)
From Coq Require Import String.
From Verif Require Import Num M_Isentropic M_MassFlow M_Degree M_ShockWave M_Supersonic.
Open Scope num_scope.

Inductive mark := Line | RedDot | WhiteDot.
Record drawn := mk_drawn { d_mark : mark; d_x : list num; d_y : list num }.

(** np.linspace(a, b, n + 1): n + 1 equally spaced values, the last one is b itself when n > 0 *)
Definition linspace (a b : num) (n : nat) : list num :=
  map (fun i => match n with
                | O => a
                | _ => if Nat.eqb i n then b else #(INR i) * ((b - a) / #(INR n)) + a end) (seq 0 (S n)).

(** Python's [curve in [...]] *)
Definition chosen (curve : string) (l : list string) : bool := existsb (String.eqb curve) l.
(** [if c: plot(...)] *)
Definition draw (c : bool) (d : drawn) : list drawn := if c then [d] else [].

(** shockpolar.py:14-61 *)
Definition plot_theta_sigma (mach gamma : num) (npts : nat) (curve : string) (devmax sonic : bool) : list drawn :=
  let right := chosen curve ["right"; "both"]%string in
  let left := chosen curve ["left"; "both"]%string in
  let sig := linspace (dasin (#1 / mach)) #90 npts in
  let dev := map (fun s => deflection_Mach_sigma mach s gamma) sig in
  draw right (mk_drawn Line dev sig) ++ draw left (mk_drawn Line (map nopp dev) sig) ++
  (if devmax then
     let thet := dev_Max mach gamma in let sig := sigma_DevMax mach gamma in
     draw right (mk_drawn RedDot [thet] [sig]) ++ draw left (mk_drawn RedDot [- thet] [sig])
   else []) ++
  (if sonic then
     let thet := dev_Sonic mach gamma in let sig := sigma_Sonic mach gamma in
     draw right (mk_drawn WhiteDot [thet] [sig]) ++ draw left (mk_drawn WhiteDot [- thet] [sig])
   else []).

(** shockpolar.py:64-119 *)
Definition plot_theta_pressure (mach gamma : num) (npts : nat) (thet_init p_init : num) (curve : string) (devmax sonic : bool) : list drawn :=
  let right := chosen curve ["right"; "both"]%string in
  let left := chosen curve ["left"; "both"]%string in
  let sig := linspace (dasin (#1 / mach)) #90 npts in
  let dev := map (fun s => deflection_Mach_sigma mach s gamma) sig in
  let ps := map (fun s => p_init * Ps_ratio (mach * dsin s) gamma) sig in
  draw right (mk_drawn Line (map (fun d => thet_init + d) dev) ps) ++
  draw left (mk_drawn Line (map (fun d => thet_init - d) dev) ps) ++
  (if devmax then
     let thet := dev_Max mach gamma in let sig := sigma_DevMax mach gamma in
     let ps := Ps_ratio (mach * dsin sig) gamma in
     draw right (mk_drawn RedDot [thet_init + thet] [p_init * ps]) ++ draw left (mk_drawn RedDot [thet_init - thet] [p_init * ps])
   else []) ++
  (if sonic then
     let thet := dev_Sonic mach gamma in let sig := sigma_Sonic mach gamma in
     let ps := Ps_ratio (mach * dsin sig) gamma in
     draw right (mk_drawn WhiteDot [thet_init + thet] [p_init * ps]) ++ draw left (mk_drawn WhiteDot [thet_init - thet] [p_init * ps])
   else []).

(** isentropicpolar.py:14-57; the parameters devmax and sonic are accepted and not used. [newton] is
    scipy.optimize.newton inside Mach_PrandtlMeyer (on the array of deflections: element by element). *)
Definition plot_isentropic (newton : solver) (mach dev0 dev1 gamma : num) (npts : nat) (thet_init p_init : num) (curve : string) : list drawn :=
  let dev := linspace dev0 dev1 npts in
  let ps := map (fun d => p_init * IsentropicPsratio_Mach_deflection newton mach d gamma) dev in
  let ps' := map (fun d => p_init * IsentropicPsratio_Mach_deflection newton mach (- d) gamma) dev in
  draw (chosen curve ["c+"; "C+"; "both"]%string) (mk_drawn Line (map (fun d => thet_init + d) dev) ps) ++
  draw (chosen curve ["c-"; "C-"; "both"]%string) (mk_drawn Line (map (fun d => thet_init + d) dev) ps').
