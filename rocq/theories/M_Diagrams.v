(** * Model of examples/rayleigh-heating.py, rayleigh-diag.py, fanno-diag.py and massflow-diag.py
    What a script draws: the curves handed to plt.plot, in order (abscissas and ordinates). Colours, legends, axis limits and
    scales are not modelled. The import of the two Rayleigh scripts ([aero.Rayleigh]) is the subject of C78; here the module is aerokit.aero.Rayleigh. *)
From Verif Require Import Num M_Isentropic M_MassFlow M_Fanno M_Rayleigh M_Polar M_Ramjet.
Open Scope num_scope.

Definition curve (x y : list num) : drawn := mk_drawn Line x y.

(** rayleigh-heating.py:19-22: one pass of the loop; [gam] is the script's constant 1.4, [npoints] its 100 *)
Definition heating_curve (npoints : nat) (gam M0 : num) : drawn :=
  let Timax := Ra_maxTiratio_Mach M0 gam in
  let Ti := map log10 (logspace #1 Timax npoints) in
  let Mach := map (fun t => nif (nlt M0 #1) (Ra_SubMach_TiTicri (t / Timax) gam) (Ra_SupMach_TiTicri (t / Timax) gam)) Ti in
  curve Ti Mach.
(** rayleigh-heating.py:17: the starting Mach numbers *)
Definition heating_starts : list num :=
  [#(1/10); #(2/10); #(3/10); #(4/10); #(5/10); #(6/10); #(7/10); #(8/10); #(9/10);
   #(12/10); #(15/10); #2; #3; #4; #6; #10; #20].
(** rayleigh-heating.py:11-23 *)
Definition heating_figure : list drawn := map (heating_curve 100 #(14/10)) heating_starts.

(** the scripts' axis: rayleigh-diag.py:17, fanno-diag.py:21, massflow-diag.py:20 *)
Definition mach_axis (npoints : nat) (Mmin Mmax : num) : list num := map log10 (logspace Mmin Mmax npoints).

(** rayleigh-diag.py:18-24, 29-33: figure 1 (Tparam is computed but its plot is commented out); 47: figure 2 *)
Definition rayleigh_ratios (npoints : nat) (gam Mmin Mmax : num) : list drawn :=
  let Mach := mach_axis npoints Mmin Mmax in
  let Ts := map (fun m => Ra_Ts_Tscri m gam) Mach in
  let Ti := map (fun m => Ra_Ti_Ticri m gam) Mach in
  let Ps := map (fun m => Ra_Ps_Pscri m gam) Mach in
  let Pi := map (fun m => Ra_Pi_Picri m gam) Mach in
  let V := map (fun m => Ra_V_Vcri m gam) Mach in
  [curve Mach Ti; curve Mach Ts; curve Mach Pi; curve Mach Ps; curve Mach V].
Definition rayleigh_TS (npoints : nat) (gam Mmin Mmax : num) : drawn :=
  let Mach := mach_axis npoints Mmin Mmax in
  let Ts := map (fun m => Ra_Ts_Tscri m gam) Mach in
  let dS := map (fun m => Ra_NormdS m gam) Mach in
  curve dS Ts.

(** fanno-diag.py:22-27, 31-35: figure 1; 48: figure 2 *)
Definition fanno_ratios (npoints : nat) (gam Mmin Mmax : num) : list drawn :=
  let Mach := mach_axis npoints Mmin Mmax in
  let Fparam := map (fun m => Fa_maxFparam_Mach m gam) Mach in
  let Ts := map (fun m => Fa_Ts_Tscri m gam) Mach in
  let Ps := map (fun m => Fa_Ps_Pscri m gam) Mach in
  let Pi := map (fun m => Fa_Pi_Picri m gam) Mach in
  let V := map (fun m => Fa_V_Vcri m gam) Mach in
  [curve Mach Fparam; curve Mach Ts; curve Mach Ps; curve Mach Pi; curve Mach V].
Definition fanno_TS (npoints : nat) (gam Mmin Mmax : num) : drawn :=
  let Mach := mach_axis npoints Mmin Mmax in
  let Ts := map (fun m => Fa_Ts_Tscri m gam) Mach in
  let dS := map (fun m => Fa_NormdS m gam) Mach in
  curve dS Ts.

(** massflow-diag.py:22-23, 27, 40: in [mf.WeightMassFlow(Mach, gam)] the second positional parameter of WeightMassFlow is [r]; gamma keeps its default *)
Definition massflow_curves (npoints : nat) (gam Mmin Mmax : num) : list drawn :=
  let Mach := mach_axis npoints Mmin Mmax in
  let debr := map (fun m => WeightMassFlow m gam dgamma) Mach in
  let sig := map (fun m => Sigma_Mach m gam) Mach in
  [curve Mach debr; curve Mach sig].
