(** * Physical dimensions of the quantities in the engine modules *)
From Coq Require Import String List ZArith.
From Verif Require Import Num M_Obj M_Engine M_Cycle.
Import ListNotations.
Open Scope string_scope.

(** exponents of mass flow, pressure, temperature and velocity *)
Record dim := Dim { d_m : Z; d_p : Z; d_t : Z; d_v : Z }.
(** how many new units in one old unit *)
Record units := { u_m : R; u_p : R; u_t : R; u_v : R }.
Definition proper (u : units) : Prop := (0 < u_m u /\ 0 < u_p u /\ 0 < u_t u /\ 0 < u_v u)%R.
Definition factor (u : units) (d : dim) : R :=
  (powerRZ (u_m u) (d_m d) * powerRZ (u_p u) (d_p d) * powerRZ (u_t u) (d_t d) * powerRZ (u_v u) (d_v d))%R.

Definition pure : dim := Dim 0 0 0 0.
Definition mass_flow : dim := Dim 1 0 0 0.
Definition pressure : dim := Dim 0 1 0 0.
Definition temperature : dim := Dim 0 0 1 0.
Definition velocity : dim := Dim 0 0 0 1.
Definition energy : dim := Dim 0 0 0 2.               (* per unit mass: heating value, specific work *)
Definition heat_capacity : dim := Dim 0 0 (-1) 2.     (* and gas constant *)
Definition force : dim := Dim 1 0 0 1.
Definition power : dim := Dim 1 0 0 2.
Definition consumption : dim := Dim 0 0 0 (-1).       (* fuel flow per unit thrust *)

Definition table : list (list string * dim) :=
  [ (["P0"; "Pt0"; "Pt2"; "Pt3"; "Pt4"; "Pt45"; "Pt5"; "Pt9"; "P9"; "Pt13"; "Pt17"; "Pt19"; "P19"; "P5"; "Pt4_"; "Pt4_etoile"], pressure);
    (["T0"; "Tt0"; "Tt2"; "Tt3"; "Tt4"; "Tt45"; "Tt5"; "Tt9"; "Tt13"; "Tt17"; "Tt19"; "Tt4_"; "Tt4_etoile"; "T5"; "T9"; "T19"], temperature);
    (["V0"; "V9"; "V19"; "A9"; "A19"; "F_spe"; "Fspe"], velocity);
    (["Pci"; "P_k"; "g.P_k"; "g_fuel.P_k"], energy);
    (["r"; "r_"; "r_cold"; "r_hot"; "g.r"; "g_fuel.r"; "cp"; "cp_"], heat_capacity);
    (["m"; "m_c"; "m_f"; "m_k"], mass_flow);
    (["F"; "F_c"; "F_f"; "Fc"; "Ff"], force);
    (["wu_c"; "wu_f"; "wu_fan"; "w_uc"; "w_uf"; "w_uf_theo"; "Wu_f"; "Wf"; "Qf"; "delta_E"], power);
    (["mk_spe"], consumption) ].
(** every other attribute (Mach numbers, ratios, efficiencies, ...) is a pure number *)
Definition dimension (a : string) : dim :=
  match find (fun e => existsb (String.eqb a) (fst e)) table with Some e => snd e | None => pure end.

Definition convert (u : units) (d : dim) (x : num) : num := nmul (Some (factor u d)) x.
(** the same object with its attributes expressed in the new units *)
Definition rescale (u : units) (o : obj) : obj := fun a => option_map (convert u (dimension a)) (o a).

(** constructor arguments in the new units *)
Definition convert_args (u : units) (p : gg_args) : gg_args :=
  {| a_OPR := a_OPR p; a_Tt4 := convert u temperature (a_Tt4 p); a_gam_cold := a_gam_cold p; a_gam_hot := a_gam_hot p;
     a_r_cold := convert u heat_capacity (a_r_cold p); a_r_hot := convert u heat_capacity (a_r_hot p);
     a_xi_inlet := a_xi_inlet p; a_xi_nozzle := a_xi_nozzle p; a_xi_cc := a_xi_cc p; a_eta_cc := a_eta_cc p; a_Pci := convert u energy (a_Pci p);
     a_etapolCHP := a_etapolCHP p; a_etapolTHP := a_etapolTHP p; a_eta_shaft := a_eta_shaft p |}.
Definition convert_tf (u : units) (q : tf_args) : tf_args :=
  {| a_core := convert_args u (a_core q); a_bpr := a_bpr q; a_fanpower_ratio := a_fanpower_ratio q; a_etapolTBP := a_etapolTBP q; a_etapolfan := a_etapolfan q |}.

(** [k] times larger engine: what is proportional to the air flow (flows, forces, powers) is multiplied by [k], the rest is kept *)
Definition sized (k : R) (o : obj) : obj := fun a => if Z.eqb (d_m (dimension a)) 1 then option_map (nmul (Some k)) (o a) else o a.
(** ambient pressure multiplied by [k]: so are the pressures of all stations, the rest is kept *)
Definition pressurised (k : R) (o : obj) : obj := fun a => if Z.eqb (d_p (dimension a)) 1 then option_map (nmul (Some k)) (o a) else o a.

(** what a change makes of the attributes; the stage counters are kept *)
Definition on_attrs (f : obj -> obj) (c : cyc) : cyc := {| attrs := f (attrs c); corps := corps c; fan := fan c |}.
(** an object built by its constructor and put through a sequence of method calls *)
Definition built (init : prog) (h : list method) : option cyc := match construct init with Some c => history h c | None => None end.
