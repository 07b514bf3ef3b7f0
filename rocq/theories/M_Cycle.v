(** * Model of aerokit/engine/Cycle_Turbofan.py, propu_be.py and propu_be_double_corps.py *)
From Coq Require Import String.
From Verif Require Import Num M_Isentropic M_Obj M_Engine.
Open Scope string_scope.
Open Scope list_scope.
Open Scope obj_scope.

(** Cycle_Turbofan.py:31-41 (Gaz): attributes of the object passed as [g] or [g_fuel] are written
    "g.gamma" etc.; they are read-only for the cycle classes *)
Record gaz := { gz_gamma : num; gz_r : num; gz_P_k : num }.
Definition gaz_init (name : string) (z : gaz) : prog :=
  [ (append name ".gamma", L (gz_gamma z)); (append name ".r", L (gz_r z)); (append name ".P_k", L (gz_P_k z));
    (append name ".gsgmu", L (ndiv (gz_gamma z) (nsub (gz_gamma z) (Some 1%R))));
    (append name ".gmusg", L (ndiv (nsub (gz_gamma z) (Some 1%R)) (gz_gamma z))) ].
(** Gaz.get_cp, :40-41 *)
Definition get_cp (name : string) : expr :=
  (V (append name ".r") * V (append name ".gamma")) / (V (append name ".gamma") - one).
(** the default arguments of Gaz, and the gas of examples/engine/compare_engine.py:11 *)
Definition gaz_default : gaz := {| gz_gamma := Some (14/10)%R; gz_r := Some 287%R; gz_P_k := Some 0%R |}.
Definition gaz_fuel : gaz := {| gz_gamma := Some (133/100)%R; gz_r := Some (2916/10)%R; gz_P_k := Some 42800000%R |}.

(** ** methods guarded by the stage counters
    An object is its attributes and the two counters (current_stage_corps, current_stage_fan). *)
Record cyc := { attrs : obj; corps : nat; fan : nat }.
Record stage := { guard : nat -> nat -> bool; code : prog; new_corps : nat -> nat; new_fan : nat -> nat }.
Definition call (s : stage) (c : cyc) : option cyc :=
  if guard s (corps c) (fan c) then
    match run (code s) (attrs c) with
    | Some o => Some {| attrs := o; corps := new_corps s (corps c); fan := new_fan s (fan c) |}
    | None => None                       (* AttributeError *)
    end
  else Some c.
(** a method is a sequence of blocks [if cond: self.m1(); self.m2(); ...] *)
Definition method := list ((nat -> nat -> bool) * list stage).
Fixpoint calls (l : list stage) (c : cyc) : option cyc :=
  match l with [] => Some c | s :: l => match call s c with Some c => calls l c | None => None end end.
Fixpoint exec (m : method) (c : cyc) : option cyc :=
  match m with
  | [] => Some c
  | (cond, l) :: m => if cond (corps c) (fan c) then match calls l c with Some c => exec m c | None => None end else exec m c
  end.
Definition always (_ _ : nat) : bool := true.
Definition prim (s : stage) : method := [(always, [s])].
Definition corps_is (n : nat) (k _ : nat) : bool := Nat.eqb k n.
Definition fan_is (n : nat) (_ f : nat) : bool := Nat.eqb f n.
Definition keep (n : nat) : nat := n.
Definition become (m : nat) (_ : nat) : nat := m.

(** ** cycle_1_to_4, :71-144 *)
(** class attributes :73-84 *)
Definition attrs_with (eta_f : R) : prog :=
  [ ("P0", L (Some 22700%R)); ("T0", L (Some 217%R)); ("M0", L (Some (8/10)%R)); ("xi_e", L (Some (97/100)%R));
    ("eta_c", L (Some (90/100)%R)); ("eta_f", L (Some eta_f)); ("eta_comb", L (Some (99/100)%R)); ("xi_cc", L (Some (95/100)%R));
    ("eta_m", L (Some (98/100)%R)); ("eta_turb", L (Some (88/100)%R)); ("xi_tuy", L (Some (97/100)%R)) ].
Definition class_attrs : prog := attrs_with (89/100).
(** __init__ :86-93 *)
Definition init_1_to_4 (lambda_ pi_c Tt4 m : num) (g g_fuel : gaz) : prog :=
  class_attrs ++ [("lambda_", L lambda_); ("pi_c", L pi_c); ("Tt4", L Tt4); ("m", L m)] ++ gaz_init "g" g ++ gaz_init "g_fuel" g_fuel.
(** :100-104 *)
Definition InitialValues : stage :=
  {| guard := always;
     code := [ ("Pt0", V "P0" * F2 PtPs_Mach (V "M0") (V "g.gamma"));
               ("Tt0", V "T0" * F2 TtTs_Mach (V "M0") (V "g.gamma"));
               ("V0", V "M0" * F1 nsqrt (V "g.gamma" * V "g.r" * V "T0")) ];
     new_corps := become 1; new_fan := keep |}.
(** :106-112 *)
Definition stage_2 : stage :=
  {| guard := corps_is 1; code := [ ("Tt2", V "Tt0"); ("Pt2", V "Pt0" * V "xi_e") ]; new_corps := become 2; new_fan := keep |}.
(** :114-120 *)
Definition stage_3 : stage :=
  {| guard := corps_is 2;
     code := [ ("m_c", V "m" / (V "lambda_" + one));
               ("Tt3", V "Tt2" * V "pi_c" ** (V "g.gmusg" / V "eta_c"));
               ("Pt3", V "Pt2" * V "pi_c");
               ("wu_c", V "m_c" * get_cp "g" * (V "Tt3" - V "Tt2")) ];
     new_corps := become 3; new_fan := keep |}.
(** :122-127 *)
Definition stage_4 : stage :=
  {| guard := corps_is 3;
     code := [ ("m_k", V "m_c" * (((get_cp "g_fuel" * V "Tt4") - (get_cp "g" * V "Tt3")) /
                                  ((V "eta_comb" * V "g_fuel.P_k") - (get_cp "g_fuel" * V "Tt4"))));
               ("alpha", V "m_k" / V "m_c");
               ("Pt4", V "Pt3" * V "xi_cc") ];
     new_corps := become 4; new_fan := keep |}.
(** :129-143 *)
Definition calculs_1_to_4 : method :=
  [ (corps_is 0, [InitialValues; stage_2; stage_3; stage_4]);
    (corps_is 1, [stage_2; stage_3; stage_4]);
    (corps_is 2, [stage_3; stage_4]);
    (corps_is 3, [stage_4]) ].

(** ** the performance, :213-222 and :319-329, the same code in both classes *)
Definition ten7 : expr := L (Some 10000000%R).   (* 10e6 *)
Definition Qf : expr := V "g_fuel.P_k" * V "m_k".
Definition delta_E : expr :=
  L (Some (1/2)%R) * (V "m_c" * ((one + V "alpha") * V "V9" ^ 2 - V "V0" ^ 2) + V "m_f" * (V "V19" ^ 2 - V "V0" ^ 2)).
Definition perfo : stage :=
  {| guard := fun k f => Nat.eqb k 9 && Nat.eqb f 19;
     code := [ ("F", V "F_f" + V "F_c");
               ("F_spe", V "F" / V "m");
               ("mk_spe", (V "m_k" / V "F") * ten7);
               ("eta_th", delta_E / Qf);
               ("eta_prop", (V "F" * V "V0") / delta_E);
               ("eta", V "eta_th" * V "eta_prop") ];
     new_corps := keep; new_fan := keep |}.
(** show_perfo, :224-231 and :331-338: reads (prints) the performance *)
Definition show_perfo : stage :=
  {| guard := fun k f => Nat.eqb k 9 && Nat.eqb f 19;
     code := [ ("_", F4 (fun _ _ _ _ => None) (V "F") (V "F_spe") (V "mk_spe") (V "eta_th" + V "eta_prop" + V "eta")) ];
     new_corps := keep; new_fan := keep |}.
(** stage_19, :186-194 and :308-317, the same code in both classes *)
Definition stage_19 : stage :=
  {| guard := fan_is 13;
     code := [ ("Pt19", V "Pt13" * V "xi_tuy"); ("Tt19", V "Tt13"); ("P19", V "P0");
               ("M19", F2 Mach_PtPs (V "Pt19" / V "P19") (V "g.gamma"));
               ("V19", F4 Velocity_MachTi (V "M19") (V "Tt19") (V "g.r") (V "g.gamma"));
               ("F_f", V "m_f" * (V "V19" - V "V0")) ];
     new_corps := keep; new_fan := become 19 |}.

(** ** cycle_taux_fan_fixe, :169-258 *)
(** :171-176; then calculs_1_to_4 is called *)
Definition init_fixe (lambda_ pi_c Tt4 m : num) (g g_fuel : gaz) (pi_f : num) : prog :=
  init_1_to_4 lambda_ pi_c Tt4 m g g_fuel ++ [("pi_f", L pi_f)].
(** :178-184 *)
Definition fixe_stage_13 : stage :=
  {| guard := fun k _ => Nat.leb 2 k;
     code := [ ("m_f", V "m" * V "lambda_" / (V "lambda_" + one));
               ("Tt13", V "Tt2" * V "pi_f" ** (V "g.gmusg" / V "eta_c"));
               ("Pt13", V "Pt2" * V "pi_f");
               ("wu_f", V "m_f" * get_cp "g" * (V "Tt13" - V "Tt2")) ];
     new_corps := keep; new_fan := become 13 |}.
(** :196-201 *)
Definition fixe_stage_5 : stage :=
  {| guard := fun k f => Nat.eqb k 4 && Nat.leb 13 f;
     code := [ ("Tt5", V "Tt4" - ((V "wu_f" + V "wu_c") / (V "m_c" * (one + V "alpha") * get_cp "g_fuel" * V "eta_m")));
               ("pi_t", (V "Tt4" / V "Tt5") ** (V "g_fuel.gsgmu" / V "eta_turb"));
               ("Pt5", V "Pt4" / V "pi_t") ];
     new_corps := become 5; new_fan := keep |}.
(** :203-211 and :289-298 *)
Definition core_nozzle : prog :=
  [ ("Tt9", V "Tt5"); ("Pt9", V "Pt5" * V "xi_tuy"); ("P9", V "P0");
    ("M9", F2 Mach_PtPs (V "Pt9" / V "P9") (V "g_fuel.gamma"));
    ("V9", F4 Velocity_MachTi (V "M9") (V "Tt9") (V "g_fuel.r") (V "g_fuel.gamma"));
    ("F_c", V "m_c" * (V "V9" - V "V0")) ].
Definition fixe_stage_9 : stage := {| guard := corps_is 5; code := core_nozzle; new_corps := become 9; new_fan := keep |}.
(** :233-256 *)
Definition done_both (k f : nat) : bool := Nat.eqb f 19 && Nat.eqb k 9.
Definition fixe_5_to_9 : method :=
  [ (fan_is 0, [fixe_stage_13; stage_19; fixe_stage_5; fixe_stage_9; perfo]);
    (fan_is 13, [stage_19; fixe_stage_5; fixe_stage_9; perfo]);
    (fan_is 19, [fixe_stage_5; fixe_stage_9; perfo]);
    (corps_is 5, [fixe_stage_9; perfo]);
    (done_both, [perfo]) ].
Definition fixe_methods : list method :=
  [ prim InitialValues; prim stage_2; prim stage_3; prim stage_4; calculs_1_to_4; prim fixe_stage_13; prim stage_19;
    prim fixe_stage_5; prim fixe_stage_9; prim perfo; fixe_5_to_9 ].

(** ** cycle_taux_fan_calcule, :262-369; __init__ :264-269 *)
Definition init_calcule (lambda_ pi_c Tt4 m : num) (g g_fuel : gaz) (taux_meca : num) : prog :=
  init_1_to_4 lambda_ pi_c Tt4 m g g_fuel ++ [("taux_meca", L taux_meca)].
(** :271-276 *)
Definition calc_stage_4_etoile : stage :=
  {| guard := corps_is 4;
     code := [ ("Tt4_etoile", V "Tt4" - (V "wu_c" / (V "m_c" * (one + V "alpha") * get_cp "g_fuel" * V "eta_m")));
               ("pi_t_c", (V "Tt4" / V "Tt4_etoile") ** (V "g_fuel.gsgmu" / V "eta_turb"));
               ("Pt4_etoile", V "Pt4" / V "pi_t_c") ];
     new_corps := become 5; new_fan := keep |}.
(** :278-287; local variables P5, T5, w_uf_theo of stage_5 *)
Definition T5 : expr := V "Tt4_etoile" * (V "P0" / V "Pt4_etoile") ** V "g_fuel.gmusg".
Definition w_uf_theo : expr := V "m_c" * (one + V "alpha") * get_cp "g_fuel" * (T5 - V "Tt4_etoile").
Definition calc_stage_5 : stage :=
  {| guard := corps_is 5;
     code := [ ("wu_fan", w_uf_theo * V "taux_meca");
               ("Tt5", V "wu_fan" / (get_cp "g_fuel" * V "m_c" * (one + V "alpha")) + V "Tt4_etoile");
               ("pi_t_f", (V "Tt4_etoile" / V "Tt5") ** (V "g_fuel.gsgmu" / V "eta_turb"));
               ("Pt5", V "Pt4_etoile" / V "pi_t_f") ];
     new_corps := become 6; new_fan := keep |}.
(** :289-298 *)
Definition calc_stage_9 : stage := {| guard := corps_is 6; code := core_nozzle; new_corps := become 9; new_fan := keep |}.
(** :300-306 *)
Definition calc_stage_13 : stage :=
  {| guard := fun k _ => Nat.leb 6 k;
     code := [ ("m_f", V "lambda_" * V "m" / (V "lambda_" + one));
               ("Tt13", - V "wu_fan" * V "eta_m" / (V "m_f" * get_cp "g") + V "Tt2");
               ("pi_f", (V "Tt13" / V "Tt2") ** (V "eta_f" * V "g.gsgmu"));
               ("Pt13", V "Pt2" * V "pi_f") ];
     new_corps := keep; new_fan := become 13 |}.
(** :341-369 *)
Definition calc_5_to_9 : method :=
  [ (corps_is 4, [calc_stage_4_etoile; calc_stage_5; calc_stage_9; calc_stage_13; stage_19; perfo]);
    (corps_is 5, [calc_stage_5; calc_stage_9; calc_stage_13; stage_19; perfo]);
    (corps_is 6, [calc_stage_9; calc_stage_13; stage_19; perfo]);
    (corps_is 9, [calc_stage_13; stage_19; perfo]);
    (fan_is 13, [stage_19; perfo]);
    (done_both, [perfo]) ].
Definition calc_methods : list method :=
  [ prim InitialValues; prim stage_2; prim stage_3; prim stage_4; calculs_1_to_4; prim calc_stage_4_etoile; prim calc_stage_5;
    prim calc_stage_9; prim calc_stage_13; prim stage_19; prim perfo; calc_5_to_9 ].

(** constructors of the two classes: attributes, counters 0, then calculs_1_to_4 *)
Definition construct (init : prog) : option cyc :=
  match run init empty_obj with
  | Some o => exec calculs_1_to_4 {| attrs := o; corps := 0; fan := 0 |}
  | None => None
  end.
(** a history of method calls *)
Fixpoint history (h : list method) (c : cyc) : option cyc :=
  match h with [] => Some c | m :: h => match exec m c with Some c => history h c | None => None end end.

(** ** the scripts: local variables as attributes of a fresh namespace that holds the module globals *)
(** propu_be.py:4-25 and propu_be_double_corps.py:9-30, the same values *)
Definition script_globals_with (eta_f : R) : prog :=
  attrs_with eta_f ++ [ ("P_k", L (Some 42800000%R)); ("r", L (Some 287%R)); ("r_", L (Some (2916/10)%R));
                   ("gamma", L (Some (14/10)%R)); ("gamma_", L (Some (133/100)%R)) ].
Definition script_globals : prog := script_globals_with (89/100).
Definition two : expr := L (Some 2%R).
(** x ** (1/2) (Python 3) *)
Definition half_power (e : expr) : expr := e ** L (Some (1/2)%R).
(** common opening, propu_be.py:29-38 *)
Definition script_inlet (root : expr -> expr) : prog :=
  [ ("V0", V "M0" * root (V "gamma" * V "r" * V "T0"));
    ("Pt0", V "P0" * (one + (V "gamma" - one) / two * V "M0" ^ 2) ** (V "gamma" / (V "gamma" - one)));
    ("Tt0", V "T0" * (one + (V "gamma" - one) / two * V "M0" ^ 2));
    ("Tt2", V "Tt0");
    ("Pt2", V "Pt0" * V "xi_e");
    ("cp", (V "r" * V "gamma") / (V "gamma" - one));
    ("cp_", (V "r_" * V "gamma_") / (V "gamma_" - one)) ].
(** the nozzles: propu_be.py:57-74 *)
Definition script_core_nozzle (root : expr -> expr) : prog :=
  [ ("Tt9", V "Tt5"); ("Pt9", V "Pt5" * V "xi_tuy"); ("P9", V "P0");
    ("M9", root (((V "Pt9" / V "P9") ** ((V "gamma_" - one) / V "gamma_") - one) * (two / (V "gamma_" - one))));
    ("T9", V "Tt9" / (one + (V "gamma_" - one) / two * V "M9" ^ 2));
    ("A9", root (V "gamma_" * V "r_" * V "T9"));
    ("V9", V "M9" * V "A9");
    ("Fc", V "m_c" * (V "V9" - V "V0")) ].
Definition script_fan_nozzle (root : expr -> expr) (Pt Tt : string) : prog :=
  [ ("Pt19", V Pt * V "xi_tuy"); ("Tt19", V Tt); ("P19", V "P0");
    ("M19", root (((V "Pt19" / V "P19") ** ((V "gamma" - one) / V "gamma") - one) * (two / (V "gamma" - one))));
    ("T19", V "Tt19" / (one + (V "gamma" - one) / two * V "M19" ^ 2));
    ("A19", root (V "gamma" * V "r" * V "T19"));
    ("V19", V "M19" * V "A19");
    ("Ff", V "m_f" * (V "V19" - V "V0")) ].
Definition script_perfo : prog :=
  [ ("F", V "Fc" + V "Ff"); ("Fspe", V "F" / V "m"); ("mk_spe", V "m_k" / V "F" * ten7); ("Qf", V "P_k" * V "m_k");
    ("delta_E", L (Some (1/2)%R) * (V "m_c" * ((one + V "alpha") * V "V9" ^ 2 - V "V0" ^ 2) + V "m_f" * (V "V19" ^ 2 - V "V0" ^ 2)));
    ("eta_th", V "delta_E" / V "Qf");
    ("eta_prop", (V "F" * V "V0") / V "delta_E");
    ("eta", V "eta_th" * V "eta_prop") ].
(** the compressor and the combustor, propu_be.py:44-52 *)
Definition script_core : prog :=
  [ ("m_c", V "m" / (V "lambda_" + one));
    ("Tt3", V "Tt2" * V "pi_c" ** ((V "gamma" - one) / (V "gamma" * V "eta_c")));
    ("Pt3", V "Pt2" * V "pi_c");
    ("w_uc", V "m_c" * V "cp" * (V "Tt3" - V "Tt2"));
    ("m_k", V "m_c" * ((V "cp_" * V "Tt4" - V "cp" * V "Tt3") / (V "eta_comb" * V "P_k" - V "cp_" * V "Tt4")));
    ("alpha", V "m_k" / V "m_c");
    ("Pt4", V "Pt3" * V "xi_cc") ].
(** ** propu_be.py:27-91 calculs(lambda_, pi_c, Tt4, pi_f, m) *)
Definition propu_be_body : prog :=
  script_inlet half_power ++
  [ ("m_f", V "lambda_" * V "m" / (V "lambda_" + one));
    ("Tt17", V "Tt2" * V "pi_f" ** ((V "gamma" - one) / (V "gamma" * V "eta_f")));
    ("Pt17", V "Pt2" * V "pi_f");
    ("w_uf", V "m_f" * V "cp" * (V "Tt17" - V "Tt2")) ] ++
  script_core ++
  [ ("Tt5", V "Tt4" - (V "w_uf" + V "w_uc") / (V "m_c" * (one + V "alpha") * V "cp_" * V "eta_m"));
    ("pi_t", (V "Tt4" / V "Tt5") ** (V "gamma_" / (V "eta_turb" * (V "gamma_" - one))));
    ("Pt5", V "Pt4" / V "pi_t") ] ++
  script_core_nozzle half_power ++ script_fan_nozzle half_power "Pt17" "Tt17" ++ script_perfo.
Definition propu_be_calculs (globals : prog) (lambda_ pi_c Tt4 pi_f m : num) : option obj :=
  run (globals ++ [("lambda_", L lambda_); ("pi_c", L pi_c); ("Tt4", L Tt4); ("pi_f", L pi_f); ("m", L m)] ++ propu_be_body) empty_obj.
(** ** propu_be_double_corps.py:32-100 calculs(lambda_, pi_c, Tt4, m, taux_meca) *)
Definition np_root (e : expr) : expr := F1 nsqrt e.
Definition double_corps_body : prog :=
  script_inlet np_root ++ script_core ++
  [ ("Tt4_", V "Tt4" - V "w_uc" / (V "m_c" * (one + V "alpha") * V "cp_" * V "eta_m"));
    ("pi_tc", (V "Tt4" / V "Tt4_") ** (V "gamma_" / (V "eta_turb" * (V "gamma_" - one))));
    ("Pt4_", V "Pt4" / V "pi_tc");
    ("P5", V "P0");
    ("T5", V "Tt4_" * (V "P5" / V "Pt4_") ** ((V "gamma_" - one) / V "gamma_"));
    ("w_uf_theo", V "m_c" * (one + V "alpha") * V "cp_" * (V "T5" - V "Tt4_"));
    ("Wu_f", V "w_uf_theo" * V "taux_meca");
    ("Tt5", V "Wu_f" / (V "cp_" * V "m_c" * (one + V "alpha")) + V "Tt4_");
    ("pi_tf", (V "Tt4_" / V "Tt5") ** (V "gamma_" / (V "eta_turb" * (V "gamma_" - one))));
    ("Pt5", V "Pt4_" / V "pi_tf") ] ++
  script_core_nozzle np_root ++
  [ ("m_f", V "lambda_" * V "m" / (V "lambda_" + one));
    ("Wf", - V "w_uf_theo" * V "taux_meca" * V "eta_m");
    ("Tt13", V "Wf" / (V "m_f" * V "cp") + V "Tt2");
    ("pi_f", (V "Tt13" / V "Tt2") ** (V "eta_f" * V "gamma" / (V "gamma" - one)));
    ("Pt13", V "Pt2" * V "pi_f") ] ++
  script_fan_nozzle np_root "Pt13" "Tt13" ++ script_perfo.
Definition double_corps_calculs (globals : prog) (lambda_ pi_c Tt4 m taux_meca : num) : option obj :=
  run (globals ++ [("lambda_", L lambda_); ("pi_c", L pi_c); ("Tt4", L Tt4); ("m", L m); ("taux_meca", L taux_meca)] ++ double_corps_body) empty_obj.
(** ** propu_be_double_corps.py:165-231 calculs_tau_optimum(lambda_, pi_c, Tt4, m) *)
Definition tau_optimum_body : prog :=
  script_inlet half_power ++
  [ ("tau_lambda", (V "cp_" * V "Tt4") / (V "cp" * V "Tt0"));
    ("tau_r", V "Tt0" / V "T0");
    ("tau_c", V "pi_c" ** ((V "gamma" - one) / (V "eta_c" * V "gamma")));
    ("tau_f", (V "tau_lambda" * V "tau_r" * (V "tau_c" - one) - V "tau_lambda" / (V "tau_r" * V "tau_c") + V "lambda_" * V "tau_r" + one) /
              (V "tau_r" * (one + V "lambda_")));
    ("pi_f", V "tau_f" ** ((V "eta_f" * V "gamma") / (V "gamma" - one)));
    ("Tt13", V "Tt2" * V "tau_f");
    ("Pt13", V "Pt2" * V "pi_f");
    ("m_f", V "lambda_" * V "m" / (V "lambda_" + one));
    ("wu_f", V "m_f" * V "cp" * (V "Tt13" - V "Tt2")) ] ++
  script_core ++
  [ ("Tt5", V "Tt4" - (V "w_uc" + V "wu_f") / (V "m_c" * (one + V "alpha") * V "cp_" * V "eta_m"));
    ("pi_tc", (V "Tt4" / V "Tt5") ** (V "gamma_" / (V "eta_turb" * (V "gamma_" - one))));
    ("Pt5", V "Pt4" / V "pi_tc") ] ++
  script_core_nozzle half_power ++ script_fan_nozzle half_power "Pt13" "Tt13" ++ script_perfo.
Definition tau_optimum (globals : prog) (lambda_ pi_c Tt4 m : num) : option obj :=
  run (globals ++ [("lambda_", L lambda_); ("pi_c", L pi_c); ("Tt4", L Tt4); ("m", L m)] ++ tau_optimum_body) empty_obj.
