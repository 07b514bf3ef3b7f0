(** * Model of the worked examples docs/examples/aero.Isentropic.ipynb and aero.MassFlow.ipynb
    Each recipe is the notebook cell as a function of the numbers it starts from; what is printed is its result. *)
From Verif Require Import Num M_Isentropic M_MassFlow.
Open Scope num_scope.

(** aero.Isentropic.ipynb, cell 2 (M0 = 0.8, 1e5 Pa, 280 K): (Pstag, Tstag) *)
Definition doc_stagnation (P T M0 : num) : num * num := (P * PtPs_Mach M0 dgamma, T * TtTs_Mach M0 dgamma).
(** aero.Isentropic.ipynb, cell 4 (P = 10 atm, Pt = 0.45 atm, gamma = 1.1): exit Mach number *)
Definition doc_exit_Mach (P Pt gamma : num) : num := Mach_PtPs (P / Pt) gamma.
(** aero.Isentropic.ipynb, cell 6 (Tt = 280, T = 390): Mach number *)
Definition doc_pipe_Mach (T Tt : num) : num := Mach_TtTs (T / Tt) dgamma.
(** aero.Isentropic.ipynb, cell 8: velocity *)
Definition doc_pipe_velocity (T Tt : num) : num := Velocity_MachTt (doc_pipe_Mach T Tt) Tt dr dgamma.

(** aero.MassFlow.ipynb, cell 2 (A_throat = .1, A_exit = .25): [mf.Mach_Sigma(sigma)], whose default start is Mach = 2.0 *)
Definition doc_adapted (newton : solver) (A_throat A_exit : num) : num := Mach_Sigma newton (A_exit / A_throat) #2 dgamma.
(** aero.MassFlow.ipynb, cell 4 (P_t = 1.07e6, T_t = 300, r = 287): mass flow at the throat; [mf.WeightMassFlow(1)] keeps its default r = 287.1 *)
Definition doc_mass_flow (A_throat P_t T_t r : num) : num :=
  WeightMassFlow #1 #(2871/10) dgamma * (P_t * A_throat) / nsqrt (r * T_t).
(** aero.MassFlow.ipynb, cell 6 (Mach .85 at the throat, gamma = 1.25): exit Mach number *)
Definition doc_subsonic (newton : solver) (A_throat A_exit Mthroat gamma : num) : num :=
  let sigma_Mthroat := Sigma_Mach Mthroat gamma in
  let sigma_Mexit := A_exit / A_throat * sigma_Mthroat in
  MachSub_Sigma newton sigma_Mexit gamma.
