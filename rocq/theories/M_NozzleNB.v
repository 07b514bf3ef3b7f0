(** * Model of the computations of notebooks/aero/Nozzle-regimes.ipynb (and of the section law of
    Nozzle-widget.ipynb).  Cells are numbered from 0, code cells only, as in the notebook file.
    Not modelled: the figures, the printed limits, and cell 5-6, which gives scipy's newton an
    array equation and a scalar start. [newton] is scipy.optimize.newton. *)
From Verif Require Import Num M_Isentropic M_DefaultGas M_MassFlow M_ShockWave M_Nozzle.
Import ListNotations.
Open Scope list_scope.
Open Scope num_scope.

(** Nozzle-regimes.ipynb cell 1: [np.linspace(0., length, n, endpoint=True)], n = 200
    (400 in Nozzle-widget.ipynb cell 1), at least two points *)
Definition nb_x (len : num) (n i : nat) : num := len * #(INR i) / #(INR (n - 1)).
Definition nb_grid (len : num) (n : nat) : list num := map (nb_x len n) (seq 0 n).
(** cell 1: the Mach number wanted at abscissa [x] *)
Definition nb_law (ma_max len x : num) : num :=
  #1 + (ma_max - #1) * nsin (#(1/2) * (x - #1) * npi / (len - #1)).
(** cell 1: the section law [Noz_AoAc] *)
Definition nb_ma_max (newton : solver) (target : num) : num := Mach_Sigma newton target #2 dgamma.
Definition nb_area (newton : solver) (target len : num) (n : nat) : list num :=
  map (fun x => Sigma_Mach (nb_law (nb_ma_max newton target) len x) dgamma) (nb_grid len n).

(** cell 2: the limit pressure ratios and Mach numbers *)
Definition nb_Msub (newton : solver) (target : num) : num := MachSub_Sigma newton target dgamma.
Definition nb_NPR0 (newton : solver) (target : num) : num := PtPs_Mach (nb_Msub newton target) dgamma.
Definition nb_Msup (newton : solver) (target : num) : num := MachSup_Sigma newton target dgamma.
Definition nb_NPR1 (newton : solver) (target : num) : num := PtPs_Mach (nb_Msup newton target) dgamma.
Definition nb_Msh (newton : solver) (target : num) : num := downstream_Mn (nb_Msup newton target) dgamma.
Definition nb_NPRsw (newton : solver) (target : num) : num :=
  PtPs_Mach (nb_Msh newton target) dgamma / Pi_ratio (nb_Msup newton target) dgamma.

(** A drawn regime: the arrays [_M], [_Pt], [_Ps], with their two additional points *)
Definition drawn := (list num * list num * list num)%type.
Definition nb_ones (A : list num) : list num := map (fun _ => #1) A.
Definition nb_Ps (Pt M : list num) : list num :=
  map (fun pm => fst pm / PtPs_Mach (snd pm) dgamma) (combine Pt M).

(** cell 3: subsonic regime of throat Mach number [Ma_col] *)
Definition nb_subsonic (newton : solver) (A : list num) (Ma_col : num) : option drawn :=
  match MachSub_array newton (map (fun a => a * Sigma_Mach Ma_col dgamma) A) dgamma with
  | None => None
  | Some M0 =>
    let M := M0 ++ [alast M0; alast M0] in
    let Pt := nb_ones A ++ [#1; #1] in
    Some (M, Pt, nb_Ps Pt M)
  end.

(** cells 7, 9 and 11: [_Minit] and the choked Mach numbers (an array start: MassFlow.py:40-41).
    A comparison with a number that is not finite is False. *)
Definition nb_Minit (x : num) : num :=
  #(5/100) + match x >? #1 with Some true => #1 | _ => #0 end * #2.
Definition nb_choked (newton : solver) (X A : list num) : list num :=
  map (fun xa => Mach_Sigma_elt newton (snd xa) (nb_Minit (fst xa)) dgamma) (combine X A).

(** cell 7: supersonic regime *)
Definition nb_supersonic (newton : solver) (X A : list num) : drawn :=
  let M0 := nb_choked newton X A in
  let M := M0 ++ [alast M0; alast M0] in
  let Pt := nb_ones A ++ [#1; #1] in
  (M, Pt, nb_Ps Pt M).

(** cell 9: shock at the exit *)
Definition nb_exit_shock (newton : solver) (X A : list num) : drawn :=
  let M0 := nb_choked newton X A in
  let Msh := downstream_Mn (alast M0) dgamma in
  let Ptloss := Pi_ratio (alast M0) dgamma in
  let M := M0 ++ [Msh; Msh] in
  let Pt := nb_ones A ++ [Ptloss; Ptloss] in
  (M, Pt, nb_Ps Pt M).

(** cell 11: the imposed pressure ratio of parameter [pos] *)
Definition nb_NPR (newton : solver) (target pos : num) : num :=
  nb_NPR0 newton target * (#1 - pos) + nb_NPRsw newton target * pos.
(** cell 11: shock in the diffuser; [cur] is [defg._gamma] read when the cell runs. [None]: an
    exception (or, as in M_Nozzle.v, an argmin over numbers that are not finite). *)
Definition nb_shocked (newton : solver) (cur target NPR : num) (X A : list num) : option drawn :=
  let M0 := nb_choked newton X A in
  let K := NPR / target / ((cur + #1) / #2) ** ((cur + #1) / #2 / (cur - #1)) in
  let Ms := nsqrt ((nsqrt (#1 + #2 * (cur - #1) * K * K) - #1) / (cur - #1)) in
  let Ptloss := PtPs_Mach Ms dgamma / NPR in
  let Msh := Mn_Pi_ratio Ptloss dgamma in
  match argmin (map (fun m => nabs (m - Msh)) M0) with
  | None => None
  | Some ish =>
    match MachSub_array newton (map (fun a => a * Sigma_Mach Ms dgamma / target) (skipn ish A)) dgamma with
    | None => None
    | Some M3 =>
      let M := firstn ish M0 ++ M3 ++ [Ms; Ms] in
      let Pt0 := nb_ones A ++ [Ptloss; Ptloss] in
      let Pt := firstn ish Pt0 ++ map (fun _ => Ptloss) (skipn ish Pt0) in
      Some (M, Pt, nb_Ps Pt M)
    end
  end.

(** Nozzle-widget.ipynb cell 2, first line of [iplot]: the section law for another exit ratio *)
Definition nb_rescaled (AsAc target : num) (A : list num) : list num :=
  map (fun a => #1 + (AsAc - #1) / (target - #1) * (a - #1)) A.
