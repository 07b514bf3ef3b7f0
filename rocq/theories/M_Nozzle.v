(** * Model of aerokit/instance/nozzle.py *)
From Verif Require Import Num M_Isentropic M_DefaultGas M_MassFlow M_ShockWave.
Import ListNotations.
Open Scope list_scope.
Open Scope num_scope.

(** The flow functions are called without gamma in most places: they then use the default
    captured at import, [dgamma] (see M_DefaultGas.v). [newton] is scipy.optimize.newton. *)

(** nozzle.py:26-34 *)
Definition NPR_choked_subsonic (newton : solver) (AsAc : num) : num :=
  PtPs_Mach (MachSub_Sigma newton AsAc dgamma) dgamma.
(** nozzle.py:37-45 *)
Definition NPR_choked_supersonic (newton : solver) (AsAc : num) : num :=
  PtPs_Mach (MachSup_Sigma newton AsAc dgamma) dgamma.
(** nozzle.py:48-58 *)
Definition NPR_shock_at_exit (newton : solver) (AsAc : num) : num :=
  let Msup := MachSup_Sigma newton AsAc dgamma in
  let Msh := downstream_Mn Msup dgamma in
  PtPs_Mach Msh dgamma / Pi_ratio Msup dgamma.

(** nozzle.py:61-84 *)
Record npr_list := mk_npr {
  NPR0 : num; NPRsw : num; NPR1 : num; l_Msub : num; l_Msh : num; l_Msup : num }.
Definition NPR_Ms_list (newton : solver) (AsAc : num) : npr_list :=
  let Msub := MachSub_Sigma newton AsAc dgamma in
  let NPR0 := PtPs_Mach Msub dgamma in
  let Msup := MachSup_Sigma newton AsAc dgamma in
  let Msh := downstream_Mn Msup dgamma in
  let NPRsw := PtPs_Mach Msh dgamma / Pi_ratio Msup dgamma in
  let NPR1 := PtPs_Mach Msup dgamma in
  mk_npr NPR0 NPRsw NPR1 Msub Msh Msup.

(** nozzle.py:111-113 and 144-146 (the same three lines twice); [cur] is [defg._gamma]
    read when the function runs. *)
Definition shocked_exit_Mach (cur AsAc NPR : num) : num :=
  let gmu := cur - #1 in
  let K := NPR / AsAc / ((cur + #1) / #2) ** ((cur + #1) / #2 / gmu) in
  nsqrt ((nsqrt (#1 + #2 * gmu * K * K) - #1) / gmu).

(** nozzle.py:87-114 *)
Definition Ms_from_AsAc_NPR (newton : solver) (cur AsAc NPR : num) : num :=
  let l := NPR_Ms_list newton AsAc in
  nif (NPR <? NPR0 l) (Mach_PtPs NPR dgamma)
    (nif (NPR >? NPRsw l) (l_Msup l) (shocked_exit_Mach cur AsAc NPR)).

(** nozzle.py:117-147 *)
Definition Madapt_from_AsAc_NPR (newton : solver) (cur AsAc NPR : num) : num :=
  let l := NPR_Ms_list newton AsAc in
  nif (NPR <? NPR0 l) (Mach_PtPs NPR dgamma)
    (nif (NPR >? NPR1 l) (Mach_PtPs NPR dgamma)
      (nif (NPR >? NPRsw l) (downstreamMach_Mach_ShockPsratio (l_Msup l) (NPR1 l / NPR) dgamma)
        (shocked_exit_Mach cur AsAc NPR))).

(** ** Arrays: lists of [num] *)

(** [np.min], [ndarray.argmin]: first index of the smallest entry; no result on an empty
    array or (simplification) when an entry is not finite. *)
Fixpoint all_some (l : list num) : option (list R) :=
  match l with
  | [] => Some []
  | None :: _ => None
  | Some a :: l' => match all_some l' with Some t => Some (a :: t) | None => None end
  end.
Fixpoint argmin_R (l : list R) : option (nat * R) :=
  match l with
  | [] => None
  | a :: l' => match argmin_R l' with
               | None => Some (O, a)
               | Some (i, b) => if Rle_dec a b then Some (O, a) else Some (S i, b)
               end
  end.
Definition argmin (l : list num) : option nat :=
  match all_some l with
  | Some t => match argmin_R t with Some (i, _) => Some i | None => None end
  | None => None end.
Definition amin (l : list num) : num :=
  match all_some l with
  | Some t => match argmin_R t with Some (_, b) => Some b | None => None end
  | None => None end.
(** [a[-1]]; IndexError on an empty array *)
Definition alast (l : list num) : num := last l None.

(** [mf.MachSub_Sigma], [mf.MachSup_Sigma] on a slice (MassFlow.py:39-63): one entry goes
    through the scalar path, more entries through the array path, whose starting value is
    chosen again entry by entry (MassFlow.py:40-41).  On an empty slice scipy's secant loop
    cannot meet its stopping test and raises: [None]. *)
Definition MachSub_array (newton : solver) (sigma : list num) (gamma : num) : option (list num) :=
  match sigma with
  | [] => None
  | [s] => Some [MachSub_Sigma newton s gamma]
  | _ => Some (map (fun s => Mach_Sigma_elt newton s (MachSub_guess s gamma) gamma) sigma)
  end.
Definition MachSup_array (newton : solver) (sigma : list num) (gamma : num) : option (list num) :=
  match sigma with
  | [] => None
  | [s] => Some [MachSup_Sigma newton s gamma]
  | _ => Some (map (fun s => Mach_Sigma_elt newton s (MachSup_guess s gamma) gamma) sigma)
  end.

(** ** The class *)
(** nozzle.py:162-179, attributes; [_ref_rttot], [_scale_ps], [x] are stored and never used
    by the modelled methods. [nz_flow] holds ([_M], [_Pt], [_Ps]) once set_NPR has run. *)
Record nozzle := mk_nozzle {
  nz_gamma : num; nz_AsoAc : num; nz_AxoAc : list num; nz_ithroat : nat;
  nz_lim : npr_list; nz_flow : option (list num * list num * list num) }.

(** Python truth value of an optional number: None and 0 are false, nan is true. *)
Definition truthy (x : option num) : bool :=
  match x with
  | None => false
  | Some (Some a) => if Req_EM_T a 0 then false else true
  | Some None => true end.

(** nozzle.py:181-205: the arrays of Mach, total and static pressure, or [None] if it raises *)
Definition flow_at (newton : solver) (cur : num) (n : nozzle) (NPR : num)
  : option (list num * list num * list num) :=
  let A := nz_AxoAc n in
  let g := nz_gamma n in
  let Pt : list num := @map num num (fun _ => #1) A in
  nif (NPR <? NPR0 (nz_lim n))
    (let Ms := Mach_PtPs NPR g in
     match MachSub_array newton (map (fun a => a / nz_AsoAc n * Sigma_Mach Ms dgamma) A) g with
     | None => None
     | Some M => Some (M, Pt, map (fun pm => fst pm / PtPs_Mach (snd pm) g) (combine Pt M))
     end)
    (let k := S (nz_ithroat n) in
     match MachSub_array newton (firstn k A) g, MachSup_array newton (skipn k A) g with
     | Some M1, Some M2 =>
        let M := (M1 ++ M2)%list in
        nif (NPR <? NPRsw (nz_lim n))
          (let Ms := Ms_from_AsAc_NPR newton cur (nz_AsoAc n) NPR in
           let Ptloss := PtPs_Mach Ms dgamma / NPR in
           let Msh := Mn_Pi_ratio Ptloss dgamma in
           match argmin (map (fun m => nabs (m - Msh)) M) with
           | None => None
           | Some ish =>
             match MachSub_array newton
                     (map (fun a => a * Sigma_Mach Ms dgamma / nz_AsoAc n) (skipn ish A)) dgamma with
             | None => None
             | Some M3 =>
               let M' := (firstn ish M ++ M3)%list in
               let Pt' := (firstn ish Pt ++ map (fun _ => Ptloss) (skipn ish Pt))%list in
               Some (M', Pt', map (fun pm => fst pm / PtPs_Mach (snd pm) dgamma) (combine Pt' M'))
             end
           end)
          (Some (M, Pt, map (fun pm => fst pm / PtPs_Mach (snd pm) dgamma) (combine Pt M)))
     | _, _ => None
     end).
Definition set_NPR (newton : solver) (s : defgas) (n : nozzle) (NPR : num) : option nozzle :=
  match flow_at newton (dg_gamma s) n NPR with
  | Some f => Some (mk_nozzle (nz_gamma n) (nz_AsoAc n) (nz_AxoAc n) (nz_ithroat n) (nz_lim n) (Some f))
  | None => None end.

(** nozzle.py:162-179; [None]: an exception. If set_NPR raises, restore_default is not run;
    [fst] is the default-gas state left behind, also in that case. *)
Definition nozzle_init (newton : solver) (s : defgas) (section : list num)
    (AsoAc : option num) (gamma : num) (NPR : option num) : defgas * option nozzle :=
  let asac := if truthy AsoAc then match AsoAc with Some a => a | None => None end
              else alast section / amin section in
  let A := map (fun a => a * asac / alast section) section in
  match argmin (map nabs A) with
  | None => (s, None)
  | Some it =>
    match gas_step s SaveDefault with
    | None => (s, None)
    | Some s1 =>
      let n := mk_nozzle gamma asac A it (NPR_Ms_list newton asac) None in
      let r := if truthy NPR then set_NPR newton s1 n (match NPR with Some v => v | None => None end)
               else Some n in
      match r with
      | None => (s1, None)
      | Some n' => match gas_step s1 RestoreDefault with
                   | Some s2 => (s2, Some n')
                   | None => (s1, None) end
      end
    end
  end.
