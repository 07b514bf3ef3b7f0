(** Property theorems of L_Ramjet.v. Generated by tools/gen.py; statements only, proofs are in L_Ramjet.v. *)
From Coq Require Import List Lia Classical_Prop.
From Coquelicot Require Import Coquelicot.
From Verif Require Import L_Num Spec NumSpec RamjetSpec M_Isentropic M_MassFlow M_ShockWave M_Fanno M_Rayleigh M_Polar M_Ramjet L_Isentropic L_MassFlow L_Shock L_ShockPt L_Fanno L_Rayleigh L_Polar L_Lines.
From Verif Require Import L_Ramjet.
Open Scope R_scope.

(** The fully supersonic branch: the flow expands from the throat to the combustor, total pressure 1, M3 >= 1 (M3 is where the area ratio A3 puts it, and A3 is 9/10 of the isentropic area of M0); along the branch the combustor multiplies the total temperature by the plotted ratio, which goes from 1 (no heat, m4 = M3) to the ratio at which the nozzle's throat chokes (M8 = 1); the flow stays supersonic. *)
Theorem C86_supersonic : forall newton M0 M2 n, inverts_sigma newton -> design M0 M2 -> (1 <= n)%nat ->
  let f := ramjet_working newton (Some air) (Some M0) (Some M2) n in
  exists A3 M3 amax, A3A2 f = Some A3 /\ A8A2 f = Some (8 / 10 * A3) /\ 1 <= A3 /\ channel_flow air 1 M2 (10 / 9 * A3) M0 /\
  channel_flow air 1 M2 A3 M3 /\ 1 <= M3 /\ 1 <= amax /\ List.length (FS f) = S n /\
  forall i, (i <= n)%nat -> let a := 1 + INR i * (amax - 1) / INR n in
  exists m4 p4 M8, nth_error (FS f) i = Some (mkw (Some a) (Some M3) (Some m4) (Some 1) (Some p4)) /\
    duct_flow air a M3 1 m4 p4 /\ 1 <= m4 <= M3 /\ channel_flow air A3 m4 (8 / 10 * A3) M8 /\ 1 <= M8 /\
    (i = 0%nat -> m4 = M3) /\ (i = n -> M8 = 1).
Proof. exact ramjet_supersonic. Qed.
Print Assumptions C86_supersonic.

(** The conventional branch: for every plotted point there is a section As between the throat (1) and the combustor (A3) where a normal shock takes the supersonic flow expanded from the throat to the subsonic flow that reaches the combustor with the plotted Mach number and total pressure, is heated there by the plotted ratio, and leaves through a sonic nozzle throat; the shock is at the combustor at the first point and at the throat at the last one (unstart). *)
Theorem C86_working : forall newton M0 M2 n, inverts_sigma newton -> design M0 M2 -> (1 <= n)%nat ->
  let f := ramjet_working newton (Some air) (Some M0) (Some M2) n in
  exists A3 amin amax, A3A2 f = Some A3 /\ A8A2 f = Some (8 / 10 * A3) /\ 0 < amin <= amax /\ List.length (CW f) = S n /\
  forall i, (i <= n)%nat -> let a := amin + INR i * (amax - amin) / INR n in
  exists m3 m4 p3 p4 As Ms ms, nth_error (CW f) i = Some (mkw (Some a) (Some m3) (Some m4) (Some p3) (Some p4)) /\
    1 <= As <= A3 /\ channel_flow air 1 M2 As Ms /\ normal_shock air Ms 1 ms p3 /\ channel_flow air As ms A3 m3 /\ 0 < m3 <= 1 /\
    duct_flow air a m3 p3 m4 p4 /\ 0 < m4 < 1 /\ channel_flow air A3 m4 (8 / 10 * A3) 1 /\
    (i = 0%nat -> As = A3) /\ (i = n -> As = 1).
Proof. exact ramjet_conventional. Qed.
Print Assumptions C86_working.

(** The unstarted branch: the total pressure of every plotted point is that behind a normal shock at the flight Mach number; the subsonic flow goes through the inlet's throat with a Mach number M2' in (0, 1] to the combustor, is heated by the plotted ratio and leaves through a sonic nozzle throat. At the branch's first point, the smallest ratio, the inlet's throat is sonic as well. *)
Theorem C86_unstarted : forall newton M0 M2 n, inverts_sigma newton -> design M0 M2 -> (1 <= n)%nat ->
  let f := ramjet_working newton (Some air) (Some M0) (Some M2) n in
  exists A3 amin amax mb p3, A3A2 f = Some A3 /\ A8A2 f = Some (8 / 10 * A3) /\ 0 < amin <= amax /\ List.length (UC f) = S n /\
  normal_shock air M0 1 mb p3 /\
  forall i, (i <= n)%nat -> let a := amin + INR i * (amax - amin) / INR n in
  exists m3 m4 p4 M2', nth_error (UC f) i = Some (mkw (Some a) (Some m3) (Some m4) (Some p3) (Some p4)) /\
    channel_flow air 1 M2' A3 m3 /\ 0 < M2' <= 1 /\ 0 < m3 <= 1 /\
    duct_flow air a m3 p3 m4 p4 /\ 0 < m4 < 1 /\ channel_flow air A3 m4 (8 / 10 * A3) 1 /\ (i = 0%nat -> M2' = 1).
Proof. exact ramjet_unstarted. Qed.
Print Assumptions C86_unstarted.

(** The choked branch (dashed): the inlet's throat is sonic with the total pressure behind a normal shock at the flight Mach number; for every plotted point a second normal shock, between the throat and the combustor, gives the plotted Mach number and total pressure at the combustor, heated by the plotted ratio up to a sonic nozzle throat. The shock is at the combustor at the first point and at the throat at the last one, whose ratio is the first one of the unstarted branch. *)
Theorem C86_choked : forall newton M0 M2 n, inverts_sigma newton -> design M0 M2 -> (1 <= n)%nat ->
  let f := ramjet_working newton (Some air) (Some M0) (Some M2) n in
  exists A3 amin amax mb pb, A3A2 f = Some A3 /\ A8A2 f = Some (8 / 10 * A3) /\ 0 < amin <= amax /\ List.length (RC f) = S n /\
  normal_shock air M0 1 mb pb /\ (exists w, nth_error (UC f) 0 = Some w /\ w_alpha w = Some amax) /\
  forall i, (i <= n)%nat -> let a := amin + INR i * (amax - amin) / INR n in
  exists m3 m4 p3 p4 As Ms ms, nth_error (RC f) i = Some (mkw (Some a) (Some m3) (Some m4) (Some p3) (Some p4)) /\
    1 <= As <= A3 /\ channel_flow air 1 1 As Ms /\ normal_shock air Ms pb ms p3 /\ channel_flow air As ms A3 m3 /\ 0 < m3 <= 1 /\
    duct_flow air a m3 p3 m4 p4 /\ 0 < m4 < 1 /\ channel_flow air A3 m4 (8 / 10 * A3) 1 /\
    (i = 0%nat -> As = A3) /\ (i = n -> As = 1).
Proof. exact ramjet_choked. Qed.
Print Assumptions C86_choked.

(** hypotheses: the script's own Mach numbers, 2.8 and 1.5, with a solver that exists. *)
Example C86_example : inverts_sigma ideal_newton /\ design (28 / 10) (15 / 10).
Proof. exact ramjet_example. Qed.
