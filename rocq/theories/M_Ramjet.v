(** * Model of examples/ramjet-working.py (the figure is the list of plotted points) *)
From Verif Require Import Num M_Isentropic M_MassFlow M_ShockWave M_Rayleigh M_Polar.
Open Scope num_scope.

(** numpy: np.logspace(a, b, n+1) = 10 ** np.linspace(a, b, n+1), and np.log10, elementwise *)
Definition logspace (a b : num) (n : nat) : list num := map (fun x => #10 ** x) (linspace a b n).
Definition log10 (x : num) : num := nlog x / nlog #10.

(** one point of a branch: heating ratio Ti4/Ti3, Mach numbers at the combustor's ends, total pressures over the upstream one *)
Record wpoint := mkw { w_alpha : num; w_m3 : num; w_m4 : num; w_pi3 : num; w_pi4 : num }.
Record figure := mkfig { A3A2 : num; A8A2 : num; FS : list wpoint; CW : list wpoint; UC : list wpoint; RC : list wpoint }.

Section Script.
  Variables (newton : solver) (gam M0 M2 : num) (npts : nat).

  (** ramjet-working.py:26-29 *)
  Definition s_A2A0 := Sigma_Mach M2 gam / Sigma_Mach M0 gam.
  Definition s_A3A2 := #1 / s_A2A0 * #(9/10).
  Definition s_A8A2 := #(8/10) * s_A3A2.

  (** ramjet-working.py:47: [gam] lands on the parameter [Mach] of Mach_Sigma (the start), the gas is the default one *)
  Definition s_M3sup := Mach_Sigma newton (s_A3A2 * Sigma_Mach M2 gam) gam dgamma.
  (** ramjet-working.py:48-49 *)
  Definition s_M4max := Mach_Sigma newton (s_A3A2 / s_A8A2) #2 gam.
  Definition FS_alphamax := Ra_Ti_Ticri s_M4max gam / Ra_Ti_Ticri s_M3sup gam.
  (** ramjet-working.py:52-56 *)
  Definition s_FS : list wpoint := map (fun a =>
    let m4 := Ra_SupMach_TiTicri (a / FS_alphamax * Ra_Ti_Ticri s_M4max gam) gam in
    mkw a s_M3sup m4 #1 (Ra_Pi_Picri m4 gam / Ra_Pi_Picri s_M3sup gam))
    (map log10 (logspace #1 FS_alphamax npts)).

  (** ramjet-working.py:65, 88 and 110: the Mach number at the end of the combustor when the nozzle throat is sonic *)
  Definition s_m4 := Mach_Sigma newton (s_A3A2 / s_A8A2) #(1/10) gam.
  (** ramjet-working.py:67-70 *)
  Definition CW_m3low := downstream_Mn s_M3sup gam.
  Definition CW_alphamin := Ra_Ti_Ticri s_m4 gam / Ra_Ti_Ticri CW_m3low gam.
  Definition CW_m3high := Mach_Sigma newton (s_A3A2 * Sigma_Mach (downstream_Mn M2 gam) gam) #(1/10) gam.
  Definition CW_alphamax := Ra_Ti_Ticri s_m4 gam / Ra_Ti_Ticri CW_m3high gam.
  (** ramjet-working.py:74-78 *)
  Definition s_CW : list wpoint := map (fun a =>
    let m3 := Ra_SubMach_TiTicri (Ra_Ti_Ticri s_m4 gam / a) gam in
    let pi3 := Sigma_Mach m3 gam / Sigma_Mach M2 gam / s_A3A2 in
    mkw a m3 s_m4 pi3 (pi3 * Ra_Pi_Picri s_m4 gam / Ra_Pi_Picri m3 gam))
    (map log10 (logspace CW_alphamin CW_alphamax npts)).

  (** ramjet-working.py:86-90 *)
  Definition UC_alphamax := #(11/10) * CW_alphamax.
  Definition UC_m3low := Mach_Sigma newton s_A3A2 #(1/10) gam.
  Definition UC_alphamin := Ra_Ti_Ticri s_m4 gam / Ra_Ti_Ticri UC_m3low gam.
  (** ramjet-working.py:96-100; Pi_ratio is called without gamma *)
  Definition s_UC : list wpoint := map (fun a =>
    let m3 := Ra_SubMach_TiTicri (Ra_Ti_Ticri s_m4 gam / a) gam in
    let pi3 := Pi_ratio M0 dgamma * #1 in
    mkw a m3 s_m4 pi3 (pi3 * Ra_Pi_Picri s_m4 gam / Ra_Pi_Picri m3 gam))
    (map log10 (logspace UC_alphamin UC_alphamax npts)).

  (** ramjet-working.py:109-112 *)
  Definition RC_m3low := Mach_Sigma newton s_A3A2 #2 gam.
  Definition RC_alphamin := Ra_Ti_Ticri s_m4 gam / Ra_Ti_Ticri RC_m3low gam.
  (** ramjet-working.py:114-119 *)
  Definition s_RC : list wpoint := map (fun a =>
    let m3 := Ra_SubMach_TiTicri (Ra_Ti_Ticri s_m4 gam / a) gam in
    let pi3 := Pi_ratio M0 dgamma * Sigma_Mach m3 gam / s_A3A2 in
    mkw a m3 s_m4 pi3 (pi3 * Ra_Pi_Picri s_m4 gam / Ra_Pi_Picri m3 gam))
    (map log10 (logspace RC_alphamin UC_alphamin npts)).

  Definition ramjet_working : figure := mkfig s_A3A2 s_A8A2 s_FS s_CW s_UC s_RC.
End Script.
