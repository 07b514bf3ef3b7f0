(** * The nozzle of the notebook Nozzle-regimes: its stations and the Mach numbers it is drawn for *)
From Verif Require Import Num.
Open Scope R_scope.

(** Abscissa of station [i] of [n] equally spaced stations from 0 to [len]. *)
Definition station (len : R) (n i : nat) : R := len * INR i / INR (n - 1).
(** The Mach number the section is designed for at abscissa [x]: a sine, 1 at x = 1 and [M] at
    the exit x = [len]. *)
Definition wanted (M len x : R) : R := 1 + (M - 1) * sin (1 / 2 * (x - 1) * PI / (len - 1)).
