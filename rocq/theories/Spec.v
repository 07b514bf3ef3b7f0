(** * Spec: independent specifications, over plain real numbers.
    Nothing here mentions the model of the code. *)
From Coq Require Import Reals.
Open Scope R_scope.

(** ** Perfect gas *)
(** specific heat at constant pressure of a perfect gas *)
Definition cp (g r : R) : R := g * r / (g - 1).
(** speed of sound at temperature T *)
Definition sound (g r T : R) : R := sqrt (g * r * T).

(** [f] increases (decreases) strictly on the set [P] *)
Definition strictly_increasing_on (P : R -> Prop) (f : R -> R) : Prop :=
  forall x y, P x -> P y -> x < y -> f x < f y.
Definition strictly_decreasing_on (P : R -> Prop) (f : R -> R) : Prop :=
  forall x y, P x -> P y -> x < y -> f y < f x.

(** ** One-dimensional flow states: density, velocity, pressure *)
Record flow := mkflow { f_rho : R; f_u : R; f_p : R }.
(** total enthalpy per unit mass *)
Definition tot_enthalpy (g : R) (q : flow) : R :=
  g / (g - 1) * (f_p q / f_rho q) + f_u q ^ 2 / 2.
Definition mass_flux (w : R) (q : flow) : R := f_rho q * (f_u q - w).
Definition momentum_flux (w : R) (q : flow) : R :=
  f_rho q * (f_u q - w) ^ 2 + f_p q.
(** total enthalpy in the frame moving at speed [w] *)
Definition frame_enthalpy (g w : R) (q : flow) : R :=
  g / (g - 1) * (f_p q / f_rho q) + (f_u q - w) ^ 2 / 2.
(** The Rankine-Hugoniot relations between [q0] and [q1] across a front of speed [w]. *)
Definition rankine_hugoniot (g w : R) (q0 q1 : flow) : Prop :=
  mass_flux w q0 = mass_flux w q1 /\
  momentum_flux w q0 = momentum_flux w q1 /\
  frame_enthalpy g w q0 = frame_enthalpy g w q1.
(** local speed of sound of a state *)
Definition flow_sound (g : R) (q : flow) : R := sqrt (g * f_p q / f_rho q).
Definition positive_state (q : flow) : Prop := 0 < f_rho q /\ 0 < f_p q.

(** ** Simple waves *)
(** the function of pressure and density that is constant along an isentrope *)
Definition entropy_fn (g : R) (q : flow) : R := f_p q / Rpower (f_rho q) g.
(** the Riemann invariant constant across a simple wave moving to the right (s = 1) or to the
    left (s = -1) relative to the gas *)
Definition riemann_invariant (s g : R) (q : flow) : R := f_u q - s * (2 / (g - 1)) * flow_sound g q.
(** the same flow seen from a frame moving at -v *)
Definition galilean (v : R) (q : flow) : flow := mkflow (f_rho q) (f_u q + v) (f_p q).
(** the mirror image of a flow *)
Definition mirror (q : flow) : flow := mkflow (f_rho q) (- f_u q) (f_p q).

(** A wave of direction [s] (1: to the right, -1: to the left, relative to the gas) separates
    the undisturbed state [q] from the state [q1] behind it; [wo] and [wi] are the speeds of its
    outer and inner edges. Either a compression shock, or a centred isentropic simple wave. *)
Definition joined_by_wave (s g : R) (q q1 : flow) (wo wi : R) : Prop :=
  (f_p q < f_p q1 /\ wo = wi /\ rankine_hugoniot g wo q q1) \/
  (f_p q1 <= f_p q /\ entropy_fn g q1 = entropy_fn g q /\
   riemann_invariant s g q1 = riemann_invariant s g q /\
   wo = f_u q + s * flow_sound g q /\ wi = f_u q1 + s * flow_sound g q1).

(** ** Self-similar solutions of the one-dimensional Euler equations *)
(** total energy per unit volume *)
Definition energy (g : R) (q : flow) : R := f_p q / (g - 1) + f_rho q * f_u q ^ 2 / 2.
(** [q : xi -> flow], with xi = x/t, satisfies  dU/dt + dF/dx = 0  at [xi] for the conserved
    quantity [U] and its flux [F]: with U(x/t), F(x/t) this reads F' = xi U'. *)
Definition conservation_at (U F : flow -> R) (q : R -> flow) (xi : R) : Prop :=
  exists d, derivable_pt_lim (fun x => U (q x)) xi d /\ derivable_pt_lim (fun x => F (q x)) xi (xi * d).
Definition euler_self_similar (g : R) (q : R -> flow) (xi : R) : Prop :=
  conservation_at f_rho (fun f => f_rho f * f_u f) q xi /\
  conservation_at (fun f => f_rho f * f_u f) (fun f => f_rho f * f_u f ^ 2 + f_p f) q xi /\
  conservation_at (energy g) (fun f => f_u f * (energy g f + f_p f)) q xi.
