(** * Model of notebooks/article-florian.ipynb
    The arrays are taken element by element; g = 1.4 (cell 0) is a parameter. *)
From Verif Require Import Num M_Polar.
Open Scope num_scope.

(** cell 0 *)
Definition gmusd (g : num) : num := #(1/2) * (g - #1).
(** cell 3 *)
Definition art_steady (g m : num) : num :=
  let m2 := m * m in (m2 - #1) / (#1 + gmusd g * m2).
(** cell 4 *)
Definition art_mu (g m : num) : num :=
  let m2 := m * m in nsqrt ((#1 + gmusd g * m2) / (g * m2 - gmusd g)).
Definition art_lam (g m : num) : num :=
  let m2 := m * m in
  let mu := art_mu g m in
  (#1 + #2 / (g + #1) * (#1 - mu * mu) / mu) * (#1 + #2 * mu + #1 / m2).
Definition art_unsteady (g m : num) : num := let m2 := m * m in art_lam g m / (#1 - m2).
Definition art_steady2 (g m : num) : num :=
  let mu := art_mu g m in (mu * mu - #1) / (#1 + gmusd g * mu * mu).
(** cells 2 and 5: the four curves drawn over [np.linspace(1.005, 10, 101)] *)
Definition art_curves (g : num) : list drawn :=
  let m := linspace #(1005/1000) #10 100 in
  [mk_drawn Line m (map (art_steady g) m); mk_drawn Line m (map (art_unsteady g) m);
   mk_drawn Line m (map (art_steady2 g) m); mk_drawn Line m (map (art_mu g) m)].
