(** * Model of aerokit/aero/degree.py *)
From Verif Require Import Num.
Open Scope num_scope.

(** degree.py:4-5 *)
Definition dcos (a : num) : num := ncos (nradians a).
(** degree.py:8-9 *)
Definition dsin (a : num) : num := nsin (nradians a).
(** degree.py:12-13 *)
Definition dtan (a : num) : num := ntan (nradians a).
(** degree.py:16-17 *)
Definition dacos (a : num) : num := ndegrees (narccos a).
(** degree.py:20-21 *)
Definition dasin (a : num) : num := ndegrees (narcsin a).
(** degree.py:24-25 *)
Definition datan (a : num) : num := ndegrees (narctan a).
(** degree.py:28-29 *)
Definition datan2 (a b : num) : num := ndegrees (narctan2 a b).
