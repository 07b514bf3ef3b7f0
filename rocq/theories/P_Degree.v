(** Property theorems of L_Degree.v. Generated by tools/gen.py; statements only, proofs are in L_Degree.v. *)
From Verif Require Import L_Num M_Degree.
From Verif Require Import L_Degree.
Open Scope R_scope.

Theorem C29_pythagoras : forall a, exists s c, dsin (Some a) = Some s /\ dcos (Some a) = Some c /\ s ^ 2 + c ^ 2 = 1.
Proof. exact deg_pythagoras. Qed.
Print Assumptions C29_pythagoras.

(** sin(a) = cos(90-a) and cos(a) = sin(90-a) *)
Theorem C29_complement : forall a, dsin (Some a) = dcos (Some (90 - a)) /\ dcos (Some a) = dsin (Some (90 - a)).
Proof. exact deg_complement. Qed.
Print Assumptions C29_complement.

(** tan = sin/cos, with no finite value exactly where cos vanishes *)
Theorem C29_tan : forall a, dtan (Some a) = ndiv (dsin (Some a)) (dcos (Some a)).
Proof. exact deg_tan_ratio. Qed.
Print Assumptions C29_tan.

(** asin is the principal value: defined exactly on [-1,1], in [-90,90], and mutually inverse with sin. *)
Theorem C29_asin : forall x,
  ((exists a, dasin (Some x) = Some a) <-> -1 <= x <= 1) /\
  (forall a, dasin (Some x) = Some a -> -90 <= a <= 90 /\ dsin (Some a) = Some x) /\
  (forall a, -90 <= a <= 90 -> dsin (Some a) = Some x -> dasin (Some x) = Some a).
Proof. exact deg_asin. Qed.
Print Assumptions C29_asin.

(** acos: defined exactly on [-1,1], in [0,180], and mutually inverse with cos. *)
Theorem C29_acos : forall x,
  ((exists a, dacos (Some x) = Some a) <-> -1 <= x <= 1) /\
  (forall a, dacos (Some x) = Some a -> 0 <= a <= 180 /\ dcos (Some a) = Some x) /\
  (forall a, 0 <= a <= 180 -> dcos (Some a) = Some x -> dacos (Some x) = Some a).
Proof. exact deg_acos. Qed.
Print Assumptions C29_acos.

(** atan: defined everywhere, in (-90,90), and mutually inverse with tan. *)
Theorem C29_atan : forall x,
  (exists a, datan (Some x) = Some a /\ -90 < a < 90 /\ dtan (Some a) = Some x) /\
  (forall a, -90 < a < 90 -> dtan (Some a) = Some x -> datan (Some x) = Some a).
Proof. exact deg_atan. Qed.
Print Assumptions C29_atan.

(** atan2 recovers every angle in (-180,180] from its sine and cosine at any positive distance. *)
Theorem C29_atan2 : forall b t, 0 < b -> -180 < t <= 180 ->
  exists s c, dsin (Some t) = Some s /\ dcos (Some t) = Some c /\
    datan2 (Some (b * s)) (Some (b * c)) = Some t.
Proof. exact deg_atan2. Qed.
Print Assumptions C29_atan2.

(** 360-degree periodicity, for any number of turns. *)
Theorem C29_periodic : forall a (k : Z),
  dsin (Some (a + 360 * IZR k)) = dsin (Some a) /\ dcos (Some (a + 360 * IZR k)) = dcos (Some a)
  /\ dtan (Some (a + 360 * IZR k)) = dtan (Some a).
Proof. exact deg_periodic. Qed.
Print Assumptions C29_periodic.

Example C29_example : dsin (Some 30) = Some (1/2) /\ dasin (Some 1) = Some 90 /\ datan (Some 1) = Some 45.
Proof. exact C29_example_lemma. Qed.
