(** Specification of angle reduction and of approximation, over the reals. *)
From Coq Require Import Reals.
From Verif Require Import Base.
Open Scope R_scope.

(** the library's single-precision constants: lib.rs 1360-1366 *)
Definition XM_PI_c : R := 13176795 / 4194304.
Definition XM_2PI_c : R := 13176795 / 2097152.
Definition XM_PIDIV2_c : R := 13176795 / 8388608.
(** r differs from a by a whole number of periods *)
Definition congruent (p a r : R) : Prop := exists n : Z, r = a - IZR n * p.
(** distance at most e *)
Definition within (e x y : R) : Prop := Rabs (x - y) <= e.
(** every lane of u and v related *)
Definition lanes {A B} (P : A -> B -> Prop) (u : quad A) (v : quad B) : Prop :=
  P (qx u) (qx v) /\ P (qy u) (qy v) /\ P (qz u) (qz v) /\ P (qw u) (qw v).
(** theta is the angle of the point (x, y), in (-pi, pi] *)
Definition polar (x y theta : R) : Prop :=
  - PI < theta <= PI /\ x = sqrt (x * x + y * y) * cos theta /\ y = sqrt (x * x + y * y) * sin theta.
