(** The angle between two vectors of 2, 3 or 4 components; nothing here refers to the model. *)
From Coq Require Import Reals.
From Verif Require Import Base SpecGeom.
Open Scope R_scope.

Definition angle2 (u v : rvec) : R := acos (dot2 u v / (norm2 u * norm2 v)).
Definition angle3 (u v : rvec) : R := acos (dot3 u v / (norm3 u * norm3 v)).
Definition angle4 (u v : rvec) : R := acos (dot4 u v / (norm4 u * norm4 v)).
Definition all_lanes (P : R -> Prop) (q : rvec) : Prop := P (qx q) /\ P (qy q) /\ P (qz q) /\ P (qw q).
Definition close (e a x : R) : Prop := Rabs (x - a) <= e.
