(** Specification vocabulary for rotations by an angle, over the reals; nothing here refers to the model. *)
From Coq Require Import Reals.
From Verif Require Import Base SpecGeom SpecQuat SpecMat.
Open Scope R_scope.

(** every lane, every entry, within e *)
Definition vnear (e : R) (u v : rvec) : Prop := forall k, Rabs (lane u k - lane v k) <= e.
Definition mnear (e : R) (A B : rmat) : Prop := forall i j, Rabs (entry A i j - entry B i j) <= e.
(** the rotation about the unit axis [n] by the angle [a], for row vectors: row i is the image of the i-th axis *)
Definition rot_about (n : rvec) (a : R) : rmat :=
  Q (rodrigues n (Q 1 0 0 0) (sin a) (cos a)) (rodrigues n (Q 0 1 0 0) (sin a) (cos a)) (rodrigues n (Q 0 0 1 0) (sin a) (cos a)) (Q 0 0 0 1).
Definition ex3 : rvec := Q 1 0 0 0.
Definition ey3 : rvec := Q 0 1 0 0.
Definition ez3 : rvec := Q 0 0 1 0.
(** its unit quaternion *)
Definition quat_about (n : rvec) (a : R) : rvec := Q (qx n * sin (a / 2)) (qy n * sin (a / 2)) (qz n * sin (a / 2)) (cos (a / 2)).
(** the sine and cosine error of C45 *)
Definition trig_err (a : R) : R := 206 / 1000000000 + 28 / 1000000000 * Rabs a.
