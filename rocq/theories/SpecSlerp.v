(** Spherical interpolation between unit quaternions; nothing here refers to the model. *)
From Coq Require Import Reals.
From Verif Require Import Base SpecGeom SpecQuat.
Open Scope R_scope.

(** the sign that takes q to p's hemisphere, and the angle between p and that representative *)
Definition hemi (p q : rvec) : R := if Rlt_dec (dot4 p q) 0 then -1 else 1.
Definition arc_angle (p q : rvec) : R := acos (hemi p q * dot4 p q).
(** the point at fraction t of the great arc *)
Definition slerp (p q : rvec) (t : R) : rvec :=
  let w := arc_angle p q in
  plus (scale (sin ((1 - t) * w) / sin w) p) (scale (sin (t * w) / sin w * hemi p q) q).
(** straight-line interpolation to the same endpoint *)
Definition lerp_hemi (p q : rvec) (t : R) : rvec := plus (scale (1 - t) p) (scale (t * hemi p q) q).
(** 0.99999 rounded to single precision *)
Definition near_one : R := 2097131 / 2097152.
