(** Magnitudes of determinants and of the polynomial interpolation forms: every product counted with its absolute value. *)
From Coq Require Import Reals.
From Verif Require Import Base SpecF32 SpecGeom SpecMat SpecErr.
Open Scope R_scope.

(** the determinant with every difference replaced by a sum of absolute values (the permanent of the absolute values) *)
Definition perm2 (a b c d : R) : R := a * d + b * c.
Definition perm3 (a b c d e f g h i : R) : R := a * perm2 e f h i + b * perm2 d f g i + c * perm2 d e g h.
Definition perm4 (r0 r1 r2 r3 : rvec) : R :=
  qx r0 * perm3 (qy r1) (qz r1) (qw r1) (qy r2) (qz r2) (qw r2) (qy r3) (qz r3) (qw r3)
  + qy r0 * perm3 (qx r1) (qz r1) (qw r1) (qx r2) (qz r2) (qw r2) (qx r3) (qz r3) (qw r3)
  + qz r0 * perm3 (qx r1) (qy r1) (qw r1) (qx r2) (qy r2) (qw r2) (qx r3) (qy r3) (qw r3)
  + qw r0 * perm3 (qx r1) (qy r1) (qz r1) (qx r2) (qy r2) (qz r2) (qx r3) (qy r3) (qz r3).
Definition mperm (M : rmat) : R := perm4 (qx (mabs M)) (qy (mabs M)) (qz (mabs M)) (qw (mabs M)).
(** all four coordinates at most [S] in size *)
Definition bounded (S : R) (v : rvec) : Prop := forall i, Rabs (lane v i) <= S.
Definition bounded3 (S : R) (v : rvec) : Prop := Rabs (qx v) <= S /\ Rabs (qy v) <= S /\ Rabs (qz v) <= S.
Definition bounded2 (S : R) (v : rvec) : Prop := Rabs (qx v) <= S /\ Rabs (qy v) <= S.
Definition mbounded (S : R) (M : rmat) : Prop := forall i, bounded S (lane M i).
(** the cubic Hermite form (end points, end tangents), and the same with every term counted in absolute value *)
Definition hermite (p0 t0 p1 t1 t : R) : R :=
  (2 * (t * t * t) - 3 * (t * t) + 1) * p0 + (t * t * t - 2 * (t * t) + t) * t0 + (- 2 * (t * t * t) + 3 * (t * t)) * p1 + (t * t * t - t * t) * t1.
Definition hermite_size (p0 t0 p1 t1 t : R) : R :=
  (2 * (t * t * t) + 3 * (t * t) + 1) * p0 + (t * t * t + 2 * (t * t) + t) * t0 + (2 * (t * t * t) + 3 * (t * t)) * p1 + (t * t * t + t * t) * t1.
(** the Catmull-Rom form and its terms in absolute value *)
Definition catmull (p0 p1 p2 p3 t : R) : R :=
  ((- (t * t * t) + 2 * (t * t) - t) * p0 + (3 * (t * t * t) - 5 * (t * t) + 2) * p1 + (- 3 * (t * t * t) + 4 * (t * t) + t) * p2 + (t * t * t - t * t) * p3) / 2.
Definition catmull_size (p0 p1 p2 p3 t : R) : R :=
  ((t * t * t + 2 * (t * t) + t) * p0 + (3 * (t * t * t) + 5 * (t * t) + 2) * p1 + (3 * (t * t * t) + 4 * (t * t) + t) * p2 + (t * t * t + t * t) * p3) / 2.
(** Hermite with one parameter for each of the four coefficients *)
Definition hermite4 (p0 t0 p1 t1 : R) (t : rvec) : R :=
  (2 * (qx t * qx t * qx t) - 3 * (qx t * qx t) + 1) * p0 + (qy t * qy t * qy t - 2 * (qy t * qy t) + qy t) * t0
  + (- 2 * (qz t * qz t * qz t) + 3 * (qz t * qz t)) * p1 + (qw t * qw t * qw t - qw t * qw t) * t1.
Definition hermite4_size (p0 t0 p1 t1 : R) (t : rvec) : R :=
  (2 * (qx t * qx t * qx t) + 3 * (qx t * qx t) + 1) * p0 + (qy t * qy t * qy t + 2 * (qy t * qy t) + qy t) * t0
  + (2 * (qz t * qz t * qz t) + 3 * (qz t * qz t)) * p1 + (qw t * qw t * qw t + qw t * qw t) * t1.
(** the vector perpendicular to three vectors in four dimensions, by its cofactors, and the same in absolute values *)
Definition cross4 (u v s : rvec) : rvec :=
  Q (det3 (qy u) (qz u) (qw u) (qy v) (qz v) (qw v) (qy s) (qz s) (qw s))
    (- det3 (qx u) (qz u) (qw u) (qx v) (qz v) (qw v) (qx s) (qz s) (qw s))
    (det3 (qx u) (qy u) (qw u) (qx v) (qy v) (qw v) (qx s) (qy s) (qw s))
    (- det3 (qx u) (qy u) (qz u) (qx v) (qy v) (qz v) (qx s) (qy s) (qz s)).
Definition cross4_size (u v s : rvec) : rvec :=
  Q (perm3 (qy u) (qz u) (qw u) (qy v) (qz v) (qw v) (qy s) (qz s) (qw s))
    (perm3 (qx u) (qz u) (qw u) (qx v) (qz v) (qw v) (qx s) (qz s) (qw s))
    (perm3 (qx u) (qy u) (qw u) (qx v) (qy v) (qw v) (qx s) (qy s) (qw s))
    (perm3 (qx u) (qy u) (qz u) (qx v) (qy v) (qz v) (qx s) (qy s) (qz s)).
