(** Textbook Euclidean geometry on real 4-tuples; nothing here refers to the model. *)
From Coq Require Import Reals.
From Verif Require Import Base.
Open Scope R_scope.

Notation rvec := (quad R).
Notation rmat := (quad (quad R)).

(** inner products of the first 2, 3, 4 coordinates *)
Definition dot2 (u v : rvec) : R := qx u * qx v + qy u * qy v.
Definition dot3 (u v : rvec) : R := qx u * qx v + qy u * qy v + qz u * qz v.
Definition dot4 (u v : rvec) : R := qx u * qx v + qy u * qy v + qz u * qz v + qw u * qw v.
Definition norm2 (u : rvec) : R := sqrt (dot2 u u).
Definition norm3 (u : rvec) : R := sqrt (dot3 u u).
Definition norm4 (u : rvec) : R := sqrt (dot4 u u).
Definition zero2 (u : rvec) : Prop := qx u = 0 /\ qy u = 0.
Definition zero3 (u : rvec) : Prop := qx u = 0 /\ qy u = 0 /\ qz u = 0.
Definition zero4 (u : rvec) : Prop := qx u = 0 /\ qy u = 0 /\ qz u = 0 /\ qw u = 0.
(** agreement on the first 2, 3 coordinates *)
Definition eq2 (u v : rvec) : Prop := qx u = qx v /\ qy u = qy v.
Definition eq3 (u v : rvec) : Prop := qx u = qx v /\ qy u = qy v /\ qz u = qz v.
(** linear operations *)
Definition plus (u v : rvec) : rvec := Q (qx u + qx v) (qy u + qy v) (qz u + qz v) (qw u + qw v).
Definition minus (u v : rvec) : rvec := Q (qx u - qx v) (qy u - qy v) (qz u - qz v) (qw u - qw v).
Definition scale (k : R) (u : rvec) : rvec := Q (k * qx u) (k * qy u) (k * qz u) (k * qw u).
(** the usual cross product, w = 0 *)
Definition cross (u v : rvec) : rvec :=
  Q (qy u * qz v - qz u * qy v) (qz u * qx v - qx u * qz v) (qx u * qy v - qy u * qx v) 0.
(** determinants by expansion along the first row *)
Definition det2 (a b c d : R) : R := a * d - b * c.
Definition det3 (a b c d e f g h i : R) : R := a * det2 e f h i - b * det2 d f g i + c * det2 d e g h.
Definition det4 (r0 r1 r2 r3 : rvec) : R :=
  qx r0 * det3 (qy r1) (qz r1) (qw r1) (qy r2) (qz r2) (qw r2) (qy r3) (qz r3) (qw r3)
  - qy r0 * det3 (qx r1) (qz r1) (qw r1) (qx r2) (qz r2) (qw r2) (qx r3) (qz r3) (qw r3)
  + qz r0 * det3 (qx r1) (qy r1) (qw r1) (qx r2) (qy r2) (qw r2) (qx r3) (qy r3) (qw r3)
  - qw r0 * det3 (qx r1) (qy r1) (qz r1) (qx r2) (qy r2) (qz r2) (qx r3) (qy r3) (qz r3).
(** row vector times matrix, matrix product, identity, transpose *)
Definition vecmat (v : rvec) (M : rmat) : rvec :=
  plus (plus (plus (scale (qx v) (qx M)) (scale (qy v) (qy M))) (scale (qz v) (qz M))) (scale (qw v) (qw M)).
Definition matmul (A B : rmat) : rmat := Q (vecmat (qx A) B) (vecmat (qy A) B) (vecmat (qz A) B) (vecmat (qw A) B).
Definition ident : rmat := Q (Q 1 0 0 0) (Q 0 1 0 0) (Q 0 0 1 0) (Q 0 0 0 1).
Definition transp (M : rmat) : rmat :=
  Q (Q (qx (qx M)) (qx (qy M)) (qx (qz M)) (qx (qw M)))
    (Q (qy (qx M)) (qy (qy M)) (qy (qz M)) (qy (qw M)))
    (Q (qz (qx M)) (qz (qy M)) (qz (qz M)) (qz (qw M)))
    (Q (qw (qx M)) (qw (qy M)) (qw (qz M)) (qw (qw M))).
(** homogeneous points and directions *)
Definition point (v : rvec) : rvec := Q (qx v) (qy v) (qz v) 1.
Definition direction (v : rvec) : rvec := Q (qx v) (qy v) (qz v) 0.
Definition point2 (v : rvec) : rvec := Q (qx v) (qy v) 0 1.
Definition direction2 (v : rvec) : rvec := Q (qx v) (qy v) 0 0.
(** projective equality of two homogeneous points: perspective divide *)
Definition dehom (v : rvec) : rvec := scale (/ qw v) v.
(** [x] clamped into [[lo, hi]] *)
Definition clampR (lo hi x : R) : R := Rmin hi (Rmax lo x).
(** the two binary32 constants XM_PI and XM_2PI as reals *)
Definition pi32 : R := 13176795 / 4194304.
(** Snell's law: for [d] the cosine of incidence (incident direction . normal) and index [m], the squared cosine of the
    transmitted ray; negative means total internal reflection *)
Definition snell (d m : R) : R := 1 - m * m * (1 - d * d).
(** the point of parameter [t] on the line through [P1] and [P2] *)
Definition along (P1 P2 : rvec) (t : R) : rvec := plus P1 (scale t (minus P2 P1)).
