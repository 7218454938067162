(** Textbook quaternions and rotations over the reals; nothing here refers to the model. *)
From Coq Require Import Reals.
From Verif Require Import Base SpecGeom.
Open Scope R_scope.

(** Hamilton's product of x i + y j + z k + w (i^2 = j^2 = k^2 = ijk = -1), conjugate, unit, real part zero *)
Definition ham (p q : rvec) : rvec :=
  Q (qw p * qx q + qx p * qw q + qy p * qz q - qz p * qy q)
    (qw p * qy q + qy p * qw q + qz p * qx q - qx p * qz q)
    (qw p * qz q + qz p * qw q + qx p * qy q - qy p * qx q)
    (qw p * qw q - qx p * qx q - qy p * qy q - qz p * qz q).
Definition conj (q : rvec) : rvec := Q (- qx q) (- qy q) (- qz q) (qw q).
Definition qone : rvec := Q 0 0 0 1.
Definition unitq (q : rvec) : Prop := dot4 q q = 1.
Definition unit3 (v : rvec) : Prop := dot3 v v = 1.
Definition negv (q : rvec) : rvec := Q (- qx q) (- qy q) (- qz q) (- qw q).
(** the rotation v |-> q v q* *)
Definition qrot (q v : rvec) : rvec := ham (ham q (direction v)) (conj q).
(** a proper rotation in homogeneous form: orthonormal right-handed upper 3x3 block, trivial last row and column *)
Definition rotation (M : rmat) : Prop :=
  matmul M (transp M) = ident /\ qw (qx M) = 0 /\ qw (qy M) = 0 /\ qw (qz M) = 0 /\ qw M = Q 0 0 0 1
  /\ dot3 (cross (qx M) (qy M)) (qz M) = 1.
(** Rodrigues: the rotation of [v] about the unit axis [n] by the angle with cosine [c] and sine [s] *)
Definition rodrigues (n v : rvec) (s c : R) : rvec :=
  plus (plus (scale c (direction v)) (scale s (cross n v))) (scale ((1 - c) * dot3 n v) (direction n)).
