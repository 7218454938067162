(** Rounding-error vocabulary: which real number a lane holds, how far it is from another one, and the magnitudes the
    error bounds are stated in. [value] reads a bit pattern (SpecF32.v); nothing here refers to the model. *)
From Coq Require Import Reals.
From Verif Require Import Base SpecF32 SpecGeom.
Open Scope R_scope.

(** half a unit in the last place of 1.0: the relative error of one correctly rounded binary32 operation *)
Definition ulp_half : R := / 16777216.
(** half the smallest subnormal: the absolute error of one rounding near zero *)
Definition tiny : R := pow2 (-150).
(** the lane is a finite number within [e] of [x] *)
Definition within (e : R) (z : Z) (x : R) : Prop := exists r, value z = Fin r /\ Rabs (r - x) <= e.
(** the lane is a 32-bit pattern, finite, and holds [x] *)
Definition is32 (z : Z) (x : R) : Prop := (0 <= z < 2 ^ 32)%Z /\ value z = Fin x.
(** the first 2, 3, 4 lanes hold the coordinates of [x] *)
Definition holds2 (V : quad Z) (x : rvec) : Prop := is32 (qx V) (qx x) /\ is32 (qy V) (qy x).
Definition holds3 (V : quad Z) (x : rvec) : Prop := is32 (qx V) (qx x) /\ is32 (qy V) (qy x) /\ is32 (qz V) (qz x).
Definition holds4 (V : quad Z) (x : rvec) : Prop := is32 (qx V) (qx x) /\ is32 (qy V) (qy x) /\ is32 (qz V) (qz x) /\ is32 (qw V) (qw x).
Definition holdsM (M : quad (quad Z)) (m : rmat) : Prop := forall i, holds4 (lane M i) (lane m i).
(** coordinatewise absolute value; [dot3 (vabs x) (vabs y)] is the sum of the absolute products *)
Definition vabs (x : rvec) : rvec := Q (Rabs (qx x)) (Rabs (qy x)) (Rabs (qz x)) (Rabs (qw x)).
Definition mabs (m : rmat) : rmat := Q (vabs (qx m)) (vabs (qy m)) (vabs (qz m)) (vabs (qw m)).
(** an upper limit for magnitudes that keeps every intermediate result finite *)
Definition safe (x : R) : Prop := x <= pow2 126.
(** the cross product with every difference replaced by a sum of absolute values *)
Definition cross_abs (x y : rvec) : rvec :=
  let a := vabs x in let b := vabs y in
  Q (qy a * qz b + qz a * qy b) (qz a * qx b + qx a * qz b) (qx a * qy b + qy a * qx b) 0.
(** vector lengths for which squares neither underflow nor overflow: 2^-48 (about 3.6e-15) to 2^63 (about 9.2e18) *)
Definition mid_range (n : R) : Prop := pow2 (-48) <= n <= pow2 63.
(** Hamilton's product with every term replaced by its absolute value *)
Definition ham_abs (p q : rvec) : rvec :=
  let a := vabs p in let b := vabs q in
  Q (qw a * qx b + qx a * qw b + qy a * qz b + qz a * qy b) (qw a * qy b + qy a * qw b + qz a * qx b + qx a * qz b)
    (qw a * qz b + qz a * qw b + qx a * qy b + qy a * qx b) (qw a * qw b + qx a * qx b + qy a * qy b + qz a * qz b).
