(** Textbook projection matrices and the rotation matrix of a quaternion, and entrywise closeness. Nothing here refers to the model. *)
From Coq Require Import Reals.
From Verif Require Import Base SpecF32 SpecGeom SpecMat SpecErr.
Open Scope R_scope.

Definition persp_lh (w h n f : R) : rmat := Q (Q (2 * n / w) 0 0 0) (Q 0 (2 * n / h) 0 0) (Q 0 0 (f / (f - n)) 1) (Q 0 0 (- (f / (f - n) * n)) 0).
Definition persp_rh (w h n f : R) : rmat := Q (Q (2 * n / w) 0 0 0) (Q 0 (2 * n / h) 0 0) (Q 0 0 (f / (n - f)) (-1)) (Q 0 0 (f / (n - f) * n) 0).
Definition ortho_lh (w h n f : R) : rmat := Q (Q (2 / w) 0 0 0) (Q 0 (2 / h) 0 0) (Q 0 0 (1 / (f - n)) 0) (Q 0 0 (- (1 / (f - n) * n)) 1).
Definition ortho_rh (w h n f : R) : rmat := Q (Q (2 / w) 0 0 0) (Q 0 (2 / h) 0 0) (Q 0 0 (1 / (n - f)) 0) (Q 0 0 (1 / (n - f) * n) 1).
Definition persp_off_lh (l r b t n f : R) : rmat :=
  Q (Q (2 * n / (r - l)) 0 0 0) (Q 0 (2 * n / (t - b)) 0 0) (Q (- (l + r) / (r - l)) (- (t + b) / (t - b)) (f / (f - n)) 1) (Q 0 0 (- (f / (f - n) * n)) 0).
Definition persp_off_rh (l r b t n f : R) : rmat :=
  Q (Q (2 * n / (r - l)) 0 0 0) (Q 0 (2 * n / (t - b)) 0 0) (Q ((l + r) / (r - l)) ((t + b) / (t - b)) (f / (n - f)) (-1)) (Q 0 0 (f / (n - f) * n) 0).
(** every entry finite and within [k] units of 2^-24 of the exact one, relatively; so exact zeros are exact *)
Definition mclose (k : R) (M : quad (quad Z)) (m : rmat) : Prop := forall i j, exists v, value (entry M i j) = Fin v /\ Rabs (v - entry m i j) <= k * ulp_half * Rabs (entry m i j).
(** zero, or between 2^-e and 2^e in size *)
Definition span (e : Z) (x : R) : Prop := x = 0 \/ pow2 (- e) <= Rabs x <= pow2 e.
Definition span' (e : Z) (x : R) : Prop := pow2 (- e) <= Rabs x <= pow2 e.
(** the rotation matrix of a quaternion (row vectors), and the sizes of its entries *)
Definition qmatrix (q : rvec) : rmat :=
  let x := qx q in let y := qy q in let z := qz q in let w := qw q in
  Q (Q (1 - 2 * y * y - 2 * z * z) (2 * x * y + 2 * z * w) (2 * x * z - 2 * y * w) 0)
    (Q (2 * x * y - 2 * z * w) (1 - 2 * x * x - 2 * z * z) (2 * y * z + 2 * x * w) 0)
    (Q (2 * x * z + 2 * y * w) (2 * y * z - 2 * x * w) (1 - 2 * x * x - 2 * y * y) 0) (Q 0 0 0 1).
Definition persp_fov_lh (s c a n f : R) : rmat := Q (Q (c / s / a) 0 0 0) (Q 0 (c / s) 0 0) (Q 0 0 (f / (f - n)) 1) (Q 0 0 (- (f / (f - n) * n)) 0).
Definition persp_fov_rh (s c a n f : R) : rmat := Q (Q (c / s / a) 0 0 0) (Q 0 (c / s) 0 0) (Q 0 0 (f / (n - f)) (-1)) (Q 0 0 (f / (n - f) * n) 0).
(** the same with every term counted in absolute value *)
Definition qmatrix_size (q : rvec) : rmat :=
  let x := Rabs (qx q) in let y := Rabs (qy q) in let z := Rabs (qz q) in let w := Rabs (qw q) in
  Q (Q (1 + 2 * y * y + 2 * z * z) (2 * x * y + 2 * z * w) (2 * x * z + 2 * y * w) 0)
    (Q (2 * x * y + 2 * z * w) (1 + 2 * x * x + 2 * z * z) (2 * y * z + 2 * x * w) 0)
    (Q (2 * x * z + 2 * y * w) (2 * y * z + 2 * x * w) (1 + 2 * x * x + 2 * y * y) 0) (Q 0 0 0 1).
