(** The inverse of a matrix by cofactors, and the magnitudes of the cofactors. Nothing here refers to the model. *)
From Coq Require Import Reals.
From Verif Require Import Base SpecGeom SpecMat SpecErr SpecErrR.
Open Scope R_scope.

(** the three other indices, in order *)
Definition rest (i : idx) : idx * idx * idx := match i with I0 => (I1, I2, I3) | I1 => (I0, I2, I3) | I2 => (I0, I1, I3) | I3 => (I0, I1, I2) end.
(** determinant of the matrix without row [i] and column [j]; the same with every term counted in absolute value *)
Definition minor (m : rmat) (i j : idx) : R :=
  let '(a, b, c) := rest i in let '(p, q, r) := rest j in
  det3 (entry m a p) (entry m a q) (entry m a r) (entry m b p) (entry m b q) (entry m b r) (entry m c p) (entry m c q) (entry m c r).
Definition minor_size (m : rmat) (i j : idx) : R :=
  let '(a, b, c) := rest i in let '(p, q, r) := rest j in
  let e x y := Rabs (entry m x y) in
  perm3 (e a p) (e a q) (e a r) (e b p) (e b q) (e b r) (e c p) (e c q) (e c r).
Definition even_idx (i : idx) : bool := match i with I0 | I2 => true | _ => false end.
Definition checker (i j : idx) : R := if Bool.eqb (even_idx i) (even_idx j) then 1 else -1.
(** entry of the inverse *)
Definition inverse_at (m : rmat) (i j : idx) : R := checker i j * minor m j i / mdet m.
(** the condition of the determinant: how much larger than the determinant the sum of its absolute terms is *)
Definition det_cond (m : rmat) : R := mperm m / Rabs (mdet m).
