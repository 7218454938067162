(** Eigenvalues and axes of symmetric 3x3 matrices, stated without reference to the model. *)
From Coq Require Import Reals.
From Verif Require Import Base SpecGeom.
Open Scope R_scope.

(** [x^3 + e x^2 + f x + g] *)
Definition cubic (e f g x : R) : R := x * x * x + e * (x * x) + f * x + g.
(** [t], [u], [v] are its three roots, with multiplicity *)
Definition roots (e f g t u v : R) : Prop := forall x, cubic e f g x = (x - t) * (x - u) * (x - v).
(** a symmetric matrix by its six entries, times a vector; [det (x I - S)] *)
Record sym := Sym { s11 : R; s12 : R; s13 : R; s22 : R; s23 : R; s33 : R }.
Definition sapply (s : sym) (v : rvec) : rvec :=
  Q (s11 s * qx v + s12 s * qy v + s13 s * qz v) (s12 s * qx v + s22 s * qy v + s23 s * qz v) (s13 s * qx v + s23 s * qy v + s33 s * qz v) 0.
Definition charpoly (s : sym) (x : R) : R :=
  det3 (x - s11 s) (- s12 s) (- s13 s) (- s12 s) (x - s22 s) (- s23 s) (- s13 s) (- s23 s) (x - s33 s).
(** [v] is a unit vector with [S v = l v] *)
Definition unit_axis (s : sym) (l : R) (v : rvec) : Prop := norm3 v = 1 /\ eq3 (sapply s v) (scale l v).
Definition orthonormal3 (u v w : rvec) : Prop :=
  norm3 u = 1 /\ norm3 v = 1 /\ norm3 w = 1 /\ dot3 u v = 0 /\ dot3 u w = 0 /\ dot3 v w = 0.
(** a real function that is the cube root on the non-negative reals *)
Definition cube_root (c : R -> R) : Prop := forall d, 0 <= d -> 0 <= c d /\ c d * c d * c d = d.
(** the first two rows of [S - l I] *)
Definition row1 (s : sym) (l : R) : rvec := Q (s11 s - l) (s12 s) (s13 s) 0.
Definition row2 (s : sym) (l : R) : rvec := Q (s12 s) (s22 s - l) (s23 s) 0.
