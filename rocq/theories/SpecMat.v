(** Textbook elementary transforms (row-vector convention); nothing here refers to the model. *)
From Coq Require Import Reals.
From Verif Require Import Base SpecGeom SpecQuat.
Open Scope R_scope.

(** element of row [i] and column [j] *)
Definition entry {A} (M : quad (quad A)) (i j : idx) : A := lane (lane M i) j.

Definition mtrans (t : rvec) : rmat := Q (Q 1 0 0 0) (Q 0 1 0 0) (Q 0 0 1 0) (Q (qx t) (qy t) (qz t) 1).
Definition mscaling (s : rvec) : rmat := Q (Q (qx s) 0 0 0) (Q 0 (qy s) 0 0) (Q 0 0 (qz s) 0) (Q 0 0 0 1).
(** rotation of the plane xy by the angle with sine [s], cosine [c]; about x; about y *)
Definition mrotz (s c : R) : rmat := Q (Q c s 0 0) (Q (- s) c 0 0) (Q 0 0 1 0) (Q 0 0 0 1).
Definition mrotx (s c : R) : rmat := Q (Q 1 0 0 0) (Q 0 c s 0) (Q 0 (- s) c 0) (Q 0 0 0 1).
Definition mroty (s c : R) : rmat := Q (Q c 0 (- s) 0) (Q 0 1 0 0) (Q s 0 c 0) (Q 0 0 0 1).
(** two-dimensional arguments: z = 0 for points and translations, z = 1 for scales *)
Definition flat (v : rvec) : rvec := Q (qx v) (qy v) 0 0.
Definition flat_scale (v : rvec) : rvec := Q (qx v) (qy v) 1 1.
Definition opp (v : rvec) : rvec := Q (- qx v) (- qy v) (- qz v) (- qw v).
(** outer product *)
Definition outer (u v : rvec) : rmat := Q (scale (qx u) v) (scale (qy u) v) (scale (qz u) v) (scale (qw u) v).
(** signed value of a plane at a point, and its being on the plane *)
Definition plane_at (P x : rvec) : R := dot3 P x + qw P.
Definition on_plane (P x : rvec) : Prop := plane_at P x = 0.
(** determinant of a matrix given by rows *)
Definition mdet (M : rmat) : R := det4 (qx M) (qy M) (qz M) (qw M).
(** a rigid motion: a rotation block and a translation *)
Definition rigid (M : rmat) : Prop := rotation (Q (qx M) (qy M) (qz M) (Q 0 0 0 1)) /\ qw (qw M) = 1.
(** changes of handedness *)
Definition flipxz : rmat := mscaling (Q (-1) 1 (-1) 1).
Definition flipz : rmat := mscaling (Q 1 1 (-1) 1).
(** Normalised device coordinates: x, y in [-1, 1], depth in [0, 1] *)
Definition in_ndc (v : rvec) : Prop := -1 <= qx v <= 1 /\ -1 <= qy v <= 1 /\ 0 <= qz v <= 1.
(** the frustum (looking along +z) whose near window, at depth [n], is [l, r] x [b, t], and whose far plane is at depth [f] *)
Definition in_frustum (l r b t n f x y z : R) : Prop :=
  n <= z <= f /\ l * z <= x * n <= r * z /\ b * z <= y * n <= t * z.
(** [M] followed by the perspective divide maps that frustum onto normalised device coordinates, face by face *)
Definition maps_frustum (M : rmat) (l r b t n f : R) : Prop := forall x y z, z <> 0 ->
  let h := vecmat (Q x y z 1) M in let v := dehom h in
  qw h = z /\
  (z = n -> qz v = 0) /\ (z = f -> qz v = 1) /\
  (x * n = l * z -> qx v = -1) /\ (x * n = r * z -> qx v = 1) /\ (y * n = b * z -> qy v = -1) /\ (y * n = t * z -> qy v = 1) /\
  (n < f -> l < r -> b < t -> 0 < z -> (in_frustum l r b t n f x y z <-> in_ndc v)).
(** the same for an axis-aligned box; no divide is involved *)
Definition maps_box (M : rmat) (l r b t n f : R) : Prop := forall x y z,
  let v := vecmat (Q x y z 1) M in
  qw v = 1 /\
  (z = n -> qz v = 0) /\ (z = f -> qz v = 1) /\
  (x = l -> qx v = -1) /\ (x = r -> qx v = 1) /\ (y = b -> qy v = -1) /\ (y = t -> qy v = 1) /\
  (n < f -> l < r -> b < t -> (n <= z <= f /\ l <= x <= r /\ b <= y <= t <-> in_ndc v)).
(** screen position of a point in normalised device coordinates, for the viewport at (X, Y) of size W x H, depths [Z0, Z1] *)
Definition to_screen (X Y W H Z0 Z1 : R) (v : rvec) : rvec :=
  Q (X + W * ((1 + qx v) / 2)) (Y + H * ((1 - qy v) / 2)) (Z0 + qz v * (Z1 - Z0)) 0.
(** scale, then rotation [M], then translation *)
Definition srt (s : rvec) (M : rmat) (t : rvec) : rmat := matmul (matmul (mscaling s) M) (mtrans t).
(** entrywise sum *)
Definition madd (A B : rmat) : rmat := Q (plus (qx A) (qx B)) (plus (qy A) (qy B)) (plus (qz A) (qz B)) (plus (qw A) (qw B)).
(** [M] is the rigid view transform of an eye at [e] looking along [d] with [u] upwards; [sgn] is the sign of the view axis *)
Definition looks (M : rmat) (e d u : rvec) (sgn : R) : Prop :=
  rigid M /\ vecmat (point e) M = Q 0 0 0 1 /\ vecmat (direction d) M = Q 0 0 (sgn * norm3 d) 0
  /\ qx (vecmat (direction u) M) = 0 /\ 0 < qy (vecmat (direction u) M).
(** the binary32 values of 0.00001 and 0.0001, and the argument checks of the projection builders *)
Definition eps5R : R := 2748779 / 274877906944.
Definition epsR : R := 13743895 / 137438953472.
Definition size_ok (w h n f : R) : Prop := 0 < n /\ 0 < f /\ eps5R < Rabs w /\ eps5R < Rabs h /\ eps5R < Rabs (f - n).
Definition window_ok (l r bt t n f : R) : Prop := 0 < n /\ 0 < f /\ eps5R < Rabs (r - l) /\ eps5R < Rabs (t - bt) /\ eps5R < Rabs (f - n).
Definition box_ok (w h n f : R) : Prop := eps5R < Rabs w /\ eps5R < Rabs h /\ eps5R < Rabs (f - n).
(** exactly one scale is zero and the others are not small *)
Definition one_zero (s : rvec) : Prop :=
  (qx s = 0 /\ epsR <= Rabs (qy s) /\ epsR <= Rabs (qz s)) \/ (qy s = 0 /\ epsR <= Rabs (qx s) /\ epsR <= Rabs (qz s))
  \/ (qz s = 0 /\ epsR <= Rabs (qx s) /\ epsR <= Rabs (qy s)).
