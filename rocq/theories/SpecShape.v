(** Bounding volumes, planes, triangles and rays as sets of points of space. Points are 4-tuples of which only the first
    three coordinates matter. Nothing here refers to the model. *)
From Coq Require Import Reals List.
From Verif Require Import Base Shapes SpecGeom SpecQuat SpecMat.
Open Scope R_scope.

Definition pos (p : float3 R) : rvec := Q (fx p) (fy p) (fz p) 0.
(** distance between two points *)
Definition dist (p q : rvec) : R := norm3 (minus p q).
Definition region : Type := rvec -> Prop.
Definition subset (A B : region) : Prop := forall p, A p -> B p.
Definition meets (A B : region) : Prop := exists p, A p /\ B p.
(** the closed ball, the closed box, the box turned by its orientation *)
Definition ball (s : Sphere R) : region := fun p => dist p (pos (sp_Center s)) <= sp_Radius s.
Definition within (e : float3 R) (l : rvec) : Prop := Rabs (qx l) <= fx e /\ Rabs (qy l) <= fy e /\ Rabs (qz l) <= fz e.
Definition aabb (b : Box R) : region := fun p => within (bx_Extents b) (minus p (pos (bx_Center b))).
Definition obb (o : OBox R) : region := fun p =>
  exists l, within (ob_Extents o) l /\ eq3 p (plus (pos (ob_Center o)) (qrot (ob_Orientation o) l)).
(** the viewing frustum: local z between near and far, local x/z and y/z between the slopes *)
Definition in_slopes (f : Frustum R) (l : rvec) : Prop :=
  fr_Near f <= qz l <= fr_Far f /\
  fr_LeftSlope f * qz l <= qx l <= fr_RightSlope f * qz l /\
  fr_BottomSlope f * qz l <= qy l <= fr_TopSlope f * qz l.
Definition frust (f : Frustum R) : region := fun p =>
  exists l, in_slopes f l /\ eq3 p (plus (pos (fr_Origin f)) (qrot (fr_Orientation f) l)).
(** the closed triangle *)
Definition tri (V0 V1 V2 : rvec) : region := fun p => exists a b c,
  0 <= a /\ 0 <= b /\ 0 <= c /\ a + b + c = 1 /\ eq3 p (plus (plus (scale a V0) (scale b V1)) (scale c V2)).
(** the closed half-space behind a plane, its strict sides *)
Definition behind (P : rvec) : region := fun p => plane_at P p <= 0.
Definition strictly_front (P : rvec) (A : region) : Prop := forall p, A p -> 0 < plane_at P p.
Definition strictly_back (P : rvec) (A : region) : Prop := forall p, A p -> plane_at P p < 0.
(** what a classification against a plane, or against six planes facing outwards, must say *)
Definition side_ok (P : rvec) (A : region) (v : PlaneIntersectionType) : Prop :=
  (v = FRONT <-> strictly_front P A) /\ (v = BACK <-> strictly_back P A) /\
  (v = INTERSECTING <-> exists p, A p /\ plane_at P p <= 0 /\ exists q, A q /\ 0 <= plane_at P q).
Definition six_ok (A : region) (Ps : list rvec) (v : ContainmentType) : Prop :=
  (v = DISJOINT <-> exists P, In P Ps /\ strictly_front P A) /\
  (v = CONTAINS <-> forall P, In P Ps -> strictly_back P A).
(** the point of a ray at parameter [t] *)
Definition ray_at (o d : rvec) (t : R) : rvec := plus o (scale t d).
Definition hits (o d : rvec) (A : region) (t : R) : Prop := 0 <= t /\ A (ray_at o d t).
(** [t] is the first parameter at which the ray is in [A] *)
Definition first_hit (o d : rvec) (A : region) (t : R) : Prop := hits o d A t /\ forall t', hits o d A t' -> t <= t'.
(** directions whose components are zero or larger than the parallelism threshold 1e-20 (rounded to binary32) *)
Definition ray_epsilon : R := IZR 1547425 / IZR (2 ^ 87).
Definition flt_max : R := IZR (16777215 * 2 ^ 104).
Definition clear_of (d : R) : Prop := d = 0 \/ ray_epsilon < Rabs d.
Definition clear_dir (d : rvec) : Prop := clear_of (qx d) /\ clear_of (qy d) /\ clear_of (qz d).
(** what a ray test against a convex region says: a hit is reported only if there is one, every hit at a distance in the
    binary32 range is reported, and from outside the region the distance is that of the first hit *)
Definition ray_ok (A : region) (o d : rvec) (r : bool * R) : Prop :=
  (fst r = true -> exists t, hits o d A t) /\ ((exists t, hits o d A t /\ t <= flt_max) -> fst r = true) /\
  (fst r = true -> ~ A o -> first_hit o d A (snd r)) /\ (A o -> snd r <= 0).
(** well-formed volumes *)
Definition nonneg3 (e : float3 R) : Prop := 0 <= fx e /\ 0 <= fy e /\ 0 <= fz e.
Definition pos3 (e : float3 R) : Prop := 0 < fx e /\ 0 < fy e /\ 0 < fz e.
Definition ok_sphere (s : Sphere R) : Prop := 0 <= sp_Radius s.
Definition ok_box (b : Box R) : Prop := nonneg3 (bx_Extents b).
Definition ok_obox (o : OBox R) : Prop := nonneg3 (ob_Extents o) /\ unitq (ob_Orientation o).
Definition ok_frustum (f : Frustum R) : Prop :=
  unitq (fr_Orientation f) /\ 0 <= fr_Near f <= fr_Far f /\ fr_LeftSlope f <= fr_RightSlope f /\ fr_BottomSlope f <= fr_TopSlope f.
(** images of a region under a map of space *)
Definition covers (A : region) (f : rvec -> rvec) (B : region) : Prop := forall p, A p -> B (f p).
(** a similarity given by scale, rotation and translation *)
Definition similar (k : R) (q t : rvec) (p : rvec) : rvec := plus (qrot q (scale k p)) t.
(** a matrix acting on points (row-vector convention); matrices with mutually orthogonal rows *)
Definition xform (M : rmat) (p : rvec) : rvec := vecmat (point p) M.
Definition ortho_rows (M : rmat) : Prop := dot3 (qx M) (qy M) = 0 /\ dot3 (qx M) (qz M) = 0 /\ dot3 (qy M) (qz M) = 0.
(** convex combinations of a list of points, convex regions *)
Fixpoint combo (ws : list R) (ps : list rvec) : rvec :=
  match ws, ps with
  | w :: ws, p :: ps => plus (scale w p) (combo ws ps)
  | _, _ => Q 0 0 0 0
  end.
Definition total (ws : list R) : R := fold_right Rplus 0 ws.
Definition hull (ps : list rvec) : region := fun p =>
  exists ws, length ws = length ps /\ Forall (fun w => 0 <= w) ws /\ total ws = 1 /\ eq3 p (combo ws ps).
Definition spatial (A : region) : Prop := forall p q, eq3 p q -> A p -> A q.
Definition convex (A : region) : Prop := spatial A /\
  forall p q t, 0 <= t <= 1 -> A p -> A q -> A (plus (scale t p) (scale (1 - t) q)).
