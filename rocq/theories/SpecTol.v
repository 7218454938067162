(** Bounding volumes given as bit patterns, and tolerances: volumes grown by a rounding error. [is32] and [value] read bit
    patterns (SpecErr.v, SpecF32.v), the regions are those of SpecShape.v; nothing here refers to the model. *)
From Coq Require Import Reals List.
From Verif Require Import Base Shapes SpecF32 SpecGeom SpecMat SpecShape SpecErr.
Open Scope R_scope.

(** the components hold these real numbers *)
Definition holdsF3 (p : float3 Z) (x : float3 R) : Prop := is32 (fx p) (fx x) /\ is32 (fy p) (fy x) /\ is32 (fz p) (fz x).
Definition holdsBox (b : Box Z) (x : Box R) : Prop := holdsF3 (bx_Center b) (bx_Center x) /\ holdsF3 (bx_Extents b) (bx_Extents x).
Definition holdsSphere (s : Sphere Z) (x : Sphere R) : Prop := holdsF3 (sp_Center s) (sp_Center x) /\ is32 (sp_Radius s) (sp_Radius x).
(** a box with its half-extents stretched by the factor 1 + k *)
Definition stretch (k : R) (b : Box R) : Box R :=
  let e := bx_Extents b in MkBox (bx_Center b) (F3 (fx e + k * fx e) (fy e + k * fy e) (fz e + k * fz e)).
(** a box with every half-extent increased by [k] times the largest coordinate magnitude of the box on that axis, plus [m] *)
Definition slack (k m c e : R) : R := e + k * (Rabs c + e) + m.
Definition padded (k m : R) (b : Box R) : Box R :=
  let c := bx_Center b in let e := bx_Extents b in
  MkBox c (F3 (slack k m (fx c) (fx e)) (slack k m (fy c) (fy e)) (slack k m (fz c) (fz e))).
(** a ball with its radius multiplied by 1 + k *)
Definition swollen (k : R) (s : Sphere R) : Sphere R := MkSphere (sp_Center s) (sp_Radius s + k * sp_Radius s).
(** the largest magnitude of the coordinates of a list of points is at most [m] *)
Definition within_range (m : R) (p : float3 R) : Prop := Rabs (fx p) <= m /\ Rabs (fy p) <= m /\ Rabs (fz p) <= m.
(** the largest coordinate magnitudes of the box are at most 2^126 *)
Definition safe_box (b : Box R) : Prop :=
  safe (Rabs (fx (bx_Center b)) + fx (bx_Extents b)) /\ safe (Rabs (fy (bx_Center b)) + fy (bx_Extents b)) /\ safe (Rabs (fz (bx_Center b)) + fz (bx_Extents b)).
(** a classification against a plane, or against six planes facing outwards, that is right unless the region comes within [e]
    of the plane: the answer given is right for the plane shifted by [e], and a region clear of the plane by [e] gets the
    right answer (compare [side_ok], [six_ok]) *)
Definition side_near (e : R) (P : rvec) (A : region) (v : PlaneIntersectionType) : Prop :=
  (v = FRONT -> forall p, A p -> - e < plane_at P p) /\ ((forall p, A p -> e < plane_at P p) -> v = FRONT) /\
  (v = BACK -> forall p, A p -> plane_at P p < e) /\ ((forall p, A p -> plane_at P p < - e) -> v = BACK) /\
  (v = INTERSECTING -> (exists p, A p /\ plane_at P p <= e) /\ exists q, A q /\ - e <= plane_at P q).
Definition six_near (e : R) (A : region) (Ps : list rvec) (v : ContainmentType) : Prop :=
  (v = DISJOINT -> exists P, In P Ps /\ forall p, A p -> - e < plane_at P p) /\
  ((exists P, In P Ps /\ forall p, A p -> e < plane_at P p) -> v = DISJOINT) /\
  (v = CONTAINS -> forall P, In P Ps -> forall p, A p -> plane_at P p < e) /\
  ((forall P, In P Ps -> forall p, A p -> plane_at P p < - e) -> v = CONTAINS).
(** the sum of the absolute values of the terms of [plane_at P c] *)
Definition plane_mag (P c : rvec) : R := dot4 (vabs (point c)) (vabs P).
(** the rounding errors of the plane tests; a sphere also pays for a normal that is not exactly of length 1 *)
Definition sphere_plane_err (s : Sphere R) (P : rvec) : R :=
  5 * ulp_half * plane_mag P (pos (sp_Center s)) + 14 * tiny + Rabs (norm3 P - 1) * sp_Radius s.
Definition box_plane_err (bx : Box R) (P : rvec) : R :=
  5 * ulp_half * plane_mag P (pos (bx_Center bx)) + 4 * ulp_half * dot3 (pos (bx_Extents bx)) (vabs P) + 26 * tiny.
(** a normal near enough to length 1 for the assertions of the plane tests *)
Definition near_unit (x : rvec) : Prop := Rabs (norm3 x - 1) <= 9 / 100000.
