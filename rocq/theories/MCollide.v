(** Bounding spheres, axis-aligned and oriented boxes: collision.rs 109-3316, on typed lanes. [None] is a failed debug
    assertion, out-parameters are results. [XMFLOAT3] is a triple; loading one fills lane w with 0 (C01), storing one
    drops lane w. Comparison results are [quad bool] masks: XMVector4EqualInt(m, TrueInt) is [qall m],
    XMVector3EqualInt(m, TrueInt) is [all3 m], and the whole-vector comparisons XMVector3LessOrEqual etc. are the same
    conjunctions over the lane comparisons (C05). *)
From Coq Require Import Reals List.
From Verif Require Import Base F32 Intrin Lane MVec MTrig MQuat MInterp MPlane MMatrix Shapes.

Section Collide.
Context {L : Lane}.
Notation vec := (quad (T L)).
Notation matrix := (quad (quad (T L))).
Local Open Scope lane_scope.

Definition load3 (p : float3 (T L)) : vec := Q (fx p) (fy p) (fz p) zero.
Definition store3 (v : vec) : float3 (T L) := F3 (qx v) (qy v) (qz v).
Definition all3 (m : quad bool) : bool := (qx m && qy m && qz m)%bool.
Definition any3 (m : quad bool) : bool := (qx m || qy m || qz m)%bool.
(** [debug_assert!(c); e] *)
Definition asserting {A} (c : bool) (e : option A) : option A := if c then e else None.
(** XMVectorInsert(V, S, 0, 0, 0, 0, 1) etc.: lane [i] of [V] replaced by that of [S] *)
Definition insert_lane (i : idx) (V S : vec) : vec := setlane V i (lane S i).
(** XMVector3InBounds, vector.rs 9548-9578 *)
Definition XMVector3InBounds (b : backend) (V Bounds : vec) : bool := all3 (XMVectorInBounds b V Bounds).

(** ** Constants, collision.rs 110-133 *)
Definition g_BoxOffset : list vec :=
  (Q mone mone one zero :: Q one mone one zero :: Q one one one zero :: Q mone one one zero ::
   Q mone mone mone zero :: Q one mone mone zero :: Q one one mone zero :: Q mone one mone zero :: nil)%list.
Definition g_RayEpsilon : vec := qrep (tlit 1547425 (-87)).
Definition g_RayNegEpsilon : vec := qrep (tlit (-1547425) (-87)).
Definition g_FltMin : vec := qrep (tlit (-16777215) 104).
Definition g_FltMax : vec := qrep (tlit 16777215 104).
Definition g_UnitEpsilon : vec := qrep (tlit 13743895 (-37)).

(** ** Internal helpers *)
(** 155-172: XMVector3IsUnit, XMQuaternionIsUnit, XMPlaneIsUnit *)
Definition XMVector3IsUnit b (V : vec) : bool :=
  qall (vlt (XMVectorAbs b (XMVectorSubtract b (XMVector3Length b V) vone)) g_UnitEpsilon).
Definition XMQuaternionIsUnit b (q : vec) : bool :=
  qall (vlt (XMVectorAbs b (XMVectorSubtract b (XMVector4Length b q) vone)) g_UnitEpsilon).
Definition XMPlaneIsUnit b (Plane : vec) : bool := XMVector3IsUnit b Plane.
(** 175-181 *)
Definition plane_transform b (Plane Rotation Translation : vec) : vec :=
  let vNormal := XMVector3Rotate b Plane Rotation in
  let vD := XMVectorSubtract b (splat I3 Plane) (XMVector3Dot b vNormal Translation) in
  insert_lane I3 vNormal vD.
(** 185-202 *)
Definition PointOnLineSegmentNearestPoint b (S1 S2 P : vec) : vec :=
  let Dir := XMVectorSubtract b S2 S1 in
  let Projection := XMVectorSubtract b (XMVector3Dot b P Dir) (XMVector3Dot b S1 Dir) in
  let LengthSq := XMVector3Dot b Dir Dir in
  let t := XMVectorMultiply b Projection (XMVectorReciprocal b LengthSq) in
  let Point := XMVectorMultiplyAdd b t Dir S1 in
  let Point := vsel Point S1 (vlt Projection vzero) in
  vsel Point S2 (vgt Projection LengthSq).
(** 207-226 *)
Definition PointOnPlaneInsideTriangle b (P V0 V1 V2 : vec) : quad bool :=
  let N := XMVector3Cross b (XMVectorSubtract b V2 V0) (XMVectorSubtract b V1 V0) in
  let C0 := XMVector3Cross b (XMVectorSubtract b P V0) (XMVectorSubtract b V1 V0) in
  let C1 := XMVector3Cross b (XMVectorSubtract b P V1) (XMVectorSubtract b V2 V1) in
  let C2 := XMVector3Cross b (XMVectorSubtract b P V2) (XMVectorSubtract b V0 V2) in
  mand (mand (vge (XMVector3Dot b C0 N) vzero) (vge (XMVector3Dot b C1 N) vzero)) (vge (XMVector3Dot b C2 N) vzero).
(** 488-514; the pair is (Outside, Inside) *)
Definition FastIntersectTrianglePlane b (V0 V1 V2 Plane : vec) : quad bool * quad bool :=
  let Dist0 := XMVector4Dot b V0 Plane in
  let Dist1 := XMVector4Dot b V1 Plane in
  let Dist2 := XMVector4Dot b V2 Plane in
  let MinDist := XMVectorMin b (XMVectorMin b Dist0 Dist1) Dist2 in
  let MaxDist := XMVectorMax b (XMVectorMax b Dist0 Dist1) Dist2 in
  (vgt MinDist vzero, vlt MaxDist vzero).
(** 517-531 *)
Definition FastIntersectSpherePlane b (Center Radius Plane : vec) : quad bool * quad bool :=
  let Dist := XMVector4Dot b Center Plane in
  (vgt Dist Radius, vlt Dist (XMVectorNegate b Radius)).
(** 534-556 *)
Definition FastIntersectAxisAlignedBoxPlane b (Center Extents Plane : vec) : quad bool * quad bool :=
  let Dist := XMVector4Dot b Center Plane in
  let Radius := XMVector3Dot b Extents (XMVectorAbs b Plane) in
  (vgt Dist Radius, vlt Dist (XMVectorNegate b Radius)).
(** 559-588 *)
Definition FastIntersectOrientedBoxPlane b (Center Extents Axis0 Axis1 Axis2 Plane : vec) : quad bool * quad bool :=
  let Dist := XMVector4Dot b Center Plane in
  let Radius := XMVector3Dot b Plane Axis0 in
  let Radius := insert_lane I1 Radius (XMVector3Dot b Plane Axis1) in
  let Radius := insert_lane I2 Radius (XMVector3Dot b Plane Axis2) in
  let Radius := XMVector3Dot b Extents (XMVectorAbs b Radius) in
  (vgt Dist Radius, vlt Dist (XMVectorNegate b Radius)).
(** 591-648: the running minimum and maximum over points 0 to 7 *)
Definition FastIntersectFrustumPlane b (Point0 : vec) (Points : list vec) (Plane : vec) : quad bool * quad bool :=
  let start := XMVector3Dot b Plane Point0 in
  let '(Min, Max) := fold_left (fun '(Min, Max) P =>
    let Dist := XMVector3Dot b Plane P in (XMVectorMin b Min Dist, XMVectorMax b Max Dist)) Points (start, start) in
  let PlaneDist := XMVectorNegate b (splat I3 Plane) in
  (vgt Min PlaneDist, vlt Max PlaneDist).
(** the decision shared by the IntersectsPlane methods (e.g. 1104-1114) *)
Definition plane_verdict (oi : quad bool * quad bool) : PlaneIntersectionType :=
  if qall (fst oi) then FRONT else if qall (snd oi) then BACK else INTERSECTING.
(** the accumulation and decision shared by the ContainedBy methods (e.g. 1213-1250) *)
Definition contained_by (test : vec -> quad bool * quad bool) (Plane0 Plane1 Plane2 Plane3 Plane4 Plane5 : vec) : ContainmentType :=
  let '(AnyOutside, AllInside) := test Plane0 in
  let step acc P := let '(o, i) := test P in (mor (fst acc) o, mand (snd acc) i) in
  let '(AnyOutside, AllInside) :=
    step (step (step (step (step (AnyOutside, AllInside) Plane1) Plane2) Plane3) Plane4) Plane5 in
  if qall AnyOutside then DISJOINT else if qall AllInside then CONTAINS else INTERSECTS.

(** ** BoundingSphere *)
(** 670-691 *)
Definition Sphere_TransformMatrix b (s : Sphere (T L)) (M : matrix) : Sphere (T L) :=
  let vCenter := load3 (sp_Center s) in
  let C := XMVector3Transform b vCenter M in
  let dX := XMVector3Dot b (qx M) (qx M) in
  let dY := XMVector3Dot b (qy M) (qy M) in
  let dZ := XMVector3Dot b (qz M) (qz M) in
  let d := XMVectorMax b dX (XMVectorMax b dY dZ) in
  let Scale := tsqrt (qx d) in
  MkSphere (store3 C) (sp_Radius s * Scale).
(** 713-725 *)
Definition Sphere_TransformDecomposed b (s : Sphere (T L)) (Scale : T L) (Rotation Translation : vec) : Sphere (T L) :=
  let vCenter := load3 (sp_Center s) in
  let vCenter := XMVectorAdd b (XMVector3Rotate b (XMVectorScale b vCenter Scale) Rotation) Translation in
  MkSphere (store3 vCenter) (sp_Radius s * Scale).
(** 741-753 *)
Definition Sphere_ContainsPoint b (s : Sphere (T L)) (Point : vec) : ContainmentType :=
  let vCenter := load3 (sp_Center s) in
  let vRadius := qrep (sp_Radius s) in
  let DistanceSquared := XMVector3LengthSq b (XMVectorSubtract b Point vCenter) in
  let RadiusSquared := XMVectorMultiply b vRadius vRadius in
  if all3 (vle DistanceSquared RadiusSquared) then CONTAINS else DISJOINT.
(** 808-822 *)
Definition Sphere_ContainsSphere b (s sh : Sphere (T L)) : ContainmentType :=
  let Center1 := load3 (sp_Center s) in
  let r1 := sp_Radius s in
  let Center2 := load3 (sp_Center sh) in
  let r2 := sp_Radius sh in
  let V := XMVectorSubtract b Center2 Center1 in
  let Dist := XMVector3Length b V in
  let d := qx Dist in
  if tge (r1 + r2) d then (if tge (r1 - r2) d then CONTAINS else INTERSECTS) else DISJOINT.
(** 973-991 *)
Definition Sphere_IntersectsSphere b (s sh : Sphere (T L)) : bool :=
  let vCenterA := load3 (sp_Center s) in
  let vRadiusA := qrep (sp_Radius s) in
  let vCenterB := load3 (sp_Center sh) in
  let vRadiusB := qrep (sp_Radius sh) in
  let Delta := XMVectorSubtract b vCenterB vCenterA in
  let DistanceSquared := XMVector3LengthSq b Delta in
  let RadiusSquared := XMVectorAdd b vRadiusA vRadiusB in
  let RadiusSquared := XMVectorMultiply b RadiusSquared RadiusSquared in
  all3 (vle DistanceSquared RadiusSquared).
(** 1021-1072 *)
Definition Sphere_IntersectsTriangle b (s : Sphere (T L)) (V0 V1 V2 : vec) : option bool :=
  let vCenter := load3 (sp_Center s) in
  let vRadius := qrep (sp_Radius s) in
  let N := XMVector3Normalize b (XMVector3Cross b (XMVectorSubtract b V1 V0) (XMVectorSubtract b V2 V0)) in
  asserting (negb (all3 (veq N vzero))) (
  let Dist := XMVector3Dot b (XMVectorSubtract b vCenter V0) N in
  let NoIntersection := vlt Dist (XMVectorNegate b vRadius) in
  let NoIntersection := mor NoIntersection (vgt Dist vRadius) in
  let Point := XMVectorNegativeMultiplySubtract b N Dist vCenter in
  let Intersection := PointOnPlaneInsideTriangle b Point V0 V1 V2 in
  let RadiusSq := XMVectorMultiply b vRadius vRadius in
  let near A B := vle (XMVector3LengthSq b (XMVectorSubtract b vCenter (PointOnLineSegmentNearestPoint b A B vCenter))) RadiusSq in
  let Intersection := mor Intersection (near V0 V1) in
  let Intersection := mor Intersection (near V1 V2) in
  let Intersection := mor Intersection (near V2 V0) in
  Some (qall (mandc Intersection NoIntersection))).
(** 773-792 *)
Definition Sphere_ContainsTriangle b (s : Sphere (T L)) (V0 V1 V2 : vec) : option ContainmentType :=
  obind (Sphere_IntersectsTriangle b s V0 V1 V2) (fun hit =>
  if negb hit then Some DISJOINT else
  let vCenter := load3 (sp_Center s) in
  let vRadius := qrep (sp_Radius s) in
  let RadiusSquared := XMVectorMultiply b vRadius vRadius in
  let inside V := vle (XMVector3LengthSq b (XMVectorSubtract b V vCenter)) RadiusSquared in
  let Inside := mand (mand (inside V0) (inside V1)) (inside V2) in
  Some (if all3 Inside then CONTAINS else INTERSECTS)).
(** 1088-1115 *)
Definition Sphere_IntersectsPlane b (s : Sphere (T L)) (Plane : vec) : option PlaneIntersectionType :=
  asserting (XMPlaneIsUnit b Plane) (
  let vCenter := insert_lane I3 (load3 (sp_Center s)) vone in
  let vRadius := qrep (sp_Radius s) in
  Some (plane_verdict (FastIntersectSpherePlane b vCenter vRadius Plane))).
(** 1140-1186; the result is (hit, Dist) *)
Definition Sphere_IntersectsRay b (sh : Sphere (T L)) (Origin Direction : vec) : option (bool * T L) :=
  asserting (XMVector3IsUnit b Direction) (
  let vCenter := load3 (sp_Center sh) in
  let vRadius := qrep (sp_Radius sh) in
  let l := XMVectorSubtract b vCenter Origin in
  let s := XMVector3Dot b l Direction in
  let l2 := XMVector3Dot b l l in
  let r2 := XMVectorMultiply b vRadius vRadius in
  let m2 := XMVectorNegativeMultiplySubtract b s s l2 in
  let NoIntersection := mand (vlt s vzero) (vgt l2 r2) in
  let NoIntersection := mor NoIntersection (vgt m2 r2) in
  let q := XMVectorSqrt b (XMVectorSubtract b r2 m2) in
  let t1 := XMVectorSubtract b s q in
  let t2 := XMVectorAdd b s q in
  let OriginInside := vle l2 r2 in
  let t := vsel t1 t2 OriginInside in
  Some (if negb (qall NoIntersection) then (true, qx t) else (false, zero))).
(** 1192-1251 *)
Definition Sphere_ContainedBy b (s : Sphere (T L)) (Plane0 Plane1 Plane2 Plane3 Plane4 Plane5 : vec) : ContainmentType :=
  let vCenter := insert_lane I3 (load3 (sp_Center s)) vone in
  let vRadius := qrep (sp_Radius s) in
  contained_by (FastIntersectSpherePlane b vCenter vRadius) Plane0 Plane1 Plane2 Plane3 Plane4 Plane5.
(** XMMin, XMMax, lib.rs 2118-2138 *)
Definition XMMin (a c : T L) : T L := if tlt a c then a else c.
Definition XMMax (a c : T L) : T L := if tgt a c then a else c.
(** 1257-1294 *)
Definition Sphere_CreateMerged b (S1 S2 : Sphere (T L)) : Sphere (T L) :=
  let Center1 := load3 (sp_Center S1) in
  let r1 := sp_Radius S1 in
  let Center2 := load3 (sp_Center S2) in
  let r2 := sp_Radius S2 in
  let V := XMVectorSubtract b Center2 Center1 in
  let Dist := XMVector3Length b V in
  let d := qx Dist in
  let general :=
    let N := XMVectorDivide b V Dist in
    let t1 := XMMin (- r1) (d - r2) in
    let t2 := XMMax r1 (d + r2) in
    let t_5 := (t2 - t1) * half in
    let NCenter := XMVectorAdd b Center1 (XMVectorMultiply b N (qrep (t_5 + t1))) in
    MkSphere (store3 NCenter) t_5 in
  if tge (r1 + r2) d then
    if tge (r1 - r2) d then S1 else if tge (r2 - r1) d then S2 else general
  else general.
(** 1300-1304, 1310-1315 *)
Definition Sphere_CreateFromBoundingBox b (bx : Box (T L)) : Sphere (T L) :=
  MkSphere (bx_Center bx) (qx (XMVector3Length b (load3 (bx_Extents bx)))).
Definition Sphere_CreateFromBoundingOrientedBox b (ob : OBox (T L)) : Sphere (T L) :=
  MkSphere (ob_Center ob) (qx (XMVector3Length b (load3 (ob_Extents ob)))).
(** 1330-1380: the six extremal points. The first point overwrites the initial infinities and is then compared with
    itself. *)
Definition extremes : Type := (vec * vec * vec * vec * vec * vec)%type.
Definition extremes_step (st : extremes) (Point : vec) : extremes :=
  let '(MinX, MaxX, MinY, MaxY, MinZ, MaxZ) := st in
  let px := qx Point in
  let py := qy Point in
  let pz := qz Point in
  (if tlt px (qx MinX) then Point else MinX, if tgt px (qx MaxX) then Point else MaxX,
   if tlt py (qy MinY) then Point else MinY, if tgt py (qy MaxY) then Point else MaxY,
   if tlt pz (qz MinZ) then Point else MinZ, if tgt pz (qz MaxZ) then Point else MaxZ).
Definition extremes_of (pts : list (float3 (T L))) : extremes :=
  let inf := qrep pinf in
  let ninf := qrep (- pinf) in
  match pts with
  | nil => (inf, ninf, inf, ninf, inf, ninf)
  | p0 :: _ =>
    let P0 := load3 p0 in
    fold_left (fun st p => extremes_step st (load3 p)) pts (P0, P0, P0, P0, P0, P0)
  end.
(** 1426-1440 *)
Definition grow_step b (cr : vec * vec) (p : float3 (T L)) : vec * vec :=
  let '(vCenter, vRadius) := cr in
  let Point := load3 p in
  let Delta := XMVectorSubtract b Point vCenter in
  let Dist := XMVector3Length b Delta in
  if all3 (vgt Dist vRadius) then
    let vRadius := XMVectorScale b (XMVectorAdd b vRadius Dist) half in
    let vCenter := XMVectorAdd b vCenter
      (XMVectorMultiply b (XMVectorSubtract b (qrep one) (XMVectorDivide b vRadius Dist)) Delta) in
    (vCenter, vRadius)
  else (vCenter, vRadius).
(** 1321-1444 *)
Definition Sphere_CreateFromPoints b (pts : list (float3 (T L))) : Sphere (T L) :=
  let '(MinX, MaxX, MinY, MaxY, MinZ, MaxZ) := extremes_of pts in
  let DistX := XMVector3Length b (XMVectorSubtract b MaxX MinX) in
  let DistY := XMVector3Length b (XMVectorSubtract b MaxY MinY) in
  let DistZ := XMVector3Length b (XMVectorSubtract b MaxZ MinZ) in
  let start Max Min Dist := (XMVectorLerp b Max Min half, XMVectorScale b Dist half) in
  let cr :=
    if all3 (vgt DistX DistY) then
      if all3 (vgt DistX DistZ) then start MaxX MinX DistX else start MaxZ MinZ DistZ
    else if all3 (vgt DistY DistZ) then start MaxY MinY DistY else start MaxZ MinZ DistZ in
  let '(vCenter, vRadius) := fold_left (grow_step b) pts cr in
  MkSphere (store3 vCenter) (qx vRadius).

(** ** BoundingBox *)
(** 1505-1516 *)
Definition Box_GetCorners b (bx : Box (T L)) : list (float3 (T L)) :=
  let vCenter := load3 (bx_Center bx) in
  let vExtents := load3 (bx_Extents bx) in
  map (fun o => store3 (XMVectorMultiplyAdd b vExtents o vCenter)) g_BoxOffset.
(** the min/max loop shared by 1539-1556, 1589-1606 and 2303-2320: the first corner starts both, the others extend them *)
Definition min_max b (P0 : vec) (Ps : list vec) : vec * vec :=
  fold_left (fun '(Min, Max) P => (XMVectorMin b Min P, XMVectorMax b Max P)) Ps (P0, P0).
Definition box_of_min_max b (mm : vec * vec) : Box (T L) :=
  MkBox (store3 (XMVectorScale b (XMVectorAdd b (fst mm) (snd mm)) half))
        (store3 (XMVectorScale b (XMVectorSubtract b (snd mm) (fst mm)) half)).
Definition min_max_offsets b (corner : vec -> vec) : vec * vec :=
  match g_BoxOffset with
  | o0 :: os => min_max b (corner o0) (map corner os)
  | nil => (vzero, vzero)  (** not reached: g_BoxOffset is not empty *)
  end.
(** 1533-1558 *)
Definition Box_TransformMatrix b (bx : Box (T L)) (M : matrix) : Box (T L) :=
  let vCenter := load3 (bx_Center bx) in
  let vExtents := load3 (bx_Extents bx) in
  box_of_min_max b (min_max_offsets b (fun o => XMVector3Transform b (XMVectorMultiplyAdd b vExtents o vCenter) M)).
(** 1579-1608 *)
Definition Box_TransformDecomposed b (bx : Box (T L)) (Scale : T L) (Rotation Translation : vec) : option (Box (T L)) :=
  asserting (XMQuaternionIsUnit b Rotation) (
  let vCenter := load3 (bx_Center bx) in
  let vExtents := load3 (bx_Extents bx) in
  let VectorScale := qrep Scale in
  Some (box_of_min_max b (min_max_offsets b (fun o =>
    let Corner := XMVectorMultiplyAdd b vExtents o vCenter in
    XMVectorAdd b (XMVector3Rotate b (XMVectorMultiply b Corner VectorScale) Rotation) Translation)))).
(** 1623-1628 *)
Definition Box_ContainsPoint b (bx : Box (T L)) (Point : vec) : ContainmentType :=
  let vCenter := load3 (bx_Center bx) in
  let vExtents := load3 (bx_Extents bx) in
  if XMVector3InBounds b (XMVectorSubtract b Point vCenter) vExtents then CONTAINS else DISJOINT.
(** 1679-1701 = 1815-1837: vector from the box to the sphere centre *)
Definition box_sphere_d2 b (SphereCenter BoxMin BoxMax : vec) : vec :=
  let d := vzero in
  let LessThanMin := vlt SphereCenter BoxMin in
  let GreaterThanMax := vgt SphereCenter BoxMax in
  let MinDelta := XMVectorSubtract b SphereCenter BoxMin in
  let MaxDelta := XMVectorSubtract b SphereCenter BoxMax in
  let d := vsel d MinDelta LessThanMin in
  let d := vsel d MaxDelta GreaterThanMax in
  XMVector3Dot b d d.
(** 1672-1712 *)
Definition Box_ContainsSphere b (bx : Box (T L)) (sh : Sphere (T L)) : ContainmentType :=
  let SphereCenter := load3 (sp_Center sh) in
  let SphereRadius := qrep (sp_Radius sh) in
  let BoxCenter := load3 (bx_Center bx) in
  let BoxExtents := load3 (bx_Extents bx) in
  let BoxMin := XMVectorSubtract b BoxCenter BoxExtents in
  let BoxMax := XMVectorAdd b BoxCenter BoxExtents in
  let d2 := box_sphere_d2 b SphereCenter BoxMin BoxMax in
  if all3 (vgt d2 (XMVectorMultiply b SphereRadius SphereRadius)) then DISJOINT else
  let InsideAll := vle (XMVectorAdd b BoxMin SphereRadius) SphereCenter in
  let InsideAll := mand InsideAll (vle SphereCenter (XMVectorSubtract b BoxMax SphereRadius)) in
  let InsideAll := mand InsideAll (vgt (XMVectorSubtract b BoxMax BoxMin) SphereRadius) in
  if all3 InsideAll then CONTAINS else INTERSECTS.
(** 1846-1863 and 1718-1742 *)
Definition Box_disjoint_mask b (A B : Box (T L)) : quad bool :=
  let CenterA := load3 (bx_Center A) in
  let ExtentsA := load3 (bx_Extents A) in
  let CenterB := load3 (bx_Center B) in
  let ExtentsB := load3 (bx_Extents B) in
  let MinA := XMVectorSubtract b CenterA ExtentsA in
  let MaxA := XMVectorAdd b CenterA ExtentsA in
  let MinB := XMVectorSubtract b CenterB ExtentsB in
  let MaxB := XMVectorAdd b CenterB ExtentsB in
  mor (vgt MinA MaxB) (vgt MinB MaxA).
Definition Box_inside_mask b (A B : Box (T L)) : quad bool :=
  let CenterA := load3 (bx_Center A) in
  let ExtentsA := load3 (bx_Extents A) in
  let CenterB := load3 (bx_Center B) in
  let ExtentsB := load3 (bx_Extents B) in
  let MinA := XMVectorSubtract b CenterA ExtentsA in
  let MaxA := XMVectorAdd b CenterA ExtentsA in
  let MinB := XMVectorSubtract b CenterB ExtentsB in
  let MaxB := XMVectorAdd b CenterB ExtentsB in
  mand (vle MinA MinB) (vle MaxB MaxA).
Definition Box_ContainsBox b (bx B : Box (T L)) : ContainmentType :=
  if any3 (Box_disjoint_mask b bx B) then DISJOINT
  else if all3 (Box_inside_mask b bx B) then CONTAINS else INTERSECTS.
Definition Box_IntersectsBox b (bx B : Box (T L)) : bool := negb (any3 (Box_disjoint_mask b bx B)).
(** 1808-1840 *)
Definition Box_IntersectsSphere b (bx : Box (T L)) (sh : Sphere (T L)) : bool :=
  let SphereCenter := load3 (sp_Center sh) in
  let SphereRadius := qrep (sp_Radius sh) in
  let BoxCenter := load3 (bx_Center bx) in
  let BoxExtents := load3 (bx_Extents bx) in
  let BoxMin := XMVectorSubtract b BoxCenter BoxExtents in
  let BoxMax := XMVectorAdd b BoxCenter BoxExtents in
  all3 (vle (box_sphere_d2 b SphereCenter BoxMin BoxMax) (XMVectorMultiply b SphereRadius SphereRadius)).
(** collision.rs 838-861 and 997-999 *)
Definition Sphere_ContainsBox b (s : Sphere (T L)) (bx : Box (T L)) : ContainmentType :=
  if negb (Box_IntersectsSphere b bx s) then DISJOINT else
  let vCenter := load3 (sp_Center s) in
  let vRadius := qrep (sp_Radius s) in
  let RadiusSq := XMVectorMultiply b vRadius vRadius in
  let boxCenter := load3 (bx_Center bx) in
  let boxExtents := load3 (bx_Extents bx) in
  let offset := XMVectorSubtract b boxCenter vCenter in
  let InsideAll := fold_left (fun acc o =>
    mand acc (vle (XMVector3LengthSq b (XMVectorMultiplyAdd b boxExtents o offset)) RadiusSq)) g_BoxOffset mtrue in
  if all3 InsideAll then CONTAINS else INTERSECTS.
Definition Sphere_IntersectsBox b (s : Sphere (T L)) (bx : Box (T L)) : bool := Box_IntersectsSphere b bx s.
(** the axis perms of 1964-2060 applied to an edge: cross products of the edge with the three coordinate axes *)
Definition axis_x b (e : vec) : vec := perm e (XMVectorNegate b e) P0W P1Z P0Y P0X.
Definition axis_y b (e : vec) : vec := perm e (XMVectorNegate b e) P0Z P0W P1X P0Y.
Definition axis_z b (e : vec) : vec := perm e (XMVectorNegate b e) P1Y P0X P0W P0Z.
(** one of the nine edge tests of 1964-2061: the two projected vertices against the projected box *)
Definition edge_test b (vExtents Axis TVa TVb : vec) : quad bool :=
  let pa := XMVector3Dot b TVa Axis in
  let pb := XMVector3Dot b TVb Axis in
  let Min := XMVectorMin b pa pb in
  let Max := XMVectorMax b pa pb in
  let Radius := XMVector3Dot b vExtents (XMVectorAbs b Axis) in
  mor (vgt Min Radius) (vlt Max (XMVectorNegate b Radius)).
(** 1899-2064 *)
Definition Box_IntersectsTriangle b (bx : Box (T L)) (V0 V1 V2 : vec) : option bool :=
  let vCenter := load3 (bx_Center bx) in
  let vExtents := load3 (bx_Extents bx) in
  let BoxMin := XMVectorSubtract b vCenter vExtents in
  let BoxMax := XMVectorAdd b vCenter vExtents in
  let TriMin := XMVectorMin b (XMVectorMin b V0 V1) V2 in
  let TriMax := XMVectorMax b (XMVectorMax b V0 V1) V2 in
  let Disjoint := mor (vgt TriMin BoxMax) (vgt BoxMin TriMax) in
  if any3 Disjoint then Some false else
  let Normal := XMVector3Cross b (XMVectorSubtract b V1 V0) (XMVectorSubtract b V2 V0) in
  let Dist := XMVector3Dot b Normal V0 in
  asserting (negb (all3 (veq Normal vzero))) (
  let NormalSelect := vgt Normal vzero in
  let V_Min := vsel BoxMax BoxMin NormalSelect in
  let V_Max := vsel BoxMin BoxMax NormalSelect in
  let MinDist := XMVector3Dot b V_Min Normal in
  let MaxDist := XMVector3Dot b V_Max Normal in
  let No := vgt MinDist Dist in
  let No := mor No (vlt MaxDist Dist) in
  let TV0 := XMVectorSubtract b V0 vCenter in
  let TV1 := XMVectorSubtract b V1 vCenter in
  let TV2 := XMVectorSubtract b V2 vCenter in
  let e0 := insert_lane I3 (XMVectorSubtract b TV1 TV0) vzero in
  let e1 := insert_lane I3 (XMVectorSubtract b TV2 TV1) vzero in
  let e2 := insert_lane I3 (XMVectorSubtract b TV0 TV2) vzero in
  let No := mor No (edge_test b vExtents (axis_x b e0) TV0 TV2) in
  let No := mor No (edge_test b vExtents (axis_x b e1) TV0 TV1) in
  let No := mor No (edge_test b vExtents (axis_x b e2) TV0 TV1) in
  let No := mor No (edge_test b vExtents (axis_y b e0) TV0 TV2) in
  let No := mor No (edge_test b vExtents (axis_y b e1) TV0 TV1) in
  let No := mor No (edge_test b vExtents (axis_y b e2) TV0 TV1) in
  let No := mor No (edge_test b vExtents (axis_z b e0) TV0 TV2) in
  let No := mor No (edge_test b vExtents (axis_z b e1) TV0 TV1) in
  let No := mor No (edge_test b vExtents (axis_z b e2) TV0 TV1) in
  Some (negb (qall No))).
(** 1648-1666 *)
Definition Box_ContainsTriangle b (bx : Box (T L)) (V0 V1 V2 : vec) : option ContainmentType :=
  obind (Box_IntersectsTriangle b bx V0 V1 V2) (fun hit =>
  if negb hit then Some DISJOINT else
  let vCenter := load3 (bx_Center bx) in
  let vExtents := load3 (bx_Extents bx) in
  let inside V := vle (XMVectorAbs b (XMVectorSubtract b V vCenter)) vExtents in
  let Inside := mand (mand (inside V0) (inside V1)) (inside V2) in
  Some (if all3 Inside then CONTAINS else INTERSECTS)).
(** 2080-2107 *)
Definition Box_IntersectsPlane b (bx : Box (T L)) (Plane : vec) : option PlaneIntersectionType :=
  asserting (XMPlaneIsUnit b Plane) (
  let vCenter := insert_lane I3 (load3 (bx_Center bx)) vone in
  let vExtents := load3 (bx_Extents bx) in
  Some (plane_verdict (FastIntersectAxisAlignedBoxPlane b vCenter vExtents Plane))).
(** 2148-2186 = 3036-3074: the slab test *)
Definition slab_test b (AxisDotOrigin AxisDotDirection vExtents : vec) : bool * T L :=
  let IsParallel := vle (XMVectorAbs b AxisDotDirection) g_RayEpsilon in
  let InverseAxisDotDirection := XMVectorReciprocal b AxisDotDirection in
  let t1 := XMVectorMultiply b (XMVectorSubtract b AxisDotOrigin vExtents) InverseAxisDotDirection in
  let t2 := XMVectorMultiply b (XMVectorAdd b AxisDotOrigin vExtents) InverseAxisDotDirection in
  let t_min := vsel (XMVectorMin b t1 t2) g_FltMin IsParallel in
  let t_max := vsel (XMVectorMax b t1 t2) g_FltMax IsParallel in
  let t_min := XMVectorMax b t_min (splat I1 t_min) in
  let t_min := XMVectorMax b t_min (splat I2 t_min) in
  let t_max := XMVectorMin b t_max (splat I1 t_max) in
  let t_max := XMVectorMin b t_max (splat I2 t_max) in
  let No := vgt (splat I0 t_min) (splat I0 t_max) in
  let No := mor No (vlt (splat I0 t_max) vzero) in
  let ParallelOverlap := XMVectorInBounds b AxisDotOrigin vExtents in
  let No := mor No (mandc IsParallel ParallelOverlap) in
  if negb (any3 No) then (true, qx t_min) else (false, zero).
(** 2132-2187 *)
Definition Box_IntersectsRay b (bx : Box (T L)) (Origin Direction : vec) : option (bool * T L) :=
  asserting (XMVector3IsUnit b Direction) (
  let vCenter := load3 (bx_Center bx) in
  let vExtents := load3 (bx_Extents bx) in
  let TOrigin := XMVectorSubtract b vCenter Origin in
  Some (slab_test b TOrigin Direction vExtents)).
(** 2192-2251 *)
Definition Box_ContainedBy b (bx : Box (T L)) (Plane0 Plane1 Plane2 Plane3 Plane4 Plane5 : vec) : ContainmentType :=
  let vCenter := insert_lane I3 (load3 (bx_Center bx)) vone in
  let vExtents := load3 (bx_Extents bx) in
  contained_by (FastIntersectAxisAlignedBoxPlane b vCenter vExtents) Plane0 Plane1 Plane2 Plane3 Plane4 Plane5.
(** 2257-2274 *)
Definition Box_CreateMerged b (b1 b2 : Box (T L)) : option (Box (T L)) :=
  let b1Center := load3 (bx_Center b1) in
  let b1Extents := load3 (bx_Extents b1) in
  let b2Center := load3 (bx_Center b2) in
  let b2Extents := load3 (bx_Extents b2) in
  let Min := XMVectorMin b (XMVectorSubtract b b1Center b1Extents) (XMVectorSubtract b b2Center b2Extents) in
  let Max := XMVectorMax b (XMVectorAdd b b1Center b1Extents) (XMVectorAdd b b2Center b2Extents) in
  asserting (all3 (vle Min Max)) (Some (box_of_min_max b (Min, Max))).
(** 2280-2291 *)
Definition Box_CreateFromSphere b (sh : Sphere (T L)) : option (Box (T L)) :=
  let spCenter := load3 (sp_Center sh) in
  let shRadius := qrep (sp_Radius sh) in
  let Min := XMVectorSubtract b spCenter shRadius in
  let Max := XMVectorAdd b spCenter shRadius in
  asserting (all3 (vle Min Max)) (Some (box_of_min_max b (Min, Max))).
(** 2297-2321 *)
Definition Box_CreateFromPoints b (pts : list (float3 (T L))) : Box (T L) :=
  box_of_min_max b
    match pts with
    | nil => (qrep pinf, qrep (- pinf))
    | p0 :: ps => min_max b (load3 p0) (map load3 ps)
    end.

(** ** BoundingOrientedBox *)
Definition id_orientation : vec := Q zero zero zero one.
Definition obox_of (bx : Box (T L)) : OBox (T L) := MkOBox (bx_Center bx) (bx_Extents bx) id_orientation.
(** 2345-2381 *)
Definition OBox_TransformMatrix b (ob : OBox (T L)) (M : matrix) : option (OBox (T L)) :=
  let vCenter := load3 (ob_Center ob) in
  let vExtents := load3 (ob_Extents ob) in
  let vOrientation := ob_Orientation ob in
  asserting (XMQuaternionIsUnit b vOrientation) (
  let nM := Q (XMVector3Normalize b (qx M)) (XMVector3Normalize b (qy M)) (XMVector3Normalize b (qz M)) IdR3 in
  let Rotation := XMQuaternionRotationMatrix b nM in
  let vOrientation := XMQuaternionMultiply b vOrientation Rotation in
  let vCenter := XMVector3Transform b vCenter M in
  let dX := XMVector3Length b (qx M) in
  let dY := XMVector3Length b (qy M) in
  let dZ := XMVector3Length b (qz M) in
  let VectorScale := vsel dY dX mask_x in
  let VectorScale := vsel dZ VectorScale mask2 in
  let vExtents := XMVectorMultiply b vExtents VectorScale in
  Some (MkOBox (store3 vCenter) (store3 vExtents) vOrientation)).
(** 2402-2427 *)
Definition OBox_TransformDecomposed b (ob : OBox (T L)) (Scale : T L) (Rotation Translation : vec) : option (OBox (T L)) :=
  asserting (XMQuaternionIsUnit b Rotation) (
  let vCenter := load3 (ob_Center ob) in
  let vExtents := load3 (ob_Extents ob) in
  let vOrientation := ob_Orientation ob in
  asserting (XMQuaternionIsUnit b vOrientation) (
  let vOrientation := XMQuaternionMultiply b vOrientation Rotation in
  let VectorScale := qrep Scale in
  let vCenter := XMVectorAdd b (XMVector3Rotate b (XMVectorMultiply b vCenter VectorScale) Rotation) Translation in
  let vExtents := XMVectorMultiply b vExtents VectorScale in
  Some (MkOBox (store3 vCenter) (store3 vExtents) vOrientation))).
(** 2442-2451 *)
Definition OBox_ContainsPoint b (ob : OBox (T L)) (Point : vec) : ContainmentType :=
  let vCenter := load3 (ob_Center ob) in
  let vExtents := load3 (ob_Extents ob) in
  let vOrientation := ob_Orientation ob in
  let TPoint := XMVector3InverseRotate b (XMVectorSubtract b Point vCenter) vOrientation in
  if XMVector3InBounds b TPoint vExtents then CONTAINS else DISJOINT.
(** 2914-2930 and 2470-2486 *)
Definition OBox_IntersectsTriangle b (ob : OBox (T L)) (V0 V1 V2 : vec) : option bool :=
  let vCenter := load3 (ob_Center ob) in
  let vOrientation := ob_Orientation ob in
  let TV0 := XMVector3InverseRotate b (XMVectorSubtract b V0 vCenter) vOrientation in
  let TV1 := XMVector3InverseRotate b (XMVectorSubtract b V1 vCenter) vOrientation in
  let TV2 := XMVector3InverseRotate b (XMVectorSubtract b V2 vCenter) vOrientation in
  Box_IntersectsTriangle b (MkBox (F3 zero zero zero) (ob_Extents ob)) TV0 TV1 TV2.
Definition OBox_ContainsTriangle b (ob : OBox (T L)) (V0 V1 V2 : vec) : option ContainmentType :=
  let vCenter := load3 (ob_Center ob) in
  let vOrientation := ob_Orientation ob in
  let TV0 := XMVector3InverseRotate b (XMVectorSubtract b V0 vCenter) vOrientation in
  let TV1 := XMVector3InverseRotate b (XMVectorSubtract b V1 vCenter) vOrientation in
  let TV2 := XMVector3InverseRotate b (XMVectorSubtract b V2 vCenter) vOrientation in
  Box_ContainsTriangle b (MkBox (F3 zero zero zero) (ob_Extents ob)) TV0 TV1 TV2.
(** 2512-2526 = 2649-2663 *)
Definition obox_sphere_d2 b (SphereCenter BoxExtents : vec) : vec :=
  let d := vzero in
  let LessThanMin := vlt SphereCenter (XMVectorNegate b BoxExtents) in
  let GreaterThanMax := vgt SphereCenter BoxExtents in
  let MinDelta := XMVectorAdd b SphereCenter BoxExtents in
  let MaxDelta := XMVectorSubtract b SphereCenter BoxExtents in
  let d := vsel d MinDelta LessThanMin in
  let d := vsel d MaxDelta GreaterThanMax in
  XMVector3Dot b d d.
(** 2492-2538 *)
Definition OBox_ContainsSphere b (ob : OBox (T L)) (sh : Sphere (T L)) : option ContainmentType :=
  let SphereCenter := load3 (sp_Center sh) in
  let SphereRadius := qrep (sp_Radius sh) in
  let BoxCenter := load3 (ob_Center ob) in
  let BoxExtents := load3 (ob_Extents ob) in
  let BoxOrientation := ob_Orientation ob in
  asserting (XMQuaternionIsUnit b BoxOrientation) (
  let SphereCenter := XMVector3InverseRotate b (XMVectorSubtract b SphereCenter BoxCenter) BoxOrientation in
  let d2 := obox_sphere_d2 b SphereCenter BoxExtents in
  let SphereRadiusSq := XMVectorMultiply b SphereRadius SphereRadius in
  if qall (vgt d2 SphereRadiusSq) then Some DISJOINT else
  let SMin := XMVectorSubtract b SphereCenter SphereRadius in
  let SMax := XMVectorAdd b SphereCenter SphereRadius in
  Some (if (XMVector3InBounds b SMin BoxExtents && XMVector3InBounds b SMax BoxExtents)%bool then CONTAINS else INTERSECTS)).
(** 2629-2666 *)
Definition OBox_IntersectsSphere b (ob : OBox (T L)) (sh : Sphere (T L)) : option bool :=
  let SphereCenter := load3 (sp_Center sh) in
  let SphereRadius := qrep (sp_Radius sh) in
  let BoxCenter := load3 (ob_Center ob) in
  let BoxExtents := load3 (ob_Extents ob) in
  let BoxOrientation := ob_Orientation ob in
  asserting (XMQuaternionIsUnit b BoxOrientation) (
  let SphereCenter := XMVector3InverseRotate b (XMVectorSubtract b SphereCenter BoxCenter) BoxOrientation in
  Some (qall (vle (obox_sphere_d2 b SphereCenter BoxExtents) (XMVectorMultiply b SphereRadius SphereRadius)))).
(** 877-901 and 1005-1007 *)
Definition Sphere_ContainsOrientedBox b (s : Sphere (T L)) (ob : OBox (T L)) : option ContainmentType :=
  obind (OBox_IntersectsSphere b ob s) (fun hit =>
  if negb hit then Some DISJOINT else
  let vCenter := load3 (sp_Center s) in
  let vRadius := qrep (sp_Radius s) in
  let RadiusSq := XMVectorMultiply b vRadius vRadius in
  let boxCenter := load3 (ob_Center ob) in
  let boxExtents := load3 (ob_Extents ob) in
  let boxOrientation := ob_Orientation ob in
  asserting (XMQuaternionIsUnit b boxOrientation) (
  let InsideAll := fold_left (fun acc o =>
    let C := XMVectorAdd b (XMVector3Rotate b (XMVectorMultiply b boxExtents o) boxOrientation) boxCenter in
    mand acc (vle (XMVector3LengthSq b (XMVectorSubtract b vCenter C)) RadiusSq)) g_BoxOffset mtrue in
  Some (if all3 InsideAll then CONTAINS else INTERSECTS))).
Definition Sphere_IntersectsOrientedBox b (s : Sphere (T L)) (ob : OBox (T L)) : option bool := OBox_IntersectsSphere b ob s.
(** the swizzles of 2803-2882 *)
Definition swz_x (v : vec) : vec := swz v I3 I2 I1 I0.
Definition swz_y (v : vec) : vec := swz v I2 I3 I0 I1.
Definition swz_z (v : vec) : vec := swz v I1 I0 I3 I2.
(** [XMVectorGreater(XMVectorAbs(d), XMVectorAdd(d_A, d_B))] *)
Definition sat_test b (d d_A d_B : vec) : quad bool := vgt (XMVectorAbs b d) (XMVectorAdd b d_A d_B).
(** 2686-2886 *)
Definition OBox_sat b (R : matrix) (t h_A h_B : vec) : quad bool :=
  let R0X := qx R in let R1X := qy R in let R2X := qz R in
  let Rt := XMMatrixTranspose b R in
  let RX0 := qx Rt in let RX1 := qy Rt in let RX2 := qz Rt in
  let AR0X := XMVectorAbs b R0X in let AR1X := XMVectorAbs b R1X in let AR2X := XMVectorAbs b R2X in
  let ARX0 := XMVectorAbs b RX0 in let ARX1 := XMVectorAbs b RX1 in let ARX2 := XMVectorAbs b RX2 in
  let dot := XMVector3Dot b in
  let No := sat_test b (splat I0 t) (splat I0 h_A) (dot h_B AR0X) in
  let No := mor No (sat_test b (splat I1 t) (splat I1 h_A) (dot h_B AR1X)) in
  let No := mor No (sat_test b (splat I2 t) (splat I2 h_A) (dot h_B AR2X)) in
  let No := mor No (sat_test b (dot t RX0) (dot h_A ARX0) (splat I0 h_B)) in
  let No := mor No (sat_test b (dot t RX1) (dot h_A ARX1) (splat I1 h_B)) in
  let No := mor No (sat_test b (dot t RX2) (dot h_A ARX2) (splat I2 h_B)) in
  let No := mor No (sat_test b (dot t (axis_x b RX0)) (dot h_A (swz_x ARX0)) (dot h_B (swz_x AR0X))) in
  let No := mor No (sat_test b (dot t (axis_x b RX1)) (dot h_A (swz_x ARX1)) (dot h_B (swz_y AR0X))) in
  let No := mor No (sat_test b (dot t (axis_x b RX2)) (dot h_A (swz_x ARX2)) (dot h_B (swz_z AR0X))) in
  let No := mor No (sat_test b (dot t (axis_y b RX0)) (dot h_A (swz_y ARX0)) (dot h_B (swz_x AR1X))) in
  let No := mor No (sat_test b (dot t (axis_y b RX1)) (dot h_A (swz_y ARX1)) (dot h_B (swz_y AR1X))) in
  let No := mor No (sat_test b (dot t (axis_y b RX2)) (dot h_A (swz_y ARX2)) (dot h_B (swz_z AR1X))) in
  let No := mor No (sat_test b (dot t (axis_z b RX0)) (dot h_A (swz_z ARX0)) (dot h_B (swz_x AR2X))) in
  let No := mor No (sat_test b (dot t (axis_z b RX1)) (dot h_A (swz_z ARX1)) (dot h_B (swz_y AR2X))) in
  mor No (sat_test b (dot t (axis_z b RX2)) (dot h_A (swz_z ARX2)) (dot h_B (swz_z AR2X))).
Definition OBox_IntersectsOrientedBox b (ob B : OBox (T L)) : option bool :=
  let A_quat := ob_Orientation ob in
  let B_quat := ob_Orientation B in
  asserting (XMQuaternionIsUnit b A_quat) (
  asserting (XMQuaternionIsUnit b B_quat) (
  let q := XMQuaternionMultiply b A_quat (XMQuaternionConjugate b B_quat) in
  let R := XMMatrixRotationQuaternion b q in
  let A_cent := load3 (ob_Center ob) in
  let B_cent := load3 (ob_Center B) in
  let t := XMVector3InverseRotate b (XMVectorSubtract b B_cent A_cent) A_quat in
  let h_A := load3 (ob_Extents ob) in
  let h_B := load3 (ob_Extents B) in
  Some (negb (qall (OBox_sat b R t h_A h_B))))).
(** 2672-2680, 1869-1871 *)
Definition OBox_IntersectsBox b (ob : OBox (T L)) (bx : Box (T L)) : option bool := OBox_IntersectsOrientedBox b ob (obox_of bx).
Definition Box_IntersectsOrientedBox b (bx : Box (T L)) (ob : OBox (T L)) : option bool := OBox_IntersectsBox b ob bx.
(** 2558-2592 *)
Definition OBox_ContainsOrientedBox b (ob B : OBox (T L)) : option ContainmentType :=
  obind (OBox_IntersectsOrientedBox b ob B) (fun hit =>
  if negb hit then Some DISJOINT else
  let aCenter := load3 (ob_Center ob) in
  let aExtents := load3 (ob_Extents ob) in
  let aOrientation := ob_Orientation ob in
  asserting (XMQuaternionIsUnit b aOrientation) (
  let bCenter := load3 (ob_Center B) in
  let bExtents := load3 (ob_Extents B) in
  let bOrientation := ob_Orientation B in
  asserting (XMQuaternionIsUnit b bOrientation) (
  let offset := XMVectorSubtract b bCenter aCenter in
  let inside o :=
    let C := XMVectorAdd b (XMVector3Rotate b (XMVectorMultiply b bExtents o) bOrientation) offset in
    let C := XMVector3InverseRotate b C aOrientation in
    XMVector3InBounds b C aExtents in
  Some (if forallb inside g_BoxOffset then CONTAINS else INTERSECTS)))).
(** 2544-2552 *)
Definition OBox_ContainsBox b (ob : OBox (T L)) (bx : Box (T L)) : option ContainmentType := OBox_ContainsOrientedBox b ob (obox_of bx).
(** 1748-1775 *)
Definition Box_ContainsOrientedBox b (bx : Box (T L)) (ob : OBox (T L)) : option ContainmentType :=
  obind (OBox_IntersectsBox b ob bx) (fun hit =>
  if negb hit then Some DISJOINT else
  let vCenter := load3 (bx_Center bx) in
  let vExtents := load3 (bx_Extents bx) in
  let oCenter := XMVectorSubtract b (load3 (ob_Center ob)) vCenter in
  let oExtents := load3 (ob_Extents ob) in
  let oOrientation := ob_Orientation ob in
  asserting (XMQuaternionIsUnit b oOrientation) (
  let Inside := fold_left (fun acc o =>
    let C := XMVectorAdd b (XMVector3Rotate b (XMVectorMultiply b oExtents o) oOrientation) oCenter in
    mand acc (vle (XMVectorAbs b C) vExtents)) g_BoxOffset mtrue in
  Some (if all3 Inside then CONTAINS else INTERSECTS))).
(** 2946-2981 *)
Definition OBox_IntersectsPlane b (ob : OBox (T L)) (Plane : vec) : option PlaneIntersectionType :=
  asserting (XMPlaneIsUnit b Plane) (
  let vCenter := load3 (ob_Center ob) in
  let vExtents := load3 (ob_Extents ob) in
  let BoxOrientation := ob_Orientation ob in
  asserting (XMQuaternionIsUnit b BoxOrientation) (
  let vCenter := insert_lane I3 vCenter vone in
  let R := XMMatrixRotationQuaternion b BoxOrientation in
  Some (plane_verdict (FastIntersectOrientedBoxPlane b vCenter vExtents (qx R) (qy R) (qz R) Plane)))).
(** the lane assembly of 3027-3033: three dot products in lanes x, y, z *)
Definition dots3 b (R : matrix) (V : vec) : vec :=
  let d := XMVector3Dot b (qx R) V in
  let d := vsel d (XMVector3Dot b (qy R) V) mask_y in
  vsel d (XMVector3Dot b (qz R) V) mask_z.
(** 3006-3075 *)
Definition OBox_IntersectsRay b (ob : OBox (T L)) (Origin Direction : vec) : option (bool * T L) :=
  asserting (XMVector3IsUnit b Direction) (
  let vCenter := load3 (ob_Center ob) in
  let vExtents := load3 (ob_Extents ob) in
  let vOrientation := ob_Orientation ob in
  asserting (XMQuaternionIsUnit b vOrientation) (
  let R := XMMatrixRotationQuaternion b vOrientation in
  let TOrigin := XMVectorSubtract b vCenter Origin in
  Some (slab_test b (dots3 b R TOrigin) (dots3 b R Direction) vExtents))).
(** 3081-3148 *)
Definition OBox_ContainedBy b (ob : OBox (T L)) (Plane0 Plane1 Plane2 Plane3 Plane4 Plane5 : vec) : option ContainmentType :=
  let vCenter := load3 (ob_Center ob) in
  let vExtents := load3 (ob_Extents ob) in
  let BoxOrientation := ob_Orientation ob in
  asserting (XMQuaternionIsUnit b BoxOrientation) (
  let vCenter := insert_lane I3 vCenter vone in
  let R := XMMatrixRotationQuaternion b BoxOrientation in
  Some (contained_by (FastIntersectOrientedBoxPlane b vCenter vExtents (qx R) (qy R) (qz R)) Plane0 Plane1 Plane2 Plane3 Plane4 Plane5)).
(** 3154-3158 *)
Definition OBox_CreateFromBoundingBox (bx : Box (T L)) : OBox (T L) := obox_of bx.
(** 3301-3315 *)
Definition OBox_GetCorners b (ob : OBox (T L)) : option (list (float3 (T L))) :=
  let vCenter := load3 (ob_Center ob) in
  let vExtents := load3 (ob_Extents ob) in
  let vOrientation := ob_Orientation ob in
  asserting (XMQuaternionIsUnit b vOrientation) (
  Some (map (fun o => store3 (XMVectorAdd b (XMVector3Rotate b (XMVectorMultiply b vExtents o) vOrientation) vCenter)) g_BoxOffset)).
End Collide.

(** ** Oriented box from points, 229-485 and 3164-3295 *)
Section ObbFromPoints.
(** [cbrt d] is the code's [powf(d, 1.0 / 3.0)], a libm call *)
Context {L : Lane} (cbrt : T L -> T L).
Notation vec := (quad (T L)).
Notation matrix := (quad (quad (T L))).
Local Open Scope lane_scope.
Definition c3 : T L := tlit 3 0.
Definition c27 : T L := tlit 27 0.
Definition c4 : T L := tlit 4 0.
(** 229-276; [None] is the [false] return (one real root) *)
Definition SolveCubic (e f g : T L) : option (T L * T L * T L) :=
  let p := f - e * e / c3 in
  let q := g - e * f / c3 + e * e * e * two / c27 in
  let h := q * q / c4 + p * p * p / c27 in
  if tgt h zero then None
  else if (teq h zero && teq q zero)%bool then Some (- e / c3, - e / c3, - e / c3)
  else
    let d := tsqrt (q * q / c4 - h) in
    let rc := if tlt d zero then - cbrt (- d) else cbrt d in
    let theta := XMScalarACos (- q / (two * d)) in
    let costh3 := XMScalarCos (theta / c3) in
    let sinth3 := tsqrt c3 * XMScalarSin (theta / c3) in
    Some (two * rc * costh3 - e / c3, - rc * (costh3 + sinth3) - e / c3, - rc * (costh3 - sinth3) - e / c3).
(** 279-351 *)
Definition nz (x : T L) : bool := negb (teq x zero).
Definition CalculateEigenVector b (m11 m12 m13 m22 m23 m33 e : T L) : vec :=
  let vTmp := load3 (F3 (m12 * m23 - m13 * (m22 - e)) (m13 * m12 - m23 * (m11 - e)) ((m11 - e) * (m22 - e) - m12 * m12)) in
  let vTmp :=
    if all3 (veq vTmp vzero) then
      let '(f1, f2, f3) :=
        if (nz (m11 - e) || nz m12 || nz m13)%bool then (m11 - e, m12, m13)
        else if (nz m12 || nz (m22 - e) || nz m23)%bool then (m12, m22 - e, m23)
        else if (nz m13 || nz m23 || nz (m33 - e))%bool then (m13, m23, m33 - e)
        else (one, zero, zero) in
      let vTmp := setlane vTmp I0 (if teq f1 zero then zero else one) in
      let vTmp := setlane vTmp I1 (if teq f2 zero then zero else one) in
      if teq f3 zero then
        let vTmp := setlane vTmp I2 zero in
        if nz m12 then setlane vTmp I1 (- f1 / f2) else vTmp
      else setlane vTmp I2 ((f2 - f1) / f3)
    else vTmp in
  if tgt (qx (XMVector3LengthSq b vTmp)) (tlit 2748779 (-38)) then XMVector3Normalize b vTmp
  else XMVector3Normalize b (XMVectorScale b vTmp (tlit 3125 5)).
(** 354-452 *)
Definition CalculateEigenVectors b (m11 m12 m13 m22 m23 m33 e1 e2 e3 : T L) : vec * vec * vec :=
  let V1 := CalculateEigenVector b m11 m12 m13 m22 m23 m33 e1 in
  let V2 := CalculateEigenVector b m11 m12 m13 m22 m23 m33 e2 in
  let V3 := CalculateEigenVector b m11 m12 m13 m22 m23 m33 e3 in
  let v1z := all3 (veq V1 vzero) in
  let v2z := all3 (veq V2 vzero) in
  let v3z := all3 (veq V3 vzero) in
  let skew A B := tgt (tabs (qx (XMVector3Dot b A B))) (tlit 13421773 (-27)) in
  let e12 := skew V1 V2 in
  let e13 := skew V1 V3 in
  let e23 := skew V2 V3 in
  let perp V :=
    let vTmp := XMVector3Cross b IdR1 V in
    if tlt (qx (XMVector3LengthSq b vTmp)) (tlit 2748779 (-38)) then XMVector3Cross b IdR0 V else vTmp in
  if ((v1z && v2z && v3z) || (e12 && e13 && e23) || (e12 && v3z) || (e13 && v2z) || (e23 && v1z))%bool then (IdR0, IdR1, IdR2)
  else if (v1z && v2z)%bool then let V1 := XMVector3Normalize b (perp V3) in (V1, XMVector3Cross b V3 V1, V3)
  else if (v3z && v1z)%bool then let V3 := XMVector3Normalize b (perp V2) in (XMVector3Cross b V2 V3, V2, V3)
  else if (v2z && v3z)%bool then let V2 := XMVector3Normalize b (perp V1) in (V1, V2, XMVector3Cross b V1 V2)
  else if (v1z || e12)%bool then (XMVector3Cross b V2 V3, V2, V3)
  else if (v2z || e23)%bool then (V1, XMVector3Cross b V3 V1, V3)
  else if (v3z || e13)%bool then (V1, V2, XMVector3Cross b V1 V2)
  else (V1, V2, V3).
(** 455-485 *)
Definition EigenVectorsFromCovariance b (Cxx Cyy Czz Cxy Cxz Cyz : T L) : vec * vec * vec :=
  let e := - (Cxx + Cyy + Czz) in
  let f := Cxx * Cyy + Cyy * Czz + Czz * Cxx - Cxy * Cxy - Cxz * Cxz - Cyz * Cyz in
  let g := Cxy * Cxy * Czz + Cxz * Cxz * Cyy + Cyz * Cyz * Cxx - Cxy * Cyz * Cxz * two - Cxx * Cyy * Czz in
  match SolveCubic e f g with
  | None => (IdR0, IdR1, IdR2)
  | Some (ev1, ev2, ev3) => CalculateEigenVectors b Cxx Cxy Cxz Cyy Cyz Czz ev1 ev2 ev3
  end.
(** 3187-3261: the orientation from the points' covariance. [count] is [Count as f32]. *)
Definition points_orientation b (count : T L) (pts : list (float3 (T L))) : vec :=
  let CenterOfMass := fold_left (fun c p => XMVectorAdd b c (load3 p)) pts vzero in
  let CenterOfMass := XMVectorMultiply b CenterOfMass (XMVectorReciprocal b (qrep count)) in
  let '(D, E) := fold_left (fun '(D, E) p =>
    let Point := XMVectorSubtract b (load3 p) CenterOfMass in
    let XXY := swz Point I0 I0 I1 I3 in
    let YZZ := swz Point I1 I2 I2 I3 in
    (XMVectorAdd b D (XMVectorMultiply b Point Point), XMVectorAdd b E (XMVectorMultiply b XXY YZZ))) pts (vzero, vzero) in
  let '(v1, v2, v3) := EigenVectorsFromCovariance b (qx D) (qy D) (qz D) (qx E) (qy E) (qz E) in
  let R := Q (setlane v1 I3 zero) (setlane v2 I3 zero) (setlane v3 I3 zero) IdR3 in
  let Det := XMMatrixDeterminant b R in
  let R :=
    if qall (vlt Det vzero) then
      Q (XMVectorMultiply b (qx R) (qrep mone)) (XMVectorMultiply b (qy R) (qrep mone)) (XMVectorMultiply b (qz R) (qrep mone)) (qw R)
    else R in
  XMQuaternionNormalize b (XMQuaternionRotationMatrix b R).
(** 3263-3295: the box around the points for a given orientation. Only the first point is taken to the box frame. *)
Definition OBox_around b (vOrientation : vec) (pts : list (float3 (T L))) : OBox (T L) :=
  let R := XMMatrixRotationQuaternion b vOrientation in
  let InverseR := XMMatrixTranspose b R in
  let '(vMin, vMax) :=
    match pts with
    | nil => (vzero, vzero)
    | p0 :: ps => min_max b (XMVector3TransformNormal b (load3 p0) InverseR) (map load3 ps)
    end in
  let vCenter := XMVectorScale b (XMVectorAdd b vMin vMax) half in
  let vCenter := XMVector3TransformNormal b vCenter R in
  MkOBox (store3 vCenter) (store3 (XMVectorScale b (XMVectorSubtract b vMax vMin) half)) vOrientation.
(** 3164-3295; [old] is the box written to: with no points its centre is kept (3179-3183) *)
Definition OBox_CreateFromPoints b (old : OBox (T L)) (count : T L) (pts : list (float3 (T L))) : OBox (T L) :=
  match pts with
  | nil => MkOBox (ob_Center old) (F3 tqnan tqnan tqnan) id_orientation
  | _ => OBox_around b (points_orientation b count pts) pts
  end.
End ObbFromPoints.
