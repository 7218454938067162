(** Bounding frusta and the triangle tests: collision.rs 3338-5671 and the methods of the other volumes that use them, on
    typed lanes, with the conventions of MCollide. *)
From Coq Require Import Reals List.
From Verif Require Import Base F32 Intrin Lane MVec MTrig MQuat MInterp MPlane MMatrix Shapes MCollide.

Section Frustum.
Context {L : Lane}.
Notation vec := (quad (T L)).
Notation matrix := (quad (quad (T L))).
Local Open Scope lane_scope.

(** ** triangle_tests *)
(** 5096-5191; the result is (hit, Dist) *)
Definition Triangle_IntersectsRay b (Origin Direction V0 V1 V2 : vec) : option (bool * T L) :=
  asserting (XMVector3IsUnit b Direction) (
  let e1 := XMVectorSubtract b V1 V0 in
  let e2 := XMVectorSubtract b V2 V0 in
  let p := XMVector3Cross b Direction e2 in
  let det := XMVector3Dot b e1 p in
  let s := XMVectorSubtract b Origin V0 in
  let u := XMVector3Dot b s p in
  let q := XMVector3Cross b s e1 in
  let v := XMVector3Dot b Direction q in
  let t := XMVector3Dot b e2 q in
  let found := (true, qx (XMVectorDivide b t det)) in
  if all3 (vge det g_RayEpsilon) then
    let No := vlt u vzero in
    let No := mor No (vgt u det) in
    let No := mor No (vlt v vzero) in
    let No := mor No (vgt (XMVectorAdd b u v) det) in
    let No := mor No (vlt t vzero) in
    Some (if qall No then (false, zero) else found)
  else if all3 (vle det g_RayNegEpsilon) then
    let No := vgt u vzero in
    let No := mor No (vlt u det) in
    let No := mor No (vgt v vzero) in
    let No := mor No (vlt (XMVectorAdd b u v) det) in
    let No := mor No (vgt t vzero) in
    Some (if qall No then (false, zero) else found)
  else Some (false, zero)).

(** the masks of 5226-5230: select lane x from the first argument and the others from the second, and so on *)
Definition sel0111 : quad bool := Q false true true true.
Definition sel1011 : quad bool := Q true false true true.
Definition sel1101 : quad bool := Q true true false true.
Definition msel (a c m : quad bool) : quad bool := qmap3 (fun x y (k : bool) => if k then y else x) a c m.
(** 5379-5433 and 5435-5489: reorder the vertices so that the first is alone on its side; [None] is the failed assertion *)
Definition reorder (V0 V1 V2 : vec) (IsLess IsGreater IsZero : quad bool) : option (vec * vec * vec * bool) :=
  let le := mor IsLess IsZero in
  let ge := mor IsGreater IsZero in
  if (all3 (msel ge IsLess sel0111) || all3 (msel IsGreater le sel0111))%bool then Some (V0, V1, V2, true)
  else if (all3 (msel le IsGreater sel0111) || all3 (msel IsLess ge sel0111))%bool then Some (V0, V2, V1, false)
  else if (all3 (msel ge IsLess sel1011) || all3 (msel IsGreater le sel1011))%bool then Some (V1, V2, V0, true)
  else if (all3 (msel le IsGreater sel1011) || all3 (msel IsLess ge sel1011))%bool then Some (V1, V0, V2, false)
  else if (all3 (msel ge IsLess sel1101) || all3 (msel IsGreater le sel1101))%bool then Some (V2, V0, V1, true)
  else if (all3 (msel le IsGreater sel1101) || all3 (msel IsLess ge sel1101))%bool then Some (V2, V1, V0, false)
  else None.
(** 5296-5305 and its five repetitions: all three points on the far side of an edge, in the plane of the triangle *)
Definition edge_out b (N Va Vb P0 P1 P2 : vec) : bool :=
  let Axis := XMVector3Cross b N (XMVectorSubtract b Vb Va) in
  let Dist := XMVector3Dot b Axis Va in
  let MinDist := XMVector3Dot b P0 Axis in
  let MinDist := XMVectorMin b MinDist (XMVector3Dot b P1 Axis) in
  let MinDist := XMVectorMin b MinDist (XMVector3Dot b P2 Axis) in
  qall (vge MinDist Dist).
(** 5241-5243 and 5268-5270: signed distances of three points in lanes x, y, z *)
Definition tri_dists b (N O P0 P1 P2 : vec) : vec :=
  let D := XMVector3Dot b N (XMVectorSubtract b P0 O) in
  let D := vsel D (XMVector3Dot b N (XMVectorSubtract b P1 O)) mask_y in
  vsel D (XMVector3Dot b N (XMVectorSubtract b P2 O)) mask_z.
(** 5218-5520. XMComparisonAllTrue of the record of XMVectorGreaterR is [qall] of its mask (C06). Line 5274 takes the
    absolute value of BDist where ADist would be expected; the model follows the code. *)
Definition Triangle_IntersectsTriangle b (A0 A1 A2 B0 B1 B2 : vec) : option bool :=
  let N1 := XMVector3Cross b (XMVectorSubtract b A1 A0) (XMVectorSubtract b A2 A0) in
  asserting (negb (all3 (veq N1 vzero))) (
  let BDist := tri_dists b N1 A0 B0 B1 B2 in
  let BDistIsZero := vgt g_RayEpsilon (XMVectorAbs b BDist) in
  let BDist := vsel BDist vzero BDistIsZero in
  let BDistIsLess := vgt vzero BDist in
  let BDistIsGreater := vgt BDist vzero in
  if (qall BDistIsLess || qall BDistIsGreater)%bool then Some false else
  let N2 := XMVector3Cross b (XMVectorSubtract b B1 B0) (XMVectorSubtract b B2 B0) in
  asserting (negb (all3 (veq N2 vzero))) (
  let ADist := tri_dists b N2 B0 A0 A1 A2 in
  let ADistIsZero := vgt g_RayEpsilon (XMVectorAbs b BDist) in
  let ADist := vsel ADist vzero ADistIsZero in
  let ADistIsLess := vgt vzero ADist in
  let ADistIsGreater := vgt ADist vzero in
  if (qall ADistIsLess || qall ADistIsGreater)%bool then Some false else
  if (qall ADistIsZero || qall BDistIsZero)%bool then
    Some (negb (edge_out b N1 A0 A1 B0 B1 B2 || edge_out b N1 A1 A2 B0 B1 B2 || edge_out b N1 A2 A0 B0 B1 B2 ||
                edge_out b N2 B0 B1 A0 A1 A2 || edge_out b N2 B1 B2 A0 A1 A2 || edge_out b N2 B2 B0 A0 A1 A2))%bool
  else
  obind (reorder A0 A1 A2 ADistIsLess ADistIsGreater ADistIsZero) (fun '(AA0, AA1, AA2, bPositiveA) =>
  obind (reorder B0 B1 B2 BDistIsLess BDistIsGreater BDistIsZero) (fun '(BB0, BB1, BB2, bPositiveB) =>
  let '(Delta0, Delta1) :=
    if xorb bPositiveA bPositiveB then (XMVectorSubtract b BB0 AA0, XMVectorSubtract b AA0 BB0)
    else (XMVectorSubtract b AA0 BB0, XMVectorSubtract b BB0 AA0) in
  let Dist0 := XMVector3Dot b Delta0 (XMVector3Cross b (XMVectorSubtract b BB2 BB0) (XMVectorSubtract b AA2 AA0)) in
  if qall (vgt Dist0 vzero) then Some false else
  let Dist1 := XMVector3Dot b Delta1 (XMVector3Cross b (XMVectorSubtract b BB1 BB0) (XMVectorSubtract b AA1 AA0)) in
  if qall (vgt Dist1 vzero) then Some false else Some true)))).
(** 5542-5575 *)
Definition Triangle_IntersectsPlane b (V0 V1 V2 Plane : vec) : option PlaneIntersectionType :=
  asserting (XMPlaneIsUnit b Plane) (
  let TV0 := insert_lane I3 V0 vone in
  let TV1 := insert_lane I3 V1 vone in
  let TV2 := insert_lane I3 V2 vone in
  Some (plane_verdict (FastIntersectTrianglePlane b TV0 TV1 TV2 Plane))).
(** 5611-5671 *)
Definition Triangle_ContainedBy b (V0 V1 V2 Plane0 Plane1 Plane2 Plane3 Plane4 Plane5 : vec) : ContainmentType :=
  let TV0 := insert_lane I3 V0 vone in
  let TV1 := insert_lane I3 V1 vone in
  let TV2 := insert_lane I3 V2 vone in
  contained_by (FastIntersectTrianglePlane b TV0 TV1 TV2) Plane0 Plane1 Plane2 Plane3 Plane4 Plane5.

(** ** BoundingFrustum *)
(** the planes of the local frustum, e.g. 3469-3475 *)
Definition NearPlane (f : Frustum (T L)) : vec := Q zero zero mone (fr_Near f).
Definition FarPlane (f : Frustum (T L)) : vec := Q zero zero one (- fr_Far f).
Definition RightPlane (f : Frustum (T L)) : vec := Q one zero (- fr_RightSlope f) zero.
Definition LeftPlane (f : Frustum (T L)) : vec := Q mone zero (fr_LeftSlope f) zero.
Definition TopPlane (f : Frustum (T L)) : vec := Q zero one (- fr_TopSlope f) zero.
Definition BottomPlane (f : Frustum (T L)) : vec := Q zero mone (fr_BottomSlope f) zero.
Definition local_planes (f : Frustum (T L)) : list vec :=
  (NearPlane f :: FarPlane f :: RightPlane f :: LeftPlane f :: TopPlane f :: BottomPlane f :: nil)%list.
(** the directions of its edges, e.g. 3838-3841 *)
Definition RightTop (f : Frustum (T L)) : vec := Q (fr_RightSlope f) (fr_TopSlope f) one zero.
Definition RightBottom (f : Frustum (T L)) : vec := Q (fr_RightSlope f) (fr_BottomSlope f) one zero.
Definition LeftTop (f : Frustum (T L)) : vec := Q (fr_LeftSlope f) (fr_TopSlope f) one zero.
Definition LeftBottom (f : Frustum (T L)) : vec := Q (fr_LeftSlope f) (fr_BottomSlope f) one zero.
(** the corners in the order of most functions, e.g. 3845-3853 *)
Definition local_corners b (f : Frustum (T L)) : list vec :=
  let vNear := qrep (fr_Near f) in
  let vFar := qrep (fr_Far f) in
  (XMVectorMultiply b (RightTop f) vNear :: XMVectorMultiply b (RightBottom f) vNear ::
   XMVectorMultiply b (LeftTop f) vNear :: XMVectorMultiply b (LeftBottom f) vNear ::
   XMVectorMultiply b (RightTop f) vFar :: XMVectorMultiply b (RightBottom f) vFar ::
   XMVectorMultiply b (LeftTop f) vFar :: XMVectorMultiply b (LeftBottom f) vFar :: nil)%list.
(** corners after turning the edges by [Orientation] and moving them by [Origin], e.g. 4549-4568 *)
Definition turned_corners b (f : Frustum (T L)) (Orientation Origin : vec) : list vec :=
  let RightTop := XMVector3Rotate b (RightTop f) Orientation in
  let RightBottom := XMVector3Rotate b (RightBottom f) Orientation in
  let LeftTop := XMVector3Rotate b (LeftTop f) Orientation in
  let LeftBottom := XMVector3Rotate b (LeftBottom f) Orientation in
  let vNear := qrep (fr_Near f) in
  let vFar := qrep (fr_Far f) in
  (XMVectorMultiplyAdd b RightTop vNear Origin :: XMVectorMultiplyAdd b RightBottom vNear Origin ::
   XMVectorMultiplyAdd b LeftTop vNear Origin :: XMVectorMultiplyAdd b LeftBottom vNear Origin ::
   XMVectorMultiplyAdd b RightTop vFar Origin :: XMVectorMultiplyAdd b RightBottom vFar Origin ::
   XMVectorMultiplyAdd b LeftTop vFar Origin :: XMVectorMultiplyAdd b LeftBottom vFar Origin :: nil)%list.
(** the six edge directions, e.g. 4057-4064 *)
Definition edge_axes b (RightTop RightBottom LeftTop LeftBottom : vec) : list vec :=
  (RightTop :: RightBottom :: LeftTop :: LeftBottom :: XMVectorSubtract b RightTop LeftTop :: XMVectorSubtract b LeftBottom LeftTop :: nil)%list.
(** the running minimum and maximum of [d] over a list that is not empty, e.g. 4079-4088 *)
Definition min_max_of b (d : vec -> vec) (Cs : list vec) : vec * vec :=
  match Cs with
  | C0 :: Cs => min_max b (d C0) (map d Cs)
  | nil => (vzero, vzero)  (** not reached: there are eight corners *)
  end.
(** 3360-3401 *)
Definition Frustum_TransformMatrix b (f : Frustum (T L)) (M : matrix) : option (Frustum (T L)) :=
  let vOrigin := load3 (fr_Origin f) in
  let vOrientation := fr_Orientation f in
  asserting (XMQuaternionIsUnit b vOrientation) (
  let nM := Q (XMVector3Normalize b (qx M)) (XMVector3Normalize b (qy M)) (XMVector3Normalize b (qz M)) IdR3 in
  let Rotation := XMQuaternionRotationMatrix b nM in
  let vOrientation := XMQuaternionMultiply b vOrientation Rotation in
  let vOrigin := XMVector3Transform b vOrigin M in
  let dX := XMVector3Dot b (qx M) (qx M) in
  let dY := XMVector3Dot b (qy M) (qy M) in
  let dZ := XMVector3Dot b (qz M) (qz M) in
  let d := XMVectorMax b dX (XMVectorMax b dY dZ) in
  let Scale := tsqrt (qx d) in
  Some (MkFrustum (store3 vOrigin) vOrientation (fr_RightSlope f) (fr_LeftSlope f) (fr_TopSlope f) (fr_BottomSlope f)
    (fr_Near f * Scale) (fr_Far f * Scale))).
(** 3423-3451 *)
Definition Frustum_TransformDecomposed b (f : Frustum (T L)) (Scale : T L) (Rotation Translation : vec) : option (Frustum (T L)) :=
  asserting (XMQuaternionIsUnit b Rotation) (
  let vOrigin := load3 (fr_Origin f) in
  let vOrientation := fr_Orientation f in
  asserting (XMQuaternionIsUnit b vOrientation) (
  let vOrientation := XMQuaternionMultiply b vOrientation Rotation in
  let vOrigin := XMVectorAdd b (XMVector3Rotate b (XMVectorScale b vOrigin Scale) Rotation) Translation in
  Some (MkFrustum (store3 vOrigin) vOrientation (fr_RightSlope f) (fr_LeftSlope f) (fr_TopSlope f) (fr_BottomSlope f)
    (fr_Near f * Scale) (fr_Far f * Scale)))).
(** 3467-3502 *)
Definition Frustum_ContainsPoint b (f : Frustum (T L)) (Point : vec) : option ContainmentType :=
  let vOrigin := load3 (fr_Origin f) in
  let vOrientation := fr_Orientation f in
  asserting (XMQuaternionIsUnit b vOrientation) (
  let TPoint := XMVector3InverseRotate b (XMVectorSubtract b Point vOrigin) vOrientation in
  let TPoint := insert_lane I3 TPoint vone in
  let Outside := fold_left (fun Outside P => mor Outside (vgt (XMVector4Dot b TPoint P) vzero)) (local_planes f) mfalse in
  Some (if negb (qall Outside) then CONTAINS else DISJOINT)).
(** 4934-4999 (all six planes asked for), and the start of every Contains method, e.g. 3561-3587 *)
Definition world_plane b (f : Frustum (T L)) (P : vec) : vec :=
  XMPlaneNormalize b (plane_transform b P (fr_Orientation f) (load3 (fr_Origin f))).
Definition Frustum_GetPlanes b (f : Frustum (T L)) : list vec := map (world_plane b f) (local_planes f).
Definition by_planes {A} b (f : Frustum (T L)) (k : vec -> vec -> vec -> vec -> vec -> vec -> A) : A :=
  k (world_plane b f (NearPlane f)) (world_plane b f (FarPlane f)) (world_plane b f (RightPlane f))
    (world_plane b f (LeftPlane f)) (world_plane b f (TopPlane f)) (world_plane b f (BottomPlane f)).
(** 4535-4589 *)
Definition Frustum_plane_test b (f : Frustum (T L)) (Plane : vec) : quad bool * quad bool :=
  match turned_corners b f (fr_Orientation f) (insert_lane I3 (load3 (fr_Origin f)) vone) with
  | C0 :: Cs => FastIntersectFrustumPlane b C0 Cs Plane
  | nil => (mfalse, mfalse)  (** not reached: there are eight corners *)
  end.
Definition Frustum_IntersectsPlane b (f : Frustum (T L)) (Plane : vec) : option PlaneIntersectionType :=
  asserting (XMPlaneIsUnit b Plane) (
  asserting (XMQuaternionIsUnit b (fr_Orientation f)) (
  Some (plane_verdict (Frustum_plane_test b f Plane)))).
(** 4733-4833 *)
Definition Frustum_ContainedBy b (f : Frustum (T L)) (Plane0 Plane1 Plane2 Plane3 Plane4 Plane5 : vec) : option ContainmentType :=
  asserting (XMQuaternionIsUnit b (fr_Orientation f)) (
  Some (contained_by (Frustum_plane_test b f) Plane0 Plane1 Plane2 Plane3 Plane4 Plane5)).
(** 3522-3553, 3559-3590, 3596-3627, 3633-3664, 3670-3701 *)
Definition Frustum_ContainsTriangle b (f : Frustum (T L)) (V0 V1 V2 : vec) : ContainmentType := by_planes b f (Triangle_ContainedBy b V0 V1 V2).
Definition Frustum_ContainsSphere b (f : Frustum (T L)) (s : Sphere (T L)) : ContainmentType := by_planes b f (Sphere_ContainedBy b s).
Definition Frustum_ContainsBox b (f : Frustum (T L)) (bx : Box (T L)) : ContainmentType := by_planes b f (Box_ContainedBy b bx).
Definition Frustum_ContainsOrientedBox b (f : Frustum (T L)) (o : OBox (T L)) : option ContainmentType := by_planes b f (OBox_ContainedBy b o).
Definition Frustum_ContainsFrustum b (f g : Frustum (T L)) : option ContainmentType := by_planes b f (Frustum_ContainedBy b g).
(** 3707-3892. Each of the planes is paired with those of the adjacent faces (3793-3800), the edges with the indices of
    3857-3862. *)
Definition Frustum_IntersectsSphere b (f : Frustum (T L)) (s : Sphere (T L)) : option bool :=
  let P0 := NearPlane f in
  let P1 := FarPlane f in
  let P2 := XMVector3Normalize b (RightPlane f) in
  let P3 := XMVector3Normalize b (LeftPlane f) in
  let P4 := XMVector3Normalize b (TopPlane f) in
  let P5 := XMVector3Normalize b (BottomPlane f) in
  let vOrigin := load3 (fr_Origin f) in
  let vOrientation := fr_Orientation f in
  asserting (XMQuaternionIsUnit b vOrientation) (
  let vRadius := qrep (sp_Radius s) in
  let vCenter := XMVector3InverseRotate b (XMVectorSubtract b (load3 (sp_Center s)) vOrigin) vOrientation in
  let vCenter := insert_lane I3 vCenter vone in
  let Planes := (P0 :: P1 :: P2 :: P3 :: P4 :: P5 :: nil)%list in
  let '(Outside, InsideAll, CenterInsideAll) := fold_left (fun '(Outside, InsideAll, CenterInsideAll) P =>
    let Dist := XMVector4Dot b vCenter P in
    (mor Outside (vgt Dist vRadius), mand InsideAll (vle Dist (XMVectorNegate b vRadius)),
     mand CenterInsideAll (vle Dist vzero))) Planes (mfalse, mtrue, mtrue) in
  if qall Outside then Some false
  else if qall InsideAll then Some true
  else if qall CenterInsideAll then Some true
  else
  let faces := ((P0, P2, P3, P4, P5) :: (P1, P2, P3, P4, P5) :: (P2, P0, P1, P4, P5) :: (P3, P0, P1, P4, P5) ::
                (P4, P0, P1, P2, P3) :: (P5, P0, P1, P2, P3) :: nil)%list in
  let Intersects := fold_left (fun Intersects '(P, A0, A1, A2, A3) =>
    let Dist := XMVector4Dot b vCenter P in
    let Point := XMVectorNegativeMultiplySubtract b P Dist vCenter in
    let Point := insert_lane I3 Point vone in
    let InsideFace := fold_left (fun acc A => mand acc (vle (XMVector4Dot b Point A) vzero)) (A0 :: A1 :: A2 :: A3 :: nil)%list mtrue in
    mor Intersects (mand (vgt Dist vzero) InsideFace)) faces mfalse in
  if qall Intersects then Some true else
  match local_corners b f with
  | (C0 :: C1 :: C2 :: C3 :: C4 :: C5 :: C6 :: C7 :: nil)%list =>
    let edges := ((C0, C1) :: (C2, C3) :: (C0, C2) :: (C1, C3) :: (C4, C5) :: (C6, C7) :: (C4, C6) :: (C5, C7) ::
                  (C0, C4) :: (C1, C5) :: (C2, C6) :: (C3, C7) :: nil)%list in
    let RadiusSq := XMVectorMultiply b vRadius vRadius in
    let Intersects := fold_left (fun Intersects '(Ca, Cb) =>
      let Point := PointOnLineSegmentNearestPoint b Ca Cb vCenter in
      let Delta := XMVectorSubtract b vCenter Point in
      let DistSq := XMVector3Dot b Delta Delta in
      mor Intersects (vle DistSq RadiusSq)) edges Intersects in
    Some (qall Intersects)
  | _ => None  (** not reached: there are eight corners *)
  end).
(** 3968-3970 and its repetitions: dot products with the three rows in lanes x, y, z *)
Definition row_dots b (V : vec) (R : matrix) : vec :=
  let d := XMVector3Dot b V (qx R) in
  let d := vsel d (XMVector3Dot b V (qy R)) mask_y in
  vsel d (XMVector3Dot b V (qz R)) mask_z.
(** 3912-4112 *)
Definition Frustum_IntersectsOrientedBox b (f : Frustum (T L)) (o : OBox (T L)) : option bool :=
  let vOrigin := load3 (fr_Origin f) in
  let FrustumOrientation := fr_Orientation f in
  asserting (XMQuaternionIsUnit b FrustumOrientation) (
  let Extents := load3 (ob_Extents o) in
  asserting (XMQuaternionIsUnit b (ob_Orientation o)) (
  let Center := XMVector3InverseRotate b (XMVectorSubtract b (load3 (ob_Center o)) vOrigin) FrustumOrientation in
  let BoxOrientation := XMQuaternionMultiply b (ob_Orientation o) (XMQuaternionConjugate b FrustumOrientation) in
  let Center := insert_lane I3 Center vone in
  let R := XMMatrixRotationQuaternion b BoxOrientation in
  let '(Outside, InsideAll, CenterInsideAll) := fold_left (fun '(Outside, InsideAll, CenterInsideAll) P =>
    let Dist := XMVector4Dot b Center P in
    let Radius := XMVector3Dot b Extents (XMVectorAbs b (row_dots b P R)) in
    (mor Outside (vgt Dist Radius), mand InsideAll (vle Dist (XMVectorNegate b Radius)),
     mand CenterInsideAll (vle Dist vzero))) (local_planes f) (mfalse, mtrue, mtrue) in
  if qall Outside then Some false
  else if qall InsideAll then Some true
  else if qall CenterInsideAll then Some true
  else
  let Corners := local_corners b f in
  let '(FrustumMin, FrustumMax) := min_max_of b (fun C => row_dots b C R) Corners in
  let BoxDist := row_dots b Center R in
  let Result := mor (vgt FrustumMin (XMVectorAdd b BoxDist Extents)) (vlt FrustumMax (XMVectorSubtract b BoxDist Extents)) in
  if any3 Result then Some false else
  let axes := edge_axes b (RightTop f) (RightBottom f) (LeftTop f) (LeftBottom f) in
  let Outside := fold_left (fun Outside row => fold_left (fun Outside edge =>
    let Axis := XMVector3Cross b row edge in
    let '(FrustumMin, FrustumMax) := min_max_of b (fun C => XMVector3Dot b Axis C) Corners in
    let Dist := XMVector3Dot b Center Axis in
    let Radius := XMVector3Dot b Extents (XMVectorAbs b (row_dots b Axis R)) in
    let Outside := mor Outside (vgt Dist (XMVectorAdd b FrustumMax Radius)) in
    mor Outside (vlt Dist (XMVectorSubtract b FrustumMin Radius))) axes Outside) (qx R :: qy R :: qz R :: nil)%list Outside in
  Some (negb (qall Outside)))).
(** 3898-3906 *)
Definition Frustum_IntersectsBox b (f : Frustum (T L)) (bx : Box (T L)) : option bool := Frustum_IntersectsOrientedBox b f (obox_of bx).
(** 4118-4343; [f] is [self] (frustum B of the code), [g] the argument (frustum A). The loop at 4268 visits corner 0 a
    second time, which leaves the minimum as it is. *)
Definition Frustum_IntersectsFrustum b (f g : Frustum (T L)) : option bool :=
  let OriginB := load3 (fr_Origin f) in
  let OrientationB := fr_Orientation f in
  asserting (XMQuaternionIsUnit b OrientationB) (
  let axis_dist_B := ((Q zero zero mone zero, XMVectorNegate b (qrep (fr_Near f))) :: (Q zero zero one zero, qrep (fr_Far f)) ::
    (RightPlane f, vzero) :: (LeftPlane f, vzero) :: (TopPlane f, vzero) :: (BottomPlane f, vzero) :: nil)%list in
  let OrientationA := fr_Orientation g in
  asserting (XMQuaternionIsUnit b OrientationA) (
  let OriginA := XMVector3InverseRotate b (XMVectorSubtract b (load3 (fr_Origin g)) OriginB) OrientationB in
  let OrientationA := XMQuaternionMultiply b OrientationA (XMQuaternionConjugate b OrientationB) in
  let CornersA := turned_corners b g OrientationA OriginA in
  let '(Outside, InsideAll) := fold_left (fun '(Outside, InsideAll) '(Axis, PlaneDist) =>
    let '(Min, Max) := min_max_of b (fun C => XMVector3Dot b Axis C) CornersA in
    (mor Outside (vgt Min PlaneDist), mand InsideAll (vle Max PlaneDist))) axis_dist_B (mfalse, mtrue) in
  if qall Outside then Some false
  else if qall InsideAll then Some true
  else
  let CornersB := local_corners b f in
  let turn P := XMVector3Rotate b P OrientationA in
  let AxisA0 := turn (Q zero zero mone zero) in
  let AxisA1 := XMVectorNegate b AxisA0 in
  let AxisA2 := turn (RightPlane g) in
  let AxisA3 := turn (LeftPlane g) in
  let AxisA4 := turn (TopPlane g) in
  let AxisA5 := turn (BottomPlane g) in
  let near_corner := XMVectorMultiplyAdd b (turn (RightTop g)) (qrep (fr_Near g)) OriginA in
  let far_corner := XMVectorMultiplyAdd b (turn (RightTop g)) (qrep (fr_Far g)) OriginA in
  let axis_dist_A := ((AxisA0, XMVector3Dot b AxisA0 near_corner) :: (AxisA1, XMVector3Dot b AxisA1 far_corner) ::
    (AxisA2, XMVector3Dot b AxisA2 OriginA) :: (AxisA3, XMVector3Dot b AxisA3 OriginA) ::
    (AxisA4, XMVector3Dot b AxisA4 OriginA) :: (AxisA5, XMVector3Dot b AxisA5 OriginA) :: nil)%list in
  let Outside := fold_left (fun Outside '(Axis, PlaneDist) =>
    let Min := fst (min_max_of b (fun C => XMVector3Dot b Axis C) CornersB) in
    mor Outside (vgt Min PlaneDist)) axis_dist_A Outside in
  if qall Outside then Some false else
  let axesA := edge_axes b (turn (RightTop g)) (turn (RightBottom g)) (turn (LeftTop g)) (turn (LeftBottom g)) in
  let axesB := edge_axes b (RightTop f) (RightBottom f) (LeftTop f) (LeftBottom f) in
  let Outside := fold_left (fun Outside ea => fold_left (fun Outside eb =>
    let Axis := XMVector3Cross b ea eb in
    let '(MinA, MaxA) := min_max_of b (fun C => XMVector3Dot b Axis C) CornersA in
    let '(MinB, MaxB) := min_max_of b (fun C => XMVector3Dot b Axis C) CornersB in
    let Outside := mor Outside (vgt MinA MaxB) in
    mor Outside (vgt MinB MaxA)) axesB Outside) axesA Outside in
  Some (negb (qall Outside)))).
(** 4363-4519. The planes here carry minus the offset of the others (4366-4367). From 4437 on the code uses the vertices
    in world space against the corners of the local frustum; the model follows the code. *)
Definition Frustum_IntersectsTriangle b (f : Frustum (T L)) (V0 V1 V2 : vec) : option bool :=
  let Planes := (Q zero zero mone (- fr_Near f) :: Q zero zero one (fr_Far f) :: RightPlane f :: LeftPlane f :: TopPlane f :: BottomPlane f :: nil)%list in
  let vOrigin := load3 (fr_Origin f) in
  let vOrientation := fr_Orientation f in
  asserting (XMQuaternionIsUnit b vOrientation) (
  let TV0 := XMVector3InverseRotate b (XMVectorSubtract b V0 vOrigin) vOrientation in
  let TV1 := XMVector3InverseRotate b (XMVectorSubtract b V1 vOrigin) vOrientation in
  let TV2 := XMVector3InverseRotate b (XMVectorSubtract b V2 vOrigin) vOrientation in
  let '(Outside, InsideAll) := fold_left (fun '(Outside, InsideAll) P =>
    let Dist0 := XMVector3Dot b TV0 P in
    let Dist1 := XMVector3Dot b TV1 P in
    let Dist2 := XMVector3Dot b TV2 P in
    let MinDist := XMVectorMin b (XMVectorMin b Dist0 Dist1) Dist2 in
    let MaxDist := XMVectorMax b (XMVectorMax b Dist0 Dist1) Dist2 in
    let PlaneDist := splat I3 P in
    (mor Outside (vgt MinDist PlaneDist), mand InsideAll (vle MaxDist PlaneDist))) Planes (mfalse, mtrue) in
  if qall Outside then Some false
  else if qall InsideAll then Some true
  else
  let Corners := local_corners b f in
  let Normal := XMVector3Cross b (XMVectorSubtract b V1 V0) (XMVectorSubtract b V2 V0) in
  let Dist := XMVector3Dot b Normal V0 in
  let '(MinDist, MaxDist) := min_max_of b (fun C => XMVector3Dot b C Normal) Corners in
  let Outside := mor (vgt MinDist Dist) (vlt MaxDist Dist) in
  if qall Outside then Some false else
  let tri_axes := (XMVectorSubtract b V1 V0 :: XMVectorSubtract b V2 V1 :: XMVectorSubtract b V0 V2 :: nil)%list in
  let axes := edge_axes b (RightTop f) (RightBottom f) (LeftTop f) (LeftBottom f) in
  let Outside := fold_left (fun Outside e => fold_left (fun Outside fe =>
    let Axis := XMVector3Cross b e fe in
    let Dist0 := XMVector3Dot b V0 Axis in
    let Dist1 := XMVector3Dot b V1 Axis in
    let Dist2 := XMVector3Dot b V2 Axis in
    let MinA := XMVectorMin b (XMVectorMin b Dist0 Dist1) Dist2 in
    let MaxA := XMVectorMax b (XMVectorMax b Dist0 Dist1) Dist2 in
    let '(MinB, MaxB) := min_max_of b (fun C => XMVector3Dot b Axis C) Corners in
    let Outside := mor Outside (vgt MinA MaxB) in
    mor Outside (vgt MinB MaxA)) axes Outside) tri_axes Outside in
  Some (negb (qall Outside))).
(** 4640-4690: one plane of the ray test; [inl] is an early return of false, [inr] the interval (tnear, tfar) *)
Definition ray_step b (f : Frustum (T L)) (rayOrigin Direction : vec) (st : unit + T L * T L) (P : vec) : unit + T L * T L :=
  match st with
  | inl u => inl u
  | inr (tnear, tfar) =>
    let Plane := world_plane b f P in
    let AxisDotOrigin := XMPlaneDotCoord b Plane rayOrigin in
    let AxisDotDirection := XMVector3Dot b Plane Direction in
    if all3 (vle (XMVectorAbs b AxisDotDirection) g_RayEpsilon) then
      if all3 (vgt AxisDotOrigin vzero) then inl tt else inr (tnear, tfar)
    else
      let vd := qx AxisDotDirection in
      let vn := qx AxisDotOrigin in
      let t := - vn / vd in
      if tlt vd zero then
        if tgt t tfar then inl tt else inr (if tgt t tnear then t else tnear, tfar)
      else
        if tlt t tnear then inl tt else inr (tnear, if tlt t tfar then t else tfar)
  end.
(** 4614-4707 *)
Definition Frustum_IntersectsRay b (f : Frustum (T L)) (rayOrigin Direction : vec) : option (bool * T L) :=
  obind (Frustum_ContainsPoint b f rayOrigin) (fun c =>
  match c with
  | CONTAINS => Some (true, zero)
  | _ =>
    match fold_left (ray_step b f rayOrigin Direction) (local_planes f) (inr (tlit (-16777215) 104, tlit 16777215 104)) with
    | inl _ => Some (false, zero)
    | inr (tnear, tfar) =>
      let distance := if tge tnear zero then tnear else tfar in
      Some (if tge distance zero then (true, distance) else (false, zero))
    end
  end).
(** 4854-4908 *)
Definition Frustum_CreateFromMatrix b (Projection : matrix) (rhcoords : bool) : Frustum (T L) :=
  let matInverse := snd (XMMatrixInverse b Projection) in
  let point x y z := XMVector4Transform b (Q x y z one) matInverse in
  let by_z P := XMVectorMultiply b P (XMVectorReciprocal b (splat I2 P)) in
  let by_w P := XMVectorMultiply b P (XMVectorReciprocal b (splat I3 P)) in
  let p0 := by_z (point one zero one) in
  let p1 := by_z (point mone zero one) in
  let p2 := by_z (point zero one one) in
  let p3 := by_z (point zero mone one) in
  let p4 := by_w (point zero zero zero) in
  let p5 := by_w (point zero zero one) in
  MkFrustum (F3 zero zero zero) (Q zero zero zero one) (qx p0) (qx p1) (qy p2) (qy p3)
    (if rhcoords then qz p5 else qz p4) (if rhcoords then qz p4 else qz p5).
(** 5020-5059 *)
Definition Frustum_GetCorners b (f : Frustum (T L)) : option (list (float3 (T L))) :=
  let vOrigin := load3 (fr_Origin f) in
  let vOrientation := fr_Orientation f in
  asserting (XMQuaternionIsUnit b vOrientation) (
  let vNear := qrep (fr_Near f) in
  let vFar := qrep (fr_Far f) in
  let Cs := (XMVectorMultiply b (LeftTop f) vNear :: XMVectorMultiply b (RightTop f) vNear ::
    XMVectorMultiply b (RightBottom f) vNear :: XMVectorMultiply b (LeftBottom f) vNear ::
    XMVectorMultiply b (LeftTop f) vFar :: XMVectorMultiply b (RightTop f) vFar ::
    XMVectorMultiply b (RightBottom f) vFar :: XMVectorMultiply b (LeftBottom f) vFar :: nil)%list in
  Some (map (fun C => store3 (XMVectorAdd b (XMVector3Rotate b C vOrientation) vOrigin)) Cs)).

(** ** The other volumes against a frustum *)
(** 917-957 and 1013-1015 *)
Definition Sphere_ContainsFrustum b (s : Sphere (T L)) (f : Frustum (T L)) : option ContainmentType :=
  obind (Frustum_IntersectsSphere b f s) (fun hit =>
  if negb hit then Some DISJOINT else
  let vCenter := load3 (sp_Center s) in
  let vRadius := qrep (sp_Radius s) in
  let RadiusSq := XMVectorMultiply b vRadius vRadius in
  let vOrigin := load3 (fr_Origin f) in
  let vOrientation := fr_Orientation f in
  asserting (XMQuaternionIsUnit b vOrientation) (
  let InsideAll := fold_left (fun acc C =>
    let C := XMVectorAdd b (XMVector3Rotate b C vOrientation) vOrigin in
    mand acc (vle (XMVector3LengthSq b (XMVectorSubtract b vCenter C)) RadiusSq)) (local_corners b f) mtrue in
  Some (if all3 InsideAll then CONTAINS else INTERSECTS))).
Definition Sphere_IntersectsFrustum b (s : Sphere (T L)) (f : Frustum (T L)) : option bool := Frustum_IntersectsSphere b f s.
(** 1448-1452 *)
Definition Sphere_CreateFromFrustum b (f : Frustum (T L)) : option (Sphere (T L)) :=
  obind (Frustum_GetCorners b f) (fun Corners => Some (Sphere_CreateFromPoints b Corners)).
(** 1781-1802 and 1877-1879 *)
Definition Box_ContainsFrustum b (bx : Box (T L)) (f : Frustum (T L)) : option ContainmentType :=
  obind (Frustum_IntersectsBox b f bx) (fun hit =>
  if negb hit then Some DISJOINT else
  obind (Frustum_GetCorners b f) (fun Corners =>
  let vCenter := load3 (bx_Center bx) in
  let vExtents := load3 (bx_Extents bx) in
  let Inside := fold_left (fun acc C => mand acc (vle (XMVectorAbs b (XMVectorSubtract b (load3 C) vCenter)) vExtents)) Corners mtrue in
  Some (if all3 Inside then CONTAINS else INTERSECTS))).
Definition Box_IntersectsFrustum b (bx : Box (T L)) (f : Frustum (T L)) : option bool := Frustum_IntersectsBox b f bx.
(** 2598-2623 and 2892-2894 *)
Definition OBox_ContainsFrustum b (o : OBox (T L)) (f : Frustum (T L)) : option ContainmentType :=
  obind (Frustum_IntersectsOrientedBox b f o) (fun hit =>
  if negb hit then Some DISJOINT else
  obind (Frustum_GetCorners b f) (fun Corners =>
  let vCenter := load3 (ob_Center o) in
  let vExtents := load3 (ob_Extents o) in
  let vOrientation := ob_Orientation o in
  asserting (XMQuaternionIsUnit b vOrientation) (
  let inside C := XMVector3InBounds b (XMVector3InverseRotate b (XMVectorSubtract b (load3 C) vCenter) vOrientation) vExtents in
  Some (if forallb inside Corners then CONTAINS else INTERSECTS)))).
Definition OBox_IntersectsFrustum b (o : OBox (T L)) (f : Frustum (T L)) : option bool := Frustum_IntersectsOrientedBox b f o.
End Frustum.
