(** Planes and the Fresnel term, misc.rs 1657-2425. PlaneNormalizeEst is in MEst.v; PlaneEqual, NotEqual, IsNaN and
    IsInfinite (MMore.v) are the 4-component comparisons of MCompare.v. *)
From Verif Require Import Base F32 Intrin Lane MVec MTrig MQuat.

Section Plane.
Context {L : Lane}.
Notation vec := (quad (T L)).
Notation matrix := (quad (quad (T L))).
Local Open Scope lane_scope.

(** 1799-1805, 1840-1852, 1888-1894 *)
Definition XMPlaneDot b (P V : vec) : vec := XMVector4Dot b P V.
Definition XMPlaneDotCoord b (P V : vec) : vec :=
  let V3 := vsel vone V mask3 in XMVector4Dot b P V3.
Definition XMPlaneDotNormal b (P V : vec) : vec := XMVector3Dot b P V.
(** 1987-2042; both SSE variants use _mm_dp_ps *)
Definition XMPlaneNormalize (b : backend) (P : vec) : vec :=
  match b with
  | Scalar =>
    let fLengthSq := tsqrt ((qx P * qx P) + (qy P * qy P) + (qz P * qz P)) in
    let fLengthSq := if tgt fLengthSq zero then one / fLengthSq else fLengthSq in
    Q (qx P * fLengthSq) (qy P * fLengthSq) (qz P * fLengthSq) (qw P * fLengthSq)
  | _ =>
    let vLengthSq := dp_ps P P mask3 in
    let vResult := vsqrt vLengthSq in
    let vNotInf := qmap (fun a => negb (is_pinf a)) vLengthSq in
    let vResult := vdiv P vResult in
    vand vNotInf vResult
  end.
(** 1692-1701 *)
Definition XMPlaneNearEqual (b : backend) (P1 P2 Epsilon : vec) : bool :=
  let NP1 := XMPlaneNormalize b P1 in
  let NP2 := XMPlaneNormalize b P2 in
  qall (XMVectorNearEqual b NP1 NP2 Epsilon).
(** 2063-2086 *)
Definition XMPlaneIntersectLine (b : backend) (P LinePoint1 LinePoint2 : vec) : vec :=
  let V1 := XMVector3Dot b P LinePoint1 in
  let V2 := XMVector3Dot b P LinePoint2 in
  let D := XMVectorSubtract b V1 V2 in
  let VT := XMPlaneDotCoord b P LinePoint1 in
  let VT := XMVectorDivide b VT D in
  let Point := XMVectorSubtract b LinePoint2 LinePoint1 in
  let Point := XMVectorMultiplyAdd b Point VT LinePoint1 in
  let Control := XMVectorNearEqual b D vzero (qrep epsilon) in
  vsel Point (qrep tqnan) Control.
(** 2113-2143; the pair (LinePoint1, LinePoint2) *)
Definition XMPlaneIntersectPlane (b : backend) (P1 P2 : vec) : vec * vec :=
  let V1 := XMVector3Cross b P2 P1 in
  let LengthSq := XMVector3LengthSq b V1 in
  let V2 := XMVector3Cross b P2 V1 in
  let P1W := splat I3 P1 in
  let Point := XMVectorMultiply b V2 P1W in
  let V3 := XMVector3Cross b V1 P1 in
  let P2W := splat I3 P2 in
  let Point := XMVectorMultiplyAdd b V3 P2W Point in
  let LinePoint1 := XMVectorDivide b Point LengthSq in
  let LinePoint2 := XMVectorAdd b LinePoint1 V1 in
  let Control := vle LengthSq (qrep epsilon) in
  (vsel LinePoint1 (qrep tqnan) Control, vsel LinePoint2 (qrep tqnan) Control).
(** 2162-2179; also collision.rs internal::XMPlaneTransform's tail *)
Definition XMPlaneTransform (b : backend) (P : vec) (M : matrix) : vec :=
  let W := splat I3 P in
  let Z := splat I2 P in
  let Y := splat I1 P in
  let X := splat I0 P in
  let Result := XMVectorMultiply b W (qw M) in
  let Result := XMVectorMultiplyAdd b Z (qz M) Result in
  let Result := XMVectorMultiplyAdd b Y (qy M) Result in
  XMVectorMultiplyAdd b X (qx M) Result.
(** 2215-2225 *)
Definition XMPlaneFromPointNormal (b : backend) (Point Normal : vec) : vec :=
  let W := XMVector3Dot b Point Normal in
  let W := XMVectorNegate b W in
  vsel W Normal mask3.
(** 2271-2291 *)
Definition XMPlaneFromPoints (b : backend) (Point1 Point2 Point3 : vec) : vec :=
  let V21 := XMVectorSubtract b Point1 Point2 in
  let V31 := XMVectorSubtract b Point1 Point3 in
  let N := XMVector3Cross b V21 V31 in
  let N := XMVector3Normalize b N in
  let D := XMPlaneDotNormal b N Point1 in
  let D := XMVectorNegate b D in
  vsel D N mask3.
(** 2339-2424; [None] is the failed debug assertion *)
Definition XMFresnelTerm (b : backend) (CosIncidentAngle RefractionIndex : vec) : option vec :=
  if qany (qmap (fun a => is_pinf (tabs a)) CosIncidentAngle) then None else Some
  match b with
  | Scalar =>
    let G := XMVectorMultiplyAdd b RefractionIndex RefractionIndex (qrep mone) in
    let G := XMVectorMultiplyAdd b CosIncidentAngle CosIncidentAngle G in
    let G := XMVectorAbs b G in
    let G := XMVectorSqrt b G in
    let S := XMVectorAdd b G CosIncidentAngle in
    let D := XMVectorSubtract b G CosIncidentAngle in
    let V0 := XMVectorMultiply b D D in
    let V1 := XMVectorMultiply b S S in
    let V1 := XMVectorReciprocal b V1 in
    let V0 := XMVectorMultiply b (qrep half) V0 in
    let V0 := XMVectorMultiply b V0 V1 in
    let V2 := XMVectorMultiplyAdd b CosIncidentAngle S (qrep mone) in
    let V3 := XMVectorMultiplyAdd b CosIncidentAngle D vone in
    let V2 := XMVectorMultiply b V2 V2 in
    let V3 := XMVectorMultiply b V3 V3 in
    let V3 := XMVectorReciprocal b V3 in
    let V2 := XMVectorMultiplyAdd b V2 V3 vone in
    let Result := XMVectorMultiply b V0 V2 in
    XMVectorClamp b Result vzero vone
  | _ =>
    let G := vmul RefractionIndex RefractionIndex in
    let vTemp := vmul CosIncidentAngle CosIncidentAngle in
    let G := vsub G vone in
    let vTemp := vadd vTemp G in
    let G := vzero in
    let G := vsub G vTemp in
    let G := vmax G vTemp in
    let G := vsqrt G in
    let GAddC := vadd G CosIncidentAngle in
    let GSubC := vsub G CosIncidentAngle in
    let vResult := vmul GSubC GSubC in
    let vTemp := vmul GAddC GAddC in
    let vResult := vmul vResult (qrep half) in
    let vResult := vdiv vResult vTemp in
    let GAddC := vmul GAddC CosIncidentAngle in
    let GSubC := vmul GSubC CosIncidentAngle in
    let GAddC := vsub GAddC vone in
    let GSubC := vadd GSubC vone in
    let GAddC := vmul GAddC GAddC in
    let GSubC := vmul GSubC GSubC in
    let GAddC := vdiv GAddC GSubC in
    let GAddC := vadd GAddC vone in
    let vResult := vmul vResult GAddC in
    let vResult := vmax vResult vzero in
    vmin vResult vone
  end.
End Plane.
