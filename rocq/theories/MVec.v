(** 2-, 3- and 4-component vector geometry, vector.rs. One definition per Rust function; the [match] on the backend
    follows the cfg attributes. Est variants (hardware approximations) and NEON are not modelled. *)
From Verif Require Import Base F32 Intrin Lane.

Section Vec.
Context {L : Lane}.
Notation vec := (quad (T L)).
Local Open Scope lane_scope.

(** g_XMEpsilon, globals.rs 56: 1.192092896e-7 parses to 2^-23 *)
Definition epsilon : T L := tlit 1 (-23).
(** g_XMNegateX, globals.rs 82 *)
Definition g_XMNegateX : vec := Q (tlit (-1) 0) one one one.
(** XMVectorEqualInt used on two comparison masks, vector.rs 2412-2446 *)
Definition mask_eq : quad bool -> quad bool -> quad bool := qmap2 Bool.eqb.
Definition mask_all (m : quad bool) : bool := qall m.

(** ** Angles: XM_PI, XM_2PI (lib.rs 1362-1363) rounded to binary32: 0x40490FDB and 0x40C90FDB *)
Definition XM_PI : T L := tlit 13176795 (-22).
Definition XM_2PI : T L := tlit 13176795 (-21).
Definition wrap_angles (b : backend) (Result : vec) : vec :=
  match b with
  | Scalar =>
    let Mask := vlt Result (qrep (- XM_PI)) in
    let Offset := vsel vzero (qrep XM_2PI) Mask in
    let Mask := vge Result (qrep XM_PI) in
    let Offset := vsel Offset (qrep (- XM_2PI)) Mask in
    XMVectorAdd b Result Offset
  | _ =>
    let vOffset := vand (vlt Result (qrep (- XM_PI))) (qrep XM_2PI) in
    let vResult := vadd Result vOffset in
    let vOffset := vand (vge vResult (qrep XM_PI)) (qrep XM_2PI) in
    vsub vResult vOffset
  end.
(** 3941-3988 and 4042-4090; the part after the sum/difference, [wrap_angles], is textually the same in both *)
Definition XMVectorAddAngles b (V1 V2 : vec) : vec := wrap_angles b (XMVectorAdd b V1 V2).
Definition XMVectorSubtractAngles b (V1 V2 : vec) : vec := wrap_angles b (XMVectorSubtract b V1 V2).

(** ** 2D *)
Definition mask2 : quad bool := Q true true false false.
(** the common "sum of x and y in every lane" prefixes *)
Definition dot2_sse2 (V1 V2 : vec) : vec :=
  let l := vmul V1 V2 in splat I0 (add_ss l (splat I1 l)).
(** 7797-7829 *)
Definition XMVector2Dot (b : backend) (V1 V2 : vec) : vec :=
  match b with
  | Scalar => qrep (qx V1 * qx V2 + qy V1 * qy V2)
  | _ => dot2_sse2 V1 V2
  end.
(** 7866-7899 *)
Definition XMVector2Cross (b : backend) (V1 V2 : vec) : vec :=
  match b with
  | Scalar => qrep ((qx V1 * qy V2) - (qy V1 * qx V2))
  | _ =>
    let r := vmul (permute_ps V2 I0 I1 I0 I1) V1 in
    splat I0 (sub_ss r (splat I1 r))
  end.
(** 7905-7911 *)
Definition XMVector2LengthSq b (V : vec) : vec := XMVector2Dot b V V.
(** 7968-8016 *)
Definition XMVector2ReciprocalLength (b : backend) (V : vec) : vec :=
  match b with
  | Scalar => XMVectorReciprocalSqrt b (XMVector2LengthSq b V)
  | SSE _ true _ _ => vdiv vone (vsqrt (dp_ps V V mask2))
  | SSE true _ _ _ => let l := vmul V V in splat I0 (div_ss vone (sqrt_ss (hadd l l)))
  | _ => let l := vmul V V in splat I0 (div_ss vone (sqrt_ss (add_ss l (splat I1 l))))
  end.
(** 8071-8117 *)
Definition XMVector2Length (b : backend) (V : vec) : vec :=
  match b with
  | Scalar => XMVectorSqrt b (XMVector2LengthSq b V)
  | SSE _ true _ _ => vsqrt (dp_ps V V mask2)
  | SSE true _ _ _ => let l := vmul V V in splat I0 (sqrt_ss (hadd l l))
  | _ => vsqrt (dot2_sse2 V V)
  end.
(** The tail shared by the SSE paths of XMVector{2,3,4}Normalize (8216-8296, 10204-10278, 12344-12424): divide by the
    length, lanes of zero length become 0, lanes of infinite squared length become QNaN *)
Definition normalize_tail (V vLengthSq : vec) : vec :=
  let vResult := vsqrt vLengthSq in
  let vZeroMask := vneq vzero vResult in
  let vNotInf := qmap (fun a => negb (is_pinf a)) vLengthSq in
  let vResult := vand vZeroMask (vdiv V vResult) in
  vsel (qrep tqnan) vResult vNotInf.
(** The tail shared by their scalar paths *)
Definition normalize_scalar (V len : vec) : vec :=
  let fLength := qx len in
  let fLength := if tgt fLength zero then one / fLength else fLength in
  Q (qx V * fLength) (qy V * fLength) (qz V * fLength) (qw V * fLength).
(** 8191-8296 *)
Definition XMVector2Normalize (b : backend) (V : vec) : vec :=
  match b with
  | Scalar => normalize_scalar V (XMVector2Length b V)
  | SSE _ true _ _ => normalize_tail V (dp_ps V V mask2)
  | SSE true _ _ _ => let l := vmul V V in normalize_tail V (moveldup (hadd l l))
  | _ => normalize_tail V (dot2_sse2 V V)
  end.
(** Body shared by XMVector{2,3,4}ClampLengthV (8327-8357, 10329-10358, 12497-12526) after the squared length *)
Definition clamp_length (b : backend) (V LengthMin LengthMax LengthSq : vec) : vec :=
  let RcpLength := XMVectorReciprocalSqrt b LengthSq in
  let InfiniteLength := qmap is_pinf LengthSq in
  let ZeroLength := veq LengthSq vzero in
  let Length := XMVectorMultiply b LengthSq RcpLength in
  let Normal := XMVectorMultiply b V RcpLength in
  let Select := mask_eq InfiniteLength ZeroLength in
  let Length := vsel LengthSq Length Select in
  let Normal := vsel LengthSq Normal Select in
  let ControlMax := vgt Length LengthMax in
  let ControlMin := vlt Length LengthMin in
  let ClampLength := vsel Length LengthMax ControlMax in
  let ClampLength := vsel ClampLength LengthMin ControlMin in
  let Result := XMVectorMultiply b Normal ClampLength in
  let Control := mask_eq ControlMax ControlMin in
  vsel Result V Control.
(** 8314-8359; [None] is the failed debug assertion *)
Definition XMVector2ClampLengthV (b : backend) (V LengthMin LengthMax : vec) : option vec :=
  if (teq (qy LengthMin) (qx LengthMin)
      && teq (qy LengthMax) (qx LengthMax)
      && (tge (qx LengthMin) zero && tge (qy LengthMin) zero)
      && (tge (qx LengthMax) zero && tge (qy LengthMax) zero)
      && (tge (qx LengthMax) (qx LengthMin) && tge (qy LengthMax) (qy LengthMin)))%bool
  then Some (clamp_length b V LengthMin LengthMax (XMVector2LengthSq b V))
  else None.
(** 8299-8310 *)
Definition XMVector2ClampLength b (V : vec) (LengthMin LengthMax : T L) : option vec :=
  XMVector2ClampLengthV b V (qrep LengthMin) (qrep LengthMax).
(** 8394-8406 *)
Definition XMVector2Reflect b (Incident Normal : vec) : vec :=
  let Result := XMVector2Dot b Incident Normal in
  let Result := XMVectorAdd b Result Result in
  XMVectorNegativeMultiplySubtract b Result Normal Incident.
(** 8495-8562 *)
Definition XMVector2RefractV (b : backend) (Incident Normal RefractionIndex : vec) : vec :=
  match b with
  | Scalar =>
    let IDotN := (qx Incident * qx Normal) + (qy Incident * qy Normal) in
    let RY := one - (IDotN * IDotN) in
    let RX := one - (RY * qx RefractionIndex * qx RefractionIndex) in
    let RY := one - (RY * qy RefractionIndex * qy RefractionIndex) in
    let RX :=
      if tge RX zero
      then (qx RefractionIndex * qx Incident) - (qx Normal * ((qx RefractionIndex * IDotN) + tsqrt RX))
      else zero in
    let RY :=
      if tge RY zero
      then (qy RefractionIndex * qy Incident) - (qy Normal * ((qy RefractionIndex * IDotN) + tsqrt RY))
      else zero in
    Q RX RY zero zero
  | _ =>
    let IDotN := XMVector2Dot b Incident Normal in
    let vTemp := FNMADD b IDotN IDotN vone in
    let vTemp := vmul vTemp RefractionIndex in
    let vTemp := FNMADD b vTemp RefractionIndex vone in
    let vMask := vgt vTemp vzero in
    let vTemp := vsqrt vTemp in
    let vTemp := FMADD b RefractionIndex IDotN vTemp in
    let vResult := vmul RefractionIndex Incident in
    let vResult := FNMADD b vTemp Normal vResult in
    vand vMask vResult
  end.
(** 8460-8468 *)
Definition XMVector2Refract b (Incident Normal : vec) (RefractionIndex : T L) : vec :=
  XMVector2RefractV b Incident Normal (qrep RefractionIndex).
(** 8596-8622 *)
Definition XMVector2Orthogonal (b : backend) (V : vec) : vec :=
  match b with
  | Scalar => Q (- qy V) (qx V) zero zero
  | _ => vmul (permute_ps V I3 I2 I0 I1) g_XMNegateX
  end.
(** 8747-8772 *)
Definition XMVector2LinePointDistance b (LinePoint1 LinePoint2 Point : vec) : vec :=
  let PointVector := XMVectorSubtract b Point LinePoint1 in
  let LineVector := XMVectorSubtract b LinePoint2 LinePoint1 in
  let LengthSq := XMVector2LengthSq b LineVector in
  let PointProjectionScale := XMVector2Dot b PointVector LineVector in
  let PointProjectionScale := XMVectorDivide b PointProjectionScale LengthSq in
  let DistanceVector := XMVectorMultiply b LineVector PointProjectionScale in
  let DistanceVector := XMVectorSubtract b PointVector DistanceVector in
  XMVector2Length b DistanceVector.
(** 8795-8875; the scalar path's XMVector2NearEqual(C, 0, eps) is |C.x - 0| <= eps and |C.y - 0| <= eps *)
Definition XMVector2IntersectLine (b : backend) (Line1Point1 Line1Point2 Line2Point1 Line2Point2 : vec) : vec :=
  let V1 := XMVectorSubtract b Line1Point2 Line1Point1 in
  let V2 := XMVectorSubtract b Line2Point2 Line2Point1 in
  let V3 := XMVectorSubtract b Line1Point1 Line2Point1 in
  let C1 := XMVector2Cross b V1 V2 in
  let C2 := XMVector2Cross b V2 V3 in
  match b with
  | Scalar =>
    let near0 c := (tle (tabs (qx c - zero)) epsilon && tle (tabs (qy c - zero)) epsilon)%bool in
    if near0 C1 then (if near0 C2 then qrep pinf else qrep tqnan)
    else XMVectorMultiplyAdd b V1 (XMVectorMultiply b C2 (XMVectorReciprocal b C1)) Line1Point1
  | _ =>
    let vResultMask := vgt (vmax (vsub vzero C1) C1) (qrep epsilon) in
    let vFailMask := vle (vmax (vsub vzero C2) C2) (qrep epsilon) in
    let vFail := vsel (qrep tqnan) (qrep pinf) vFailMask in
    let vResult := FMADD b (vdiv C2 C1) V1 Line1Point1 in
    vsel vFail vResult vResultMask
  end.

(** Row [i] of a matrix is [lane M i] *)
Notation mat := (quad (quad (T L))).
(** 8902-8931 *)
Definition XMVector2Transform (b : backend) (V : vec) (M : mat) : vec :=
  match b with
  | Scalar => XMVectorMultiplyAdd b (splat I0 V) (qx M) (XMVectorMultiplyAdd b (splat I1 V) (qy M) (qw M))
  | _ => FMADD b (splat I0 V) (qx M) (FMADD b (splat I1 V) (qy M) (qw M))
  end.
(** 8960-8974 *)
Definition XMVector2TransformCoord b (V : vec) (M : mat) : vec :=
  let Result := XMVectorMultiplyAdd b (splat I1 V) (qy M) (qw M) in
  let Result := XMVectorMultiplyAdd b (splat I0 V) (qx M) Result in
  XMVectorDivide b Result (splat I3 Result).
(** 8999-9028 *)
Definition XMVector2TransformNormal (b : backend) (V : vec) (M : mat) : vec :=
  match b with
  | Scalar => XMVectorMultiplyAdd b (splat I0 V) (qx M) (XMVectorMultiply b (splat I1 V) (qy M))
  | _ => FMADD b (splat I0 V) (qx M) (vmul (splat I1 V) (qy M))
  end.

(** ** 3D *)
(** 9700-9710: products, then x+y, then +z *)
Definition dot3_sse2 (V1 V2 : vec) : vec :=
  let d := vmul V1 V2 in
  let t := permute_ps d I2 I1 I2 I1 in
  let d := add_ss d t in
  splat I0 (add_ss d (splat I1 t)).
(** 9659-9712 *)
Definition XMVector3Dot (b : backend) (V1 V2 : vec) : vec :=
  match b with
  | Scalar => qrep (qx V1 * qx V2 + qy V1 * qy V2 + qz V1 * qz V2)
  | SSE _ true _ _ => dp_ps V1 V2 mask3
  | _ => dot3_sse2 V1 V2
  end.
(** 9743-9783 *)
Definition XMVector3Cross (b : backend) (V1 V2 : vec) : vec :=
  match b with
  | Scalar =>
    Q ((qy V1 * qz V2) - (qz V1 * qy V2))
      ((qz V1 * qx V2) - (qx V1 * qz V2))
      ((qx V1 * qy V2) - (qy V1 * qx V2))
      zero
  | _ =>
    let t1 := permute_ps V1 I3 I0 I2 I1 in
    let t2 := permute_ps V2 I3 I1 I0 I2 in
    let r := vmul t1 t2 in
    let t1 := permute_ps t1 I3 I0 I2 I1 in
    let t2 := permute_ps t2 I3 I1 I0 I2 in
    vand mask3 (FNMADD b t1 t2 r)
  end.
(** 9789-9794 *)
Definition XMVector3LengthSq b (V : vec) : vec := XMVector3Dot b V V.
(** 9877-9880 and twins: masked squares, two horizontal adds *)
Definition lensq3_sse3 (V : vec) : vec :=
  let d := vand mask3 (vmul V V) in let d := hadd d d in hadd d d.
(** 10019-10029: the SSE2 length sums x+z first, then y *)
Definition lensq3_sse2_xzy (V : vec) : vec :=
  let d := vmul V V in
  let t := permute_ps d I1 I2 I1 I2 in
  let d := add_ss d t in
  splat I0 (add_ss d (splat I1 t)).
(** 9849-9906 *)
Definition XMVector3ReciprocalLength (b : backend) (V : vec) : vec :=
  match b with
  | Scalar => XMVectorReciprocalSqrt b (XMVector3LengthSq b V)
  | SSE _ true _ _ => vdiv vone (vsqrt (dp_ps V V mask3))
  | SSE true _ _ _ => vdiv vone (vsqrt (lensq3_sse3 V))
  | _ => vdiv vone (vsqrt (dot3_sse2 V V))
  end.
(** 9981-10034 *)
Definition XMVector3Length (b : backend) (V : vec) : vec :=
  match b with
  | Scalar => XMVectorSqrt b (XMVector3LengthSq b V)
  | SSE _ true _ _ => vsqrt (dp_ps V V mask3)
  | SSE true _ _ _ => vsqrt (lensq3_sse3 V)
  | _ => vsqrt (lensq3_sse2_xzy V)
  end.
(** 10171-10280 *)
Definition XMVector3Normalize (b : backend) (V : vec) : vec :=
  match b with
  | Scalar => normalize_scalar V (XMVector3Length b V)
  | SSE _ true _ _ => normalize_tail V (dp_ps V V mask3)
  | SSE true _ _ _ => normalize_tail V (lensq3_sse3 V)
  | _ => normalize_tail V (dot3_sse2 V V)
  end.
(** 10323-10359 (no assertions), 10307-10317 *)
Definition XMVector3ClampLengthV b (V LengthMin LengthMax : vec) : vec :=
  clamp_length b V LengthMin LengthMax (XMVector3LengthSq b V).
Definition XMVector3ClampLength b (V : vec) (LengthMin LengthMax : T L) : vec :=
  XMVector3ClampLengthV b V (qrep LengthMin) (qrep LengthMax).
(** 10393-10405 *)
Definition XMVector3Reflect b (Incident Normal : vec) : vec :=
  let Result := XMVector3Dot b Incident Normal in
  let Result := XMVectorAdd b Result Result in
  XMVectorNegativeMultiplySubtract b Result Normal Incident.
(** Body shared by XMVector{3,4}RefractV (10504-10566, 12671-12739) after the dot product *)
Definition refract_body (b : backend) (Incident Normal RefractionIndex IDotN : vec) : vec :=
  match b with
  | Scalar =>
    let R := XMVectorNegativeMultiplySubtract b IDotN IDotN vone in
    let R := XMVectorMultiply b R RefractionIndex in
    let R := XMVectorNegativeMultiplySubtract b R RefractionIndex vone in
    if mask_all (vle R vzero) then vzero
    else
      let R := XMVectorSqrt b R in
      let R := XMVectorMultiplyAdd b RefractionIndex IDotN R in
      let Result := XMVectorMultiply b RefractionIndex Incident in
      XMVectorNegativeMultiplySubtract b Normal R Result
  | _ =>
    let R := FNMADD b IDotN IDotN vone in
    let R2 := vmul RefractionIndex RefractionIndex in
    let R := FNMADD b R R2 vone in
    if mask_all (vle R vzero) then vzero
    else
      let R := vsqrt R in
      let R := FMADD b RefractionIndex IDotN R in
      let vResult := vmul RefractionIndex Incident in
      FNMADD b R Normal vResult
  end.
(** 10495-10566, 10460-10468 *)
Definition XMVector3RefractV b (Incident Normal RefractionIndex : vec) : vec :=
  refract_body b Incident Normal RefractionIndex (XMVector3Dot b Incident Normal).
Definition XMVector3Refract b (Incident Normal : vec) (RefractionIndex : T L) : vec :=
  XMVector3RefractV b Incident Normal (qrep RefractionIndex).
(** 10582-10613; permute (1X,0X,0X,0X) of (A,B) is (B.x, A.x, A.x, A.x), proved of the bit-level model in C03 *)
Definition XMVector3Orthogonal b (V : vec) : vec :=
  let Z := splat I2 V in
  let YZYY := Q (qy V) (qz V) (qy V) (qy V) in
  let NegativeV := XMVectorSubtract b vzero V in
  let ZIsNegative := vlt Z vzero in
  let YZYYIsNegative := vlt YZYY vzero in
  let S := XMVectorAdd b YZYY Z in
  let D := XMVectorSubtract b YZYY Z in
  let Select := mask_eq ZIsNegative YZYYIsNegative in
  let R0 := Q (qx S) (qx NegativeV) (qx NegativeV) (qx NegativeV) in
  let R1 := Q (qx D) (qx V) (qx V) (qx V) in
  vsel R1 R0 Select.
(** 10738-10763 *)
Definition XMVector3LinePointDistance b (LinePoint1 LinePoint2 Point : vec) : vec :=
  let PointVector := XMVectorSubtract b Point LinePoint1 in
  let LineVector := XMVectorSubtract b LinePoint2 LinePoint1 in
  let LengthSq := XMVector3LengthSq b LineVector in
  let PointProjectionScale := XMVector3Dot b PointVector LineVector in
  let PointProjectionScale := XMVectorDivide b PointProjectionScale LengthSq in
  let DistanceVector := XMVectorMultiply b LineVector PointProjectionScale in
  let DistanceVector := XMVectorSubtract b PointVector DistanceVector in
  XMVector3Length b DistanceVector.
(** 10785-10798; the two out-parameters are returned as a pair *)
Definition XMVector3ComponentsFromNormal b (V Normal : vec) : vec * vec :=
  let Scale := XMVector3Dot b V Normal in
  let Parallel := XMVectorMultiply b Normal Scale in
  (Parallel, XMVectorSubtract b V Parallel).
(** 10884-10917 *)
Definition XMVector3Transform (b : backend) (V : vec) (M : mat) : vec :=
  match b with
  | Scalar =>
    let Result := XMVectorMultiplyAdd b (splat I2 V) (qz M) (qw M) in
    let Result := XMVectorMultiplyAdd b (splat I1 V) (qy M) Result in
    XMVectorMultiplyAdd b (splat I0 V) (qx M) Result
  | _ =>
    let vResult := FMADD b (splat I2 V) (qz M) (qw M) in
    let vResult := FMADD b (splat I1 V) (qy M) vResult in
    FMADD b (splat I0 V) (qx M) vResult
  end.
(** 10943-10960 *)
Definition XMVector3TransformCoord b (V : vec) (M : mat) : vec :=
  let Result := XMVectorMultiplyAdd b (splat I2 V) (qz M) (qw M) in
  let Result := XMVectorMultiplyAdd b (splat I1 V) (qy M) Result in
  let Result := XMVectorMultiplyAdd b (splat I0 V) (qx M) Result in
  XMVectorDivide b Result (splat I3 Result).
(** 10988-11021 *)
Definition XMVector3TransformNormal (b : backend) (V : vec) (M : mat) : vec :=
  match b with
  | Scalar =>
    let Result := XMVectorMultiply b (splat I2 V) (qz M) in
    let Result := XMVectorMultiplyAdd b (splat I1 V) (qy M) Result in
    XMVectorMultiplyAdd b (splat I0 V) (qx M) Result
  | _ =>
    let vResult := vmul (splat I2 V) (qz M) in
    let vResult := FMADD b (splat I1 V) (qy M) vResult in
    FMADD b (splat I0 V) (qx M) vResult
  end.

(** ** 4D *)
Definition mask4 : quad bool := qrep true.
(** 11853-11855 *)
Definition dot4_sse3 (V1 V2 : vec) : vec :=
  let t := vmul V1 V2 in let t := hadd t t in hadd t t.
(** 11860-11866 *)
Definition dot4_sse2 (V1 V2 : vec) : vec :=
  let t := vmul V1 V2 in
  let t2 := shuffle V2 t I1 I0 I0 I0 in
  let t2 := vadd t2 t in
  let t := shuffle t t2 I0 I3 I0 I0 in
  splat I2 (vadd t t2).
(** 11825-11868 *)
Definition XMVector4Dot (b : backend) (V1 V2 : vec) : vec :=
  match b with
  | Scalar => qrep (qx V1 * qx V2 + qy V1 * qy V2 + qz V1 * qz V2 + qw V1 * qw V2)
  | SSE _ true _ _ => dp_ps V1 V2 mask4
  | SSE true _ _ _ => dot4_sse3 V1 V2
  | _ => dot4_sse2 V1 V2
  end.
(** 11918-11986 *)
Definition XMVector4Cross (b : backend) (V1 V2 V3 : vec) : vec :=
  match b with
  | Scalar =>
    Q ((((qz V2 * qw V3) - (qw V2 * qz V3)) * qy V1) - (((qy V2 * qw V3) - (qw V2 * qy V3)) * qz V1)
         + (((qy V2 * qz V3) - (qz V2 * qy V3)) * qw V1))
      ((((qw V2 * qz V3) - (qz V2 * qw V3)) * qx V1) - (((qw V2 * qx V3) - (qx V2 * qw V3)) * qz V1)
         + (((qz V2 * qx V3) - (qx V2 * qz V3)) * qw V1))
      ((((qy V2 * qw V3) - (qw V2 * qy V3)) * qx V1) - (((qx V2 * qw V3) - (qw V2 * qx V3)) * qy V1)
         + (((qx V2 * qy V3) - (qy V2 * qx V3)) * qw V1))
      ((((qz V2 * qy V3) - (qy V2 * qz V3)) * qx V1) - (((qz V2 * qx V3) - (qx V2 * qz V3)) * qy V1)
         + (((qy V2 * qx V3) - (qx V2 * qy V3)) * qz V1))
  | _ =>
    let vResult := permute_ps V2 I2 I1 I3 I2 in
    let vTemp3 := permute_ps V3 I1 I3 I2 I3 in
    let vResult := vmul vResult vTemp3 in
    let vTemp2 := permute_ps V2 I1 I3 I2 I3 in
    let vTemp3 := permute_ps vTemp3 I1 I3 I0 I1 in
    let vResult := FNMADD b vTemp2 vTemp3 vResult in
    let vTemp1 := permute_ps V1 I0 I0 I0 I1 in
    let vResult := vmul vResult vTemp1 in
    let vTemp2 := permute_ps V2 I2 I0 I3 I1 in
    let vTemp3 := permute_ps V3 I0 I3 I0 I3 in
    let vTemp3 := vmul vTemp3 vTemp2 in
    let vTemp2 := permute_ps vTemp2 I2 I1 I2 I1 in
    let vTemp1 := permute_ps V3 I2 I0 I3 I1 in
    let vTemp3 := FNMADD b vTemp2 vTemp1 vTemp3 in
    let vTemp1 := permute_ps V1 I1 I1 I2 I2 in
    let vResult := FNMADD b vTemp1 vTemp3 vResult in
    let vTemp2 := permute_ps V2 I1 I0 I2 I1 in
    let vTemp3 := permute_ps V3 I0 I1 I0 I2 in
    let vTemp3 := vmul vTemp3 vTemp2 in
    let vTemp2 := permute_ps vTemp2 I2 I0 I2 I1 in
    let vTemp1 := permute_ps V3 I1 I0 I2 I1 in
    let vTemp3 := FNMADD b vTemp1 vTemp2 vTemp3 in
    let vTemp1 := permute_ps V1 I2 I3 I3 I3 in
    FMADD b vTemp3 vTemp1 vResult
  end.
(** 11992-11997 *)
Definition XMVector4LengthSq b (V : vec) : vec := XMVector4Dot b V V.
(** 12102-12114 and twins *)
Definition lensq4_sse2 (V : vec) : vec :=
  let l := vmul V V in
  let t := permute_ps l I3 I2 I3 I2 in
  let l := vadd l t in
  let l := permute_ps l I1 I0 I0 I0 in
  let t := shuffle t l I3 I3 I0 I0 in
  splat I2 (vadd l t).
(** 12063-12121 *)
Definition XMVector4ReciprocalLength (b : backend) (V : vec) : vec :=
  match b with
  | Scalar => XMVectorReciprocalSqrt b (XMVector4LengthSq b V)
  | SSE _ true _ _ => vdiv vone (vsqrt (dp_ps V V mask4))
  | SSE true _ _ _ => vdiv vone (vsqrt (dot4_sse3 V V))
  | _ => vdiv vone (vsqrt (lensq4_sse2 V))
  end.
(** 12188-12242 *)
Definition XMVector4Length (b : backend) (V : vec) : vec :=
  match b with
  | Scalar => XMVectorSqrt b (XMVector4LengthSq b V)
  | SSE _ true _ _ => vsqrt (dp_ps V V mask4)
  | SSE true _ _ _ => vsqrt (dot4_sse3 V V)
  | _ => vsqrt (lensq4_sse2 V)
  end.
(** 12312-12426 *)
Definition XMVector4Normalize (b : backend) (V : vec) : vec :=
  match b with
  | Scalar => normalize_scalar V (XMVector4Length b V)
  | SSE _ true _ _ => normalize_tail V (dp_ps V V mask4)
  | SSE true _ _ _ => normalize_tail V (dot4_sse3 V V)
  | _ => normalize_tail V (lensq4_sse2 V)
  end.
(** 12484-12528; [None] is the failed debug assertion *)
Definition XMVector4ClampLengthV (b : backend) (V LengthMin LengthMax : vec) : option vec :=
  let same v := (teq (qy v) (qx v) && teq (qz v) (qx v) && teq (qw v) (qx v))%bool in
  if (same LengthMin && same LengthMax
      && mask_all (vge LengthMin vzero) && mask_all (vge LengthMax vzero)
      && mask_all (vge LengthMax LengthMin))%bool
  then Some (clamp_length b V LengthMin LengthMax (XMVector4LengthSq b V))
  else None.
(** 12446-12456 *)
Definition XMVector4ClampLength b (V : vec) (LengthMin LengthMax : T L) : option vec :=
  XMVector4ClampLengthV b V (qrep LengthMin) (qrep LengthMax).
(** 12563-12575 *)
Definition XMVector4Reflect b (Incident Normal : vec) : vec :=
  let Result := XMVector4Dot b Incident Normal in
  let Result := XMVectorAdd b Result Result in
  XMVectorNegativeMultiplySubtract b Result Normal Incident.
(** 12665-12739, 12630-12638 *)
Definition XMVector4RefractV b (Incident Normal RefractionIndex : vec) : vec :=
  refract_body b Incident Normal RefractionIndex (XMVector4Dot b Incident Normal).
Definition XMVector4Refract b (Incident Normal : vec) (RefractionIndex : T L) : vec :=
  XMVector4RefractV b Incident Normal (qrep RefractionIndex).
(** 12774-12801 *)
Definition XMVector4Orthogonal (b : backend) (V : vec) : vec :=
  match b with
  | Scalar => Q (qz V) (qw V) (- qx V) (- qy V)
  | _ => vmul (permute_ps V I1 I0 I3 I2) (Q one one (tlit (-1) 0) (tlit (-1) 0))
  end.
(** 12924-12956 *)
Definition XMVector4Transform (b : backend) (V : vec) (M : mat) : vec :=
  match b with
  | Scalar =>
    let col i := (mij M I0 i * qx V) + (mij M I1 i * qy V) + (mij M I2 i * qz V) + (mij M I3 i * qw V) in
    Q (col I0) (col I1) (col I2) (col I3)
  | _ =>
    let vResult := vmul (splat I3 V) (qw M) in
    let vResult := FMADD b (splat I2 V) (qz M) vResult in
    let vResult := FMADD b (splat I1 V) (qy M) vResult in
    FMADD b (splat I0 V) (qx M) vResult
  end.
End Vec.
