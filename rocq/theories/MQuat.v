(** Quaternions, misc.rs 162-1632, and the vector rotations built on them, vector.rs 10817-10857. Est variants are
    in MEst.v. Out-parameters become tuples; [None] is a failed debug assertion. *)
From Coq Require Import Reals.
From Verif Require Import Base F32 Intrin Lane MVec MTrig.

Section Quat.
Context {L : Lane} {lm : Libm L}.
Notation vec := (quad (T L)).
Notation matrix := (quad (quad (T L))).
Local Open Scope lane_scope.

Definition mone : T L := tlit (-1) 0.
(** XMVectorNearEqual, vector.rs 2457-2502, and XMVectorInBounds 2834-2874, on typed lanes *)
Definition XMVectorNearEqual (b : backend) (V1 V2 Epsilon : vec) : quad bool :=
  vle (XMVectorAbs b (vsub V1 V2)) Epsilon.
Definition XMVectorInBounds (b : backend) (V Bounds : vec) : quad bool :=
  qmap2 (fun a m => (tle a m && tle (- m) a)%bool) V Bounds.
(** XMVectorSplatConstant, lib.rs 2841-2870, without its debug assertions (the callers pass constants that satisfy
    them). SSE: the integer times 2^-k. Scalar: XMConvertVectorIntToFloat (convert.rs 11-24), which reads the lanes as
    unsigned and divides by [1 >> k]. *)
Definition XMVectorSplatConstant (b : backend) (i : Z) (k : Z) : vec :=
  match b with
  | Scalar => qrep (tlit (i mod 2 ^ 32) 0 * (one / tlit (Z.shiftr 1 k) 0))
  | _ => qrep (tlit i (- k))
  end.
(** (XMVectorGetY(T) == XMVectorGetX(T)) && ..., the assertion of every V-form *)
Definition lanes_equal (t : vec) : bool := (teq (qy t) (qx t) && teq (qz t) (qx t) && teq (qw t) (qx t))%bool.

(** 162-168 *)
Definition XMQuaternionDot b (Q1 Q2 : vec) : vec := XMVector4Dot b Q1 Q2.
(** 210-270 *)
Definition XMQuaternionMultiply (b : backend) (Q1 Q2 : vec) : vec :=
  match b with
  | Scalar =>
    Q ((qw Q2 * qx Q1) + (qx Q2 * qw Q1) + (qy Q2 * qz Q1) - (qz Q2 * qy Q1))
      ((qw Q2 * qy Q1) - (qx Q2 * qz Q1) + (qy Q2 * qw Q1) + (qz Q2 * qx Q1))
      ((qw Q2 * qz Q1) + (qx Q2 * qy Q1) - (qy Q2 * qx Q1) + (qz Q2 * qw Q1))
      ((qw Q2 * qw Q1) - (qx Q2 * qx Q1) - (qy Q2 * qy Q1) - (qz Q2 * qz Q1))
  | _ =>
    let ControlWZYX := Q one mone one mone in
    let ControlZWXY := Q one one mone mone in
    let ControlYXWZ := Q mone one one mone in
    let vResult := permute_ps Q2 I3 I3 I3 I3 in
    let Q2X := permute_ps Q2 I0 I0 I0 I0 in
    let Q2Y := permute_ps Q2 I1 I1 I1 I1 in
    let Q2Z := permute_ps Q2 I2 I2 I2 I2 in
    let vResult := vmul vResult Q1 in
    let Q1Shuffle := permute_ps Q1 I0 I1 I2 I3 in
    let Q2X := vmul Q2X Q1Shuffle in
    let Q1Shuffle := permute_ps Q1Shuffle I2 I3 I0 I1 in
    let vResult := FMADD b Q2X ControlWZYX vResult in
    let Q2Y := vmul Q2Y Q1Shuffle in
    let Q1Shuffle := permute_ps Q1Shuffle I0 I1 I2 I3 in
    let Q2Y := vmul Q2Y ControlZWXY in
    let Q2Z := vmul Q2Z Q1Shuffle in
    let Q2Y := FMADD b Q2Z ControlYXWZ Q2Y in
    vadd vResult Q2Y
  end.
(** 292-297, 318-323, 344-349, 402-407 *)
Definition XMQuaternionLengthSq b (q : vec) : vec := XMVector4LengthSq b q.
Definition XMQuaternionReciprocalLength b (q : vec) : vec := XMVector4ReciprocalLength b q.
Definition XMQuaternionLength b (q : vec) : vec := XMVector4Length b q.
Definition XMQuaternionNormalize b (q : vec) : vec := XMVector4Normalize b q.
(** 435-463 *)
Definition XMQuaternionConjugate (b : backend) (q : vec) : vec :=
  match b with
  | Scalar => Q (- qx q) (- qy q) (- qz q) (qw q)
  | _ => vmul q (Q mone mone mone one)
  end.
(** 499-518 *)
Definition XMQuaternionInverse (b : backend) (q : vec) : vec :=
  let L := XMVector4LengthSq b q in
  let Conjugate := XMQuaternionConjugate b q in
  let Control := vle L (qrep epsilon) in
  let Result := XMVectorDivide b Conjugate L in
  vsel Result vzero Control.
(** 540-563; [1.0 - 0.00001] is OneMinus1e5 *)
Definition XMQuaternionLn (b : backend) (q : vec) : vec :=
  let QW := splat I3 q in
  let Q0 := vsel vzero q mask3 in
  let ControlW := XMVectorInBounds b QW (qrep OneMinus1e5) in
  let Theta := XMVectorACos b QW in
  let SinTheta := XMVectorSin b Theta in
  let S := XMVectorDivide b Theta SinTheta in
  let Result := XMVectorMultiply b Q0 S in
  vsel Q0 Result ControlW.
(** 585-609 *)
Definition XMQuaternionExp (b : backend) (q : vec) : vec :=
  let Theta := XMVector3Length b q in
  let '(SinTheta, CosTheta) := XMVectorSinCos b Theta in
  let S := XMVectorDivide b SinTheta Theta in
  let Result := XMVectorMultiply b q S in
  let Control := XMVectorNearEqual b Theta vzero (qrep epsilon) in
  let Result := vsel Result q Control in
  vsel CosTheta Result mask3.
(** 685-774, the body of XMQuaternionSlerpV after its assertion *)
Definition slerp_body (b : backend) (Q0 Q1 t : vec) : vec :=
  match b with
  | Scalar =>
    let CosOmega := XMQuaternionDot b Q0 Q1 in
    let Control := vlt CosOmega vzero in
    let Sign := vsel vone (qrep mone) Control in
    let CosOmega := XMVectorMultiply b CosOmega Sign in
    let Control := vlt CosOmega (qrep OneMinus1e5) in
    let SinOmega := XMVectorNegativeMultiplySubtract b CosOmega CosOmega vone in
    let SinOmega := XMVectorSqrt b SinOmega in
    let Omega := XMVectorATan2 b SinOmega CosOmega in
    let V01 := Q (- qz t) (qw t) zero zero in
    let V01 := XMVectorAdd b IdR0 V01 in
    let InvSinOmega := XMVectorReciprocal b SinOmega in
    let S0 := XMVectorMultiply b V01 Omega in
    let S0 := XMVectorSin b S0 in
    let S0 := XMVectorMultiply b S0 InvSinOmega in
    let S0 := vsel V01 S0 Control in
    let S1 := splat I1 S0 in
    let S0 := splat I0 S0 in
    let S1 := XMVectorMultiply b S1 Sign in
    let Result := XMVectorMultiply b Q0 S0 in
    XMVectorMultiplyAdd b Q1 S1 Result
  | _ =>
    let CosOmega := XMQuaternionDot b Q0 Q1 in
    let Control := vlt CosOmega vzero in
    let Sign := vsel vone (qrep mone) Control in
    let CosOmega := vmul CosOmega Sign in
    let Control := vlt CosOmega (qrep OneMinus1e5) in
    let SinOmega := vmul CosOmega CosOmega in
    let SinOmega := vsub vone SinOmega in
    let SinOmega := vsqrt SinOmega in
    let Omega := XMVectorATan2 b SinOmega CosOmega in
    let V01 := permute_ps t I2 I3 I0 I1 in
    let V01 := vand (Q true true false false) V01 in
    let V01 := Q (- qx V01) (qy V01) (qz V01) (qw V01) in
    let V01 := vadd IdR0 V01 in
    let S0 := vmul V01 Omega in
    let S0 := XMVectorSin b S0 in
    let S0 := vdiv S0 SinOmega in
    let S0 := vsel V01 S0 Control in
    let S1 := splat I1 S0 in
    let S0 := splat I0 S0 in
    let S1 := vmul S1 Sign in
    let Result := vmul Q0 S0 in
    let S1 := vmul S1 Q1 in
    vadd Result S1
  end.
(** 677-775, 638-646 *)
Definition XMQuaternionSlerpV (b : backend) (Q0 Q1 t : vec) : option vec :=
  if lanes_equal t then Some (slerp_body b Q0 Q1 t) else None.
Definition XMQuaternionSlerp (b : backend) (Q0 Q1 : vec) (t : T L) : option vec := XMQuaternionSlerpV b Q0 Q1 (qrep t).
(** 865-888, 818-828 *)
Definition XMQuaternionSquadV (b : backend) (Q0 Q1 Q2 Q3 t : vec) : option vec :=
  if lanes_equal t then
    let Two := XMVectorSplatConstant b 2 0 in
    obind (XMQuaternionSlerpV b Q0 Q3 t) (fun Q03 => obind (XMQuaternionSlerpV b Q1 Q2 t) (fun Q12 =>
      let TP := XMVectorNegativeMultiplySubtract b t t t in
      let TP := XMVectorMultiply b TP Two in
      XMQuaternionSlerpV b Q03 Q12 TP))
  else None.
Definition XMQuaternionSquad (b : backend) (Q0 Q1 Q2 Q3 : vec) (t : T L) : option vec :=
  XMQuaternionSquadV b Q0 Q1 Q2 Q3 (qrep t).
(** 981-1030; the three out-parameters as a triple (A, B, C) *)
Definition XMQuaternionSquadSetup (b : backend) (Q0 Q1 Q2 Q3 : vec) : vec * vec * vec :=
  let LS12 := XMQuaternionLengthSq b (XMVectorAdd b Q1 Q2) in
  let LD12 := XMQuaternionLengthSq b (XMVectorSubtract b Q1 Q2) in
  let SQ2 := XMVectorNegate b Q2 in
  let Control1 := vlt LS12 LD12 in
  let SQ2 := vsel Q2 SQ2 Control1 in
  let LS01 := XMQuaternionLengthSq b (XMVectorAdd b Q0 Q1) in
  let LD01 := XMQuaternionLengthSq b (XMVectorSubtract b Q0 Q1) in
  let SQ0 := XMVectorNegate b Q0 in
  let LS23 := XMQuaternionLengthSq b (XMVectorAdd b SQ2 Q3) in
  let LD23 := XMQuaternionLengthSq b (XMVectorSubtract b SQ2 Q3) in
  let SQ3 := XMVectorNegate b Q3 in
  let Control0 := vlt LS01 LD01 in
  let Control2 := vlt LS23 LD23 in
  let SQ0 := vsel Q0 SQ0 Control0 in
  let SQ3 := vsel Q3 SQ3 Control2 in
  let InvQ1 := XMQuaternionInverse b Q1 in
  let InvQ2 := XMQuaternionInverse b SQ2 in
  let LnQ0 := XMQuaternionLn b (XMQuaternionMultiply b InvQ1 SQ0) in
  let LnQ2 := XMQuaternionLn b (XMQuaternionMultiply b InvQ1 SQ2) in
  let LnQ1 := XMQuaternionLn b (XMQuaternionMultiply b InvQ2 Q1) in
  let LnQ3 := XMQuaternionLn b (XMQuaternionMultiply b InvQ2 SQ3) in
  let NegativeOneQuarter := XMVectorSplatConstant b (-1) 2 in
  let ExpQ02 := XMVectorMultiply b (XMVectorAdd b LnQ0 LnQ2) NegativeOneQuarter in
  let ExpQ13 := XMVectorMultiply b (XMVectorAdd b LnQ1 LnQ3) NegativeOneQuarter in
  let ExpQ02 := XMQuaternionExp b ExpQ02 in
  let ExpQ13 := XMQuaternionExp b ExpQ13 in
  (XMQuaternionMultiply b Q1 ExpQ02, XMQuaternionMultiply b SQ2 ExpQ13, SQ2).
(** 1104-1128; 0.00001 is 0x3727C5AC *)
Definition XMQuaternionBaryCentric (b : backend) (Q0 Q1 Q2 : vec) (f g : T L) : option vec :=
  let s := f + g in
  if (tlt s (tlit 2748779 (-38)) && tgt s (- tlit 2748779 (-38)))%bool then Some Q0
  else
    obind (XMQuaternionSlerp b Q0 Q1 s) (fun Q01 => obind (XMQuaternionSlerp b Q0 Q2 s) (fun Q02 =>
      XMQuaternionSlerp b Q01 Q02 (g / s))).
(** 1162-1194 *)
Definition XMQuaternionBaryCentricV (b : backend) (Q0 Q1 Q2 F G : vec) : option vec :=
  if (lanes_equal F && lanes_equal G)%bool then
    let Epsilon := XMVectorSplatConstant b 1 16 in
    let S := XMVectorAdd b F G in
    if qall (XMVectorInBounds b S Epsilon) then Some Q0
    else
      obind (XMQuaternionSlerpV b Q0 Q1 S) (fun Q01 => obind (XMQuaternionSlerpV b Q0 Q2 S) (fun Q02 =>
        let GS := XMVectorReciprocal b S in
        let GS := XMVectorMultiply b G GS in
        XMQuaternionSlerpV b Q01 Q02 GS))
  else None.
(** 1216-1221 *)
Definition XMQuaternionIdentity : vec := IdR3.
(** 1303-1325: the part after the sines and cosines of the half angles *)
Definition roll_pitch_yaw_sc (b : backend) (SinAngles CosAngles : vec) : vec :=
  let Sign := Q one mone mone one in
  let P0 := perm SinAngles CosAngles P0X P1X P1X P1X in
  let Y0 := perm SinAngles CosAngles P1Y P0Y P1Y P1Y in
  let R0 := perm SinAngles CosAngles P1Z P1Z P0Z P1Z in
  let P1 := perm CosAngles SinAngles P0X P1X P1X P1X in
  let Y1 := perm CosAngles SinAngles P1Y P0Y P1Y P1Y in
  let R1 := perm CosAngles SinAngles P1Z P1Z P0Z P1Z in
  let Q1 := XMVectorMultiply b P1 Sign in
  let Q0 := XMVectorMultiply b P0 Y0 in
  let Q1 := XMVectorMultiply b Q1 Y1 in
  let Q0 := XMVectorMultiply b Q0 R0 in
  XMVectorMultiplyAdd b Q1 R1 Q0.
(** 1289-1327, 1253-1262 *)
Definition XMQuaternionRotationRollPitchYawFromVector (b : backend) (Angles : vec) : vec :=
  let HalfAngles := XMVectorMultiply b Angles (qrep half) in
  let '(SinAngles, CosAngles) := XMVectorSinCos b HalfAngles in
  roll_pitch_yaw_sc b SinAngles CosAngles.
Definition XMQuaternionRotationRollPitchYaw (b : backend) (Pitch Yaw Roll : T L) : vec :=
  XMQuaternionRotationRollPitchYawFromVector b (Q Pitch Yaw Roll zero).
(** 1351-1381: the part after the sine and cosine of the half angle; the SSE path's and/or build the same vectors *)
Definition rotation_normal_sc (b : backend) (NormalAxis : vec) (s c : T L) : vec :=
  match b with
  | Scalar =>
    let N := vsel vone NormalAxis mask3 in
    XMVectorMultiply b N (Q s s s c)
  | _ =>
    let N := vsel IdR3 NormalAxis mask3 in
    vmul N (Q s s s c)
  end.
Definition XMQuaternionRotationNormal (b : backend) (NormalAxis : vec) (Angle : T L) : vec :=
  match b with
  | Scalar => let '(s, c) := XMScalarSinCos (half * Angle) in rotation_normal_sc b NormalAxis s c
  | _ => let '(vs, vc) := XMVectorSinCos b (qrep (half * Angle)) in rotation_normal_sc b NormalAxis (qx vs) (qw vc)
  end.
(** XMVector3Equal(V, 0) and XMVector3IsInfinite(V) of the assertions *)
Definition is_zero3 (V : vec) : bool := (teq (qx V) zero && teq (qy V) zero && teq (qz V) zero)%bool.
Definition is_inf3 (V : vec) : bool := (is_pinf (tabs (qx V)) || is_pinf (tabs (qy V)) || is_pinf (tabs (qz V)))%bool.
(** 1410-1421 *)
Definition XMQuaternionRotationAxis (b : backend) (Axis : vec) (Angle : T L) : option vec :=
  if (is_zero3 Axis || is_inf3 Axis)%bool then None
  else Some (XMQuaternionRotationNormal b (XMVector3Normalize b Axis) Angle).
(** 1447-1597 *)
Definition XMQuaternionRotationMatrix (b : backend) (M : matrix) : vec :=
  match b with
  | Scalar =>
    let m (i j : idx) := lane (lane M i) j in
    let r22 := m I2 I2 in
    if tle r22 zero then
      let dif10 := m I1 I1 - m I0 I0 in
      let omr22 := one - r22 in
      if tle dif10 zero then
        let fourXSqr := omr22 - dif10 in
        let inv4x := half / tsqrt fourXSqr in
        Q (fourXSqr * inv4x) ((m I0 I1 + m I1 I0) * inv4x) ((m I0 I2 + m I2 I0) * inv4x) ((m I1 I2 - m I2 I1) * inv4x)
      else
        let fourYSqr := omr22 + dif10 in
        let inv4y := half / tsqrt fourYSqr in
        Q ((m I0 I1 + m I1 I0) * inv4y) (fourYSqr * inv4y) ((m I1 I2 + m I2 I1) * inv4y) ((m I2 I0 - m I0 I2) * inv4y)
    else
      let sum10 := m I1 I1 + m I0 I0 in
      let opr22 := one + r22 in
      if tle sum10 zero then
        let fourZSqr := opr22 - sum10 in
        let inv4z := half / tsqrt fourZSqr in
        Q ((m I0 I2 + m I2 I0) * inv4z) ((m I1 I2 + m I2 I1) * inv4z) (fourZSqr * inv4z) ((m I0 I1 - m I1 I0) * inv4z)
      else
        let fourWSqr := opr22 + sum10 in
        let inv4w := half / tsqrt fourWSqr in
        Q ((m I1 I2 - m I2 I1) * inv4w) ((m I2 I0 - m I0 I2) * inv4w) ((m I0 I1 - m I1 I0) * inv4w) (fourWSqr * inv4w)
  | _ =>
    let XMPMMP := Q one mone mone one in
    let XMMPMP := Q mone one mone one in
    let XMMMPP := Q mone mone one one in
    let r0 := qx M in
    let r1 := qy M in
    let r2 := qz M in
    let r00 := permute_ps r0 I0 I0 I0 I0 in
    let r11 := permute_ps r1 I1 I1 I1 I1 in
    let r22 := permute_ps r2 I2 I2 I2 I2 in
    let r11mr00 := vsub r11 r00 in
    let x2gey2 := vle r11mr00 vzero in
    let r11pr00 := vadd r11 r00 in
    let z2gew2 := vle r11pr00 vzero in
    let x2py2gez2pw2 := vle r22 vzero in
    let t0 := FMADD b XMPMMP r00 vone in
    let t1 := vmul XMMPMP r11 in
    let t2 := FMADD b XMMMPP r22 t0 in
    let x2y2z2w2 := vadd t1 t2 in
    let t0 := shuffle r0 r1 I1 I2 I2 I1 in
    let t1 := shuffle r1 r2 I1 I0 I0 I0 in
    let t1 := permute_ps t1 I1 I3 I2 I0 in
    let xyxzyz := vadd t0 t1 in
    let t0 := shuffle r2 r1 I0 I0 I0 I1 in
    let t1 := shuffle r1 r0 I1 I2 I2 I2 in
    let t1 := permute_ps t1 I1 I3 I2 I0 in
    let xwywzw := vsub t0 t1 in
    let xwywzw := vmul XMMPMP xwywzw in
    let t0 := shuffle x2y2z2w2 xyxzyz I0 I0 I1 I0 in
    let t1 := shuffle x2y2z2w2 xwywzw I0 I2 I3 I2 in
    let t2 := shuffle xyxzyz xwywzw I1 I0 I2 I1 in
    let tensor0 := shuffle t0 t2 I2 I0 I2 I0 in
    let tensor1 := shuffle t0 t2 I3 I1 I1 I2 in
    let tensor2 := shuffle t2 t1 I2 I0 I1 I0 in
    let tensor3 := shuffle t2 t1 I1 I2 I3 I2 in
    (* (m & a) | (~m & b) is vsel b a m *)
    let t0 := vsel tensor1 tensor0 x2gey2 in
    let t1 := vsel tensor3 tensor2 z2gew2 in
    let t2 := vsel t1 t0 x2py2gez2pw2 in
    let t0 := XMVector4Length b t2 in
    vdiv t2 t0
  end.
(** 1623-1632; (axis, angle) *)
Definition XMQuaternionToAxisAngle (b : backend) (q : vec) : vec * T L := (q, two * XMScalarACos (qw q)).

(** ** vector.rs 10817-10827, 10847-10857 *)
Definition XMVector3Rotate (b : backend) (V RotationQuaternion : vec) : vec :=
  let A := vsel vzero V mask3 in
  let q := XMQuaternionConjugate b RotationQuaternion in
  let Result := XMQuaternionMultiply b q A in
  XMQuaternionMultiply b Result RotationQuaternion.
Definition XMVector3InverseRotate (b : backend) (V RotationQuaternion : vec) : vec :=
  let A := vsel vzero V mask3 in
  let Result := XMQuaternionMultiply b RotationQuaternion A in
  let q := XMQuaternionConjugate b RotationQuaternion in
  XMQuaternionMultiply b Result q.

(** ** Angles between vectors, vector.rs 8676-8727, 10667-10718, 12855-12906 *)
Definition angle_of_cos (b : backend) (c : vec) : vec := XMVectorACos b (XMVectorClamp b c (qrep mone) vone).
Definition XMVector2AngleBetweenNormals b (N1 N2 : vec) : vec := angle_of_cos b (XMVector2Dot b N1 N2).
Definition XMVector3AngleBetweenNormals b (N1 N2 : vec) : vec := angle_of_cos b (XMVector3Dot b N1 N2).
Definition XMVector4AngleBetweenNormals b (N1 N2 : vec) : vec := angle_of_cos b (XMVector4Dot b N1 N2).
Definition XMVector2AngleBetweenVectors b (V1 V2 : vec) : vec :=
  let L1 := XMVector2ReciprocalLength b V1 in
  let L2 := XMVector2ReciprocalLength b V2 in
  let Dot := XMVector2Dot b V1 V2 in
  angle_of_cos b (XMVectorMultiply b Dot (XMVectorMultiply b L1 L2)).
Definition XMVector3AngleBetweenVectors b (V1 V2 : vec) : vec :=
  let L1 := XMVector3ReciprocalLength b V1 in
  let L2 := XMVector3ReciprocalLength b V2 in
  let Dot := XMVector3Dot b V1 V2 in
  angle_of_cos b (XMVectorMultiply b Dot (XMVectorMultiply b L1 L2)).
Definition XMVector4AngleBetweenVectors b (V1 V2 : vec) : vec :=
  let L1 := XMVector4ReciprocalLength b V1 in
  let L2 := XMVector4ReciprocalLength b V2 in
  let Dot := XMVector4Dot b V1 V2 in
  angle_of_cos b (XMVectorMultiply b Dot (XMVectorMultiply b L1 L2)).
End Quat.
