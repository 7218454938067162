(** Interpolation, vector.rs 6596-7258. *)
From Verif Require Import Base F32 Intrin Lane MVec.

Section Interp.
Context {L : Lane}.
Notation vec := (quad (T L)).
Local Open Scope lane_scope.
Definition three : T L := tlit 3 0.
Definition four : T L := tlit 4 0.
Definition five : T L := tlit 5 0.

(** 6596-6622, 6657-6681 *)
Definition XMVectorLerpV (b : backend) (V0 V1 t : vec) : vec :=
  match b with
  | Scalar => let Length := XMVectorSubtract b V1 V0 in XMVectorMultiplyAdd b Length t V0
  | _ => let Length := vsub V1 V0 in FMADD b Length t V0
  end.
Definition XMVectorLerp (b : backend) (V0 V1 : vec) (t : T L) : vec :=
  match b with
  | Scalar =>
    let Scale := qrep t in
    let Length := XMVectorSubtract b V1 V0 in
    XMVectorMultiplyAdd b Length Scale V0
  | _ =>
    let L := vsub V1 V0 in
    let S := qrep t in
    FMADD b L S V0
  end.
(** 6733-6785 *)
Definition XMVectorHermite (b : backend) (Position0 Tangent0 Position1 Tangent1 : vec) (t : T L) : vec :=
  let t2 := t * t in
  let t3 := t * t2 in
  let P0 := qrep (two * t3 - three * t2 + one) in
  let T0 := qrep (t3 - two * t2 + t) in
  let P1 := qrep (- two * t3 + three * t2) in
  let T1 := qrep (t3 - t2) in
  match b with
  | Scalar =>
    let Result := XMVectorMultiply b P0 Position0 in
    let Result := XMVectorMultiplyAdd b T0 Tangent0 Result in
    let Result := XMVectorMultiplyAdd b P1 Position1 Result in
    XMVectorMultiplyAdd b T1 Tangent1 Result
  | _ =>
    let vResult := vmul P0 Position0 in
    let vResult := FMADD b Tangent0 T0 vResult in
    let vResult := FMADD b Position1 P1 vResult in
    FMADD b Tangent1 T1 vResult
  end.
(** 6827-6895 *)
Definition XMVectorHermiteV (b : backend) (Position0 Tangent0 Position1 Tangent1 t : vec) : vec :=
  match b with
  | Scalar =>
    let T2 := XMVectorMultiply b t t in
    let T3 := XMVectorMultiply b t T2 in
    let P0 := qrep (two * qx T3 - three * qx T2 + one) in
    let T0 := qrep (qy T3 - two * qy T2 + qy t) in
    let P1 := qrep (- two * qz T3 + three * qz T2) in
    let T1 := qrep (qw T3 - qw T2) in
    let Result := XMVectorMultiply b P0 Position0 in
    let Result := XMVectorMultiplyAdd b T0 Tangent0 Result in
    let Result := XMVectorMultiplyAdd b P1 Position1 Result in
    XMVectorMultiplyAdd b T1 Tangent1 Result
  | _ =>
    let CatMulT2 := Q (tlit (-3) 0) (tlit (-2) 0) three (tlit (-1) 0) in
    let CatMulT3 := Q two one (tlit (-2) 0) one in
    let T2 := vmul t t in
    let T3 := vmul t T2 in
    let T2 := vmul T2 CatMulT2 in
    let T3 := FMADD b T3 CatMulT3 T2 in
    let T2 := vand mask_y t in
    let T3 := vadd T3 T2 in
    let T3 := vadd T3 IdR0 in
    let vResult := permute_ps T3 I0 I0 I0 I0 in
    let vResult := vmul vResult Position0 in
    let T2 := permute_ps T3 I1 I1 I1 I1 in
    let vResult := FMADD b T2 Tangent0 vResult in
    let T2 := permute_ps T3 I2 I2 I2 I2 in
    let vResult := FMADD b T2 Position1 vResult in
    let T3 := permute_ps T3 I3 I3 I3 I3 in
    FMADD b T3 Tangent1 vResult
  end.
(** 6940-6993 *)
Definition XMVectorCatmullRom (b : backend) (Position0 Position1 Position2 Position3 : vec) (t : T L) : vec :=
  let t2 := t * t in
  let t3 := t * t2 in
  let P0 := qrep ((- t3 + two * t2 - t) * half) in
  let P1 := qrep ((three * t3 - five * t2 + two) * half) in
  let P2 := qrep ((- three * t3 + four * t2 + t) * half) in
  let P3 := qrep ((t3 - t2) * half) in
  match b with
  | Scalar =>
    let Result := XMVectorMultiply b P0 Position0 in
    let Result := XMVectorMultiplyAdd b P1 Position1 Result in
    let Result := XMVectorMultiplyAdd b P2 Position2 Result in
    XMVectorMultiplyAdd b P3 Position3 Result
  | _ =>
    let P1 := vmul Position1 P1 in
    let P0 := FMADD b Position0 P0 P1 in
    let P3 := vmul Position3 P3 in
    let P2 := FMADD b Position2 P2 P3 in
    vadd P0 P2
  end.
(** one lane of 7045-7064 *)
Definition catmull_lane (f p0 p1 p2 p3 : T L) : T L :=
  half * ((- f * f * f + two * f * f - f) * p0
          + (three * f * f * f - five * f * f + two) * p1
          + (- three * f * f * f + four * f * f + f) * p2
          + (f * f * f - f * f) * p3).
(** 7026-7105 *)
Definition XMVectorCatmullRomV (b : backend) (Position0 Position1 Position2 Position3 t : vec) : vec :=
  match b with
  | Scalar =>
    Q (catmull_lane (qx t) (qx Position0) (qx Position1) (qx Position2) (qx Position3))
      (catmull_lane (qy t) (qy Position0) (qy Position1) (qy Position2) (qy Position3))
      (catmull_lane (qz t) (qz Position0) (qz Position1) (qz Position2) (qz Position3))
      (catmull_lane (qw t) (qw Position0) (qw Position1) (qw Position2) (qw Position3))
  | _ =>
    let T2 := vmul t t in
    let T3 := vmul t T2 in
    let vResult := vadd T2 T2 in
    let vResult := vsub vResult t in
    let vResult := vsub vResult T3 in
    let vResult := vmul vResult Position0 in
    let vTemp := vmul T3 (qrep three) in
    let vTemp := FNMADD b T2 (qrep five) vTemp in
    let vTemp := vadd vTemp (qrep two) in
    let vResult := FMADD b vTemp Position1 vResult in
    let vTemp := vmul T2 (qrep four) in
    let vTemp := FNMADD b T3 (qrep three) vTemp in
    let vTemp := vadd vTemp t in
    let vResult := FMADD b vTemp Position2 vResult in
    let T3 := vsub T3 T2 in
    let vResult := FMADD b T3 Position3 vResult in
    vmul vResult (qrep half)
  end.
(** 7154-7192, 7225-7258 *)
Definition XMVectorBaryCentricV (b : backend) (Position0 Position1 Position2 F G : vec) : vec :=
  match b with
  | Scalar =>
    let P10 := XMVectorSubtract b Position1 Position0 in
    let P20 := XMVectorSubtract b Position2 Position0 in
    let Result := XMVectorMultiplyAdd b P10 F Position0 in
    XMVectorMultiplyAdd b P20 G Result
  | _ =>
    let R1 := vsub Position1 Position0 in
    let R2 := vsub Position2 Position0 in
    let R1 := FMADD b R1 F Position0 in
    FMADD b R2 G R1
  end.
Definition XMVectorBaryCentric (b : backend) (Position0 Position1 Position2 : vec) (f g : T L) : vec :=
  match b with
  | Scalar =>
    let P10 := XMVectorSubtract b Position1 Position0 in
    let ScaleF := qrep f in
    let P20 := XMVectorSubtract b Position2 Position0 in
    let ScaleG := qrep g in
    let Result := XMVectorMultiplyAdd b P10 ScaleF Position0 in
    XMVectorMultiplyAdd b P20 ScaleG Result
  | _ =>
    let R1 := vsub Position1 Position0 in
    let R2 := vsub Position2 Position0 in
    let SF := qrep f in
    let R1 := FMADD b R1 SF Position0 in
    let SG := qrep g in
    FMADD b R2 SG R1
  end.
End Interp.
