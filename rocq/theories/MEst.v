(** The [Est] functions: vector.rs 4345-4500, 5895-6540, 7918-8186, 8647-8658, 9800-9846, 9912-9962, 10058-10117, 10638-10649,
    12003-12056, 12127-12180, 12248-12306, 12826-12837 and misc.rs 376-381, 1917-1956, 2540-2570, 2640-2677, 2775-2824,
    2887-2911, 2972-2996. *)
From Coq Require Import Reals.
From Verif Require Import Base F32 Intrin Lane MVec MTrig MQuat.

(** The hardware approximations behind [_mm_rcp_ps] and [_mm_rsqrt_ps], one lane. Their values differ between processors;
    theorems quantify over them. *)
Class HwEst (L : Lane) : Type := MkHwEst { hw_rcp : T L -> T L; hw_rsqrt : T L -> T L }.

Section Est.
Context {L : Lane} {lm : Libm L} {hw : HwEst L}.
Notation vec := (quad (T L)).
Local Open Scope lane_scope.

(** the Est columns of g_XMSinCoefficients1 and g_XMCosCoefficients1, then g_XMArcEstCoefficients, g_XMATanEstCoefficients0/1
    and g_XMTanEstCoefficients: globals.rs 9, 11, 19-22 *)
Definition SE1 : T L := tlit (-1398033) (-23). (** -0.16665852 *)
Definition SE2 : T L := tlit 2231759 (-28). (** 0.0083139502 *)
Definition SE3 : T L := tlit (-1591257) (-33). (** -0.00018524670 *)
Definition CE1 : T L := tlit (-8387391) (-24). (** -0.49992746 *)
Definition CE2 : T L := tlit 11138439 (-28). (** 0.041493919 *)
Definition CE3 : T L := tlit (-10919899) (-33). (** -0.0012712436 *)
Definition AE0 : T L := tlit 3294057 (-21). (** 1.5707288 *)
Definition AE1 : T L := tlit (-3558689) (-24). (** -0.2121144 *)
Definition AE2 : T L := tlit 9967143 (-27). (** 0.0742610 *)
Definition AE3 : T L := tlit (-628451) (-25). (** -0.0187293 *)
Definition TE0 : T L := tlit 2096871 (-21). (** 0.999866 *)
Definition TE1 : T L := tlit (-2770753) (-23). (** -0.3302995 *)
Definition TE2 : T L := tlit 6044529 (-25). (** 0.180141 *)
Definition TE3 : T L := tlit (-5713179) (-26). (** -0.085133 *)
Definition TE4 : T L := tlit 11185759 (-29). (** 0.0208351 *)
Definition NE0 : T L := tlit 10418651 (-22). (** 2.484 *)
Definition NE1 : T L := tlit (-13119267) (-26). (** -1.954923183e-1 *)
Definition NE2 : T L := tlit 5174515 (-21). (** 2.467401101 *)
Definition XM_1DIVPI : T L := tlit 10680707 (-25). (** lib.rs 1364 *)

(** ** misc.rs scalar forms. The reduction is textually that of the precise functions ([scalar_reduce]) *)
Definition sin_est_poly (y : T L) : T L :=
  let y2 := y * y in (((SE3 * y2 + SE2) * y2 - tlit 1398033 (-23)) * y2 + one) * y.
Definition cos_est_poly (y : T L) : T L :=
  let y2 := y * y in ((CE3 * y2 + CE2) * y2 - tlit 8387391 (-24)) * y2 + one.
(** 2540-2570 *)
Definition XMScalarSinEst (Value : T L) : T L := sin_est_poly (fst (scalar_reduce Value)).
(** 2640-2677 *)
Definition XMScalarCosEst (Value : T L) : T L := let r := scalar_reduce Value in snd r * cos_est_poly (fst r).
(** 2775-2824; the two out-parameters as a pair (sine, cosine) *)
Definition XMScalarSinCosEst (Value : T L) : T L * T L :=
  let r := scalar_reduce Value in (sin_est_poly (fst r), snd r * cos_est_poly (fst r)).
(** acos(|x|): the part shared by 2887-2911 and 2972-2996 *)
Definition scalar_arc_est (Value : T L) : T L :=
  let x := tabs Value in
  let omx := one - x in
  let omx := if tlt omx zero then zero else omx in
  (((AE3 * x + AE2) * x - tlit 3558689 (-24)) * x + AE0) * tsqrt omx.
Definition XMScalarASinEst (Value : T L) : T L :=
  let result := scalar_arc_est Value in
  if tge Value zero then XM_PIDIV2 - result else result - XM_PIDIV2.
Definition XMScalarACosEst (Value : T L) : T L :=
  let result := scalar_arc_est Value in
  if tge Value zero then result else XM_PI - result.

(** ** vector.rs forms *)
(** 4345-4372 *)
Definition XMVectorReciprocalEst (b : backend) (V : vec) : vec :=
  match b with Scalar => qmap (fun a => one / a) V | _ => qmap hw_rcp V end.
(** 4409-4435 *)
Definition XMVectorSqrtEst (b : backend) (V : vec) : vec := qmap tsqrt V.
(** 4473-4499 *)
Definition XMVectorReciprocalSqrtEst (b : backend) (V : vec) : vec :=
  match b with Scalar => qmap (fun a => one / tsqrt a) V | _ => qmap hw_rsqrt V end.

Definition vsin_est_poly (b : backend) (x : vec) : vec :=
  let x2 := vmul x x in
  let Result := FMADD b (qrep SE3) x2 (qrep SE2) in
  let Result := FMADD b Result x2 (qrep SE1) in
  let Result := FMADD b Result x2 vone in
  vmul Result x.
Definition vcos_est_poly (b : backend) (x sign : vec) : vec :=
  let x2 := vmul x x in
  let Result := FMADD b (qrep CE3) x2 (qrep CE2) in
  let Result := FMADD b Result x2 (qrep CE1) in
  let Result := FMADD b Result x2 vone in
  vmul Result sign.
(** 5895-5948 *)
Definition XMVectorSinEst (b : backend) (V : vec) : vec :=
  match b with
  | Scalar => Q (m_sin (qx V)) (m_sin (qy V)) (m_sin (qz V)) (m_sin (qw V))
  | _ => vsin_est_poly b (fst (trig_reflect b V))
  end.
(** 5973-6032 *)
Definition XMVectorCosEst (b : backend) (V : vec) : vec :=
  match b with
  | Scalar => Q (m_cos (qx V)) (m_cos (qy V)) (m_cos (qz V)) (m_cos (qw V))
  | _ => let '(x, comp) := trig_reflect b V in vcos_est_poly b x (vsel vneg_one vone comp)
  end.
(** 6060-6138; the two out-parameters as a pair (sine, cosine) *)
Definition XMVectorSinCosEst (b : backend) (V : vec) : vec * vec :=
  match b with
  | Scalar =>
    (Q (m_sin (qx V)) (m_sin (qy V)) (m_sin (qz V)) (m_sin (qw V)),
     Q (m_cos (qx V)) (m_cos (qy V)) (m_cos (qz V)) (m_cos (qw V)))
  | _ => let '(x, comp) := trig_reflect b V in (vsin_est_poly b x, vcos_est_poly b x (vsel vneg_one vone comp))
  end.
(** 6161-6206 *)
Definition XMVectorTanEst (b : backend) (V : vec) : vec :=
  match b with
  | Scalar => Q (m_tan (qx V)) (m_tan (qy V)) (m_tan (qz V)) (m_tan (qw V))
  | _ =>
    let V1 := XMVectorMultiply b V (qrep XM_1DIVPI) in
    let V1 := XMVectorRound b V1 in
    let V1 := XMVectorNegativeMultiplySubtract b (qrep XM_PI) V1 V in
    let V2T2 := XMVectorNegativeMultiplySubtract b V1 V1 (qrep NE2) in
    let V2 := XMVectorMultiply b V1 V1 in
    let V1T0 := XMVectorMultiply b V1 (qrep NE0) in
    let V1T1 := XMVectorMultiply b V1 (qrep NE1) in
    let D := XMVectorReciprocalEst b V2T2 in
    let N := XMVectorMultiplyAdd b V2 V1T1 V1T0 in
    XMVectorMultiply b N D
  end.
(** the SSE part shared by 6253-6287 and 6331-6364 *)
Definition varc_est (b : backend) (V : vec) : vec :=
  let nonnegative := vge V vzero in
  let mvalue := vsub vzero V in
  let x := vmax V mvalue in
  let oneMValue := vsub vone x in
  let clampOneMValue := vmax vzero oneMValue in
  let root := vsqrt clampOneMValue in
  let t0 := FMADD b (qrep AE3) x (qrep AE2) in
  let t0 := FMADD b t0 x (qrep AE1) in
  let t0 := FMADD b t0 x (qrep AE0) in
  let t0 := vmul t0 root in
  let t1 := vsub (qrep XM_PI) t0 in
  vsel t1 t0 nonnegative.
(** 6230-6288, 6308-6365 *)
Definition XMVectorASinEst (b : backend) (V : vec) : vec :=
  match b with
  | Scalar => Q (m_asin (qx V)) (m_asin (qy V)) (m_asin (qz V)) (m_asin (qw V))
  | _ => vsub (qrep XM_PIDIV2) (varc_est b V)
  end.
Definition XMVectorACosEst (b : backend) (V : vec) : vec :=
  match b with
  | Scalar => Q (m_acos (qx V)) (m_acos (qy V)) (m_acos (qz V)) (m_acos (qw V))
  | _ => varc_est b V
  end.
(** 6385-6450 *)
Definition XMVectorATanEst (b : backend) (V : vec) : vec :=
  match b with
  | Scalar => Q (m_atan (qx V)) (m_atan (qy V)) (m_atan (qz V)) (m_atan (qw V))
  | _ =>
    let absV := XMVectorAbs b V in
    let invV := vdiv vone V in
    let comp := vgt V vone in
    let sign := vsel vneg_one vone comp in
    let comp := vle absV vone in
    let sign := vsel sign vzero comp in
    let x := vsel invV V comp in
    let x2 := vmul x x in
    let Result := FMADD b (qrep TE4) x2 (qrep TE3) in
    let Result := FMADD b Result x2 (qrep TE2) in
    let Result := FMADD b Result x2 (qrep TE1) in
    let Result := FMADD b Result x2 (qrep TE0) in
    let Result := vmul Result x in
    let result1 := vmul sign (qrep XM_PIDIV2) in
    let result1 := vsub result1 Result in
    let comp := veq sign vzero in
    vsel result1 Result comp
  end.
(** 6488-6548; the validity marker is read as in [XMVectorATan2] *)
Definition XMVectorATan2Est (b : backend) (Y X : vec) : vec :=
  match b with
  | Scalar => Q (m_atan2 (qx Y) (qx X)) (m_atan2 (qy Y) (qy X)) (m_atan2 (qz Y) (qz X)) (m_atan2 (qw Y) (qw X))
  | _ =>
    let YEqualsZero := veq Y vzero in
    let XEqualsZero := veq X vzero in
    let XIsPositive := qmap (fun a => negb (tsgn a)) X in
    let YEqualsInfinity := qmap (fun a => is_pinf (tabs a)) Y in
    let XEqualsInfinity := qmap (fun a => is_pinf (tabs a)) X in
    let withYSign (c : T L) := qmap (fun a => if tsgn a then - c else c) Y in
    let Pi := withYSign XM_PI in
    let PiOverTwo := withYSign XM_PIDIV2 in
    let PiOverFour := withYSign XM_PIDIV4 in
    let ThreePiOverFour := withYSign XM_3PIDIV4 in
    let YSign := withYSign zero in
    let R1 := vsel Pi YSign XIsPositive in
    let R3 := vsel PiOverTwo R1 YEqualsZero in
    let R4 := vsel ThreePiOverFour PiOverFour XIsPositive in
    let R5 := vsel PiOverTwo R4 XEqualsInfinity in
    let Result := vsel R3 R5 YEqualsInfinity in
    let ATanResultValid := mnot (mor (mor YEqualsZero XEqualsZero) YEqualsInfinity) in
    let Reciprocal := XMVectorReciprocalEst b X in
    let V := XMVectorMultiply b Y Reciprocal in
    let R0 := XMVectorATanEst b V in
    let R1 := vsel Pi (qrep (- zero)) XIsPositive in
    let R2 := XMVectorAdd b R0 R1 in
    vsel Result R2 ATanResultValid
  end.

(** ** Lengths *)
Definition rsqrt_ss (a : vec) : vec := setlane a I0 (hw_rsqrt (qx a)).
Definition vrsqrt (a : vec) : vec := qmap hw_rsqrt a.
(** 7918-7962 *)
Definition XMVector2ReciprocalLengthEst (b : backend) (V : vec) : vec :=
  match b with
  | Scalar => XMVectorReciprocalSqrtEst b (XMVector2LengthSq b V)
  | SSE _ true _ _ => vrsqrt (dp_ps V V mask2)
  | SSE true _ _ _ => let l := vmul V V in splat I0 (rsqrt_ss (hadd l l))
  | _ => let l := vmul V V in splat I0 (rsqrt_ss (add_ss l (splat I1 l)))
  end.
(** 8021-8064 *)
Definition XMVector2LengthEst (b : backend) (V : vec) : vec :=
  match b with
  | Scalar => XMVectorSqrtEst b (XMVector2LengthSq b V)
  | SSE _ true _ _ => vsqrt (dp_ps V V mask2)
  | SSE true _ _ _ => let l := vmul V V in splat I0 (sqrt_ss (hadd l l))
  | _ => let l := vmul V V in splat I0 (sqrt_ss (add_ss l (splat I1 l)))
  end.
(** 8121-8185; the SSE2 path is the precise normalisation *)
Definition XMVector2NormalizeEst (b : backend) (V : vec) : vec :=
  match b with
  | Scalar => XMVectorMultiply b V (XMVector2ReciprocalLength b V)
  | SSE _ true _ _ => vmul (vrsqrt (dp_ps V V mask2)) V
  | SSE true _ _ _ => let l := vmul V V in vmul (splat I0 (rsqrt_ss (add_ss l (splat I1 l)))) V
  | _ => normalize_tail V (dot2_sse2 V V)
  end.
(** 9800-9843 *)
Definition XMVector3ReciprocalLengthEst (b : backend) (V : vec) : vec :=
  match b with
  | Scalar => XMVectorReciprocalSqrtEst b (XMVector3LengthSq b V)
  | SSE _ true _ _ => vrsqrt (dp_ps V V mask3)
  | _ => vrsqrt (lensq3_sse2_xzy V)
  end.
(** 9912-9962 *)
Definition XMVector3LengthEst (b : backend) (V : vec) : vec :=
  match b with
  | Scalar => XMVectorSqrtEst b (XMVector3LengthSq b V)
  | SSE _ true _ _ => vsqrt (dp_ps V V mask3)
  | SSE true _ _ _ => vsqrt (lensq3_sse3 V)
  | _ => vsqrt (lensq3_sse2_xzy V)
  end.
(** 10058-10115 *)
Definition XMVector3NormalizeEst (b : backend) (V : vec) : vec :=
  match b with
  | Scalar => XMVectorMultiply b V (XMVector3ReciprocalLength b V)
  | SSE _ true _ _ => vmul (vrsqrt (dp_ps V V mask3)) V
  | SSE true _ _ _ => vmul (vrsqrt (lensq3_sse3 V)) V
  | _ => vmul (vrsqrt (dot3_sse2 V V)) V
  end.
(** 12003-12056 *)
Definition XMVector4ReciprocalLengthEst (b : backend) (V : vec) : vec :=
  match b with
  | Scalar => XMVectorReciprocalSqrtEst b (XMVector4LengthSq b V)
  | SSE _ true _ _ => vrsqrt (dp_ps V V mask4)
  | SSE true _ _ _ => vrsqrt (dot4_sse3 V V)
  | _ => vrsqrt (lensq4_sse2 V)
  end.
(** 12127-12180 *)
Definition XMVector4LengthEst (b : backend) (V : vec) : vec :=
  match b with
  | Scalar => XMVectorSqrtEst b (XMVector4LengthSq b V)
  | SSE _ true _ _ => vsqrt (dp_ps V V mask4)
  | SSE true _ _ _ => vsqrt (dot4_sse3 V V)
  | _ => vsqrt (lensq4_sse2 V)
  end.
(** 12248-12306 *)
Definition XMVector4NormalizeEst (b : backend) (V : vec) : vec :=
  match b with
  | Scalar => XMVectorMultiply b V (XMVector4ReciprocalLength b V)
  | SSE _ true _ _ => vmul (vrsqrt (dp_ps V V mask4)) V
  | SSE true _ _ _ => vmul (vrsqrt (dot4_sse3 V V)) V
  | _ => vmul (vrsqrt (lensq4_sse2 V)) V
  end.
(** misc.rs 376-381 *)
Definition XMQuaternionNormalizeEst (b : backend) (q : vec) : vec := XMVector4NormalizeEst b q.
(** misc.rs 1917-1954 *)
Definition XMPlaneNormalizeEst (b : backend) (P : vec) : vec :=
  match b with
  | Scalar => XMVectorMultiply b P (XMVector3ReciprocalLengthEst b P)
  | _ => vmul (vrsqrt (dot3_sse2 P P)) P
  end.
(** vector.rs 8647-8658, 10638-10649, 12826-12837 *)
Definition angle_of_cos_est (b : backend) (c : vec) : vec := XMVectorACosEst b (XMVectorClamp b c (qrep mone) vone).
Definition XMVector2AngleBetweenNormalsEst b (N1 N2 : vec) : vec := angle_of_cos_est b (XMVector2Dot b N1 N2).
Definition XMVector3AngleBetweenNormalsEst b (N1 N2 : vec) : vec := angle_of_cos_est b (XMVector3Dot b N1 N2).
Definition XMVector4AngleBetweenNormalsEst b (N1 N2 : vec) : vec := angle_of_cos_est b (XMVector4Dot b N1 N2).
End Est.
