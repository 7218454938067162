(** Angles and trigonometric functions: vector.rs 3101-3350, 4810-5868 and misc.rs 2445-3000. The Est variants are in MEst.v. *)
From Coq Require Import Reals.
From Verif Require Import Base F32 Intrin Lane MVec.

(** The C math library functions called by the no-intrinsics path (lib.rs re-exports of the libm crate). They are outside
    the crate: theorems over the reals instantiate them with the exact functions, theorems over binary32 quantify over them. *)
Class Libm (L : Lane) : Type := MkLibm {
  m_sin : T L -> T L; m_cos : T L -> T L; m_tan : T L -> T L;
  m_asin : T L -> T L; m_acos : T L -> T L; m_atan : T L -> T L; m_atan2 : T L -> T L -> T L
}.
(** exact functions over the reals; [atan2] as its usual case definition *)
Definition Ratan2 (y x : R) : R :=
  if Rltb 0 x then atan (y / x)
  else if Rltb x 0 then (if Rltb y 0 then atan (y / x) - PI else atan (y / x) + PI)
  else if Rltb 0 y then PI / 2 else if Rltb y 0 then - (PI / 2) else 0.
#[global] Instance RM : Libm RL :=
  {| m_sin := sin; m_cos := cos; m_tan := tan; m_asin := asin; m_acos := acos; m_atan := atan; m_atan2 := Ratan2 |}.

Section Trig.
Context {L : Lane} {lm : Libm L}.
Notation vec := (quad (T L)).
Local Open Scope lane_scope.

(** ** Rounding, typed reading. The SSE2 forms work by adding and subtracting 2^23 or by integer conversion; their
    bit-level models are in MRound.v, here they are read as the integral rounding they compute. *)
(** vector.rs 3101-3118; modff's integral part (lib.rs 340-380) is truncation *)
Definition round_to_nearest (x : T L) : T L :=
  let i := tfloor x in
  let x := x - i in
  if tlt x half then i
  else if tgt x half then i + one
  else
    let int_part := ttrunc (i / two) in
    if teq (two * int_part) i then i else i + one.
(** 3149-3186; the scalar path reads lane 0 four times *)
Definition XMVectorRound (b : backend) (V : vec) : vec :=
  match b with
  | Scalar => Q (round_to_nearest (qx V)) (round_to_nearest (qx V)) (round_to_nearest (qx V)) (round_to_nearest (qx V))
  | _ => qmap trint V
  end.
(** 3213-3264, 3270-3313, 3319-3362 *)
Definition XMVectorTruncate (b : backend) (V : vec) : vec :=
  match b with
  | Scalar => qmap (fun x => if is_nan x then tqnan else if tlt (tabs x) (tlit 8388608 0) then ttrunc32 x else x) V
  | _ => qmap ttrunc V
  end.
Definition XMVectorFloor (b : backend) (V : vec) : vec := qmap tfloor V.
Definition XMVectorCeiling (b : backend) (V : vec) : vec := qmap tceil V.

(** 4810-4836 *)
Definition XMVectorMod (b : backend) (V1 V2 : vec) : vec :=
  match b with
  | Scalar =>
    let Quotient := XMVectorDivide b V1 V2 in
    let Quotient := XMVectorTruncate b Quotient in
    XMVectorNegativeMultiplySubtract b V2 Quotient V1
  | _ =>
    let vResult := vdiv V1 V2 in
    let vResult := XMVectorTruncate b vResult in
    FNMADD b vResult V2 V1
  end.

(** lib.rs 1364-1366: XM_1DIV2PI = 0x3E22F983, XM_PIDIV2 = 0x3FC90FDB *)
Definition XM_1DIV2PI : T L := tlit 10680707 (-26).
Definition XM_PIDIV2 : T L := tlit 13176795 (-23).

(** 4867-4898 *)
Definition XMVectorModAngles (b : backend) (Angles : vec) : vec :=
  match b with
  | Scalar =>
    let V := XMVectorMultiply b Angles (qrep XM_1DIV2PI) in
    let V := XMVectorRound b V in
    XMVectorNegativeMultiplySubtract b (qrep XM_2PI) V Angles
  | _ =>
    let vResult := vmul Angles (qrep XM_1DIV2PI) in
    let vResult := XMVectorRound b vResult in
    FNMADD b vResult (qrep XM_2PI) Angles
  end.

(** misc.rs 2471-2491 *)
Definition XMScalarModAngle (Angle : T L) : T L :=
  let Angle := Angle + XM_PI in
  let fTemp := tabs Angle in
  let fTemp := fTemp - (XM_2PI * ttrunc32 (fTemp / XM_2PI)) in
  let fTemp := fTemp - XM_PI in
  if tlt Angle zero then - fTemp else fTemp.
(** misc.rs 2445-2453 *)
Definition XMScalarNearEqual (S1 S2 Epsilon : T L) : bool :=
  let Delta := S1 - S2 in tle (tabs Delta) Epsilon.

(** g_XMSinCoefficients0/1, g_XMCosCoefficients0/1, g_XMArcCoefficients0/1, g_XMATanCoefficients0/1: globals.rs 8-18 *)
Definition SC0 : T L := tlit (-11184811) (-26). (** -0.16666667 *)
Definition SC1 : T L := tlit (4473923) (-29). (** 0.0083333310 *)
Definition SC2 : T L := tlit (-13634545) (-36). (** -0.00019840874 *)
Definition SC3 : T L := tlit (6052935) (-41). (** 2.7525562e-06 *)
Definition SC4 : T L := tlit (-13448795) (-49). (** -2.3889859e-08 *)
Definition CC0 : T L := tlit (-1) (-1). (** -0.5 *)
Definition CC1 : T L := tlit (11184803) (-28). (** 0.041666638 *)
Definition CC2 : T L := tlit (-5965013) (-32). (** -0.0013888378 *)
Definition CC3 : T L := tlit (6806113) (-38). (** 2.4760495e-05 *)
Definition CC4 : T L := tlit (-9166097) (-45). (** -2.6051615e-07 *)
Definition AC0 : T L := tlit (6588397) (-22). (** 1.5707963050 *)
Definition AC1 : T L := tlit (-7200741) (-25). (** -0.2145988016 *)
Definition AC2 : T L := tlit (5971279) (-26). (** 0.0889789874 *)
Definition AC3 : T L := tlit (-6734281) (-27). (** -0.0501743046 *)
Definition AC4 : T L := tlit (2073119) (-26). (** 0.0308918810 *)
Definition AC5 : T L := tlit (-4587059) (-28). (** -0.0170881256 *)
Definition AC6 : T L := tlit (14323909) (-31). (** 0.0066700901 *)
Definition AC7 : T L := tlit (-2711179) (-31). (** -0.0012624911 *)
Definition TC0 : T L := tlit (-2796187) (-23). (** -0.3333314528 *)
Definition TC1 : T L := tlit (13417445) (-26). (** 0.1999355085 *)
Definition TC2 : T L := tlit (-9535431) (-26). (** -0.1420889944 *)
Definition TC3 : T L := tlit (14302595) (-27). (** 0.1065626393 *)
Definition TC4 : T L := tlit (-2526301) (-25). (** -0.0752896400 *)
Definition TC5 : T L := tlit (5759231) (-27). (** 0.0429096138 *)
Definition TC6 : T L := tlit (-4339457) (-28). (** -0.0161657367 *)
Definition TC7 : T L := tlit (6155173) (-31). (** 0.0028662257 *)
Definition OneMinus1e5 : T L := tlit (2097131) (-21). (** 0.99999 *)

(** ** misc.rs scalar forms. The range reduction of XMScalarSin 2501-2530, XMScalarCos 2579-2616 and XMScalarSinCos
    2701-2747 is textually the same; it is written once here, giving the reduced angle and the cosine's sign *)
Definition scalar_reduce (Value : T L) : T L * T L :=
  let quotient := XM_1DIV2PI * Value in
  let quotient := if tge Value zero then ttrunc32 (quotient + half) else ttrunc32 (quotient - half) in
  let y := Value - XM_2PI * quotient in
  if tgt y XM_PIDIV2 then (XM_PI - y, tlit (-1) 0)
  else if tlt y (- XM_PIDIV2) then (- XM_PI - y, tlit (-1) 0)
  else (y, one).
Definition sin_poly (y : T L) : T L :=
  let y2 := y * y in
  (((((SC4 * y2 + SC3) * y2 - tlit 13634545 (-36)) * y2 + SC1) * y2 - tlit 11184811 (-26)) * y2 + one) * y.
Definition cos_poly (y : T L) : T L :=
  let y2 := y * y in
  ((((CC4 * y2 + CC3) * y2 - tlit 5965013 (-32)) * y2 + CC1) * y2 - half) * y2 + one.
Definition XMScalarSin (Value : T L) : T L := sin_poly (fst (scalar_reduce Value)).
Definition XMScalarCos (Value : T L) : T L := let r := scalar_reduce Value in snd r * cos_poly (fst r).
(** the two out-parameters as a pair (sine, cosine) *)
Definition XMScalarSinCos (Value : T L) : T L * T L :=
  let r := scalar_reduce Value in (sin_poly (fst r), snd r * cos_poly (fst r)).
(** acos(|x|): the part shared by 2841-2861 and 2928-2948 *)
Definition arc_poly (x : T L) : T L :=
  ((((((AC7 * x + AC6) * x - tlit 4587059 (-28)) * x + AC4) * x - tlit 6734281 (-27)) * x + AC2) * x
    - tlit 7200741 (-25)) * x + AC0.
Definition scalar_arc (Value : T L) : T L :=
  let x := tabs Value in
  let omx := one - x in
  let omx := if tlt omx zero then zero else omx in
  arc_poly x * tsqrt omx.
Definition XMScalarASin (Value : T L) : T L :=
  let result := scalar_arc Value in
  if tge Value zero then XM_PIDIV2 - result else result - XM_PIDIV2.
Definition XMScalarACos (Value : T L) : T L :=
  let result := scalar_arc Value in
  if tge Value zero then result else XM_PI - result.

(** ** vector.rs forms *)
(** 4942-4957 and twins: range reduction and reflection *)
Definition trig_reflect (b : backend) (V : vec) : vec * quad bool :=
  let x := XMVectorModAngles b V in
  let c := qmap (fun a => if tsgn a then - XM_PI else XM_PI) x in
  let absx := qmap tabs x in
  let rflx := vsub c x in
  let comp := vle absx (qrep XM_PIDIV2) in
  (vsel rflx x comp, comp).
Definition vsin_poly (b : backend) (x : vec) : vec :=
  let x2 := vmul x x in
  let Result := FMADD b (qrep SC4) x2 (qrep SC3) in
  let Result := FMADD b Result x2 (qrep SC2) in
  let Result := FMADD b Result x2 (qrep SC1) in
  let Result := FMADD b Result x2 (qrep SC0) in
  let Result := FMADD b Result x2 vone in
  vmul Result x.
Definition vcos_poly (b : backend) (x sign : vec) : vec :=
  let x2 := vmul x x in
  let Result := FMADD b (qrep CC4) x2 (qrep CC3) in
  let Result := FMADD b Result x2 (qrep CC2) in
  let Result := FMADD b Result x2 (qrep CC1) in
  let Result := FMADD b Result x2 (qrep CC0) in
  let Result := FMADD b Result x2 vone in
  vmul Result sign.
Definition vneg_one : vec := qrep (tlit (-1) 0).
(** 4918-4979 *)
Definition XMVectorSin (b : backend) (V : vec) : vec :=
  match b with
  | Scalar => Q (m_sin (qx V)) (m_sin (qy V)) (m_sin (qz V)) (m_sin (qw V))
  | _ => vsin_poly b (fst (trig_reflect b V))
  end.
(** 5012-5076 *)
Definition XMVectorCos (b : backend) (V : vec) : vec :=
  match b with
  | Scalar => Q (m_cos (qx V)) (m_cos (qy V)) (m_cos (qz V)) (m_cos (qw V))
  | _ => let '(x, comp) := trig_reflect b V in vcos_poly b x (vsel vneg_one vone comp)
  end.
(** 5113-5208; the two out-parameters as a pair (sine, cosine) *)
Definition XMVectorSinCos (b : backend) (V : vec) : vec * vec :=
  match b with
  | Scalar =>
    (Q (m_sin (qx V)) (m_sin (qy V)) (m_sin (qz V)) (m_sin (qw V)),
     Q (m_cos (qx V)) (m_cos (qy V)) (m_cos (qz V)) (m_cos (qw V)))
  | _ => let '(x, comp) := trig_reflect b V in (vsin_poly b x, vcos_poly b x (vsel vneg_one vone comp))
  end.
(** the SSE part shared by 5532-5572 and 5620-5660 *)
Definition varc (b : backend) (V : vec) : vec :=
  let nonnegative := vge V vzero in
  let mvalue := vsub vzero V in
  let x := vmax V mvalue in
  let oneMValue := vsub vone x in
  let clampOneMValue := vmax vzero oneMValue in
  let root := vsqrt clampOneMValue in
  let t0 := FMADD b (qrep AC7) x (qrep AC6) in
  let t0 := FMADD b t0 x (qrep AC5) in
  let t0 := FMADD b t0 x (qrep AC4) in
  let t0 := FMADD b t0 x (qrep AC3) in
  let t0 := FMADD b t0 x (qrep AC2) in
  let t0 := FMADD b t0 x (qrep AC1) in
  let t0 := FMADD b t0 x (qrep AC0) in
  let t0 := vmul t0 root in
  let t1 := vsub (qrep XM_PI) t0 in
  vsel t1 t0 nonnegative.
(** 5508-5576, 5596-5663 *)
Definition XMVectorASin (b : backend) (V : vec) : vec :=
  match b with
  | Scalar => Q (m_asin (qx V)) (m_asin (qy V)) (m_asin (qz V)) (m_asin (qw V))
  | _ => vsub (qrep XM_PIDIV2) (varc b V)
  end.
Definition XMVectorACos (b : backend) (V : vec) : vec :=
  match b with
  | Scalar => Q (m_acos (qx V)) (m_acos (qy V)) (m_acos (qz V)) (m_acos (qw V))
  | _ => varc b V
  end.
(** 5683-5762 *)
Definition XMVectorATan (b : backend) (V : vec) : vec :=
  match b with
  | Scalar => Q (m_atan (qx V)) (m_atan (qy V)) (m_atan (qz V)) (m_atan (qw V))
  | _ =>
    let absV := XMVectorAbs b V in
    let invV := vdiv vone V in
    let comp := vgt V vone in
    let sign := vsel vneg_one vone comp in
    let comp := vle absV vone in
    let sign := vsel sign vzero comp in
    let x := vsel invV V comp in
    let x2 := vmul x x in
    let Result := FMADD b (qrep TC7) x2 (qrep TC6) in
    let Result := FMADD b Result x2 (qrep TC5) in
    let Result := FMADD b Result x2 (qrep TC4) in
    let Result := FMADD b Result x2 (qrep TC3) in
    let Result := FMADD b Result x2 (qrep TC2) in
    let Result := FMADD b Result x2 (qrep TC1) in
    let Result := FMADD b Result x2 (qrep TC0) in
    let Result := FMADD b Result x2 vone in
    let Result := vmul Result x in
    let result1 := vmul sign (qrep XM_PIDIV2) in
    let result1 := vsub result1 Result in
    let comp := veq sign vzero in
    vsel result1 Result comp
  end.
(** XM_PIDIV4 and XM_PI*3.0/4.0 as binary32 constants, vector.rs 5830 *)
Definition XM_PIDIV4 : T L := tlit 13176795 (-24).
Definition XM_3PIDIV4 : T L := tlit 9882596 (-22).
(** 5798-5870. The marker "all bits set" for "use the arc tangent" is read as a mask: it survives exactly when neither
    operand is zero and Y is not infinite. *)
Definition XMVectorATan2 (b : backend) (Y X : vec) : vec :=
  match b with
  | Scalar => Q (m_atan2 (qx Y) (qx X)) (m_atan2 (qy Y) (qy X)) (m_atan2 (qz Y) (qz X)) (m_atan2 (qw Y) (qw X))
  | _ =>
    let YEqualsZero := veq Y vzero in
    let XEqualsZero := veq X vzero in
    let XIsPositive := qmap (fun a => negb (tsgn a)) X in
    let YEqualsInfinity := qmap (fun a => is_pinf (tabs a)) Y in
    let XEqualsInfinity := qmap (fun a => is_pinf (tabs a)) X in
    let withYSign (c : T L) := qmap (fun a => if tsgn a then - c else c) Y in
    let Pi := withYSign XM_PI in
    let PiOverTwo := withYSign XM_PIDIV2 in
    let PiOverFour := withYSign XM_PIDIV4 in
    let ThreePiOverFour := withYSign XM_3PIDIV4 in
    let YSign := withYSign zero in
    let R1 := vsel Pi YSign XIsPositive in
    let R3 := vsel PiOverTwo R1 YEqualsZero in
    let R4 := vsel ThreePiOverFour PiOverFour XIsPositive in
    let R5 := vsel PiOverTwo R4 XEqualsInfinity in
    let Result := vsel R3 R5 YEqualsInfinity in
    let ATanResultValid := mnot (mor (mor YEqualsZero XEqualsZero) YEqualsInfinity) in
    let V := XMVectorDivide b Y X in
    let R0 := XMVectorATan b V in
    let R1 := vsel Pi (qrep (- zero)) XIsPositive in
    let R2 := XMVectorAdd b R0 R1 in
    vsel Result R2 ATanResultValid
  end.
End Trig.
