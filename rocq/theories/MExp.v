(** XMVectorExp2, its alias XMVectorExp and the hyperbolic functions, on bit patterns: vector.rs 4563-4668 and 5356-5488.
    [fma] says whether XM_FMADD_PS and XM_FNMADD_PS are the fused instructions (lib.rs 508-536). NEON is not modelled. *)
From Flocq Require Import Core IEEE754.BinarySingleNaN.
From Verif Require Import Base F32 Intrin MRound.
Open Scope Z_scope.

(** [XM_FMADD_PS!(a, b, c)]: a * b + c, one lane *)
Definition fmadd (fma : bool) (a b c : Z) : Z := if fma then f_fma a b c else f_add (f_mul a b) c.
(** [XM_FNMADD_PS!(a, b, c)]: c - a * b, one lane *)
Definition fnmadd (fma : bool) (a b c : Z) : Z := if fma then f_fma (f_neg a) b c else f_sub c (f_mul a b).
Definition qmap3 (f : Z -> Z -> Z -> Z) (a b c : quad Z) : quad Z := Q (f (qx a) (qx b) (qx c)) (f (qy a) (qy b) (qy c)) (f (qz a) (qz b) (qz c)) (f (qw a) (qw b) (qw c)).
Definition FMADD_PS (fma : bool) := qmap3 (fmadd fma).
Definition FNMADD_PS (fma : bool) := qmap3 (fnmadd fma).
(** [_mm_slli_epi32(a, 23)] *)
Definition slli23 : quad Z -> quad Z := qmap (fun a => wrap32 (Z.shiftl a 23)).

(** globals.rs 125-131: g_XMExpEst1 .. g_XMExpEst7 (-6.93147182e-1, 2.40226462e-1, -5.55036440e-2, 9.61597636e-3, -1.32823968e-3, 1.47491097e-4, -1.08635004e-5) *)
Definition gExpEst1 : quad Z := qrep 0xBF317218.
Definition gExpEst2 : quad Z := qrep 0x3E75FDED.
Definition gExpEst3 : quad Z := qrep 0xBD6357CA.
Definition gExpEst4 : quad Z := qrep 0x3C1D8C54.
Definition gExpEst5 : quad Z := qrep 0xBAAE1854.
Definition gExpEst6 : quad Z := qrep 0x391AA7D7.
Definition gExpEst7 : quad Z := qrep 0xB7364261.
(** globals.rs 59, 116-124 and others: g_XMOne, g_XMNegativeOne, g_XMOneHalf, g_XMExponentBias, g_XM253, g_XMMinNormal, g_XMBin128, g_XMBinNeg150, g_XMSubnormalExponent (-126), g_XMInfinity, g_XMQNaN, g_XMQNaNTest *)
Definition gOne : quad Z := qrep 0x3F800000.
Definition gNegativeOne : quad Z := qrep 0xBF800000.
Definition gOneHalf : quad Z := qrep 0x3F000000.
Definition gExponentBias : quad Z := qrep 127.
Definition g253 : quad Z := qrep 253.
Definition gMinNormal : quad Z := qrep 0x00800000.
Definition gBin128 : quad Z := qrep 0x43000000.
Definition gBinNeg150 : quad Z := qrep 0xC3160000.
Definition gSubnormalExponent : quad Z := qrep 0xFFFFFF82.
Definition gInfinity : quad Z := qrep 0x7F800000.
Definition gQNaN : quad Z := qrep 0x7FC00000.
Definition gQNaNTest : quad Z := qrep 0x007FFFFF.
Definition gZero : quad Z := qrep 0.

(** vector.rs 4567-4578: [powf] is the C library's, a parameter; 0x40000000 = 2.0 *)
Definition XMVectorExp2_scalar (powf : Z -> Z -> Z) (V : quad Z) : quad Z := qmap (powf 0x40000000) V.
(** 4585-4650 *)
Definition XMVectorExp2_sse (fma : bool) (V : quad Z) : quad Z :=
  let itrunc := cvttps_epi32 V in
  let ftrunc := cvtepi32_ps itrunc in
  let y := sub_ps V ftrunc in
  let poly := FMADD_PS fma gExpEst7 y gExpEst6 in
  let poly := FMADD_PS fma poly y gExpEst5 in
  let poly := FMADD_PS fma poly y gExpEst4 in
  let poly := FMADD_PS fma poly y gExpEst3 in
  let poly := FMADD_PS fma poly y gExpEst2 in
  let poly := FMADD_PS fma poly y gExpEst1 in
  let poly := FMADD_PS fma poly y gOne in
  let biased := add_epi32 itrunc gExponentBias in
  let biased := slli23 biased in
  let result0 := div_ps biased poly in
  let biased := add_epi32 itrunc g253 in
  let biased := slli23 biased in
  let result1 := div_ps biased poly in
  let result1 := mul_ps gMinNormal result1 in
  let comp := cmplt_epi32 V gBin128 in
  let select0 := and_ps comp result0 in
  let select1 := andnot_ps comp gInfinity in
  let result2 := or_ps select0 select1 in
  let comp := cmplt_epi32 itrunc gSubnormalExponent in
  let select1 := and_ps comp result1 in
  let select0 := andnot_ps comp result0 in
  let result3 := or_ps select0 select1 in
  let comp := cmplt_epi32 V gBinNeg150 in
  let select0 := and_ps comp result3 in
  let select1 := andnot_ps comp gZero in
  let result4 := or_ps select0 select1 in
  let sign := and_ps V gNegativeZero in
  let comp := cmpeq_epi32 sign gNegativeZero in
  let select0 := and_ps comp result4 in
  let select1 := andnot_ps comp result2 in
  let result5 := or_ps select0 select1 in
  let t0 := and_ps V gQNaNTest in
  let t1 := and_ps V gInfinity in
  let t0 := cmpeq_epi32 t0 gZero in
  let t1 := cmpeq_epi32 t1 gInfinity in
  let isNaN := andnot_ps t0 t1 in
  let select0 := and_ps isNaN gQNaN in
  let select1 := andnot_ps isNaN result5 in
  or_ps select0 select1.
(** 4660-4664: XMVectorExp is XMVectorExp2 *)
Definition XMVectorExp_scalar := XMVectorExp2_scalar.
Definition XMVectorExp_sse := XMVectorExp2_sse.

(** SinH, CosH and TanH scales: 1 / ln 2 and 2 / ln 2 rounded to binary32 (5379, 5434, 5480) *)
Definition gExpScale : quad Z := qrep 0x3FB8AA3B.
Definition gExpScale2 : quad Z := qrep 0x4038AA3B.
(** 5356-5389; the scalar branch is the C library's sinh, lane by lane *)
Definition XMVectorSinH_scalar (sinhf : Z -> Z) (V : quad Z) : quad Z := qmap sinhf V.
Definition XMVectorSinH_sse (fma : bool) (V : quad Z) : quad Z :=
  let V1 := FMADD_PS fma V gExpScale gNegativeOne in
  let V2 := FNMADD_PS fma V gExpScale gNegativeOne in
  let E1 := XMVectorExp_sse fma V1 in
  let E2 := XMVectorExp_sse fma V2 in
  sub_ps E1 E2.
(** 5407-5438 *)
Definition XMVectorCosH_scalar (coshf : Z -> Z) (V : quad Z) : quad Z := qmap coshf V.
Definition XMVectorCosH_sse (fma : bool) (V : quad Z) : quad Z :=
  let V1 := FMADD_PS fma V gExpScale gNegativeOne in
  let V2 := FNMADD_PS fma V gExpScale gNegativeOne in
  let E1 := XMVectorExp_sse fma V1 in
  let E2 := XMVectorExp_sse fma V2 in
  add_ps E1 E2.
(** 5456-5488 *)
Definition XMVectorTanH_scalar (tanhf : Z -> Z) (V : quad Z) : quad Z := qmap tanhf V.
Definition XMVectorTanH_sse (fma : bool) (V : quad Z) : quad Z :=
  let E := mul_ps V gExpScale2 in
  let E := XMVectorExp_sse fma E in
  let E := FMADD_PS fma E gOneHalf gOneHalf in
  let E := div_ps gOne E in
  sub_ps gOne E.
