(** Integer/float vector conversions (convert.rs 6-214) and the constant builders of lib.rs 2840-2897, on bit patterns.
    [None] is the failed [debug_assert!]. NEON is not modelled. *)
From Flocq Require Import Core IEEE754.BinarySingleNaN.
From Verif Require Import Base F32 Intrin MRound.
Open Scope Z_scope.

Definition asserting {A} (c : bool) (a : A) : option A := if c then Some a else None.
(** Rust's saturating [as u32] (NaN gives 0) *)
Definition f_to_u32 (a : Z) : Z :=
  match dec a with
  | B754_nan => 0
  | B754_infinity s => if s then 0 else 2 ^ 32 - 1
  | d => Z.max 0 (Z.min (2 ^ 32 - 1) (Btrunc d))
  end.
(** globals.rs 109-112: g_XMFixUnsigned and g_XMUnsignedFix (2^31), g_XMMaxInt (2^31 - 128), g_XMMaxUInt (2^32 - 256) *)
Definition gFixUnsigned : quad Z := qrep 0x4F000000.
Definition gUnsignedFix : quad Z := qrep 0x4F000000.
Definition gMaxInt : quad Z := qrep 0x4EFFFFFF.
Definition gMaxUInt : quad Z := qrep 0x4F7FFFFF.
(** [0x3F800000u32 - (DivExponent << 23)], convert.rs 34 and 136, lib.rs 2865 *)
Definition uScale (k : Z) : Z := 0x3F800000 - Z.shiftl k 23.
(** [_mm_srai_epi32(a, 31)] *)
Definition srai31 : quad Z -> quad Z := qmap (fun a => mask (2 ^ 31 <=? a)).

(** convert.rs 14-22: the scale is [1.0 / (1 >> DivExponent) as f32] and lanes are read as u32 *)
Definition XMConvertVectorIntToFloat_scalar (VInt : quad Z) (DivExponent : Z) : option (quad Z) :=
  asserting (DivExponent <? 32)
    (let fScale := f_div 0x3F800000 (f_of_Z (Z.shiftr 1 DivExponent)) in
     qmap (fun iTemp => f_mul (f_of_Z iTemp) fScale) VInt).
(** 30-39 *)
Definition XMConvertVectorIntToFloat_sse (VInt : quad Z) (DivExponent : Z) : option (quad Z) :=
  asserting (DivExponent <? 32)
    (let vResult := cvtepi32_ps VInt in
     let vScale := qrep (uScale DivExponent) in
     mul_ps vResult vScale).

(** 49-70; 0xCF000000 = -2^31, 0x4EFFFFFF = 2^31 - 128 *)
Definition XMConvertVectorFloatToInt_scalar (VFloat : quad Z) (MulExponent : Z) : option (quad Z) :=
  asserting (MulExponent <? 32)
    (let fScale := f_of_Z (Z.shiftl 1 MulExponent) in
     qmap (fun v =>
       let fTemp := f_mul v fScale in
       let iResult :=
         if f_le fTemp 0xCF000000 then (- 0x7FFFFFFF) - 1
         else if f_lt 0x4EFFFFFF fTemp then 0x7FFFFFFF
         else f_to_i32 fTemp in
       wrap32 iResult) VFloat).
(** 78-91 *)
Definition XMConvertVectorFloatToInt_sse (VFloat : quad Z) (MulExponent : Z) : option (quad Z) :=
  asserting (MulExponent <? 32)
    (let vResult := qrep (f_of_Z (Z.shiftl 1 MulExponent)) in
     let vResult := mul_ps vResult VFloat in
     let vOverflow := cmpgt_ps vResult gMaxInt in
     let vResulti := cvttps_epi32 vResult in
     let vResult := and_ps vOverflow gAbsMask in
     let vOverflow := andnot_ps vOverflow vResulti in
     or_ps vOverflow vResult).

(** 106-113 *)
Definition XMConvertVectorUIntToFloat_scalar (VUInt : quad Z) (DivExponent : Z) : option (quad Z) :=
  asserting (DivExponent <? 32)
    (let fScale := f_div 0x3F800000 (f_of_Z (Z.shiftl 1 DivExponent)) in
     qmap (fun u => f_mul (f_of_Z u) fScale) VUInt).
(** 121-142 *)
Definition XMConvertVectorUIntToFloat_sse (VUInt : quad Z) (DivExponent : Z) : option (quad Z) :=
  asserting (DivExponent <? 32)
    (let vMask := and_ps VUInt gNegativeZero in
     let vResult := xor_ps VUInt vMask in
     let vResult := cvtepi32_ps vResult in
     let iMask := srai31 vMask in
     let vMask := and_ps iMask gFixUnsigned in
     let vResult := add_ps vResult vMask in
     let iMask := qrep (uScale DivExponent) in
     mul_ps vResult iMask).

(** 157-178; 0x4F800000 = 2^32 *)
Definition XMConvertVectorFloatToUInt_scalar (VFloat : quad Z) (MulExponent : Z) : option (quad Z) :=
  asserting (MulExponent <? 32)
    (let fScale := f_of_Z (Z.shiftl 1 MulExponent) in
     qmap (fun v =>
       let fTemp := f_mul v fScale in
       if f_le fTemp 0 then 0
       else if f_le 0x4F800000 fTemp then 0xFFFFFFFF
       else f_to_u32 fTemp) VFloat).
(** 186-209 *)
Definition XMConvertVectorFloatToUInt_sse (VFloat : quad Z) (MulExponent : Z) : option (quad Z) :=
  asserting (MulExponent <? 32)
    (let vResult := qrep (f_of_Z (Z.shiftl 1 MulExponent)) in
     let vResult := mul_ps vResult VFloat in
     let vResult := max_ps vResult (qrep 0) in
     let vOverflow := cmpgt_ps vResult gMaxUInt in
     let vValue := gUnsignedFix in
     let vMask := cmpge_ps vResult vValue in
     let vValue := and_ps vValue vMask in
     let vResult := sub_ps vResult vValue in
     let vResulti := cvttps_epi32 vResult in
     let vMask := and_ps vMask gNegativeZero in
     let vResult := xor_ps vResulti vMask in
     or_ps vResult vOverflow).

(** lib.rs 2841-2851 *)
Definition XMVectorSplatConstant_scalar (IntConstant DivExponent : Z) : option (quad Z) :=
  if ((-16 <=? IntConstant) && (IntConstant <=? 15))%bool && (DivExponent <? 32)
  then XMConvertVectorIntToFloat_scalar (qrep (wrap32 IntConstant)) DivExponent else None.
(** lib.rs 2858-2871 *)
Definition XMVectorSplatConstant_sse (IntConstant DivExponent : Z) : option (quad Z) :=
  asserting (((-16 <=? IntConstant) && (IntConstant <=? 15)) && (DivExponent <? 32))%bool
    (let vScale := qrep (wrap32 IntConstant) in
     let vResult := cvtepi32_ps vScale in
     let vScale := qrep (uScale DivExponent) in
     mul_ps vResult vScale).
(** lib.rs 2876-2897, both backends *)
Definition XMVectorSplatConstantInt (IntConstant : Z) : option (quad Z) :=
  asserting ((-16 <=? IntConstant) && (IntConstant <=? 15))%bool (qrep (wrap32 IntConstant)).
