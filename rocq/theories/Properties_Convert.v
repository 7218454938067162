(** C11: integer/float vector conversions. C16: constant builders. *)
From Coq Require Import Reals ZArith.
From Verif Require Import Base F32 Intrin SpecF32 SpecRound SpecConvert MConvert PConvert PConvertInt.
Open Scope Z_scope.

(** ** C11 *)
(** signed integers to float: SSE is correctly rounded for every lane and exponent *)
Theorem C11_int_to_float_sse V k : wordq V -> 0 <= k < 32 ->
  exists r, XMConvertVectorIntToFloat_sse V k = Some r /\ forall i, from_integer (signed32 (lane V i)) k (lane r i).
Proof. exact (int_to_float_sse V k). Qed.
(** scalar: right for nonnegative lanes and exponent 0 only (missing: negative lanes and exponents 1 to 31, both wrong, see below) *)
Theorem C11_int_to_float_scalar_partial V : (forall i, 0 <= lane V i < 2 ^ 31) ->
  exists r, XMConvertVectorIntToFloat_scalar V 0 = Some r /\ forall i, from_integer (signed32 (lane V i)) 0 (lane r i).
Proof. exact (int_to_float_scalar_k0 V). Qed.
Theorem C11_int_to_float_scalar_refuted : exists V r, wordq V /\ XMConvertVectorIntToFloat_scalar V 0 = Some r /\ ~ from_integer (signed32 (qx V)) 0 (qx r).
Proof. exact int_to_float_scalar_negative. Qed.
(** with a positive exponent the scalar backend returns infinity or NaN in every lane *)
Theorem C11_int_to_float_scalar_exponent V k : 1 <= k < 32 -> wordq V ->
  exists r, XMConvertVectorIntToFloat_scalar V k = Some r /\ forall i, value (lane r i) = if lane V i =? 0 then NaN else Inf false.
Proof. exact (int_to_float_scalar_exponent V k). Qed.

(** unsigned integers to float *)
Theorem C11_uint_to_float_scalar V k : wordq V -> 0 <= k < 32 ->
  exists r, XMConvertVectorUIntToFloat_scalar V k = Some r /\ forall i, from_integer (lane V i) k (lane r i).
Proof. exact (uint_to_float_scalar V k). Qed.
(** SSE: below 2^31 (missing: 2^31 and above, where the sum with 2^31 rounds a second time) *)
Theorem C11_uint_to_float_sse_partial V k : 0 <= k < 32 -> (forall i, 0 <= lane V i < 2 ^ 31) ->
  exists r, XMConvertVectorUIntToFloat_sse V k = Some r /\ forall i, from_integer (lane V i) k (lane r i).
Proof. exact (uint_to_float_sse_low V k). Qed.
Theorem C11_uint_to_float_sse_refuted : exists V r, wordq V /\ XMConvertVectorUIntToFloat_sse V 0 = Some r /\ ~ from_integer (qx V) 0 (qx r).
Proof. exact uint_to_float_sse_refuted. Qed.
(** at 2^31 and above the error stays below one unit in the last place, 256 times 2^-k *)
Theorem C11_uint_to_float_sse_within_ulp V k : 0 <= k < 32 -> wordq V -> exists r, XMConvertVectorUIntToFloat_sse V k = Some r /\
  forall i, 2 ^ 31 <= lane V i -> exists v, value (lane r i) = Fin (v * pow2 (- k)) /\ (Rabs (v - IZR (lane V i)) < 256)%R.
Proof. exact (uint_to_float_sse_ulp V k). Qed.

(** float to integers: truncation of the scaled lane, saturated; no hypothesis on the lanes *)
Theorem C11_float_to_int_scalar V k : 0 <= k < 32 -> exists r, XMConvertVectorFloatToInt_scalar V k = Some r /\ forall i, to_int32 k (lane V i) (lane r i).
Proof. exact (float_to_int_scalar V k). Qed.
Theorem C11_float_to_int_sse V k : 0 <= k < 32 -> exists r, XMConvertVectorFloatToInt_sse V k = Some r /\ forall i, to_int32 k (lane V i) (lane r i).
Proof. exact (float_to_int_sse V k). Qed.
Theorem C11_float_to_uint_scalar V k : 0 <= k < 32 -> exists r, XMConvertVectorFloatToUInt_scalar V k = Some r /\ forall i, to_uint32 k (lane V i) (lane r i).
Proof. exact (float_to_uint_scalar V k). Qed.
Theorem C11_float_to_uint_sse V k : 0 <= k < 32 -> exists r, XMConvertVectorFloatToUInt_sse V k = Some r /\ forall i, to_uint32 k (lane V i) (lane r i).
Proof. exact (float_to_uint_sse V k). Qed.
(** the two backends: the same bits, except for NaN converted to signed integers *)
Theorem C11_float_to_uint_agree V k : 0 <= k < 32 -> XMConvertVectorFloatToUInt_scalar V k = XMConvertVectorFloatToUInt_sse V k.
Proof. exact (float_to_uint_agree V k). Qed.
Theorem C11_float_to_int_agree_partial V k : 0 <= k < 32 -> (forall i, value (lane V i) <> NaN) -> XMConvertVectorFloatToInt_scalar V k = XMConvertVectorFloatToInt_sse V k.
Proof. exact (float_to_int_agree V k). Qed.
Theorem C11_float_to_int_nan V k : 0 <= k < 32 -> (forall i, value (lane V i) = NaN) ->
  XMConvertVectorFloatToInt_scalar V k = Some (qrep 0) /\ XMConvertVectorFloatToInt_sse V k = Some (qrep 0x80000000).
Proof. exact (float_to_int_nan V k). Qed.
Theorem C11_float_to_int_agree_refuted : exists V, XMConvertVectorFloatToInt_scalar V 0 <> XMConvertVectorFloatToInt_sse V 0.
Proof. exists (qrep 0x7FC00000). vm_compute. discriminate. Qed.

(** -3, 7, 2^31 - 1 and 0 over 4; 1.5, -2.75, 1e10 and -infinity times 4 *)
Example C11_ex_int : XMConvertVectorIntToFloat_sse (Q 0xFFFFFFFD 7 0x7FFFFFFF 0) 2 = Some (Q 0xBF400000 0x3FE00000 0x4E000000 0).
Proof. vm_compute. reflexivity. Qed.
Example C11_ex_to_int : XMConvertVectorFloatToInt_sse (Q 0x3FC00000 0xC0300000 0x501502F9 0xFF800000) 2 = Some (Q 6 0xFFFFFFF5 0x7FFFFFFF 0x80000000).
Proof. vm_compute. reflexivity. Qed.
Example C11_ex_to_uint : XMConvertVectorFloatToUInt_sse (Q 0x3FC00000 0xC0300000 0x4E800001 0x7F800000) 2 = Some (Q 6 0 0xFFFFFFFF 0xFFFFFFFF).
Proof. vm_compute. reflexivity. Qed.
Example C11_ex_to_uint_high : XMConvertVectorFloatToUInt_sse (qrep 0x4F200001) 0 = Some (qrep 2684354816).
Proof. vm_compute. reflexivity. Qed.
Example C11_ex_uint : XMConvertVectorUIntToFloat_sse (Q 3 0x80000100 0x7FFFFFFF 0) 1 = Some (Q 0x3FC00000 0x4E800001 0x4E800000 0).
Proof. vm_compute. reflexivity. Qed.

(** ** C16 *)
Theorem C16_splat_constant_sse I E : -16 <= I <= 15 -> 0 <= E < 32 ->
  exists r, XMVectorSplatConstant_sse I E = Some r /\ forall i, value (lane r i) = Fin (IZR I * pow2 (- E)).
Proof. exact (splat_sse I E). Qed.
(** scalar: only for a nonnegative constant and exponent 0 (missing: the other arguments, refuted below) *)
Theorem C16_splat_constant_scalar_partial I : 0 <= I <= 15 -> exists r, XMVectorSplatConstant_scalar I 0 = Some r /\ forall i, value (lane r i) = Fin (IZR I).
Proof. exact (splat_scalar_k0 I). Qed.
Theorem C16_splat_constant_scalar_refuted :
  exists I E r, -16 <= I <= 15 /\ 0 <= E < 32 /\ XMVectorSplatConstant_scalar I E = Some r /\ value (qx r) <> Fin (IZR I * pow2 (- E)).
Proof. exact splat_scalar_refuted. Qed.
Theorem C16_splat_negative_scalar_refuted : exists I r, -16 <= I <= 15 /\ XMVectorSplatConstant_scalar I 0 = Some r /\ value (qx r) <> Fin (IZR I).
Proof. exact splat_scalar_negative. Qed.
Theorem C16_splat_constant_int I : -16 <= I <= 15 -> exists r, XMVectorSplatConstantInt I = Some r /\ forall i, word (lane r i) /\ signed32 (lane r i) = I.
Proof. exact (splat_int I). Qed.
(** arguments outside the documented range fail the assertion *)
Theorem C16_splat_assert I E : ~ (-16 <= I <= 15 /\ E < 32) -> XMVectorSplatConstant_scalar I E = None /\ XMVectorSplatConstant_sse I E = None.
Proof. exact (splat_assert I E). Qed.
Example C16_ex_splat : XMVectorSplatConstant_sse (-5) 3 = Some (qrep 0xBF200000).
Proof. vm_compute. reflexivity. Qed.
Example C16_ex_int : XMVectorSplatConstantInt (-5) = Some (qrep 0xFFFFFFFB).
Proof. vm_compute. reflexivity. Qed.
Example C16_ex_assert : XMVectorSplatConstant_sse 16 3 = None.
Proof. vm_compute. reflexivity. Qed.
