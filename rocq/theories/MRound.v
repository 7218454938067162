(** Rounding on bit patterns: vector.rs 3098-3362 and modff of lib.rs 347-380, each backend as written. The SSE2 paths and
    the scalar path are modelled instruction by instruction; [_mm_round_ps], [_mm_floor_ps], [_mm_ceil_ps] and Rust's
    [f32::floor], [f32::ceil] are the IEEE integral roundings of F32.v. NEON is not modelled. *)
From Flocq Require Import Core IEEE754.BinarySingleNaN.
From Verif Require Import Base F32 Intrin.

(** [_mm_cvttps_epi32]: truncation; NaN and out of range give the integer indefinite value *)
Definition cvtt_lane (a : Z) : Z :=
  match dec a with
  | B754_nan | B754_infinity _ => 0x80000000
  | d => if (- 2 ^ 31 <=? Btrunc d) && (Btrunc d <? 2 ^ 31) then wrap32 (Btrunc d) else 0x80000000
  end.
Definition cvttps_epi32 : quad Z -> quad Z := qmap cvtt_lane.
(** [_mm_cvtepi32_ps] *)
Definition cvtepi32_ps : quad Z -> quad Z := qmap (fun a => f_of_Z (sint a)).

(** globals.rs: g_XMNegativeZero, g_XMAbsMask, g_XMNoFraction (8388608.0) *)
Definition gNegativeZero : quad Z := qrep 0x80000000.
Definition gAbsMask : quad Z := qrep 0x7FFFFFFF.
Definition gNoFraction : quad Z := qrep 0x4B000000.

(** lib.rs 347-380, the integral part *)
Definition modff_int (u : Z) : Z :=
  let e := Z.land (Z.shiftr u 23) 0xFF - 0x7F in
  if 23 <=? e then u
  else if e <? 0 then Z.land u 0x80000000
  else
    let mask := Z.shiftr 0x007FFFFF e in
    if Z.land u mask =? 0 then u else Z.land u (bnot mask).
(** vector.rs 3101-3118; 0x3F000000 = 0.5, 0x3F800000 = 1.0, 0x40000000 = 2.0 *)
Definition round_to_nearest (x : Z) : Z :=
  let i := f_floor x in
  let x := f_sub x i in
  if f_lt x 0x3F000000 then i
  else if f_lt 0x3F000000 x then f_add i 0x3F800000
  else
    let int_part := modff_int (f_div i 0x40000000) in
    if f_eq (f_mul 0x40000000 int_part) i then i else f_add i 0x3F800000.
(** 3151-3161: all four lanes read lane 0 *)
Definition XMVectorRound_scalar (V : quad Z) : quad Z :=
  Q (round_to_nearest (qx V)) (round_to_nearest (qx V)) (round_to_nearest (qx V)) (round_to_nearest (qx V)).
(** 3169-3171 *)
Definition XMVectorRound_sse4 (V : quad Z) : quad Z := qmap f_rint V.
(** 3174-3185 *)
Definition XMVectorRound_sse2 (V : quad Z) : quad Z :=
  let sign := and_ps V gNegativeZero in
  let sMagic := or_ps gNoFraction sign in
  let R1 := add_ps V sMagic in
  let R1 := sub_ps R1 sMagic in
  let R2 := and_ps V gAbsMask in
  let mask := cmple_ps R2 gNoFraction in
  let R2 := andnot_ps mask V in
  let R1 := and_ps R1 mask in
  xor_ps R1 R2.

(** 3214-3236 *)
Definition XMVectorTruncate_scalar (V : quad Z) : quad Z :=
  qmap (fun v => if f_isnan v then 0x7FC00000 else if f_lt (f_abs v) 0x4B000000 then f_of_Z (f_to_i32 v) else v) V.
(** 3243-3246 *)
Definition XMVectorTruncate_sse4 (V : quad Z) : quad Z := qmap f_trunc V.
(** the masking shared by 3249-3263, 3289-3304 and 3338-3353: [vResult] below 2^23, the original value above *)
Definition below_no_fraction (V : quad Z) : quad Z := cmplt_epi32 (and_ps V gAbsMask) gNoFraction.
Definition keep_large (V vTest vResult : quad Z) : quad Z := or_ps (and_ps vResult vTest) (andnot_ps vTest V).
(** 3248-3264 *)
Definition XMVectorTruncate_sse2 (V : quad Z) : quad Z :=
  let vTest := below_no_fraction V in
  let vInt := cvttps_epi32 V in
  let vResult := cvtepi32_ps vInt in
  keep_large V vTest vResult.

(** 3271-3282 *)
Definition XMVectorFloor_scalar (V : quad Z) : quad Z := qmap f_floor V.
Definition XMVectorFloor_sse4 (V : quad Z) : quad Z := qmap f_floor V.
(** 3294-3312 *)
Definition XMVectorFloor_sse2 (V : quad Z) : quad Z :=
  let vTest := below_no_fraction V in
  let vInt := cvttps_epi32 V in
  let vResult := cvtepi32_ps vInt in
  let vLarger := cmpgt_ps vResult V in
  let vLarger := cvtepi32_ps vLarger in
  let vResult := add_ps vResult vLarger in
  keep_large V vTest vResult.

(** 3320-3331 *)
Definition XMVectorCeiling_scalar (V : quad Z) : quad Z := qmap f_ceil V.
Definition XMVectorCeiling_sse4 (V : quad Z) : quad Z := qmap f_ceil V.
(** 3343-3361 *)
Definition XMVectorCeiling_sse2 (V : quad Z) : quad Z :=
  let vTest := below_no_fraction V in
  let vInt := cvttps_epi32 V in
  let vResult := cvtepi32_ps vInt in
  let vSmaller := cmplt_ps vResult V in
  let vSmaller := cvtepi32_ps vSmaller in
  let vResult := sub_ps vResult vSmaller in
  keep_large V vTest vResult.
