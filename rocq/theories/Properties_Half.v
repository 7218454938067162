(** C12: conversions between halves and floats, for all 2^16 halves and all 2^32 floats. *)
From Coq Require Import Reals ZArith.
From Verif Require Import Base F32 SpecF32 SpecHalf MHalf PHalf PHalfRound.
Open Scope Z_scope.

(** the loop always ends *)
Theorem C12_half_to_float_total h : half h -> exists r, XMConvertHalfToFloat h = Some r.
Proof. exact (h2f_total h). Qed.
(** exact for zeros, normal halves, infinities and NaN (missing: the denormal halves, where it is wrong for every one) *)
Theorem C12_half_to_float_partial h : half h -> ~ h_denormal h -> exists r, XMConvertHalfToFloat h = Some r /\ value r = hvalue h.
Proof. exact (h2f_normal h). Qed.
Theorem C12_half_to_float_denormal h : half h -> h_denormal h -> exists r, XMConvertHalfToFloat h = Some r /\ value r <> hvalue h.
Proof. exact (h2f_denormal h). Qed.
Theorem C12_half_to_float_refuted : exists h r, half h /\ XMConvertHalfToFloat h = Some r /\ value r <> hvalue h.
Proof. exact half_to_float_refuted. Qed.
(** round to nearest even, 65520 and above to infinity, infinities and NaN kept *)
Theorem C12_float_to_half z : word z -> half (XMConvertFloatToHalf z) /\ to_half z (XMConvertFloatToHalf z).
Proof. exact (f2h z). Qed.
(** the sign bit is kept, also on zeros and NaN *)
Theorem C12_float_to_half_sign z : word z -> h_sign (XMConvertFloatToHalf z) = bit_sign z.
Proof. exact (f2h_sign z). Qed.
(** there and back is the identity except on denormal halves *)
Theorem C12_round_trip_partial h : half h -> ~ h_denormal h -> hvalue h <> NaN -> exists r, XMConvertHalfToFloat h = Some r /\ XMConvertFloatToHalf r = h.
Proof. exact (round_trip h). Qed.
Theorem C12_round_trip_refuted : exists h r, half h /\ hvalue h <> NaN /\ XMConvertHalfToFloat h = Some r /\ XMConvertFloatToHalf r <> h.
Proof. exact round_trip_denormal. Qed.

(** 1.5, -65504, 2^-15 (a denormal half, converted to 2^-16) *)
Example C12_ex_half : XMConvertHalfToFloat 0x3E00 = Some 0x3FC00000 /\ XMConvertHalfToFloat 0xFBFF = Some 0xC77FE000 /\ XMConvertHalfToFloat 0x0200 = Some 0x37800000.
Proof. vm_compute. auto. Qed.
Example C12_ex_normal : half 0xFBFF /\ ~ h_denormal 0xFBFF /\ hvalue 0xFBFF <> NaN /\ h_denormal 0x0200.
Proof. split; [vm_compute; split; congruence|]. split; [intros (h & _); discriminate h|]. split; [discriminate|]. split; [reflexivity|discriminate]. Qed.
(** the tie 1 + 2^-11 goes to even, 65520 to infinity, 65519.996 to 65504, 2^-25 to zero and the next float to 2^-24 *)
Example C12_ex_float : XMConvertFloatToHalf 0x3F801000 = 0x3C00 /\ XMConvertFloatToHalf 0x477FF000 = 0x7C00 /\ XMConvertFloatToHalf 0x477FEFFF = 0x7BFF /\
  XMConvertFloatToHalf 0xB3000000 = 0x8000 /\ XMConvertFloatToHalf 0x33000001 = 1.
Proof. vm_compute. auto. Qed.
