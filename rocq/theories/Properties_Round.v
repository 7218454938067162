(** C10: rounding of every lane to an integral value, for every bit pattern. *)
From Coq Require Import Reals Lra ZArith.
From Verif Require Import Base F32 Intrin SpecF32 SpecRound MRound PRound PRoundAll.
Open Scope Z_scope.

(** [XMVectorRound]: nearest integer, ties to even, in every lane; infinities and NaN are kept *)
Theorem C10_round_sse2 V : wordq V -> rounds4 nearest_even V (XMVectorRound_sse2 V).
Proof. exact (round_sse2_all V). Qed.
Theorem C10_round_sse4 V : wordq V -> rounds4 nearest_even V (XMVectorRound_sse4 V).
Proof. exact (round_sse4_all V). Qed.
(** the scalar backend is right in lane 0 (missing: lanes 1 to 3, which read lane 0, see the next theorem) *)
Theorem C10_round_scalar_partial V : wordq V -> rounds nearest_even (qx V) (qx (XMVectorRound_scalar V)).
Proof. exact (round_scalar_x V). Qed.
Theorem C10_round_scalar_refuted : exists V, wordq V /\ ~ rounds4 nearest_even V (XMVectorRound_scalar V).
Proof. exact round_scalar_refuted. Qed.
(** what the scalar backend does return: lane 0 rounded, in every lane *)
Theorem C10_round_scalar_every_lane V k : wordq V -> rounds nearest_even (qx V) (lane (XMVectorRound_scalar V) k).
Proof. exact (round_scalar_lanes V k). Qed.

Theorem C10_truncate_scalar V : wordq V -> rounds4 toward_zero V (XMVectorTruncate_scalar V).
Proof. exact (trunc_scalar_all V). Qed.
Theorem C10_truncate_sse2 V : wordq V -> rounds4 toward_zero V (XMVectorTruncate_sse2 V).
Proof. exact (trunc_sse2_all V). Qed.
Theorem C10_truncate_sse4 V : wordq V -> rounds4 toward_zero V (XMVectorTruncate_sse4 V).
Proof. exact (trunc_sse4_all V). Qed.

Theorem C10_floor_scalar V : wordq V -> rounds4 floor_of V (XMVectorFloor_scalar V).
Proof. exact (floor_scalar_all V). Qed.
Theorem C10_floor_sse2 V : wordq V -> rounds4 floor_of V (XMVectorFloor_sse2 V).
Proof. exact (floor_sse2_all V). Qed.
Theorem C10_floor_sse4 V : wordq V -> rounds4 floor_of V (XMVectorFloor_sse4 V).
Proof. exact (floor_scalar_all V). Qed.

Theorem C10_ceiling_scalar V : wordq V -> rounds4 ceiling_of V (XMVectorCeiling_scalar V).
Proof. exact (ceil_scalar_all V). Qed.
Theorem C10_ceiling_sse2 V : wordq V -> rounds4 ceiling_of V (XMVectorCeiling_sse2 V).
Proof. exact (ceil_sse2_all V). Qed.
Theorem C10_ceiling_sse4 V : wordq V -> rounds4 ceiling_of V (XMVectorCeiling_sse4 V).
Proof. exact (ceil_scalar_all V). Qed.

(** the backends agree on the value of every lane *)
Theorem C10_backends_agree V : wordq V -> forall k,
  value (lane (XMVectorRound_sse2 V) k) = value (lane (XMVectorRound_sse4 V) k) /\
  value (lane (XMVectorTruncate_scalar V) k) = value (lane (XMVectorTruncate_sse2 V) k) /\
  value (lane (XMVectorTruncate_scalar V) k) = value (lane (XMVectorTruncate_sse4 V) k) /\
  value (lane (XMVectorFloor_scalar V) k) = value (lane (XMVectorFloor_sse2 V) k) /\
  value (lane (XMVectorCeiling_scalar V) k) = value (lane (XMVectorCeiling_sse2 V) k).
Proof. exact (backends_agree V). Qed.

(** 2.5, -3.5, 0.75 and infinity: to 2.0, -4.0, 1.0 and infinity *)
Definition halves : quad Z := Q 0x40200000 0xC0600000 0x3F400000 0x7F800000.
Example C10_ex_word : wordq halves.
Proof. repeat split; vm_compute; (reflexivity || discriminate). Qed.
Example C10_ex_round : XMVectorRound_sse2 halves = Q 0x40000000 0xC0800000 0x3F800000 0x7F800000.
Proof. vm_compute. reflexivity. Qed.
Example C10_ex_truncate : XMVectorTruncate_sse2 halves = Q 0x40000000 0xC0400000 0 0x7F800000.
Proof. vm_compute. reflexivity. Qed.
Example C10_ex_floor : XMVectorFloor_sse2 halves = Q 0x40000000 0xC0800000 0 0x7F800000.
Proof. vm_compute. reflexivity. Qed.
Example C10_ex_ceiling : XMVectorCeiling_sse2 halves = Q 0x40400000 0xC0400000 0x3F800000 0x7F800000.
Proof. vm_compute. reflexivity. Qed.
Example C10_ex_scalar : XMVectorRound_scalar halves = qrep 0x40000000.
Proof. vm_compute. reflexivity. Qed.
