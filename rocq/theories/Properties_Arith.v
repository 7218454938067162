(** C66: the element-wise arithmetic functions on every bit pattern, every lane and every backend (SpecArith says what
    IEEE-754 requires of a result); C67: XMVectorMod. *)
From Coq Require Import Reals ZArith Lra Lia Bool.
From Verif Require Import Base F32 F32Facts Intrin Lane MVec MTrig SpecF32 SpecErr SpecArith PF32 PFloat PErr PFix PArith PMod PArithLanes.
Open Scope R_scope.
Ltac word32 := split; [lia|]; unfold value, bit_exp, bit_frac, bit_sign, signed, pow2; simpl; f_equal; lra.

Theorem C66_add_subtract : forall b V1 V2 k,
  is_add (value (lane V1 k)) (value (lane V2 k)) (value (lane (XMVectorAdd (L:=FL) b V1 V2) k)) /\
  is_sub (value (lane V1 k)) (value (lane V2 k)) (value (lane (XMVectorSubtract (L:=FL) b V1 V2) k)).
Proof. exact lanes_add_sub. Qed.
Theorem C66_multiply_divide : forall b V1 V2 k,
  is_mul (value (lane V1 k)) (value (lane V2 k)) (value (lane (XMVectorMultiply (L:=FL) b V1 V2) k)) /\
  is_div (bit_sign (lane V1 k)) (bit_sign (lane V2 k)) (value (lane V1 k)) (value (lane V2 k)) (value (lane (XMVectorDivide (L:=FL) b V1 V2) k)).
Proof. exact lanes_mul_div. Qed.
Theorem C66_scale_reciprocal_sqrt : forall b V s k,
  is_mul (value (lane V k)) (value s) (value (lane (XMVectorScale (L:=FL) b V s) k)) /\
  is_div false (bit_sign (lane V k)) (Fin 1) (value (lane V k)) (value (lane (XMVectorReciprocal (L:=FL) b V) k)) /\
  is_sqrt (value (lane V k)) (value (lane (XMVectorSqrt (L:=FL) b V) k)).
Proof. exact lanes_scale. Qed.
(** 1 / sqrt: two roundings, each as IEEE requires; the sign of the root (of -0.0) decides the sign of the infinity *)
Theorem C66_reciprocal_sqrt : forall b V k, exists s : Z,
  is_sqrt (value (lane V k)) (value s) /\ is_div false (bit_sign s) (Fin 1) (value s) (value (lane (XMVectorReciprocalSqrt (L:=FL) b V) k)).
Proof. exact lanes_rsqrt. Qed.
(** so that for every positive finite argument, subnormal ones included, the relative error is at most 3 half-ulps *)
Theorem C66_reciprocal_sqrt_error : forall b V k x, is32 (lane V k) x -> 0 < x ->
  within (3 * ulp_half * / sqrt x) (lane (XMVectorReciprocalSqrt (L:=FL) b V) k) (/ sqrt x).
Proof. exact rsqrt_err. Qed.
(** fused multiply-add rounds once, the other backends twice *)
Definition has_fma (b : backend) : Prop := match b with SSE _ _ true _ => True | _ => False end.
Theorem C66_multiply_add_fused : forall b V1 V2 V3 k, has_fma b -> (0 <= lane V1 k < 2 ^ 32)%Z ->
  is_fma (value (lane V1 k)) (value (lane V2 k)) (value (lane V3 k)) (value (lane (XMVectorMultiplyAdd (L:=FL) b V1 V2 V3) k)) /\
  is_fma (xneg (value (lane V1 k))) (value (lane V2 k)) (value (lane V3 k)) (value (lane (XMVectorNegativeMultiplySubtract (L:=FL) b V1 V2 V3) k)).
Proof. intros [|s3 s4 [|] av] V1 V2 V3 k H; try contradiction. exact (lanes_fma s3 s4 av V1 V2 V3 k). Qed.
Theorem C66_multiply_add_plain : forall b V1 V2 V3 k, ~ has_fma b -> exists p,
  is_mul (value (lane V1 k)) (value (lane V2 k)) p /\
  is_add p (value (lane V3 k)) (value (lane (XMVectorMultiplyAdd (L:=FL) b V1 V2 V3) k)) /\
  is_sub (value (lane V3 k)) p (value (lane (XMVectorNegativeMultiplySubtract (L:=FL) b V1 V2 V3) k)).
Proof. intros b V1 V2 V3 k H. apply lanes_fma_plain. destruct b as [|s3 s4 [|] av]; [exact I|elim H; exact I|exact I]. Qed.
(** the horizontal sum, in three different orders *)
Theorem C66_sum : forall b V x k, holds4 V x -> safe (Rabs (qx x) + Rabs (qy x) + Rabs (qz x) + Rabs (qw x)) ->
  within (4 * ulp_half * (Rabs (qx x) + Rabs (qy x) + Rabs (qz x) + Rabs (qw x)) + 6 * tiny) (lane (XMVectorSum (L:=FL) b V) k) (qx x + qy x + qz x + qw x).
Proof. exact sum_err. Qed.

(** the specification determines the result: two values that are both the rounded x are equal *)
Theorem C66_rounded_unique : forall x v w, rounded x v -> rounded x w -> v = w.
Proof. exact rounded_unique. Qed.
(** the fused and the plain product-sum differ: 4097 * 4097 - 16785408 *)
Example C66_ex_fused : XMVectorMultiplyAdd (L:=FL) Scalar (Q 0x45800800 0 0 0)%Z (Q 0x45800800 0 0 0)%Z (Q 0xcb801000 0 0 0)%Z = (Q 0 0 0 0)%Z /\
  XMVectorMultiplyAdd (L:=FL) (SSE true true true AVX2) (Q 0x45800800 0 0 0)%Z (Q 0x45800800 0 0 0)%Z (Q 0xcb801000 0 0 0)%Z = (Q 0x3f800000 0 0 0)%Z.
Proof. split; vm_compute; reflexivity. Qed.
Example C66_ex_special : XMVectorDivide (L:=FL) Scalar (Q 0x3f800000 0x3f800000 0 0x7f7fffff)%Z (Q 0 0x80000000 0 0x3f000000)%Z = (Q 0x7f800000 0xff800000 0x7fc00000 0x7f800000)%Z.
Proof. vm_compute. reflexivity. Qed.

(** * C67. [cut_quotient x y n]: n is the quotient rounded to binary32 and cut off towards zero. *)
(** With fused multiply-add the remainder is exact: no rounding error at all beyond the choice of n, and it either has the
    sign of x and is smaller than y, or (the quotient was rounded up to a whole number) it is negligible against x. *)
Theorem C67_fused_exact : forall b V W k x y, has_fma b -> is32 (lane V k) x -> is32 (lane W k) y -> y <> 0 -> Rabs x < 16777216 * Rabs y ->
  exists n, cut_quotient x y n /\ let r := x - IZR n * y in
  value (lane (XMVectorMod (L:=FL) b V W) k) = Fin r /\ Rabs r <= Rabs y /\ Rabs r <= Rabs x /\
  ((0 <= r * x /\ Rabs r < Rabs y) \/ Rabs r <= ulp_half * Rabs x).
Proof. intros [|s3 s4 [|] av] V W k x y H; try contradiction. apply mod_fused_lane. Qed.
(** without it the product and the difference are rounded as well *)
Theorem C67_plain_error : forall b V W k x y, ~ has_fma b -> is32 (lane V k) x -> is32 (lane W k) y -> y <> 0 -> Rabs x < 16777216 * Rabs y -> safe (Rabs x) ->
  exists n, cut_quotient x y n /\ let r := x - IZR n * y in
  within (4 * ulp_half * Rabs x + 3 * tiny) (lane (XMVectorMod (L:=FL) b V W) k) r /\
  ((0 <= r * x /\ Rabs r < Rabs y) \/ Rabs r <= ulp_half * Rabs x).
Proof. intros b V W k x y H. apply mod_plain_lane. destruct b as [|s3 s4 [|] av]; [exact I|elim H; exact I|exact I]. Qed.
(** a zero or NaN divisor gives NaN, and so does an infinite dividend *)
Theorem C67_invalid_nan : forall b V W k, word (lane V k) -> word (lane W k) ->
  value (lane V k) = NaN \/ value (lane W k) = NaN \/ value (lane W k) = Fin 0 \/ (exists s, value (lane V k) = Inf s) ->
  value (lane (XMVectorMod (L:=FL) b V W) k) = NaN.
Proof. exact mod_invalid. Qed.
(** What the documentation promises and the code does not do: x mod infinity is NaN (not x) for every finite x; *)
Theorem C67_infinite_divisor_refuted : forall b V W k x s, word (lane V k) -> word (lane W k) -> value (lane V k) = Fin x -> value (lane W k) = Inf s ->
  value (lane (XMVectorMod (L:=FL) b V W) k) = NaN.
Proof. exact mod_inf. Qed.
(** 1 mod 0.1 is negative with fused multiply-add and 0 without (the true remainder of the stored numbers is 0.0999999985); *)
Theorem C67_range_refuted : lane (XMVectorMod (L:=FL) (SSE true true true AVX2) (qrep 0x3f800000%Z) (qrep 0x3dcccccd%Z)) I0 = 0xb2800000%Z /\
  (forall b, ~ has_fma b -> value (lane (XMVectorMod (L:=FL) b (qrep 0x3f800000%Z) (qrep 0x3dcccccd%Z)) I0) = Fin 0).
Proof. split; [apply mod_range|]. intros b H. apply mod_range. destruct b as [|s3 s4 [|] av]; [exact I|elim H; exact I|exact I]. Qed.
(** and 1e30 mod 1e-30 is infinite *)
Theorem C67_large_quotient_refuted : forall b, value (lane (XMVectorMod (L:=FL) b (qrep 0x7149f2ca%Z) (qrep 0x0da24260%Z)) I0) = Inf true.
Proof. exact mod_large. Qed.
(** the hypotheses are met: 7.5 mod 2 = 1.5 and -7.5 mod 2 = -1.5 *)
Example C67_ex : XMVectorMod (L:=FL) Scalar (Q 0x40f00000 0xc0f00000 0 0x40000000)%Z (qrep 0x40000000%Z) = (Q 0x3fc00000 0xbfc00000 0 0)%Z /\
  is32 0x40f00000 (15 / 2) /\ is32 0x40000000 2.
Proof. split; [vm_compute; reflexivity|]. split; word32. Qed.
