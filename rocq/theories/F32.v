(** binary32 on bit patterns: the meaning given to Rust's [f32] and to packed-single SSE lanes. *)
From Coq Require Import ZArith Bool Lia Reals.
From Flocq Require Import Core IEEE754.BinarySingleNaN.
From Flocq Require IEEE754.Binary IEEE754.Bits.
From Verif Require Import Base.
Open Scope Z_scope.

Notation bf32 := (binary_float 24 128).

Definition prec_gt_0_24 : Prec_gt_0 24 := eq_refl.
Definition prec_lt_128 : Prec_lt_emax 24 128 := eq_refl.
#[global] Existing Instance prec_gt_0_24.
#[global] Existing Instance prec_lt_128.

(** A 32-bit lane pattern. *)
Definition word (z : Z) : Prop := 0 <= z < 2 ^ 32.
Definition wordq (q : quad Z) : Prop := word (qx q) /\ word (qy q) /\ word (qz q) /\ word (qw q).
Definition wrap32 (z : Z) : Z := z mod 2 ^ 32.
(** two's complement reading of a lane *)
Definition sint (z : Z) : Z := if 2 ^ 31 <=? z then z - 2 ^ 32 else z.

(** Decode a pattern; every NaN pattern decodes to the single NaN. *)
Definition dec (z : Z) : bf32 := Binary.B2BSN 24 128 (Bits.b32_of_bits z).

Definition qnan : Z := 0x7FC00000.
(** Encode; a NaN *produced* by arithmetic is the canonical quiet NaN (Rust does not specify the payload). *)
Definition enc (f : bf32) : Z :=
  match f with
  | B754_nan => qnan
  | B754_zero s => if s then 0x80000000 else 0
  | B754_infinity s => if s then 0xFF800000 else 0x7F800000
  | B754_finite s m e _ =>
      (if s then 0x80000000 else 0) +
      (if Z.pos m <? 2 ^ 23 then Z.pos m else (e + 150) * 2 ^ 23 + (Z.pos m - 2 ^ 23))
  end.

Definition f_add (a b : Z) : Z := enc (Bplus mode_NE (dec a) (dec b)).
Definition f_sub (a b : Z) : Z := enc (Bminus mode_NE (dec a) (dec b)).
Definition f_mul (a b : Z) : Z := enc (Bmult mode_NE (dec a) (dec b)).
Definition f_div (a b : Z) : Z := enc (Bdiv mode_NE (dec a) (dec b)).
Definition f_sqrt (a : Z) : Z := enc (Bsqrt mode_NE (dec a)).
Definition f_fma (a b c : Z) : Z := enc (Bfma mode_NE (dec a) (dec b) (dec c)).
Definition f_neg (a : Z) : Z := Z.lxor a 0x80000000.
Definition f_abs (a : Z) : Z := Z.land a 0x7FFFFFFF.
Definition f_lt (a b : Z) : bool := Bltb (dec a) (dec b).
Definition f_le (a b : Z) : bool := Bleb (dec a) (dec b).
Definition f_eq (a b : Z) : bool := Beqb (dec a) (dec b).
Definition f_isnan (a : Z) : bool := is_nan (dec a).
(** the binary32 nearest to [m * 2^e] *)
Definition f_lit (m e : Z) : Z := enc (binary_normalize 24 128 _ _ mode_NE m e false).
(** real value (0 for infinities and NaN) *)
Definition f_val (a : Z) : R := B2R (dec a).
Definition f_fin (a : Z) : bool := is_finite (dec a).
(** rounding to an integral value, and Rust's saturating [as i32] (NaN gives 0) *)
Definition f_rint (a : Z) : Z := enc (Bnearbyint mode_NE (dec a)).
Definition f_floor (a : Z) : Z := enc (Bnearbyint mode_DN (dec a)).
Definition f_ceil (a : Z) : Z := enc (Bnearbyint mode_UP (dec a)).
Definition f_trunc (a : Z) : Z := enc (Bnearbyint mode_ZR (dec a)).
Definition f_to_i32 (a : Z) : Z :=
  match dec a with
  | B754_nan => 0
  | B754_infinity s => if s then - 2 ^ 31 else 2 ^ 31 - 1
  | d => Z.max (- 2 ^ 31) (Z.min (2 ^ 31 - 1) (Btrunc d))
  end.
(** [i as f32] *)
Definition f_of_Z (n : Z) : Z := f_lit n 0.
(** sign bit *)
Definition f_sgn (a : Z) : bool := Z.testbit a 31.
