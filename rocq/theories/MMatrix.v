(** Matrices, matrix.rs 251-3965, and Project / Unproject, vector.rs 11074-11183. A matrix is its four rows. *)
From Coq Require Import Reals.
From Verif Require Import Base F32 Intrin Lane MVec MTrig MQuat MPlane.

Section Matrix.
Context {L : Lane} {lm : Libm L}.
Notation vec := (quad (T L)).
Notation matrix := (quad (quad (T L))).
Local Open Scope lane_scope.

(** ** 256-bit registers are pairs of quads (low, high) *)
Definition ymm : Type := (vec * vec)%type.
Definition ymap2 (f : vec -> vec -> vec) (a b : ymm) : ymm := (f (fst a) (fst b), f (snd a) (snd b)).
Definition ymap3 (f : vec -> vec -> vec -> vec) (a b c : ymm) : ymm := (f (fst a) (fst b) (fst c), f (snd a) (snd b) (snd c)).
(** [_mm256_shuffle_ps(t, t, (i,i,i,i))], [_mm256_permute2f128_ps] with 0x00, 0x11, 0x20, 0x31 *)
Definition ysplat (i : idx) (t : ymm) : ymm := (permute_ps (fst t) i i i i, permute_ps (snd t) i i i i).
Definition yperm00 (a b : ymm) : ymm := (fst a, fst a).
Definition yperm11 (a b : ymm) : ymm := (snd a, snd a).
Definition yperm20 (a b : ymm) : ymm := (fst a, fst b).
Definition yperm31 (a b : ymm) : ymm := (snd a, snd b).

(** ** Product and transpose *)
(** one row of 260-293: [(M2[0][j] * x) + (M2[1][j] * y) + (M2[2][j] * z) + (M2[3][j] * w)] *)
Definition mul_row_scalar (r : vec) (M2 : matrix) : vec :=
  let x := qx r in let y := qy r in let z := qz r in let w := qw r in
  let col (f : vec -> T L) := (f (qx M2) * x) + (f (qy M2) * y) + (f (qz M2) * z) + (f (qw M2) * w) in
  Q (col qx) (col qy) (col qz) (col qw).
(** one row of 354-368 (AVX) and 423-438 (SSE): the four rows are textually the same; [_mm_broadcast_ss] and the permute
    both splat one lane *)
Definition mul_row_sse (r : vec) (M2 : matrix) : vec :=
  let vX := vmul (splat I0 r) (qx M2) in
  let vY := vmul (splat I1 r) (qy M2) in
  let vZ := vmul (splat I2 r) (qz M2) in
  let vW := vmul (splat I3 r) (qw M2) in
  let vX := vadd vX vZ in
  let vY := vadd vY vW in
  vadd vX vY.
(** 304-339 and 604-639 *)
Definition mul_avx2 (M1 M2 : matrix) : ymm * ymm :=
  let t0 := (qx M1, qy M1) in
  let t1 := (qz M1, qw M1) in
  let u0 := (qx M2, qy M2) in
  let u1 := (qz M2, qw M2) in
  let fmadd := ymap3 (qmap3 tfma) in
  let a0 := ysplat I0 t0 in
  let a1 := ysplat I0 t1 in
  let b0 := yperm00 u0 u0 in
  let c0 := ymap2 vmul a0 b0 in
  let c1 := ymap2 vmul a1 b0 in
  let a0 := ysplat I1 t0 in
  let a1 := ysplat I1 t1 in
  let b0 := yperm11 u0 u0 in
  let c2 := fmadd a0 b0 c0 in
  let c3 := fmadd a1 b0 c1 in
  let a0 := ysplat I2 t0 in
  let a1 := ysplat I2 t1 in
  let b1 := yperm00 u1 u1 in
  let c4 := ymap2 vmul a0 b1 in
  let c5 := ymap2 vmul a1 b1 in
  let a0 := ysplat I3 t0 in
  let a1 := ysplat I3 t1 in
  let b1 := yperm11 u1 u1 in
  let c6 := fmadd a0 b1 c4 in
  let c7 := fmadd a1 b1 c5 in
  (ymap2 vadd c2 c6, ymap2 vadd c3 c7).
(** 251-485 *)
Definition XMMatrixMultiply (b : backend) (M1 M2 : matrix) : matrix :=
  match b with
  | Scalar => Q (mul_row_scalar (qx M1) M2) (mul_row_scalar (qy M1) M2) (mul_row_scalar (qz M1) M2) (mul_row_scalar (qw M1) M2)
  | SSE _ _ _ AVX2 => let '(t0, t1) := mul_avx2 M1 M2 in Q (fst t0) (snd t0) (fst t1) (snd t1)
  | _ => Q (mul_row_sse (qx M1) M2) (mul_row_sse (qy M1) M2) (mul_row_sse (qz M1) M2) (mul_row_sse (qw M1) M2)
  end.
(** 956-973, also 726-743, 814-831, 1100-1107 *)
Definition transpose_sse (M : matrix) : matrix :=
  let vTemp1 := shuffle (qx M) (qy M) I1 I0 I1 I0 in
  let vTemp3 := shuffle (qx M) (qy M) I3 I2 I3 I2 in
  let vTemp2 := shuffle (qz M) (qw M) I1 I0 I1 I0 in
  let vTemp4 := shuffle (qz M) (qw M) I3 I2 I3 I2 in
  Q (shuffle vTemp1 vTemp2 I2 I0 I2 I0) (shuffle vTemp1 vTemp2 I3 I1 I3 I1)
    (shuffle vTemp3 vTemp4 I2 I0 I2 I0) (shuffle vTemp3 vTemp4 I3 I1 I3 I1).
(** 936-949, also 642-655 *)
Definition transpose_avx2 (t0 t1 : ymm) : matrix :=
  let vTemp := ymap2 unpacklo t0 t1 in
  let vTemp2 := ymap2 unpackhi t0 t1 in
  let vTemp3 := yperm20 vTemp vTemp2 in
  let vTemp4 := yperm31 vTemp vTemp2 in
  let vTemp := ymap2 unpacklo vTemp3 vTemp4 in
  let vTemp2 := ymap2 unpackhi vTemp3 vTemp4 in
  let t0 := yperm20 vTemp vTemp2 in
  let t1 := yperm31 vTemp vTemp2 in
  Q (fst t0) (snd t0) (fst t1) (snd t1).
(** 897-975 *)
Definition XMMatrixTranspose (b : backend) (M : matrix) : matrix :=
  match b with
  | Scalar =>
    let P0 := mergeXY (qx M) (qz M) in
    let P1 := mergeXY (qy M) (qw M) in
    let P2 := mergeZW (qx M) (qz M) in
    let P3 := mergeZW (qy M) (qw M) in
    Q (mergeXY P0 P1) (mergeZW P0 P1) (mergeXY P2 P3) (mergeZW P2 P3)
  | SSE _ _ _ AVX2 => transpose_avx2 (qx M, qy M) (qz M, qw M)
  | _ => transpose_sse M
  end.
(** one row of 560-593: column [c] of M2 against the rows of M1 *)
Definition mult_row_scalar (M1 : matrix) (c : vec) : vec :=
  let x := qx c in let y := qy c in let z := qz c in let w := qw c in
  let row (r : vec) := (qx r * x) + (qy r * y) + (qz r * z) + (qw r * w) in
  Q (row (qx M1)) (row (qy M1)) (row (qz M1)) (row (qw M1)).
(** 551-833 *)
Definition XMMatrixMultiplyTranspose (b : backend) (M1 M2 : matrix) : matrix :=
  match b with
  | Scalar =>
    let col (f : vec -> T L) := Q (f (qx M2)) (f (qy M2)) (f (qz M2)) (f (qw M2)) in
    Q (mult_row_scalar M1 (col qx)) (mult_row_scalar M1 (col qy)) (mult_row_scalar M1 (col qz)) (mult_row_scalar M1 (col qw))
  | SSE _ _ _ AVX2 => let '(t0, t1) := mul_avx2 M1 M2 in transpose_avx2 t0 t1
  | _ => transpose_sse (Q (mul_row_sse (qx M1) M2) (mul_row_sse (qy M1) M2) (mul_row_sse (qz M1) M2) (mul_row_sse (qw M1) M2))
  end.

(** ** Determinant and inverse *)
(** 995-1220; the pair (determinant out-parameter, inverse) *)
Definition XMMatrixInverse (b : backend) (M : matrix) : vec * matrix :=
  match b with
  | Scalar =>
    let MT := XMMatrixTranspose b M in
    let V0_0 := swz (qz MT) I0 I0 I1 I1 in
    let V1_0 := swz (qw MT) I2 I3 I2 I3 in
    let V0_1 := swz (qx MT) I0 I0 I1 I1 in
    let V1_1 := swz (qy MT) I2 I3 I2 I3 in
    let V1_2 := perm (qw MT) (qy MT) P0Y P0W P1Y P1W in
    let V0_2 := perm (qz MT) (qx MT) P0X P0Z P1X P1Z in
    let D0 := XMVectorMultiply b V0_0 V1_0 in
    let D1 := XMVectorMultiply b V0_1 V1_1 in
    let D2 := XMVectorMultiply b V0_2 V1_2 in
    let V0_0 := swz (qz MT) I2 I3 I2 I3 in
    let V1_0 := swz (qw MT) I0 I0 I1 I1 in
    let V0_1 := swz (qx MT) I2 I3 I2 I3 in
    let V1_1 := swz (qy MT) I0 I0 I1 I1 in
    let V0_2 := perm (qz MT) (qx MT) P0Y P0W P1Y P1W in
    let V1_2 := perm (qw MT) (qy MT) P0X P0Z P1X P1Z in
    let D0 := XMVectorNegativeMultiplySubtract b V0_0 V1_0 D0 in
    let D1 := XMVectorNegativeMultiplySubtract b V0_1 V1_1 D1 in
    let D2 := XMVectorNegativeMultiplySubtract b V0_2 V1_2 D2 in
    let V0_0 := swz (qy MT) I1 I2 I0 I1 in
    let V1_0 := perm D0 D2 P1Y P0Y P0W P0X in
    let V0_1 := swz (qx MT) I2 I0 I1 I0 in
    let V1_1 := perm D0 D2 P0W P1Y P0Y P0Z in
    let V0_2 := swz (qw MT) I1 I2 I0 I1 in
    let V1_2 := perm D1 D2 P1W P0Y P0W P0X in
    let V0_3 := swz (qz MT) I2 I0 I1 I0 in
    let V1_3 := perm D1 D2 P0W P1W P0Y P0Z in
    let C0 := XMVectorMultiply b V0_0 V1_0 in
    let C2 := XMVectorMultiply b V0_1 V1_1 in
    let C4 := XMVectorMultiply b V0_2 V1_2 in
    let C6 := XMVectorMultiply b V0_3 V1_3 in
    let V0_0 := swz (qy MT) I2 I3 I1 I2 in
    let V1_0 := perm D0 D2 P0W P0X P0Y P1X in
    let V0_1 := swz (qx MT) I3 I2 I3 I1 in
    let V1_1 := perm D0 D2 P0Z P0Y P1X P0X in
    let V0_2 := swz (qw MT) I2 I3 I1 I2 in
    let V1_2 := perm D1 D2 P0W P0X P0Y P1Z in
    let V0_3 := swz (qz MT) I3 I2 I3 I1 in
    let V1_3 := perm D1 D2 P0Z P0Y P1Z P0X in
    let C0 := XMVectorNegativeMultiplySubtract b V0_0 V1_0 C0 in
    let C2 := XMVectorNegativeMultiplySubtract b V0_1 V1_1 C2 in
    let C4 := XMVectorNegativeMultiplySubtract b V0_2 V1_2 C4 in
    let C6 := XMVectorNegativeMultiplySubtract b V0_3 V1_3 C6 in
    let V0_0 := swz (qy MT) I3 I0 I3 I0 in
    let V1_0 := perm D0 D2 P0Z P1Y P1X P0Z in
    let V0_1 := swz (qx MT) I1 I3 I0 I2 in
    let V1_1 := perm D0 D2 P1Y P0X P0W P1X in
    let V0_2 := swz (qw MT) I3 I0 I3 I0 in
    let V1_2 := perm D1 D2 P0Z P1W P1Z P0Z in
    let V0_3 := swz (qz MT) I1 I3 I0 I2 in
    let V1_3 := perm D1 D2 P1W P0X P0W P1Z in
    let C1 := XMVectorNegativeMultiplySubtract b V0_0 V1_0 C0 in
    let C0 := XMVectorMultiplyAdd b V0_0 V1_0 C0 in
    let C3 := XMVectorMultiplyAdd b V0_1 V1_1 C2 in
    let C2 := XMVectorNegativeMultiplySubtract b V0_1 V1_1 C2 in
    let C5 := XMVectorNegativeMultiplySubtract b V0_2 V1_2 C4 in
    let C4 := XMVectorMultiplyAdd b V0_2 V1_2 C4 in
    let C7 := XMVectorMultiplyAdd b V0_3 V1_3 C6 in
    let C6 := XMVectorNegativeMultiplySubtract b V0_3 V1_3 C6 in
    let R_r0 := vsel C0 C1 (Q false true false true) in
    let R_r1 := vsel C2 C3 (Q false true false true) in
    let R_r2 := vsel C4 C5 (Q false true false true) in
    let R_r3 := vsel C6 C7 (Q false true false true) in
    let R := Q R_r0 R_r1 R_r2 R_r3 in
    let Determinant := XMVector4Dot b (qx R) (qx MT) in
    let Reciprocal := XMVectorReciprocal b Determinant in
    let Result_r0 := XMVectorMultiply b (qx R) Reciprocal in
    let Result_r1 := XMVectorMultiply b (qy R) Reciprocal in
    let Result_r2 := XMVectorMultiply b (qz R) Reciprocal in
    let Result_r3 := XMVectorMultiply b (qw R) Reciprocal in
    (Determinant, Q Result_r0 Result_r1 Result_r2 Result_r3)
  | _ =>
    let vTemp1 := shuffle (qx M) (qy M) I1 I0 I1 I0 in
    let vTemp3 := shuffle (qx M) (qy M) I3 I2 I3 I2 in
    let vTemp2 := shuffle (qz M) (qw M) I1 I0 I1 I0 in
    let vTemp4 := shuffle (qz M) (qw M) I3 I2 I3 I2 in
    let MT_r0 := shuffle vTemp1 vTemp2 I2 I0 I2 I0 in
    let MT_r1 := shuffle vTemp1 vTemp2 I3 I1 I3 I1 in
    let MT_r2 := shuffle vTemp3 vTemp4 I2 I0 I2 I0 in
    let MT_r3 := shuffle vTemp3 vTemp4 I3 I1 I3 I1 in
    let MT := Q MT_r0 MT_r1 MT_r2 MT_r3 in
    let V00 := permute_ps (qz MT) I1 I1 I0 I0 in
    let V10 := permute_ps (qw MT) I3 I2 I3 I2 in
    let V01 := permute_ps (qx MT) I1 I1 I0 I0 in
    let V11 := permute_ps (qy MT) I3 I2 I3 I2 in
    let V02 := shuffle (qz MT) (qx MT) I2 I0 I2 I0 in
    let V12 := shuffle (qw MT) (qy MT) I3 I1 I3 I1 in
    let D0 := vmul V00 V10 in
    let D1 := vmul V01 V11 in
    let D2 := vmul V02 V12 in
    let V00 := permute_ps (qz MT) I3 I2 I3 I2 in
    let V10 := permute_ps (qw MT) I1 I1 I0 I0 in
    let V01 := permute_ps (qx MT) I3 I2 I3 I2 in
    let V11 := permute_ps (qy MT) I1 I1 I0 I0 in
    let V02 := shuffle (qz MT) (qx MT) I3 I1 I3 I1 in
    let V12 := shuffle (qw MT) (qy MT) I2 I0 I2 I0 in
    let D0 := FNMADD b V00 V10 D0 in
    let D1 := FNMADD b V01 V11 D1 in
    let D2 := FNMADD b V02 V12 D2 in
    let V11 := shuffle D0 D2 I1 I1 I3 I1 in
    let V00 := permute_ps (qy MT) I1 I0 I2 I1 in
    let V10 := shuffle V11 D0 I0 I3 I0 I2 in
    let V01 := permute_ps (qx MT) I0 I1 I0 I2 in
    let V11 := shuffle V11 D0 I2 I1 I2 I1 in
    let V13 := shuffle D1 D2 I3 I3 I3 I1 in
    let V02 := permute_ps (qw MT) I1 I0 I2 I1 in
    let V12 := shuffle V13 D1 I0 I3 I0 I2 in
    let V03 := permute_ps (qz MT) I0 I1 I0 I2 in
    let V13 := shuffle V13 D1 I2 I1 I2 I1 in
    let C0 := vmul V00 V10 in
    let C2 := vmul V01 V11 in
    let C4 := vmul V02 V12 in
    let C6 := vmul V03 V13 in
    let V11 := shuffle D0 D2 I0 I0 I1 I0 in
    let V00 := permute_ps (qy MT) I2 I1 I3 I2 in
    let V10 := shuffle D0 V11 I2 I1 I0 I3 in
    let V01 := permute_ps (qx MT) I1 I3 I2 I3 in
    let V11 := shuffle D0 V11 I0 I2 I1 I2 in
    let V13 := shuffle D1 D2 I2 I2 I1 I0 in
    let V02 := permute_ps (qw MT) I2 I1 I3 I2 in
    let V12 := shuffle D1 V13 I2 I1 I0 I3 in
    let V03 := permute_ps (qz MT) I1 I3 I2 I3 in
    let V13 := shuffle D1 V13 I0 I2 I1 I2 in
    let C0 := FNMADD b V00 V10 C0 in
    let C2 := FNMADD b V01 V11 C2 in
    let C4 := FNMADD b V02 V12 C4 in
    let C6 := FNMADD b V03 V13 C6 in
    let V00 := permute_ps (qy MT) I0 I3 I0 I3 in
    let V10 := shuffle D0 D2 I1 I0 I2 I2 in
    let V10 := permute_ps V10 I0 I2 I3 I0 in
    let V01 := permute_ps (qx MT) I2 I0 I3 I1 in
    let V11 := shuffle D0 D2 I1 I0 I3 I0 in
    let V11 := permute_ps V11 I2 I1 I0 I3 in
    let V02 := permute_ps (qw MT) I0 I3 I0 I3 in
    let V12 := shuffle D1 D2 I3 I2 I2 I2 in
    let V12 := permute_ps V12 I0 I2 I3 I0 in
    let V03 := permute_ps (qz MT) I2 I0 I3 I1 in
    let V13 := shuffle D1 D2 I3 I2 I3 I0 in
    let V13 := permute_ps V13 I2 I1 I0 I3 in
    let V00 := vmul V00 V10 in
    let V01 := vmul V01 V11 in
    let V02 := vmul V02 V12 in
    let V03 := vmul V03 V13 in
    let C1 := vsub C0 V00 in
    let C0 := vadd C0 V00 in
    let C3 := vadd C2 V01 in
    let C2 := vsub C2 V01 in
    let C5 := vsub C4 V02 in
    let C4 := vadd C4 V02 in
    let C7 := vadd C6 V03 in
    let C6 := vsub C6 V03 in
    let C0 := shuffle C0 C1 I3 I1 I2 I0 in
    let C2 := shuffle C2 C3 I3 I1 I2 I0 in
    let C4 := shuffle C4 C5 I3 I1 I2 I0 in
    let C6 := shuffle C6 C7 I3 I1 I2 I0 in
    let C0 := permute_ps C0 I3 I1 I2 I0 in
    let C2 := permute_ps C2 I3 I1 I2 I0 in
    let C4 := permute_ps C4 I3 I1 I2 I0 in
    let C6 := permute_ps C6 I3 I1 I2 I0 in
    let vTemp := XMVector4Dot b C0 (qx MT) in
    let Determinant := vTemp in
    let vTemp := vdiv vone vTemp in
    let mResult_r0 := vmul C0 vTemp in
    let mResult_r1 := vmul C2 vTemp in
    let mResult_r2 := vmul C4 vTemp in
    let mResult_r3 := vmul C6 vTemp in
    (Determinant, Q mResult_r0 mResult_r1 mResult_r2 mResult_r3)
  end.
(** 1260-1300 *)
Definition XMMatrixDeterminant (b : backend) (M : matrix) : vec :=
  let Sign := Q one mone one mone in
  let V0 := swz (qz M) I1 I0 I0 I0 in
  let V1 := swz (qw M) I2 I2 I1 I1 in
  let V2 := swz (qz M) I1 I0 I0 I0 in
  let V3 := swz (qw M) I3 I3 I3 I2 in
  let V4 := swz (qz M) I2 I2 I1 I1 in
  let V5 := swz (qw M) I3 I3 I3 I2 in
  let P0 := XMVectorMultiply b V0 V1 in
  let P1 := XMVectorMultiply b V2 V3 in
  let P2 := XMVectorMultiply b V4 V5 in
  let V0 := swz (qz M) I2 I2 I1 I1 in
  let V1 := swz (qw M) I1 I0 I0 I0 in
  let V2 := swz (qz M) I3 I3 I3 I2 in
  let V3 := swz (qw M) I1 I0 I0 I0 in
  let V4 := swz (qz M) I3 I3 I3 I2 in
  let V5 := swz (qw M) I2 I2 I1 I1 in
  let P0 := XMVectorNegativeMultiplySubtract b V0 V1 P0 in
  let P1 := XMVectorNegativeMultiplySubtract b V2 V3 P1 in
  let P2 := XMVectorNegativeMultiplySubtract b V4 V5 P2 in
  let V0 := swz (qy M) I3 I3 I3 I2 in
  let V1 := swz (qy M) I2 I2 I1 I1 in
  let V2 := swz (qy M) I1 I0 I0 I0 in
  let S := XMVectorMultiply b (qx M) Sign in
  let R := XMVectorMultiply b V0 P0 in
  let R := XMVectorNegativeMultiplySubtract b V1 P1 R in
  let R := XMVectorMultiplyAdd b V2 P2 R in
  (XMVector4Dot b S R).
(** 1227-1244 *)
Definition XMMatrixVectorTensorProduct (b : backend) (V1 V2 : vec) : matrix :=
  Q (XMVectorMultiply b (swz V1 I0 I0 I0 I0) V2) (XMVectorMultiply b (swz V1 I1 I1 I1 I1) V2)
    (XMVectorMultiply b (swz V1 I2 I2 I2 I2) V2) (XMVectorMultiply b (swz V1 I3 I3 I3 I3) V2).

(** ** Builders *)
(** 1509-1519, 1565-1591 *)
Definition XMMatrixIdentity : matrix := Q IdR0 IdR1 IdR2 IdR3.
Definition XMMatrixSet (m00 m01 m02 m03 m10 m11 m12 m13 m20 m21 m22 m23 m30 m31 m32 m33 : T L) : matrix :=
  Q (Q m00 m01 m02 m03) (Q m10 m11 m12 m13) (Q m20 m21 m22 m23) (Q m30 m31 m32 m33).
(** 1611-1651, 1667-1705 *)
Definition XMMatrixTranslation (b : backend) (x y z : T L) : matrix :=
  match b with
  | Scalar => Q (Q one zero zero zero) (Q zero one zero zero) (Q zero zero one zero) (Q x y z one)
  | _ => Q IdR0 IdR1 IdR2 (Q x y z one)
  end.
Definition XMMatrixTranslationFromVector (b : backend) (Offset : vec) : matrix :=
  match b with
  | Scalar => Q (Q one zero zero zero) (Q zero one zero zero) (Q zero zero one zero) (Q (qx Offset) (qy Offset) (qz Offset) one)
  | _ => Q IdR0 IdR1 IdR2 (vsel IdR3 Offset mask3)
  end.
(** 1725-1770, 1786-1829 *)
Definition XMMatrixScaling (b : backend) (x y z : T L) : matrix :=
  match b with
  | Scalar => Q (Q x zero zero zero) (Q zero y zero zero) (Q zero zero z zero) (Q zero zero zero one)
  | _ => Q (set_ps zero zero zero x) (set_ps zero zero y zero) (set_ps zero z zero zero) IdR3
  end.
Definition XMMatrixScalingFromVector (b : backend) (Scale : vec) : matrix :=
  match b with
  | Scalar =>
    Q (Q (qx Scale) zero zero zero) (Q zero (qy Scale) zero zero) (Q zero zero (qz Scale) zero) (Q zero zero zero one)
  | _ => Q (vand mask_x Scale) (vand mask_y Scale) (vand mask_z Scale) IdR3
  end.
(** g_XMNegateY, g_XMNegateZ, globals.rs 83-84 *)
Definition g_XMNegateY : vec := Q one mone one one.
Definition g_XMNegateZ : vec := Q one one mone one.
(** 1856-1876 / 1890-1903, 1932-1952 / 1966-1979, 2008-2028 / 2042-2055: the part after XMScalarSinCos *)
Definition rotation_x_sc (b : backend) (s c : T L) : matrix :=
  match b with
  | Scalar => Q (Q one zero zero zero) (Q zero c s zero) (Q zero (- s) c zero) (Q zero zero zero one)
  | _ =>
    let vSin := set_ss zero s in
    let vCos := set_ss zero c in
    let vCos := shuffle vCos vSin I3 I0 I0 I3 in
    let r1 := vCos in
    let vCos := permute_ps vCos I3 I1 I2 I0 in
    let vCos := vmul vCos g_XMNegateY in
    Q IdR0 r1 vCos IdR3
  end.
Definition rotation_y_sc (b : backend) (s c : T L) : matrix :=
  match b with
  | Scalar => Q (Q c zero (- s) zero) (Q zero one zero zero) (Q s zero c zero) (Q zero zero zero one)
  | _ =>
    let vSin := set_ss zero s in
    let vCos := set_ss zero c in
    let vSin := shuffle vSin vCos I3 I0 I3 I0 in
    let r2 := vSin in
    let vSin := permute_ps vSin I3 I0 I1 I2 in
    let vSin := vmul vSin g_XMNegateZ in
    Q vSin IdR1 r2 IdR3
  end.
Definition rotation_z_sc (b : backend) (s c : T L) : matrix :=
  match b with
  | Scalar => Q (Q c s zero zero) (Q (- s) c zero zero) (Q zero zero one zero) (Q zero zero zero one)
  | _ =>
    let vSin := set_ss zero s in
    let vCos := set_ss zero c in
    let vCos := unpacklo vCos vSin in
    let r0 := vCos in
    let vCos := permute_ps vCos I3 I2 I0 I1 in
    let vCos := vmul vCos g_XMNegateX in
    Q r0 vCos IdR2 IdR3
  end.
(** 1846-1905, 1922-1981, 1998-2057 *)
Definition XMMatrixRotationX (b : backend) (Angle : T L) : matrix := let '(s, c) := XMScalarSinCos Angle in rotation_x_sc b s c.
Definition XMMatrixRotationY (b : backend) (Angle : T L) : matrix := let '(s, c) := XMScalarSinCos Angle in rotation_y_sc b s c.
Definition XMMatrixRotationZ (b : backend) (Angle : T L) : matrix := let '(s, c) := XMScalarSinCos Angle in rotation_z_sc b s c.
(** 2153-2180, 2189-2227: XMMatrixRotationNormal after XMScalarSinCos *)
Definition matrix_rotation_normal_sc (b : backend) (NormalAxis : vec) (fSinAngle fCosAngle : T L) : matrix :=
  match b with
  | Scalar =>
    let A := Q fSinAngle fCosAngle (one - fCosAngle) zero in
    let C2 := splat I2 A in
    let C1 := splat I1 A in
    let C0 := splat I0 A in
    let N0 := swz NormalAxis I1 I2 I0 I3 in
    let N1 := swz NormalAxis I2 I0 I1 I3 in
    let V0 := XMVectorMultiply b C2 N0 in
    let V0 := XMVectorMultiply b V0 N1 in
    let R0 := XMVectorMultiply b C2 NormalAxis in
    let R0 := XMVectorMultiplyAdd b R0 NormalAxis C1 in
    let R1 := XMVectorMultiplyAdd b C0 NormalAxis V0 in
    let R2 := XMVectorNegativeMultiplySubtract b C0 NormalAxis V0 in
    let V0 := vsel A R0 mask3 in
    let V1 := perm R1 R2 P0Z P1Y P1Z P0X in
    let V2 := perm R1 R2 P0Y P1X P0Y P1X in
    let M_r0 := perm V0 V1 P0X P1X P1Y P0W in
    let M_r1 := perm V0 V1 P1Z P0Y P1W P0W in
    let M_r2 := perm V0 V2 P1X P1Y P0Z P0W in
    let M_r3 := IdR3 in
    Q M_r0 M_r1 M_r2 M_r3
  | _ =>
    let C2 := qrep (one - fCosAngle) in
    let C1 := qrep fCosAngle in
    let C0 := qrep fSinAngle in
    let N0 := permute_ps NormalAxis I3 I0 I2 I1 in
    let N1 := permute_ps NormalAxis I3 I1 I0 I2 in
    let V0 := vmul C2 N0 in
    let V0 := vmul V0 N1 in
    let R0 := vmul C2 NormalAxis in
    let R0 := vmul R0 NormalAxis in
    let R0 := vadd R0 C1 in
    let R1 := vmul C0 NormalAxis in
    let R1 := vadd R1 V0 in
    let R2 := vmul C0 NormalAxis in
    let R2 := vsub V0 R2 in
    let V0 := vand mask3 R0 in
    let V1 := shuffle R1 R2 I2 I1 I2 I0 in
    let V1 := permute_ps V1 I0 I3 I2 I1 in
    let V2 := shuffle R1 R2 I0 I0 I1 I1 in
    let V2 := permute_ps V2 I2 I0 I2 I0 in
    let R2 := shuffle V0 V1 I1 I0 I3 I0 in
    let R2 := permute_ps R2 I1 I3 I2 I0 in
    let M_r0 := R2 in
    let R2 := shuffle V0 V1 I3 I2 I3 I1 in
    let R2 := permute_ps R2 I1 I3 I0 I2 in
    let M_r1 := R2 in
    let V2 := shuffle V2 V0 I3 I2 I1 I0 in
    let M_r2 := V2 in
    let M_r3 := IdR3 in
    Q M_r0 M_r1 M_r2 M_r3
  end.
(** 2142-2229, 2255-2266 *)
Definition XMMatrixRotationNormal (b : backend) (NormalAxis : vec) (Angle : T L) : matrix :=
  let '(s, c) := XMScalarSinCos Angle in matrix_rotation_normal_sc b NormalAxis s c.
Definition XMMatrixRotationAxis (b : backend) (Axis : vec) (Angle : T L) : option matrix :=
  if (is_zero3 Axis || is_inf3 Axis)%bool then None
  else Some (XMMatrixRotationNormal b (XMVector3Normalize b Axis) Angle).
(** 2281-2366 *)
Definition XMMatrixRotationQuaternion (b : backend) (Quaternion : vec) : matrix :=
  match b with
  | Scalar =>
    let Constant1110 := Q one one one zero in
    let Q0 := XMVectorAdd b Quaternion Quaternion in
    let Q1 := XMVectorMultiply b Quaternion Q0 in
    let V0 := perm Q1 Constant1110 P0Y P0X P0X P1W in
    let V1 := perm Q1 Constant1110 P0Z P0Z P0Y P1W in
    let R0 := XMVectorSubtract b Constant1110 V0 in
    let R0 := XMVectorSubtract b R0 V1 in
    let V0 := swz Quaternion I0 I0 I1 I3 in
    let V1 := swz Q0 I2 I1 I2 I3 in
    let V0 := XMVectorMultiply b V0 V1 in
    let V1 := splat I3 Quaternion in
    let V2 := swz Q0 I1 I2 I0 I3 in
    let V1 := XMVectorMultiply b V1 V2 in
    let R1 := XMVectorAdd b V0 V1 in
    let R2 := XMVectorSubtract b V0 V1 in
    let V0 := perm R1 R2 P0Y P1X P1Y P0Z in
    let V1 := perm R1 R2 P0X P1Z P0X P1Z in
    let M_r0 := perm R0 V0 P0X P1X P1Y P0W in
    let M_r1 := perm R0 V0 P1Z P0Y P1W P0W in
    let M_r2 := perm R0 V1 P1X P1Y P0Z P0W in
    let M_r3 := IdR3 in
    Q M_r0 M_r1 M_r2 M_r3
  | _ =>
    let Constant1110 := Q one one one zero in
    let Q0 := vadd Quaternion Quaternion in
    let Q1 := vmul Quaternion Q0 in
    let V0 := permute_ps Q1 I3 I0 I0 I1 in
    let V0 := vand mask3 V0 in
    let V1 := permute_ps Q1 I3 I1 I2 I2 in
    let V1 := vand mask3 V1 in
    let R0 := vsub Constant1110 V0 in
    let R0 := vsub R0 V1 in
    let V0 := permute_ps Quaternion I3 I1 I0 I0 in
    let V1 := permute_ps Q0 I3 I2 I1 I2 in
    let V0 := vmul V0 V1 in
    let V1 := permute_ps Quaternion I3 I3 I3 I3 in
    let V2 := permute_ps Q0 I3 I0 I2 I1 in
    let V1 := vmul V1 V2 in
    let R1 := vadd V0 V1 in
    let R2 := vsub V0 V1 in
    let V0 := shuffle R1 R2 I1 I0 I2 I1 in
    let V0 := permute_ps V0 I1 I3 I2 I0 in
    let V1 := shuffle R1 R2 I2 I2 I0 I0 in
    let V1 := permute_ps V1 I2 I0 I2 I0 in
    let Q1 := shuffle R0 V0 I1 I0 I3 I0 in
    let Q1 := permute_ps Q1 I1 I3 I2 I0 in
    let M_r0 := Q1 in
    let Q1 := shuffle R0 V0 I3 I2 I3 I1 in
    let Q1 := permute_ps Q1 I1 I3 I0 I2 in
    let M_r1 := Q1 in
    let Q1 := shuffle V1 R0 I3 I2 I1 I0 in
    let M_r2 := Q1 in
    let M_r3 := IdR3 in
    Q M_r0 M_r1 M_r2 M_r3
  end.
(** 2117-2123, 2085-2094 *)
Definition XMMatrixRotationRollPitchYawFromVector (b : backend) (Angles : vec) : matrix :=
  XMMatrixRotationQuaternion b (XMQuaternionRotationRollPitchYawFromVector b Angles).
Definition XMMatrixRotationRollPitchYaw (b : backend) (Pitch Yaw Roll : T L) : matrix :=
  XMMatrixRotationRollPitchYawFromVector b (Q Pitch Yaw Roll zero).
Definition with_r3 (M : matrix) (r : vec) : matrix := Q (qx M) (qy M) (qz M) r.
(** 2417-2426 and 2479-2487, textually the same *)
Definition transformation_body (b : backend) (MScalingOriginI MScalingOrientation MScaling MRotation : matrix)
    (VScalingOrigin VRotationOrigin VTranslation : vec) : matrix :=
  let MScalingOrientationT := XMMatrixTranspose b MScalingOrientation in
  let M := XMMatrixMultiply b MScalingOriginI MScalingOrientationT in
  let M := XMMatrixMultiply b M MScaling in
  let M := XMMatrixMultiply b M MScalingOrientation in
  let M := with_r3 M (XMVectorAdd b (qw M) VScalingOrigin) in
  let M := with_r3 M (XMVectorSubtract b (qw M) VRotationOrigin) in
  let M := XMMatrixMultiply b M MRotation in
  let M := with_r3 M (XMVectorAdd b (qw M) VRotationOrigin) in
  with_r3 M (XMVectorAdd b (qw M) VTranslation).
(** 2392-2428; the two angles' sines and cosines in [transformation2d_sc] *)
Definition transformation2d_sc (b : backend) (ScalingOrigin : vec) (so co : T L) (Scaling RotationOrigin : vec) (sr cr : T L)
    (Translation : vec) : matrix :=
  let VScalingOrigin := vsel vzero ScalingOrigin mask2 in
  let NegScalingOrigin := XMVectorNegate b VScalingOrigin in
  let MScalingOriginI := XMMatrixTranslationFromVector b NegScalingOrigin in
  let MScalingOrientation := rotation_z_sc b so co in
  let VScaling := vsel vone Scaling mask2 in
  let MScaling := XMMatrixScalingFromVector b VScaling in
  let VRotationOrigin := vsel vzero RotationOrigin mask2 in
  let MRotation := rotation_z_sc b sr cr in
  let VTranslation := vsel vzero Translation mask2 in
  transformation_body b MScalingOriginI MScalingOrientation MScaling MRotation VScalingOrigin VRotationOrigin VTranslation.
Definition XMMatrixTransformation2D (b : backend) (ScalingOrigin : vec) (ScalingOrientation : T L) (Scaling RotationOrigin : vec)
    (Rotation : T L) (Translation : vec) : matrix :=
  let '(so, co) := XMScalarSinCos ScalingOrientation in
  let '(sr, cr) := XMScalarSinCos Rotation in
  transformation2d_sc b ScalingOrigin so co Scaling RotationOrigin sr cr Translation.
(** 2454-2489 *)
Definition XMMatrixTransformation (b : backend) (ScalingOrigin ScalingOrientationQuaternion Scaling RotationOrigin
    RotationQuaternion Translation : vec) : matrix :=
  let VScalingOrigin := vsel vzero ScalingOrigin mask3 in
  let NegScalingOrigin := XMVectorNegate b ScalingOrigin in
  let MScalingOriginI := XMMatrixTranslationFromVector b NegScalingOrigin in
  let MScalingOrientation := XMMatrixRotationQuaternion b ScalingOrientationQuaternion in
  let MScaling := XMMatrixScalingFromVector b Scaling in
  let VRotationOrigin := vsel vzero RotationOrigin mask3 in
  let MRotation := XMMatrixRotationQuaternion b RotationQuaternion in
  let VTranslation := vsel vzero Translation mask3 in
  transformation_body b MScalingOriginI MScalingOrientation MScaling MRotation VScalingOrigin VRotationOrigin VTranslation.
(** 2528-2533 and 2573-2578, textually the same *)
Definition affine_body (b : backend) (MScaling MRotation : matrix) (VRotationOrigin VTranslation : vec) : matrix :=
  let M := MScaling in
  let M := with_r3 M (XMVectorSubtract b (qw M) VRotationOrigin) in
  let M := XMMatrixMultiply b M MRotation in
  let M := with_r3 M (XMVectorAdd b (qw M) VRotationOrigin) in
  with_r3 M (XMVectorAdd b (qw M) VTranslation).
(** 2511-2535, 2557-2580 *)
Definition affine2d_sc (b : backend) (Scaling RotationOrigin : vec) (s c : T L) (Translation : vec) : matrix :=
  let VScaling := vsel vone Scaling mask2 in
  let MScaling := XMMatrixScalingFromVector b VScaling in
  let VRotationOrigin := vsel vzero RotationOrigin mask2 in
  let MRotation := rotation_z_sc b s c in
  let VTranslation := vsel vzero Translation mask2 in
  affine_body b MScaling MRotation VRotationOrigin VTranslation.
Definition XMMatrixAffineTransformation2D (b : backend) (Scaling RotationOrigin : vec) (Rotation : T L) (Translation : vec) : matrix :=
  let '(s, c) := XMScalarSinCos Rotation in affine2d_sc b Scaling RotationOrigin s c Translation.
Definition XMMatrixAffineTransformation (b : backend) (Scaling RotationOrigin RotationQuaternion Translation : vec) : matrix :=
  let MScaling := XMMatrixScalingFromVector b Scaling in
  let VRotationOrigin := vsel vzero RotationOrigin mask3 in
  let MRotation := XMMatrixRotationQuaternion b RotationQuaternion in
  let VTranslation := vsel vzero Translation mask3 in
  affine_body b MScaling MRotation VRotationOrigin VTranslation.

(** ** Reflection and shadow *)
Definition is_inf4 (V : vec) : bool := qany (qmap (fun a => is_pinf (tabs a)) V).
(** 2596-2621 *)
Definition XMMatrixReflect (b : backend) (ReflectionPlane : vec) : option matrix :=
  if (is_zero3 ReflectionPlane || is_inf4 ReflectionPlane)%bool then None else
  let NegativeTwo := Q (tlit (-2) 0) (tlit (-2) 0) (tlit (-2) 0) zero in
  let P := XMPlaneNormalize b ReflectionPlane in
  let S := XMVectorMultiply b P NegativeTwo in
  let A := splat I0 P in
  let B := splat I1 P in
  let C := splat I2 P in
  let D := splat I3 P in
  Some (Q (XMVectorMultiplyAdd b A S IdR0) (XMVectorMultiplyAdd b B S IdR1)
          (XMVectorMultiplyAdd b C S IdR2) (XMVectorMultiplyAdd b D S IdR3)).
(** 2644-2674; XMVectorRotateLeft by 1 is the swizzle (y, z, w, x) *)
Definition XMMatrixShadow (b : backend) (ShadowPlane LightPosition : vec) : option matrix :=
  if (is_zero3 ShadowPlane || is_inf4 ShadowPlane)%bool then None else
  let P := XMPlaneNormalize b ShadowPlane in
  let Dot := XMPlaneDot b P LightPosition in
  let P := XMVectorNegate b P in
  let D := splat I3 P in
  let C := splat I2 P in
  let B := splat I1 P in
  let A := splat I0 P in
  let Dot := vsel vzero Dot mask_w in
  let r3 := XMVectorMultiplyAdd b D LightPosition Dot in
  let Dot := swz Dot I1 I2 I3 I0 in
  let r2 := XMVectorMultiplyAdd b C LightPosition Dot in
  let Dot := swz Dot I1 I2 I3 I0 in
  let r1 := XMVectorMultiplyAdd b B LightPosition Dot in
  let Dot := swz Dot I1 I2 I3 I0 in
  let r0 := XMVectorMultiplyAdd b A LightPosition Dot in
  Some (Q r0 r1 r2 r3).

(** ** View matrices *)
(** 2750-2785 *)
Definition XMMatrixLookToLH (b : backend) (EyePosition EyeDirection UpDirection : vec) : option matrix :=
  if (is_zero3 EyeDirection || is_inf3 EyeDirection || is_zero3 UpDirection || is_inf3 UpDirection)%bool then None else
  let R2 := XMVector3Normalize b EyeDirection in
  let R0 := XMVector3Cross b UpDirection R2 in
  let R0 := XMVector3Normalize b R0 in
  let R1 := XMVector3Cross b R2 R0 in
  let NegEyePosition := XMVectorNegate b EyePosition in
  let D0 := XMVector3Dot b R0 NegEyePosition in
  let D1 := XMVector3Dot b R1 NegEyePosition in
  let D2 := XMVector3Dot b R2 NegEyePosition in
  let M := Q (vsel D0 R0 mask3) (vsel D1 R1 mask3) (vsel D2 R2 mask3) IdR3 in
  Some (XMMatrixTranspose b M).
(** 2805-2813, 2694-2702, 2722-2730 *)
Definition XMMatrixLookToRH (b : backend) (EyePosition EyeDirection UpDirection : vec) : option matrix :=
  XMMatrixLookToLH b EyePosition (XMVectorNegate b EyeDirection) UpDirection.
Definition XMMatrixLookAtLH (b : backend) (EyePosition FocusPosition UpDirection : vec) : option matrix :=
  XMMatrixLookToLH b EyePosition (XMVectorSubtract b FocusPosition EyePosition) UpDirection.
Definition XMMatrixLookAtRH (b : backend) (EyePosition FocusPosition UpDirection : vec) : option matrix :=
  XMMatrixLookToLH b EyePosition (XMVectorSubtract b EyePosition FocusPosition) UpDirection.

(** ** Projections. The builders differ only in the four values; [persp_rows m23] and [ortho_rows] are the common code that
    places them (scalar: element by element; SSE: shuffles), 2858-2878 / 2899-2918 and twins, 3532-3552 / 3572-3591 and twin *)
Definition persp_rows (b : backend) (a c f k m23 : T L) : matrix :=
  match b with
  | Scalar => Q (Q a zero zero zero) (Q zero c zero zero) (Q zero zero f m23) (Q zero zero k zero)
  | _ =>
    let vValues := Q a c f k in
    let r0 := move_ss vzero vValues in
    let r1 := vand mask_y vValues in
    let vValues := shuffle vValues (Q zero zero zero m23) I3 I2 I3 I2 in
    let r2 := shuffle vzero vValues I3 I0 I0 I0 in
    let r3 := shuffle r2 vValues I2 I1 I0 I0 in
    Q r0 r1 r2 r3
  end.
Definition ortho_rows (b : backend) (a c f k : T L) : matrix :=
  match b with
  | Scalar => Q (Q a zero zero zero) (Q zero c zero zero) (Q zero zero f zero) (Q zero zero k one)
  | _ =>
    let vValues := Q a c f k in
    let r0 := move_ss vzero vValues in
    let r1 := vand mask_y vValues in
    let vValues := shuffle vValues IdR3 I3 I2 I3 I2 in
    let r2 := shuffle vzero vValues I2 I0 I0 I0 in
    let r3 := shuffle r2 vValues I3 I1 I0 I0 in
    Q r0 r1 r2 r3
  end.
(** 0.00001 and 0.00001 * 2.0 *)
Definition eps5 : T L := tlit 2748779 (-38).
Definition eps5x2 : T L := tlit 2748779 (-37).
Definition near_far_ok (NearZ FarZ : T L) : bool := (tgt NearZ zero && tgt FarZ zero)%bool.
Definition distinct (a c : T L) : bool := negb (XMScalarNearEqual a c eps5).
(** 2841-2920, 2948-3027 *)
Definition XMMatrixPerspectiveLH (b : backend) (ViewWidth ViewHeight NearZ FarZ : T L) : option matrix :=
  if (near_far_ok NearZ FarZ && distinct ViewWidth zero && distinct ViewHeight zero && distinct FarZ NearZ)%bool then
    let TwoNearZ := NearZ + NearZ in
    let fRange := FarZ / (FarZ - NearZ) in
    Some (persp_rows b (TwoNearZ / ViewWidth) (TwoNearZ / ViewHeight) fRange (- fRange * NearZ) one)
  else None.
Definition XMMatrixPerspectiveRH (b : backend) (ViewWidth ViewHeight NearZ FarZ : T L) : option matrix :=
  if (near_far_ok NearZ FarZ && distinct ViewWidth zero && distinct ViewHeight zero && distinct FarZ NearZ)%bool then
    let TwoNearZ := NearZ + NearZ in
    let fRange := FarZ / (NearZ - FarZ) in
    Some (persp_rows b (TwoNearZ / ViewWidth) (TwoNearZ / ViewHeight) fRange (fRange * NearZ) mone)
  else None.
(** 3055-3143, 3172-3259; [_sc] is the part after XMScalarSinCos(0.5 * FovAngleY) *)
Definition perspective_fov_lh_sc (b : backend) (SinFov CosFov AspectRatio NearZ FarZ : T L) : matrix :=
  let Height := CosFov / SinFov in
  let Width := Height / AspectRatio in
  let fRange := FarZ / (FarZ - NearZ) in
  persp_rows b Width Height fRange (- fRange * NearZ) one.
Definition perspective_fov_rh_sc (b : backend) (SinFov CosFov AspectRatio NearZ FarZ : T L) : matrix :=
  let Height := CosFov / SinFov in
  let Width := Height / AspectRatio in
  let fRange := FarZ / (NearZ - FarZ) in
  persp_rows b Width Height fRange (fRange * NearZ) mone.
Definition fov_ok (FovAngleY AspectRatio NearZ FarZ : T L) : bool :=
  (near_far_ok NearZ FarZ && negb (XMScalarNearEqual FovAngleY zero eps5x2) && distinct AspectRatio zero && distinct FarZ NearZ)%bool.
Definition XMMatrixPerspectiveFovLH (b : backend) (FovAngleY AspectRatio NearZ FarZ : T L) : option matrix :=
  if fov_ok FovAngleY AspectRatio NearZ FarZ then
    let '(s, c) := XMScalarSinCos (half * FovAngleY) in Some (perspective_fov_lh_sc b s c AspectRatio NearZ FarZ)
  else None.
Definition XMMatrixPerspectiveFovRH (b : backend) (FovAngleY AspectRatio NearZ FarZ : T L) : option matrix :=
  if fov_ok FovAngleY AspectRatio NearZ FarZ then
    let '(s, c) := XMScalarSinCos (half * FovAngleY) in Some (perspective_fov_rh_sc b s c AspectRatio NearZ FarZ)
  else None.
(** 3292-3375, 3409-3492 *)
Definition offcenter_ok (ViewLeft ViewRight ViewBottom ViewTop NearZ FarZ : T L) : bool :=
  (near_far_ok NearZ FarZ && distinct ViewRight ViewLeft && distinct ViewTop ViewBottom && distinct FarZ NearZ)%bool.
Definition offcenter_rows (b : backend) (a c k : T L) (r2 : vec) : matrix :=
  match b with
  | Scalar => Q (Q a zero zero zero) (Q zero c zero zero) r2 (Q zero zero k zero)
  | _ =>
    let vValues := Q a c k zero in
    Q (move_ss vzero vValues) (vand mask_y vValues) r2 (vand mask_z vValues)
  end.
Definition XMMatrixPerspectiveOffCenterLH (b : backend) (ViewLeft ViewRight ViewBottom ViewTop NearZ FarZ : T L) : option matrix :=
  if offcenter_ok ViewLeft ViewRight ViewBottom ViewTop NearZ FarZ then
    let TwoNearZ := NearZ + NearZ in
    let ReciprocalWidth := one / (ViewRight - ViewLeft) in
    let ReciprocalHeight := one / (ViewTop - ViewBottom) in
    let fRange := FarZ / (FarZ - NearZ) in
    Some (offcenter_rows b (TwoNearZ * ReciprocalWidth) (TwoNearZ * ReciprocalHeight) (- fRange * NearZ)
            (Q (- (ViewLeft + ViewRight) * ReciprocalWidth) (- (ViewTop + ViewBottom) * ReciprocalHeight) fRange one))
  else None.
Definition XMMatrixPerspectiveOffCenterRH (b : backend) (ViewLeft ViewRight ViewBottom ViewTop NearZ FarZ : T L) : option matrix :=
  if offcenter_ok ViewLeft ViewRight ViewBottom ViewTop NearZ FarZ then
    let TwoNearZ := NearZ + NearZ in
    let ReciprocalWidth := one / (ViewRight - ViewLeft) in
    let ReciprocalHeight := one / (ViewTop - ViewBottom) in
    let fRange := FarZ / (NearZ - FarZ) in
    Some (offcenter_rows b (TwoNearZ * ReciprocalWidth) (TwoNearZ * ReciprocalHeight) (fRange * NearZ)
            (Q ((ViewLeft + ViewRight) * ReciprocalWidth) ((ViewTop + ViewBottom) * ReciprocalHeight) fRange mone))
  else None.
(** 3518-3593, 3619-3694 *)
Definition XMMatrixOrthographicLH (b : backend) (ViewWidth ViewHeight NearZ FarZ : T L) : option matrix :=
  if (distinct ViewWidth zero && distinct ViewHeight zero && distinct FarZ NearZ)%bool then
    let fRange := one / (FarZ - NearZ) in
    Some (ortho_rows b (two / ViewWidth) (two / ViewHeight) fRange (- fRange * NearZ))
  else None.
Definition XMMatrixOrthographicRH (b : backend) (ViewWidth ViewHeight NearZ FarZ : T L) : option matrix :=
  if (distinct ViewWidth zero && distinct ViewHeight zero && distinct FarZ NearZ)%bool then
    let fRange := one / (NearZ - FarZ) in
    Some (ortho_rows b (two / ViewWidth) (two / ViewHeight) fRange (fRange * NearZ))
  else None.

(** ** Operators of XMMatrix, 3768-3965, and of XMVector, vector.rs 12989-13103 *)
Definition XMMatrix_add (b : backend) (M1 M2 : matrix) : matrix := qmap2 (XMVectorAdd b) M1 M2.
Definition XMMatrix_sub (b : backend) (M1 M2 : matrix) : matrix := qmap2 (XMVectorSubtract b) M1 M2.
(** 3783-3793, 3810-3820: all four statements assign to row 0 *)
Definition XMMatrix_add_assign (b : backend) (M1 M2 : matrix) : matrix :=
  let s := M1 in
  let s := setlane s I0 (XMVectorAdd b (qx s) (qx M2)) in
  let s := setlane s I0 (XMVectorAdd b (qy s) (qy M2)) in
  let s := setlane s I0 (XMVectorAdd b (qz s) (qz M2)) in
  setlane s I0 (XMVectorAdd b (qw s) (qw M2)).
Definition XMMatrix_sub_assign (b : backend) (M1 M2 : matrix) : matrix :=
  let s := M1 in
  let s := setlane s I0 (XMVectorSubtract b (qx s) (qx M2)) in
  let s := setlane s I0 (XMVectorSubtract b (qy s) (qy M2)) in
  let s := setlane s I0 (XMVectorSubtract b (qz s) (qz M2)) in
  setlane s I0 (XMVectorSubtract b (qw s) (qw M2)).
Definition XMMatrix_mul (b : backend) (M1 M2 : matrix) : matrix := XMMatrixMultiply b M1 M2.
Definition XMMatrix_mul_assign (b : backend) (M1 M2 : matrix) : matrix := XMMatrixMultiply b M1 M2.
Definition f32_mul_XMMatrix (b : backend) (S : T L) (M : matrix) : matrix := qmap (fun r => XMVectorScale b r S) M.
Definition XMMatrix_mul_f32 (b : backend) (M : matrix) (S : T L) : matrix := qmap (fun r => XMVectorScale b r S) M.
Definition XMMatrix_mul_assign_f32 (b : backend) (M : matrix) (S : T L) : matrix := qmap (fun r => XMVectorScale b r S) M.
Definition XMMatrix_div_f32 (b : backend) (M : matrix) (S : T L) : matrix := qmap (fun r => XMVectorDivide b r (qrep S)) M.
Definition XMMatrix_div_assign_f32 (b : backend) (M : matrix) (S : T L) : matrix := qmap (fun r => XMVectorDivide b r (qrep S)) M.
Definition XMMatrix_neg (b : backend) (M : matrix) : matrix := qmap (XMVectorNegate b) M.
Definition vector_eq (V1 V2 : vec) : bool := qall (veq V1 V2).
Definition XMMatrix_eq (M1 M2 : matrix) : bool :=
  (vector_eq (qx M1) (qx M2) && vector_eq (qy M1) (qy M2) && vector_eq (qz M1) (qz M2) && vector_eq (qw M1) (qw M2))%bool.
Definition XMVector_add (b : backend) (V1 V2 : vec) : vec := XMVectorAdd b V1 V2.
Definition XMVector_add_assign (b : backend) (V1 V2 : vec) : vec := XMVectorAdd b V1 V2.
Definition XMVector_sub (b : backend) (V1 V2 : vec) : vec := XMVectorSubtract b V1 V2.
Definition XMVector_sub_assign (b : backend) (V1 V2 : vec) : vec := XMVectorSubtract b V1 V2.
Definition XMVector_mul (b : backend) (V1 V2 : vec) : vec := XMVectorMultiply b V1 V2.
Definition XMVector_mul_assign (b : backend) (V1 V2 : vec) : vec := XMVectorMultiply b V1 V2.
Definition XMVector_div (b : backend) (V1 V2 : vec) : vec := XMVectorDivide b V1 V2.
Definition XMVector_div_assign (b : backend) (V1 V2 : vec) : vec := XMVectorDivide b V1 V2.
Definition f32_mul_XMVector (b : backend) (S : T L) (V : vec) : vec := XMVectorScale b V S.
Definition XMVector_mul_f32 (b : backend) (V : vec) (S : T L) : vec := XMVectorScale b V S.
Definition XMVector_mul_assign_f32 (b : backend) (V : vec) (S : T L) : vec := XMVectorScale b V S.
Definition XMVector_div_f32 (b : backend) (V : vec) (S : T L) : vec := XMVectorDivide b V (qrep S).
Definition XMVector_div_assign_f32 (b : backend) (V : vec) (S : T L) : vec := XMVectorDivide b V (qrep S).
Definition XMVector_neg (b : backend) (V : vec) : vec := XMVectorNegate b V.
Definition XMVector_eq (V1 V2 : vec) : bool := vector_eq V1 V2.

(** ** Decompose, 1322-1461 *)
(** 1329-1365: XM3RANKDECOMPOSE! as the triple (a, b, c) *)
Definition rank (x y z : T L) : idx * idx * idx :=
  if tlt x y then
    if tlt y z then (I2, I1, I0)
    else if tlt x z then (I1, I2, I0) else (I1, I0, I2)
  else
    if tlt x z then (I2, I0, I1)
    else if tlt y z then (I0, I2, I1) else (I0, I1, I2).
(** 1367: 0.0001 *)
Definition decomp_eps : T L := tlit 13743895 (-37).
(** 1371-1375: entries 0, 1, 2 are g_XMIdentityR0, R2 and R3; the index is never 3 *)
Definition canonical (i : idx) : vec := match i with I0 => IdR0 | I1 => IdR2 | _ => IdR3 end.
(** 1406-1411: the largest axis *)
Definition decompose_a (bk : backend) (scales : vec) (B : matrix) (a : idx) : matrix :=
  let B := if tlt (lane scales a) decomp_eps then setlane B a (canonical a) else B in
  setlane B a (XMVector3Normalize bk (lane B a)).
(** 1413-1428: the middle axis *)
Definition decompose_b (bk : backend) (scales : vec) (B : matrix) (a b : idx) : matrix :=
  let B :=
    if tlt (lane scales b) decomp_eps then
      let va := lane B a in
      let '(_, _, cc) := rank (tabs (qx va)) (tabs (qy va)) (tabs (qz va)) in
      setlane B b (XMVector3Cross bk va (canonical cc))
    else B in
  setlane B b (XMVector3Normalize bk (lane B b)).
(** 1430-1435: the smallest axis *)
Definition decompose_c (bk : backend) (scales : vec) (B : matrix) (a b c : idx) : matrix :=
  let B := if tlt (lane scales c) decomp_eps then setlane B c (XMVector3Cross bk (lane B a) (lane B b)) else B in
  setlane B c (XMVector3Normalize bk (lane B c)).
(** 1437-1460: handedness, the test on the determinant, the quaternion *)
Definition decompose_d (bk : backend) (scales : vec) (a : idx) (B : matrix) (outTrans : vec) : option (vec * vec * vec) :=
  let fDet := qx (XMMatrixDeterminant bk B) in
  let '(scales, B, fDet) :=
    if tlt fDet zero then (setlane scales a (- lane scales a), setlane B a (XMVectorNegate bk (lane B a)), - fDet)
    else (scales, B, fDet) in
  let fDet := fDet - one in
  let fDet := fDet * fDet in
  if tlt decomp_eps fDet then None
  else Some (scales, XMQuaternionRotationMatrix bk B, outTrans).
(** 1322-1461. [Some (scale, quaternion, translation)] is a return of true; [None] is false (the quaternion is then unwritten) *)
Definition XMMatrixDecompose (bk : backend) (M : matrix) : option (vec * vec * vec) :=
  let outTrans := qw M in
  let B := Q (qx M) (qy M) (qz M) IdR3 in
  let scales := Q (qx (XMVector3Length bk (qx B))) (qx (XMVector3Length bk (qy B))) (qx (XMVector3Length bk (qz B))) zero in
  let '(a, b, c) := rank (qx scales) (qy scales) (qz scales) in
  let B := decompose_a bk scales B a in
  let B := decompose_b bk scales B a b in
  let B := decompose_c bk scales B a b c in
  decompose_d bk scales a B outTrans.

(** ** vector.rs 11074-11101, 11154-11183 *)
Definition XMVector3Project (b : backend) (V : vec) (ViewportX ViewportY ViewportWidth ViewportHeight ViewportMinZ ViewportMaxZ : T L)
    (Projection View World : matrix) : vec :=
  let HalfViewportWidth := ViewportWidth * half in
  let HalfViewportHeight := ViewportHeight * half in
  let Scale := Q HalfViewportWidth (- HalfViewportHeight) (ViewportMaxZ - ViewportMinZ) zero in
  let Offset := Q (ViewportX + HalfViewportWidth) (ViewportY + HalfViewportHeight) ViewportMinZ zero in
  let Transform := XMMatrixMultiply b World View in
  let Transform := XMMatrixMultiply b Transform Projection in
  let Result := XMVector3TransformCoord b V Transform in
  XMVectorMultiplyAdd b Result Scale Offset.
Definition XMVector3Unproject (b : backend) (V : vec) (ViewportX ViewportY ViewportWidth ViewportHeight ViewportMinZ ViewportMaxZ : T L)
    (Projection View World : matrix) : vec :=
  let D := Q mone one zero zero in
  let Scale := Q (ViewportWidth * half) (- ViewportHeight * half) (ViewportMaxZ - ViewportMinZ) one in
  let Scale := XMVectorReciprocal b Scale in
  let Offset := Q (- ViewportX) (- ViewportY) (- ViewportMinZ) zero in
  let Offset := XMVectorMultiplyAdd b Scale Offset D in
  let Transform := XMMatrixMultiply b World View in
  let Transform := XMMatrixMultiply b Transform Projection in
  let Transform := snd (XMMatrixInverse b Transform) in
  let Result := XMVectorMultiplyAdd b V Scale Offset in
  XMVector3TransformCoord b Result Transform.
End Matrix.
