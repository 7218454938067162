(** Lane arithmetic as a parameter: the typed model is written once and read at two instances,
    [RL] (exact real arithmetic) and [FL] (binary32 bit patterns with IEEE rounding, F32.v). *)
From Coq Require Import Reals.
From Flocq Require Import Core.
From Verif Require Import Base F32 Intrin.

Record Lane : Type := MkLane {
  T : Type;
  tadd : T -> T -> T; tsub : T -> T -> T; tmul : T -> T -> T; tdiv : T -> T -> T;
  tsqrt : T -> T; tneg : T -> T; tabs : T -> T;
  tfma : T -> T -> T -> T;                   (** fused multiply-add a*b+c, one rounding *)
  tlt : T -> T -> bool; tle : T -> T -> bool; teq : T -> T -> bool;
  tlit : Z -> Z -> T;                        (** the literal m * 2^e *)
  pinf : T; tqnan : T;                      (** +infinity and quiet NaN constants *)
  is_pinf : T -> bool; is_nan : T -> bool;  (** comparisons with them *)
  tsgn : T -> bool;                          (** sign bit *)
  trint : T -> T; tfloor : T -> T; tceil : T -> T; ttrunc : T -> T;  (** integral roundings: nearest-even, down, up, to zero *)
  ttrunc32 : T -> T                          (** Rust's [(x as i32) as f32] *)
}.
Arguments tadd {L} : rename. Arguments tsub {L} : rename. Arguments tmul {L} : rename. Arguments tdiv {L} : rename.
Arguments tsqrt {L} : rename. Arguments tneg {L} : rename. Arguments tabs {L} : rename. Arguments tfma {L} : rename.
Arguments tlt {L} : rename. Arguments tle {L} : rename. Arguments teq {L} : rename. Arguments tlit {L} : rename.
Arguments pinf {L} : rename. Arguments tqnan {L} : rename. Arguments is_pinf {L} : rename. Arguments is_nan {L} : rename.
Arguments tsgn {L} : rename. Arguments trint {L} : rename. Arguments tfloor {L} : rename. Arguments tceil {L} : rename.
Arguments ttrunc {L} : rename. Arguments ttrunc32 {L} : rename.

Definition Rltb (a b : R) : bool := if Rlt_dec a b then true else false.
Definition Rleb (a b : R) : bool := if Rle_dec a b then true else false.
Definition Reqb (a b : R) : bool := if Req_EM_T a b then true else false.
(** [m * 2^e] *)
Definition Rlit (m e : Z) : R :=
  match e with
  | Z0 => IZR m
  | Zpos p => IZR (m * Z.pow_pos 2 p)
  | Zneg p => (IZR m / IZR (Z.pow_pos 2 p))%R
  end.
Definition Rrint (x : R) : R := IZR (ZnearestE x).
Definition Rfloor (x : R) : R := IZR (Zfloor x).
Definition Rceil (x : R) : R := IZR (Zceil x).
Definition Rtrunc (x : R) : R := IZR (Ztrunc x).
Definition Rtrunc32 (x : R) : R := IZR (Z.max (- 2 ^ 31) (Z.min (2 ^ 31 - 1) (Ztrunc x))).
(** Exact arithmetic: there is no infinity and no NaN; the two constants are placeholders for results that no theorem
    over the reals speaks about. *)
Definition RL : Lane := {|
  T := R; tadd := Rplus; tsub := Rminus; tmul := Rmult; tdiv := Rdiv; tsqrt := R_sqrt.sqrt; tneg := Ropp; tabs := Rabs;
  tfma := fun a b c => (a * b + c)%R; tlt := Rltb; tle := Rleb; teq := Reqb; tlit := Rlit;
  pinf := 0%R; tqnan := 0%R; is_pinf := fun _ => false; is_nan := fun _ => false; tsgn := fun a => Rltb a 0%R;
  trint := Rrint; tfloor := Rfloor; tceil := Rceil; ttrunc := Rtrunc; ttrunc32 := Rtrunc32 |}.
Definition FL : Lane := {|
  T := Z; tadd := f_add; tsub := f_sub; tmul := f_mul; tdiv := f_div; tsqrt := f_sqrt; tneg := f_neg; tabs := f_abs;
  tfma := f_fma; tlt := f_lt; tle := f_le; teq := f_eq; tlit := f_lit;
  pinf := 0x7F800000; tqnan := 0x7FC00000; is_pinf := fun a => f_eq a 0x7F800000; is_nan := f_isnan;
  tsgn := f_sgn; trint := f_rint; tfloor := f_floor; tceil := f_ceil; ttrunc := f_trunc; ttrunc32 := fun a => f_of_Z (f_to_i32 a) |}.
Canonical RL.
Canonical FL.

(** Which code path was compiled in: the [_XM_NO_INTRINSICS_] path, or the SSE path with the listed target features
    (build.rs / lib.rs cfg flags). Combinations that no build produces are harmless: theorems quantify over all. *)
Inductive avx_level : Set := NoAVX | AVX | AVX2.
Inductive backend : Set := Scalar | SSE (sse3 sse4 fma3 : bool) (avx : avx_level).

(** Which of the eight lanes of two vectors a permute picks *)
Inductive pidx : Set := P0X | P0Y | P0Z | P0W | P1X | P1Y | P1Z | P1W.
Definition pick {A} (a b : quad A) (p : pidx) : A :=
  match p with
  | P0X => qx a | P0Y => qy a | P0Z => qz a | P0W => qw a
  | P1X => qx b | P1Y => qy b | P1Z => qz b | P1W => qw b
  end.
(** The tuple-type forms [<(..)>::XMVectorPermute(a, b)] and [<(..)>::XMVectorSwizzle(v)] (lib.rs 2204-2787) and
    XMVectorMergeXY/ZW, on typed lanes; MLanes.v models their bodies and C03 proves that this is what they compute. *)
Definition perm {A} (a b : quad A) (p0 p1 p2 p3 : pidx) : quad A := Q (pick a b p0) (pick a b p1) (pick a b p2) (pick a b p3).
Definition swz {A} (v : quad A) (e0 e1 e2 e3 : idx) : quad A := Q (lane v e0) (lane v e1) (lane v e2) (lane v e3).
Definition mergeXY {A} (a b : quad A) : quad A := unpacklo a b.
Definition mergeZW {A} (a b : quad A) : quad A := unpackhi a b.

Declare Scope lane_scope.
Delimit Scope lane_scope with lane.
Infix "+" := tadd : lane_scope.
Infix "-" := tsub : lane_scope.
Infix "*" := tmul : lane_scope.
Infix "/" := tdiv : lane_scope.
Notation "- a" := (tneg a) : lane_scope.

Section Ops.
Context {L : Lane}.
Notation vec := (quad (T L)).
Local Open Scope lane_scope.

Definition zero : T L := tlit 0 0.
Definition one : T L := tlit 1 0.
Definition two : T L := tlit 2 0.
Definition half : T L := tlit 1 (-1).
Definition tge (a b : T L) : bool := tle b a.
Definition tgt (a b : T L) : bool := tlt b a.

(** SSE arithmetic on typed lanes *)
Definition vadd : vec -> vec -> vec := qmap2 tadd.
Definition vsub : vec -> vec -> vec := qmap2 tsub.
Definition vmul : vec -> vec -> vec := qmap2 tmul.
Definition vdiv : vec -> vec -> vec := qmap2 tdiv.
Definition vsqrt : vec -> vec := qmap tsqrt.
Definition vmin : vec -> vec -> vec := qmap2 (fun a b => if tlt a b then a else b).
Definition vmax : vec -> vec -> vec := qmap2 (fun a b => if tlt b a then a else b).
Definition vzero : vec := qrep zero.
Definition vone : vec := qrep one.
(** [_mm_add_ss] etc.: lane 0 only *)
Definition add_ss (a b : vec) : vec := setlane a I0 (qx a + qx b).
Definition sub_ss (a b : vec) : vec := setlane a I0 (qx a - qx b).
Definition mul_ss (a b : vec) : vec := setlane a I0 (qx a * qx b).
Definition div_ss (a b : vec) : vec := setlane a I0 (qx a / qx b).
Definition sqrt_ss (a : vec) : vec := setlane a I0 (tsqrt (qx a)).
(** [_mm_hadd_ps] *)
Definition hadd (a b : vec) : vec := Q (qx a + qy a) (qz a + qw a) (qx b + qy b) (qz b + qw b).
(** [_mm_moveldup_ps] *)
Definition moveldup (a : vec) : vec := Q (qx a) (qx a) (qz a) (qz a).
(** [_mm_dp_ps(a, b, m << 4 | 0xf)]: masked products, summed pairwise, result in all lanes *)
Definition dp_ps (a b : vec) (m : quad bool) : vec :=
  let t := qmap3 (fun x y (c : bool) => if c then x * y else zero) a b m in
  qrep ((qx t + qy t) + (qz t + qw t)).
(** masks *)
Definition vlt : vec -> vec -> quad bool := qmap2 tlt.
Definition vle : vec -> vec -> quad bool := qmap2 tle.
Definition vgt : vec -> vec -> quad bool := qmap2 tgt.
Definition vge : vec -> vec -> quad bool := qmap2 tge.
Definition veq : vec -> vec -> quad bool := qmap2 teq.
Definition vneq : vec -> vec -> quad bool := qmap2 (fun a b => negb (teq a b)).
(** bitwise and of a value with a comparison mask; [XMVectorSelect a b m] with a mask *)
Definition vand (m : quad bool) (v : vec) : vec := qmap2 (fun (c : bool) a => if c then a else zero) m v.
Definition vsel (a b : vec) (m : quad bool) : vec := qmap3 (fun x y (c : bool) => if c then y else x) a b m.
Definition mask3 : quad bool := Q true true true false.
Definition mask_x : quad bool := Q true false false false.
Definition mask_y : quad bool := Q false true false false.
Definition mask_z : quad bool := Q false false true false.
Definition mask_w : quad bool := Q false false false true.
Definition mnot : quad bool -> quad bool := qmap negb.
Definition mor : quad bool -> quad bool -> quad bool := qmap2 orb.
Definition mand : quad bool -> quad bool -> quad bool := qmap2 andb.
(** XMVectorAndCInt on masks: a and not b *)
Definition mandc : quad bool -> quad bool -> quad bool := qmap2 (fun a b => andb a (negb b)).
Definition mtrue : quad bool := qrep true.
Definition mfalse : quad bool := qrep false.
(** g_XMIdentityR0..R3, g_XMNegIdentityR3, globals.rs 30-37 *)
Definition IdR0 : vec := Q one zero zero zero.
Definition IdR1 : vec := Q zero one zero zero.
Definition IdR2 : vec := Q zero zero one zero.
Definition IdR3 : vec := Q zero zero zero one.
Definition splat (i : idx) (v : vec) : vec := permute_ps v i i i i.
End Ops.

Section Arith.
Context {L : Lane}.
Notation vec := (quad (T L)).
Local Open Scope lane_scope.
(** XM_FMADD_PS! / XM_FNMADD_PS!, lib.rs 508-536 *)
Definition FMADD (b : backend) (x y z : vec) : vec :=
  match b with SSE _ _ true _ => qmap3 tfma x y z | _ => vadd (vmul x y) z end.
Definition FNMADD (b : backend) (x y z : vec) : vec :=
  match b with SSE _ _ true _ => qmap3 (fun x y z => tfma (- x) y z) x y z | _ => vsub z (vmul x y) end.

(** Lane-wise arithmetic, vector.rs: Add 3856-3883, Subtract 3995-4022, Multiply 4097-4124, Divide 4215-4242 — the scalar
    path spells out four lanes, the SSE path is one instruction with the same lanes *)
Definition XMVectorAdd (b : backend) (V1 V2 : vec) : vec :=
  match b with
  | Scalar => Q (qx V1 + qx V2) (qy V1 + qy V2) (qz V1 + qz V2) (qw V1 + qw V2)
  | _ => vadd V1 V2
  end.
Definition XMVectorSubtract (b : backend) (V1 V2 : vec) : vec :=
  match b with
  | Scalar => Q (qx V1 - qx V2) (qy V1 - qy V2) (qz V1 - qz V2) (qw V1 - qw V2)
  | _ => vsub V1 V2
  end.
Definition XMVectorMultiply (b : backend) (V1 V2 : vec) : vec :=
  match b with
  | Scalar => Q (qx V1 * qx V2) (qy V1 * qy V2) (qz V1 * qz V2) (qw V1 * qw V2)
  | _ => vmul V1 V2
  end.
Definition XMVectorDivide (b : backend) (V1 V2 : vec) : vec :=
  match b with
  | Scalar => Q (qx V1 / qx V2) (qy V1 / qy V2) (qz V1 / qz V2) (qw V1 / qw V2)
  | _ => vdiv V1 V2
  end.
(** XMVectorMultiplyAdd 4159-4187, XMVectorNegativeMultiplySubtract 4277-4305 *)
Definition XMVectorMultiplyAdd (b : backend) (V1 V2 V3 : vec) : vec :=
  match b with
  | Scalar => Q (qx V1 * qx V2 + qx V3) (qy V1 * qy V2 + qy V3) (qz V1 * qz V2 + qz V3) (qw V1 * qw V2 + qw V3)
  | _ => FMADD b V1 V2 V3
  end.
Definition XMVectorNegativeMultiplySubtract (b : backend) (V1 V2 V3 : vec) : vec :=
  match b with
  | Scalar => Q (qx V3 - (qx V1 * qx V2)) (qy V3 - (qy V1 * qy V2)) (qz V3 - (qz V1 * qz V2)) (qw V3 - (qw V1 * qw V2))
  | _ => FNMADD b V1 V2 V3
  end.
(** XMVectorScale 4311-4339 *)
Definition XMVectorScale (b : backend) (V : vec) (s : T L) : vec :=
  match b with
  | Scalar => Q (qx V * s) (qy V * s) (qz V * s) (qw V * s)
  | _ => vmul (qrep s) V
  end.
(** XMVectorReciprocal 4377-4403, XMVectorSqrt 4441-4467, XMVectorReciprocalSqrt 4508-4536 *)
Definition XMVectorReciprocal (b : backend) (V : vec) : vec :=
  match b with Scalar => Q (one / qx V) (one / qy V) (one / qz V) (one / qw V) | _ => vdiv vone V end.
Definition XMVectorSqrt (b : backend) (V : vec) : vec :=
  match b with Scalar => Q (tsqrt (qx V)) (tsqrt (qy V)) (tsqrt (qz V)) (tsqrt (qw V)) | _ => vsqrt V end.
Definition XMVectorReciprocalSqrt (b : backend) (V : vec) : vec :=
  match b with
  | Scalar => Q (one / tsqrt (qx V)) (one / tsqrt (qy V)) (one / tsqrt (qz V)) (one / tsqrt (qw V))
  | _ => vdiv vone (vsqrt V)
  end.
(** XMVectorNegate 3820-3850, XMVectorAbs 4748-4777 *)
Definition XMVectorNegate (b : backend) (V : vec) : vec :=
  match b with Scalar => Q (- qx V) (- qy V) (- qz V) (- qw V) | _ => vsub vzero V end.
Definition XMVectorAbs (b : backend) (V : vec) : vec :=
  match b with
  | Scalar => Q (tabs (qx V)) (tabs (qy V)) (tabs (qz V)) (tabs (qw V))
  | _ => vmax (vsub vzero V) V
  end.
(** XMVectorSum 3891-3922 *)
Definition XMVectorSum (b : backend) (V : vec) : vec :=
  match b with
  | Scalar => qrep (qx V + qy V + qz V + qw V)
  | SSE true _ _ _ => let t := hadd V V in hadd t t
  | _ =>
    let t := permute_ps V I2 I3 I0 I1 in
    let t2 := vadd V t in
    vadd (permute_ps t2 I1 I0 I3 I2) t2
  end.
(** XMVectorMin 3044-3067, XMVectorMax 3073-3096 (typed reading of MCompare.v) *)
Definition XMVectorMin (b : backend) (V1 V2 : vec) : vec := vmin V1 V2.
Definition XMVectorMax (b : backend) (V1 V2 : vec) : vec := vmax V1 V2.
(** XMVectorClamp 3397-3425 without its debug assertion (see MCompare.v) *)
Definition XMVectorClamp (b : backend) (V Min Max : vec) : vec := vmin Max (vmax Min V).
(** XMVectorSplat*, XMVectorReplicate: see MLanes.v for the bit-level model *)
End Arith.
