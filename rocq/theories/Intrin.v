(** SSE intrinsics (core::arch::x86_64) as functions on four lanes.
    Lane 0 ([qx]) is the low lane. These descriptions follow Intel's pseudo-code and are part of the trusted base. *)
From Verif Require Import Base F32.

(** ** Lane movement, for any lane type *)

(** [_mm_shuffle_ps(a, b, _MM_SHUFFLE(z, y, x, w))]: lanes (a[w], a[x], b[y], b[z]). *)
Definition shuffle {A} (a b : quad A) (z y x w : idx) : quad A :=
  Q (lane a w) (lane a x) (lane b y) (lane b z).
(** [XM_PERMUTE_PS!(v, _MM_SHUFFLE(z,y,x,w))] (src/lib.rs 541-552), also [_mm_shuffle_epi32]. *)
Definition permute_ps {A} (v : quad A) (z y x w : idx) : quad A := shuffle v v z y x w.
Definition unpacklo {A} (a b : quad A) : quad A := Q (qx a) (qx b) (qy a) (qy b).
Definition unpackhi {A} (a b : quad A) : quad A := Q (qz a) (qz b) (qw a) (qw b).
Definition movelh {A} (a b : quad A) : quad A := Q (qx a) (qy a) (qx b) (qy b).
Definition movehl {A} (a b : quad A) : quad A := Q (qz b) (qw b) (qz a) (qw a).
Definition move_ss {A} (a b : quad A) : quad A := Q (qx b) (qy a) (qz a) (qw a).
Definition set_ps {A} (w z y x : A) : quad A := Q x y z w.
Definition set_ss {A} (zero x : A) : quad A := Q x zero zero zero.
Definition cvtss {A} (a : quad A) : A := qx a.
(** [_mm_insert_ps(a, b, imm)] with imm = d<<4: lane 0 of [b] into lane [d], no zeroing. *)
Definition insert_ps {A} (a b : quad A) (d : idx) : quad A := setlane a d (qx b).
(** [_mm_srli_si128(v, 4)] *)
Definition srli4 {A} (zero : A) (v : quad A) : quad A := Q (qy v) (qz v) (qw v) zero.
(** [_mm_blend_ps(a, b, imm)]: bit i of imm picks lane i of [b]. *)
Definition blend {A} (a b : quad A) (m : quad bool) : quad A :=
  qmap3 (fun x y (c : bool) => if c then y else x) a b m.
(** [_mm_movemask_ps] on lanes seen as sign bits: bit i is the sign of lane i. *)
Definition b2z (b : bool) : Z := if b then 1 else 0.
Definition movemask (q : quad bool) : Z :=
  b2z (qx q) + 2 * b2z (qy q) + 4 * b2z (qz q) + 8 * b2z (qw q).

(** ** Bitwise lanes (32-bit words) *)
Definition ones : Z := 0xFFFFFFFF.
Definition bnot (a : Z) : Z := Z.lxor a ones.
Definition mask (b : bool) : Z := if b then ones else 0.
Definition and_ps : quad Z -> quad Z -> quad Z := qmap2 Z.land.
Definition or_ps : quad Z -> quad Z -> quad Z := qmap2 Z.lor.
Definition xor_ps : quad Z -> quad Z -> quad Z := qmap2 Z.lxor.
(** [_mm_andnot_ps(a, b)] = (not a) and b *)
Definition andnot_ps : quad Z -> quad Z -> quad Z := qmap2 (fun a b => Z.land (bnot a) b).
(** sign bits, as read by [_mm_movemask_ps] *)
Definition signs (q : quad Z) : quad bool := qmap (fun a => 2 ^ 31 <=? a) q.
Definition movemask_ps (q : quad Z) : Z := movemask (signs q).

(** comparisons: all ones or all zeros *)
Definition cmpeq_ps := qmap2 (fun a b => mask (f_eq a b)).
Definition cmpneq_ps := qmap2 (fun a b => mask (negb (f_eq a b))).
Definition cmplt_ps := qmap2 (fun a b => mask (f_lt a b)).
Definition cmple_ps := qmap2 (fun a b => mask (f_le a b)).
Definition cmpgt_ps := qmap2 (fun a b => mask (f_lt b a)).
Definition cmpge_ps := qmap2 (fun a b => mask (f_le b a)).
Definition cmpeq_epi32 := qmap2 (fun a b => mask (a =? b)).
(** signed compare of 32-bit integers *)
Definition cmpgt_epi32 := qmap2 (fun a b => mask (sint b <? sint a)).
Definition cmplt_epi32 := qmap2 (fun a b => mask (sint a <? sint b)).

(** arithmetic *)
Definition add_ps := qmap2 f_add.
Definition sub_ps := qmap2 f_sub.
Definition mul_ps := qmap2 f_mul.
Definition div_ps := qmap2 f_div.
Definition sqrt_ps := qmap f_sqrt.
(** [MINPS]/[MAXPS]: the second operand when unordered or both zero. *)
Definition min_ps := qmap2 (fun a b => if f_lt a b then a else b).
Definition max_ps := qmap2 (fun a b => if f_lt b a then a else b).
Definition add_epi32 := qmap2 (fun a b => wrap32 (a + b)).
Definition sub_epi32 := qmap2 (fun a b => wrap32 (a - b)).
