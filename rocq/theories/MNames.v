(** Model: the accessors that pass integers through signed 32-bit values, the pointer forms, the splatted constants, the
    integer and aligned loads and stores and the mask tests of collision.rs, each with its body per instruction set. *)
From Verif Require Import Base F32 Intrin Lane MLanes MMem MCompare MMore.

(** [x as i32] of a u32, [x as u32] of an i32 *)
Definition as_i32 (x : Z) : Z := sint x.
Definition as_u32 (x : Z) : Z := wrap32 x.
(** [_mm_set1_epi32], [_mm_set_epi32], [_mm_cvtsi32_si128], [_mm_cvtsi128_si32], [_mm_extract_epi32], [_mm_extract_ps],
    [_mm_insert_epi32]: the signed argument is kept as its 32-bit pattern, a signed result is read back *)
Definition set1_epi32 (i : Z) : quad Z := qrep (wrap32 i).
Definition set_epi32 (i3 i2 i1 i0 : Z) : quad Z := Q (wrap32 i0) (wrap32 i1) (wrap32 i2) (wrap32 i3).
Definition cvtsi32_si128 (i : Z) : quad Z := Q (wrap32 i) 0 0 0.
Definition cvtsi128_si32 (v : quad Z) : Z := sint (qx v).
Definition extract_epi32 (v : quad Z) (i : idx) : Z := sint (lane v i).
Definition extract_ps (v : quad Z) (i : idx) : Z := sint (lane v i).
Definition insert_epi32 (v : quad Z) (x : Z) (i : idx) : quad Z := setlane v i (wrap32 x).
Definition sse4 (b : backend) : bool := match b with SSE _ s4 _ _ => s4 | Scalar => false end.

(** XMVectorSetInt, vector.rs 107-129 *)
Definition XMVectorSetInt (b : backend) (x y z w : Z) : quad Z :=
  match b with Scalar => Q x y z w | _ => set_epi32 (as_i32 w) (as_i32 z) (as_i32 y) (as_i32 x) end.
(** XMVectorReplicate 135-155, XMVectorReplicatePtr 161-187, XMVectorReplicateInt 193-214 *)
Definition XMVectorReplicate_ (b : backend) (v : Z) : quad Z := match b with Scalar => Q v v v v | _ => set_ps v v v v end.
(** [_mm_broadcast_ss] (AVX) and [_mm_load_ps1] read the word at the pointer into every lane *)
Definition XMVectorReplicatePtr (b : backend) (m : mem) : option (quad Z) := do v <- rd m 0; Some (match b with Scalar => Q v v v v | _ => qrep v end).
Definition XMVectorReplicateInt (b : backend) (v : Z) : quad Z := match b with Scalar => Q v v v v | _ => set1_epi32 (as_i32 v) end.
(** XMVectorTrueInt 222-239, XMVectorFalseInt 245-261 *)
Definition XMVectorTrueInt_ (b : backend) : quad Z := match b with Scalar => Q 0xFFFFFFFF 0xFFFFFFFF 0xFFFFFFFF 0xFFFFFFFF | _ => set1_epi32 (-1) end.
Definition XMVectorFalseInt_ (b : backend) : quad Z := match b with Scalar => qrep (f_lit 0 0) | _ => qrep 0 end.
(** XMVectorSplatOne 422-442 (globals.rs 40), Infinity 454-474 (57), QNaN 486-506 (58), Epsilon 518-538 (56), SignMask 544-565 *)
Definition XMVectorSplatOne_ (b : backend) : quad Z := qrep (f_lit 1 0).
Definition XMVectorSplatInfinity_ (b : backend) : quad Z := match b with Scalar => qrep 0x7F800000 | _ => qrep (as_u32 0x7F800000) end.
Definition XMVectorSplatQNaN_ (b : backend) : quad Z := match b with Scalar => qrep 0x7FC00000 | _ => qrep (as_u32 0x7FC00000) end.
(** the decimal literal 1.192092896e-7 is the binary32 number 2^-23 *)
Definition XMVectorSplatEpsilon_ (b : backend) : quad Z := match b with Scalar => qrep 0x34000000 | _ => qrep (f_lit 1 (-23)) end.
Definition XMVectorSplatSignMask_ (b : backend) : quad Z := match b with Scalar => qrep 0x80000000 | _ => set1_epi32 (as_i32 0x80000000) end.

(** XMVectorGetIntX/Y/Z/W 882-1011 *)
Definition XMVectorGetIntX (b : backend) (V : quad Z) : Z := match b with Scalar => qx V | _ => as_u32 (cvtsi128_si32 V) end.
Definition getint (b : backend) (i : idx) (V : quad Z) : Z :=
  match b with
  | Scalar => lane V i
  | _ => if sse4 b then as_u32 (extract_epi32 V i) else as_u32 (cvtsi128_si32 (permute_ps V i i i i))
  end.
Definition XMVectorGetIntY b := getint b I1.
Definition XMVectorGetIntZ b := getint b I2.
Definition XMVectorGetIntW b := getint b I3.
(** XMVectorGetXPtr 726-748, YPtr 752-780, ZPtr 784-812, WPtr 816-844: the word at the pointer is overwritten *)
Definition XMVectorGetXPtr (b : backend) (m : mem) (V : quad Z) : option mem := match b with Scalar => wr m 0 (qx V) | _ => store1 m 0 V end.
Definition getptr (b : backend) (i : idx) (m : mem) (V : quad Z) : option mem :=
  match b with
  | Scalar => wr m 0 (lane V i)
  | _ => if sse4 b then wr m 0 (as_u32 (extract_ps V i)) else store1 m 0 (permute_ps V i i i i)
  end.
Definition XMVectorGetYPtr b := getptr b I1.
Definition XMVectorGetZPtr b := getptr b I2.
Definition XMVectorGetWPtr b := getptr b I3.
(** XMVectorSetIntX 1288-1317, Y 1329-1371, Z 1383-1425, W 1437-1475 *)
Definition XMVectorSetIntX (b : backend) (V : quad Z) (x : Z) : quad Z :=
  match b with Scalar => Q x (qy V) (qz V) (qw V) | _ => move_ss V (cvtsi32_si128 (as_i32 x)) end.
Definition XMVectorSetIntY (b : backend) (V : quad Z) (y : Z) : quad Z :=
  match b with
  | Scalar => Q (qx V) y (qz V) (qw V)
  | _ => if sse4 b then insert_epi32 V (as_i32 y) I1
         else permute_ps (move_ss (permute_ps V I3 I2 I0 I1) (cvtsi32_si128 (as_i32 y))) I3 I2 I0 I1
  end.
Definition XMVectorSetIntZ (b : backend) (V : quad Z) (z : Z) : quad Z :=
  match b with
  | Scalar => Q (qx V) (qy V) z (qw V)
  | _ => if sse4 b then insert_epi32 V (as_i32 z) I2
         else permute_ps (move_ss (permute_ps V I3 I0 I1 I2) (cvtsi32_si128 (as_i32 z))) I3 I0 I1 I2
  end.
Definition XMVectorSetIntW (b : backend) (V : quad Z) (w : Z) : quad Z :=
  match b with
  | Scalar => Q (qx V) (qy V) (qz V) w
  | _ => if sse4 b then insert_epi32 V (as_i32 w) I3
         else permute_ps (move_ss (permute_ps V I0 I2 I1 I3) (cvtsi32_si128 (as_i32 w))) I0 I2 I1 I3
  end.

(** XMLoadInt2, convert.rs 216-239; XMLoadInt3 295-327; XMLoadInt4 491-515; the arguments are arrays of u32 *)
Definition XMLoadInt2 (b : backend) (m : mem) : option (quad Z) :=
  match b with Scalar => do x <- rd m 0; do y <- rd m 1; Some (Q x y 0 0) | _ => load2 m 0 end.
Definition XMLoadInt3 (b : backend) (m : mem) : option (quad Z) :=
  match b with
  | Scalar => do x <- rd m 0; do y <- rd m 1; do z <- rd m 2; Some (Q x y z 0)
  | _ => do xy <- load2 m 0; do z <- load1 m 2; Some (if sse4 b then insert_ps xy z I2 else movelh xy z)
  end.
Definition XMLoadInt4 (b : backend) (m : mem) : option (quad Z) :=
  match b with Scalar => do x <- rd m 0; do y <- rd m 1; do z <- rd m 2; do w <- rd m 3; Some (Q x y z w) | _ => load4 m 0 end.
(** XMStoreInt2 1035-1055, XMStoreInt3 1115-1138, XMStoreInt4 1255-1277 *)
Definition XMStoreInt2 (b : backend) (m : mem) (V : quad Z) : option mem :=
  match b with Scalar => do m <- wr m 0 (qx V); wr m 1 (qy V) | _ => store2 m 0 V end.
Definition XMStoreInt3 (b : backend) (m : mem) (V : quad Z) : option mem :=
  match b with
  | Scalar => do m <- wr m 0 (qx V); do m <- wr m 1 (qy V); wr m 2 (qz V)
  | _ => do m <- store2 m 0 V; store1 m 2 (permute_ps V I2 I2 I2 I2)
  end.
Definition XMStoreInt4 (b : backend) (m : mem) (V : quad Z) : option mem :=
  match b with Scalar => do m <- wr m 0 (qx V); do m <- wr m 1 (qy V); do m <- wr m 2 (qz V); wr m 3 (qw V) | _ => store4 m 0 V end.
(** XMStoreFloat3 1161-1192: three [_mm_extract_ps] with SSE4; XMStoreFloat3A 1207-1237 *)
Definition XMStoreFloat3 (b : backend) (m : mem) (V : quad Z) : option mem :=
  match b with
  | Scalar => do m <- wr m 0 (qx V); do m <- wr m 1 (qy V); wr m 2 (qz V)
  | _ => if sse4 b then do m <- wr m 0 (as_u32 (extract_ps V I0)); do m <- wr m 1 (as_u32 (extract_ps V I1)); wr m 2 (as_u32 (extract_ps V I2))
         else do m <- store2 m 0 V; store1 m 2 (permute_ps V I2 I2 I2 I2)
  end.
Definition XMStoreFloat3A (b : backend) (m : mem) (V : quad Z) : option mem :=
  match b with
  | Scalar => do m <- wr m 0 (qx V); do m <- wr m 1 (qy V); wr m 2 (qz V)
  | _ => do m <- store2 m 0 V; if sse4 b then wr m 2 (as_u32 (extract_ps V I2)) else store1 m 2 (movehl V V)
  end.
(** [_mm_load_ps] and [_mm_store_ps] fault unless the address is a multiple of 16; [at_] is the address of the structure in bytes *)
Definition aligned16 (a : Z) : bool := a mod 16 =? 0.
Definition load_ps (at_ : Z) (m : mem) (k : nat) : option (quad Z) := if aligned16 (at_ + 4 * Z.of_nat k) then load4 m k else None.
Definition store_ps (at_ : Z) (m : mem) (k : nat) (q : quad Z) : option mem := if aligned16 (at_ + 4 * Z.of_nat k) then store4 m k q else None.
(** XMLoadFloat3A 399-424, XMLoadFloat4A 580-603, XMStoreFloat4A 1340-1362, XMLoadFloat4x4A 958-1001, XMStoreFloat4x4A 1689-1729 *)
Definition XMLoadFloat3A (b : backend) (a : Z) (m : mem) : option (quad Z) :=
  match b with Scalar => do x <- rd m 0; do y <- rd m 1; do z <- rd m 2; Some (Q x y z 0) | _ => do v <- load_ps a m 0; Some (and_ps v Mask3) end.
Definition XMLoadFloat4A (b : backend) (a : Z) (m : mem) : option (quad Z) :=
  match b with Scalar => rd4 m 0 | _ => load_ps a m 0 end.
Definition XMStoreFloat4A (b : backend) (a : Z) (m : mem) (V : quad Z) : option mem :=
  match b with Scalar => do m <- wr m 0 (qx V); do m <- wr m 1 (qy V); do m <- wr m 2 (qz V); wr m 3 (qw V) | _ => store_ps a m 0 V end.
Definition XMLoadFloat4x4A (b : backend) (a : Z) (m : mem) : option (mat Z) :=
  match b with
  | Scalar => rows (rd4 m 0) (rd4 m 4) (rd4 m 8) (rd4 m 12)
  | _ => rows (load_ps a m 0) (load_ps a m 4) (load_ps a m 8) (load_ps a m 12)
  end.
Definition XMStoreFloat4x4A (b : backend) (a : Z) (m : mem) (M : mat Z) : option mem :=
  match b with
  | Scalar => XMStoreFloat4x4_scalar m M
  | _ => do m <- store_ps a m 0 (qx M); do m <- store_ps a m 4 (qy M); do m <- store_ps a m 8 (qz M); store_ps a m 12 (qw M)
  end.

(** XMVector3AnyTrue, XMVector3AllTrue, collision.rs 138-151 *)
Definition equal_int_r4 (b : backend) (V1 V2 : quad Z) : Z := pick b (XMVectorNEqualIntR_scalar D4) (XMVectorNEqualIntR_sse D4) V1 V2.
Definition dup_x (V : quad Z) : quad Z := permute_ps V I0 I2 I1 I0.
Definition XMVector3AnyTrue (b : backend) (V : quad Z) : bool := XMComparisonAnyTrue (equal_int_r4 b (dup_x V) (XMVectorTrueInt_ b)).
Definition XMVector3AllTrue (b : backend) (V : quad Z) : bool := XMComparisonAllTrue (equal_int_r4 b (dup_x V) (XMVectorTrueInt_ b)).
