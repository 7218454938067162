(** Model: loads and stores (src/convert.rs 216-1729).
    A structure in memory is the list of its 32-bit words (row-major for matrices, as [#[repr(C)]]).
    An access outside the structure is [None] (undefined behaviour of the [unsafe] block).
    Alignment is not modelled, so the [A] variants with plain aligned loads/stores coincide with the unaligned ones. *)
From Verif Require Import Base F32 Intrin.

Definition mem := list Z.

(** [_mm_loadu_ps] / [_mm_load_ps] / [_mm_loadu_si128] at word offset [k] *)
Definition load4 (m : mem) (k : nat) : option (quad Z) :=
  match skipn k m with a :: b :: c :: d :: _ => Some (Q a b c d) | _ => None end.
(** [_mm_load_sd] cast to four lanes: two words, upper lanes zero *)
Definition load2 (m : mem) (k : nat) : option (quad Z) :=
  match skipn k m with a :: b :: _ => Some (Q a b 0 0) | _ => None end.
(** [_mm_load_ss] *)
Definition load1 (m : mem) (k : nat) : option (quad Z) :=
  match skipn k m with a :: _ => Some (Q a 0 0 0) | _ => None end.
(** overwrite the word at [k] *)
Fixpoint wr (m : mem) (k : nat) (z : Z) : option mem :=
  match m, k with
  | [], _ => None
  | _ :: t, O => Some (z :: t)
  | a :: t, S k => omap (cons a) (wr t k z)
  end.
(** overwrite [length l] consecutive words at [k] *)
Fixpoint storeL (m : mem) (k : nat) (l : list Z) : option mem :=
  match l with [] => Some m | z :: l => obind (wr m k z) (fun m => storeL m (S k) l) end.
(** [_mm_storeu_ps], [_mm_store_sd], [_mm_store_ss] *)
Definition store4 (m : mem) k (q : quad Z) := storeL m k [qx q; qy q; qz q; qw q].
Definition store2 (m : mem) k (q : quad Z) := storeL m k [qx q; qy q].
Definition store1 (m : mem) k (q : quad Z) := storeL m k [qx q].
(** scalar field read *)
Definition rd (m : mem) (k : nat) : option Z := nth_error m k.

Notation "'do' x <- e ; f" := (obind e (fun x => f)) (at level 200, x name, e at level 100, f at level 200).

Definition IdentityR3 : quad Z := Q 0 0 0 0x3F800000.
Definition Mask3 : quad Z := Q ones ones ones 0.

(** ** Vectors *)
(** XMLoadInt2 216-239, XMLoadFloat2 262-285 *)
Definition XMLoadFloat2_scalar (m : mem) : option (quad Z) :=
  do x <- rd m 0; do y <- rd m 1; Some (Q x y 0 0).
Definition XMLoadFloat2_sse (m : mem) : option (quad Z) := load2 m 0.
(** XMLoadInt3 295-327, XMLoadFloat3 352-384 *)
Definition XMLoadFloat3_scalar (m : mem) : option (quad Z) :=
  do x <- rd m 0; do y <- rd m 1; do z <- rd m 2; Some (Q x y z 0).
Definition XMLoadFloat3_sse (m : mem) : option (quad Z) :=
  do xy <- load2 m 0; do z <- load1 m 2; Some (movelh xy z).
Definition XMLoadFloat3_sse4 (m : mem) : option (quad Z) :=
  do xy <- load2 m 0; do z <- load1 m 2; Some (insert_ps xy z I2).
(** XMLoadFloat3A 399-424: reads the padding word of [Align16<XMFLOAT3>] and masks it; memory is 4 words. *)
Definition XMLoadFloat3A_sse (m : mem) : option (quad Z) :=
  do v <- load4 m 0; Some (and_ps v Mask3).
(** XMLoadInt4 491-515, XMLoadFloat4 542-565, XMLoadFloat4A 580-603 *)
Definition XMLoadFloat4_scalar (m : mem) : option (quad Z) :=
  do x <- rd m 0; do y <- rd m 1; do z <- rd m 2; do w <- rd m 3; Some (Q x y z w).
Definition XMLoadFloat4_sse (m : mem) : option (quad Z) := load4 m 0.

(** XMStoreFloat 1010-1029 *)
Definition XMStoreFloat (m : mem) (v : quad Z) : option mem := store1 m 0 v.
(** XMStoreInt2 1035-1055, XMStoreFloat2 1076-1097 *)
Definition XMStoreFloat2_scalar (m : mem) (v : quad Z) : option mem :=
  do m <- wr m 0 (lane v I0); wr m 1 (lane v I1).
Definition XMStoreFloat2_sse (m : mem) (v : quad Z) : option mem := store2 m 0 v.
(** XMStoreInt3 1115-1138, XMStoreFloat3 1161-1192 *)
Definition XMStoreFloat3_scalar (m : mem) (v : quad Z) : option mem :=
  do m <- wr m 0 (lane v I0); do m <- wr m 1 (lane v I1); wr m 2 (lane v I2).
Definition XMStoreFloat3_sse (m : mem) (v : quad Z) : option mem :=
  do m <- store2 m 0 v; store1 m 2 (permute_ps v I2 I2 I2 I2).
(** XMStoreFloat3A 1207-1237 *)
Definition XMStoreFloat3A_sse (m : mem) (v : quad Z) : option mem :=
  do m <- store2 m 0 v; store1 m 2 (movehl v v).
(** XMStoreInt4 1255-1277, XMStoreFloat4 1302-1324, 4A 1340-1362 *)
Definition XMStoreFloat4_scalar (m : mem) (v : quad Z) : option mem :=
  do m <- wr m 0 (lane v I0); do m <- wr m 1 (lane v I1); do m <- wr m 2 (lane v I2); wr m 3 (lane v I3).
Definition XMStoreFloat4_sse (m : mem) (v : quad Z) : option mem := store4 m 0 v.

(** ** Matrices *)
(** one row of a scalar matrix load: three words at given offsets and a constant w *)
Definition rd3 (m : mem) (a b c : nat) (w : Z) : option (quad Z) :=
  do x <- rd m a; do y <- rd m b; do z <- rd m c; Some (Q x y z w).
Definition rows (a b c d : option (quad Z)) : option (mat Z) :=
  do r0 <- a; do r1 <- b; do r2 <- c; do r3 <- d; Some (Q r0 r1 r2 r3).

(** XMLoadFloat3x3 621-676 *)
Definition XMLoadFloat3x3_scalar (m : mem) : option (mat Z) :=
  rows (rd3 m 0 1 2 0) (rd3 m 3 4 5 0) (rd3 m 6 7 8 0) (Some IdentityR3).
Definition XMLoadFloat3x3_sse (m : mem) : option (mat Z) :=
  let zz := qrep 0 in
  do v1 <- load4 m 0; do v2 <- load4 m 4; do v3 <- load1 m 8;
  let t1 := unpackhi v1 zz in
  let t2 := unpacklo v2 zz in
  let t3 := shuffle v3 t2 I0 I1 I0 I0 in
  let t4 := movehl t2 t3 in
  let t5 := movehl zz t1 in
  Some (Q (movelh v1 t1) (add_ps t4 t5) (shuffle v2 v3 I1 I0 I3 I2) IdentityR3).
(** XMLoadFloat4x3 724-792 *)
Definition XMLoadFloat4x3_scalar (m : mem) : option (mat Z) :=
  rows (rd3 m 0 1 2 0) (rd3 m 3 4 5 0) (rd3 m 6 7 8 0) (rd3 m 9 10 11 0x3F800000).
Definition XMLoadFloat4x3_sse (m : mem) : option (mat Z) :=
  do v1 <- load4 m 0; do v2 <- load4 m 4; do v4 <- load4 m 8;
  let v3 := shuffle v2 v4 I0 I0 I3 I2 in
  let v2 := shuffle v2 v1 I3 I3 I1 I0 in
  let v2 := permute_ps v2 I1 I1 I0 I2 in
  Some (Q (and_ps v1 Mask3) (and_ps v2 Mask3) (and_ps v3 Mask3) (or_ps (srli4 0 v4) IdentityR3)).
(** XMLoadFloat3x4 838-901: transposing load *)
Definition XMLoadFloat3x4_scalar (m : mem) : option (mat Z) :=
  rows (rd3 m 0 4 8 0) (rd3 m 1 5 9 0) (rd3 m 2 6 10 0) (rd3 m 3 7 11 0x3F800000).
(** the 4x4 shuffle transpose used here and in XMMatrixTranspose *)
Definition transpose_shuffle {A} (r : mat A) : mat A :=
  let t1 := shuffle (qx r) (qy r) I1 I0 I1 I0 in
  let t3 := shuffle (qx r) (qy r) I3 I2 I3 I2 in
  let t2 := shuffle (qz r) (qw r) I1 I0 I1 I0 in
  let t4 := shuffle (qz r) (qw r) I3 I2 I3 I2 in
  Q (shuffle t1 t2 I2 I0 I2 I0) (shuffle t1 t2 I3 I1 I3 I1)
    (shuffle t3 t4 I2 I0 I2 I0) (shuffle t3 t4 I3 I1 I3 I1).
Definition XMLoadFloat3x4_sse (m : mem) : option (mat Z) :=
  do r0 <- load4 m 0; do r1 <- load4 m 4; do r2 <- load4 m 8;
  Some (transpose_shuffle (Q r0 r1 r2 IdentityR3)).
(** XMLoadFloat4x4 909-952, 4x4A 958-1001 *)
Definition rd4 (m : mem) (a : nat) : option (quad Z) :=
  do x <- rd m a; do y <- rd m (a + 1); do z <- rd m (a + 2); do w <- rd m (a + 3); Some (Q x y z w).
Definition XMLoadFloat4x4_scalar (m : mem) : option (mat Z) := rows (rd4 m 0) (rd4 m 4) (rd4 m 8) (rd4 m 12).
Definition XMLoadFloat4x4_sse (m : mem) : option (mat Z) := rows (load4 m 0) (load4 m 4) (load4 m 8) (load4 m 12).

(** scalar matrix store: a list of writes in program order *)
Fixpoint wrs (m : mem) (l : list (nat * Z)) : option mem :=
  match l with [] => Some m | (k, z) :: l => do m <- wr m k z; wrs m l end.
(** XMStoreFloat3x3 1381-1419 *)
Definition XMStoreFloat3x3_scalar (m : mem) (M : mat Z) : option mem :=
  wrs m [(0, mij M I0 I0); (1, mij M I0 I1); (2, mij M I0 I2);
         (3, mij M I1 I0); (4, mij M I1 I1); (5, mij M I1 I2);
         (6, mij M I2 I0); (7, mij M I2 I1); (8, mij M I2 I2)]%nat.
Definition XMStoreFloat3x3_sse (m : mem) (M : mat Z) : option mem :=
  let t1 := qx M in let t2 := qy M in let t3 := qz M in
  let wk := shuffle t1 t2 I0 I0 I2 I2 in
  let t1 := shuffle t1 wk I2 I0 I1 I0 in
  do m <- store4 m 0 t1;
  let t2 := shuffle t2 t3 I1 I0 I2 I1 in
  do m <- store4 m 4 t2;
  store1 m 8 (permute_ps t3 I2 I2 I2 I2).
(** XMStoreFloat4x3 1493-1537 *)
Definition XMStoreFloat4x3_scalar (m : mem) (M : mat Z) : option mem :=
  wrs m [(0, mij M I0 I0); (1, mij M I0 I1); (2, mij M I0 I2);
         (3, mij M I1 I0); (4, mij M I1 I1); (5, mij M I1 I2);
         (6, mij M I2 I0); (7, mij M I2 I1); (8, mij M I2 I2);
         (9, mij M I3 I0); (10, mij M I3 I1); (11, mij M I3 I2)]%nat.
Definition XMStoreFloat4x3_sse (m : mem) (M : mat Z) : option mem :=
  let t1 := qx M in let t2 := qy M in let t3 := qz M in let t4 := qw M in
  let t2x := shuffle t2 t3 I1 I0 I2 I1 in
  let t2 := shuffle t2 t1 I2 I2 I0 I0 in
  let t1 := shuffle t1 t2 I0 I2 I1 I0 in
  let t3 := shuffle t3 t4 I0 I0 I2 I2 in
  let t3 := shuffle t3 t4 I2 I1 I2 I0 in
  do m <- store4 m 0 t1; do m <- store4 m 4 t2x; store4 m 8 t3.
(** XMStoreFloat3x4 1586-1636 *)
Definition XMStoreFloat3x4_scalar (m : mem) (M : mat Z) : option mem :=
  wrs m [(0, mij M I0 I0); (1, mij M I1 I0); (2, mij M I2 I0); (3, mij M I3 I0);
         (4, mij M I0 I1); (5, mij M I1 I1); (6, mij M I2 I1); (7, mij M I3 I1);
         (8, mij M I0 I2); (9, mij M I1 I2); (10, mij M I2 I2); (11, mij M I3 I2)]%nat.
Definition XMStoreFloat3x4_sse (m : mem) (M : mat Z) : option mem :=
  let t := transpose_shuffle M in
  do m <- store4 m 0 (qx t); do m <- store4 m 4 (qy t); store4 m 8 (qz t).
(** XMStoreFloat4x4 1643-1683, 4x4A 1689-1729 *)
Definition XMStoreFloat4x4_scalar (m : mem) (M : mat Z) : option mem :=
  wrs m [(0, mij M I0 I0); (1, mij M I0 I1); (2, mij M I0 I2); (3, mij M I0 I3);
         (4, mij M I1 I0); (5, mij M I1 I1); (6, mij M I1 I2); (7, mij M I1 I3);
         (8, mij M I2 I0); (9, mij M I2 I1); (10, mij M I2 I2); (11, mij M I2 I3);
         (12, mij M I3 I0); (13, mij M I3 I1); (14, mij M I3 I2); (15, mij M I3 I3)]%nat.
Definition XMStoreFloat4x4_sse (m : mem) (M : mat Z) : option mem :=
  do m <- store4 m 0 (qx M); do m <- store4 m 4 (qy M); do m <- store4 m 8 (qz M); store4 m 12 (qw M).
