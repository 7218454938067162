(** Model: the remaining small public functions — unit conversions, XMVectorPow, the quaternion and plane comparisons, and
    the conversions between arrays and the XMFLOAT*, XMINT*, XMUINT* structures. *)
From Verif Require Import Base F32 Intrin Lane MVec MMem MCompare.

(** XMConvertToRadians, XMConvertToDegrees, lib.rs 1413-1423. The parenthesised constants are binary32 divisions. *)
Section Units.
Context {L : Lane}.
Local Open Scope lane_scope.
Definition XMConvertToRadians (fDegrees : T L) : T L := fDegrees * (XM_PI / tlit 180 0).
Definition XMConvertToDegrees (fRadians : T L) : T L := fRadians * (tlit 180 0 / XM_PI).
End Units.

(** XMVectorPow, vector.rs 4706-4742; [powf] is the platform's function (lib.rs 318-320), a parameter here *)
Definition XMVectorPow (powf : Z -> Z -> Z) (b : backend) (V1 V2 : quad Z) : quad Z :=
  match b with
  | Scalar => Q (powf (qx V1) (qx V2)) (powf (qy V1) (qy V2)) (powf (qz V1) (qz V2)) (powf (qw V1) (qw V2))
  | _ => (* _mm_store_ps to two arrays, then _mm_setr_ps *)
    let a := [qx V1; qy V1; qz V1; qw V1] in
    let c := [qx V2; qy V2; qz V2; qw V2] in
    let at_ l k := nth k l 0 in
    Q (powf (at_ a 0%nat) (at_ c 0%nat)) (powf (at_ a 1%nat) (at_ c 1%nat)) (powf (at_ a 2%nat) (at_ c 2%nat)) (powf (at_ a 3%nat) (at_ c 3%nat))
  end.

(** XMQuaternionEqual 24-30, NotEqual 53-59, IsNaN 80-85, IsInfinite 106-111, IsIdentity 132-139;
    XMPlaneEqual 1657-1663, NotEqual 1727-1733, IsNaN 1749-1754, IsInfinite 1770-1775: misc.rs, each the XMVector4 form *)
Definition pick {A} (b : backend) (scalar sse : A) : A := match b with Scalar => scalar | _ => sse end.
Definition XMQuaternionEqual b (Q1 Q2 : quad Z) := pick b (XMVectorNEqual_scalar D4) (XMVectorNEqual_sse D4) Q1 Q2.
Definition XMQuaternionNotEqual b (Q1 Q2 : quad Z) := pick b (XMVectorNNotEqual_scalar D4) (XMVectorNNotEqual_sse D4) Q1 Q2.
Definition XMQuaternionIsNaN b (Q1 : quad Z) := pick b (XMVectorNIsNaN_scalar D4) (XMVectorNIsNaN_sse D4) Q1.
Definition XMQuaternionIsInfinite b (Q1 : quad Z) := pick b (XMVectorNIsInfinite_scalar D4) (XMVectorNIsInfinite_sse D4) Q1.
Definition XMQuaternionIsIdentity b (Q1 : quad Z) := pick b (XMVectorNEqual_scalar D4) (XMVectorNEqual_sse D4) Q1 IdentityR3.
Definition XMPlaneEqual b (P1 P2 : quad Z) := pick b (XMVectorNEqual_scalar D4) (XMVectorNEqual_sse D4) P1 P2.
Definition XMPlaneNotEqual b (P1 P2 : quad Z) := pick b (XMVectorNNotEqual_scalar D4) (XMVectorNNotEqual_sse D4) P1 P2.
Definition XMPlaneIsNaN b (P1 : quad Z) := pick b (XMVectorNIsNaN_scalar D4) (XMVectorNIsNaN_sse D4) P1.
Definition XMPlaneIsInfinite b (P1 : quad Z) := pick b (XMVectorNIsInfinite_scalar D4) (XMVectorNIsInfinite_sse D4) P1.

(** ** Arrays and structures, lib.rs 1680-2103. Every conversion (by value, by reference, AsRef, AsMut) is a transmute: the
    same words in memory read as another type. A value is modelled by its words in memory: an array is its elements in
    order, a nested array its rows in order, a [repr(C)] structure its fields in order of declaration. *)
Record XMFLOAT2 := MkF2 { f2x : Z; f2y : Z }.
Record XMFLOAT3 := MkF3 { f3x : Z; f3y : Z; f3z : Z }.
Record XMFLOAT4 := MkF4 { f4x : Z; f4y : Z; f4z : Z; f4w : Z }.
(** the words of a structure; XMINT* and XMUINT* have the same fields *)
Definition words2 (s : XMFLOAT2) : mem := [f2x s; f2y s].
Definition words3 (s : XMFLOAT3) : mem := [f3x s; f3y s; f3z s].
Definition words4 (s : XMFLOAT4) : mem := [f4x s; f4y s; f4z s; f4w s].
(** reading a structure at an address *)
Definition read2 (m : mem) : option XMFLOAT2 := match m with [a; b] => Some (MkF2 a b) | _ => None end.
Definition read3 (m : mem) : option XMFLOAT3 := match m with [a; b; c] => Some (MkF3 a b c) | _ => None end.
Definition read4 (m : mem) : option XMFLOAT4 := match m with [a; b; c; d] => Some (MkF4 a b c d) | _ => None end.
(** From<[T; n]> 1701-1706, Into 1708-1713; [set] 1691-1699 takes the fields in order *)
Definition XMFLOAT2_from (a : list Z) := read2 a.
Definition XMFLOAT3_from (a : list Z) := read3 a.
Definition XMFLOAT4_from (a : list Z) := read4 a.
Definition XMFLOAT2_set x y := MkF2 x y.
Definition XMFLOAT3_set x y z := MkF3 x y z.
Definition XMFLOAT4_set x y z w := MkF4 x y z w.
(** the matrix structures hold [m: [[f32; c]; r]]: [r] rows of [c] words, one after the other. A flat array of r*c words
    is read as such rows (XMFLOAT4X3 1762-1841, XMFLOAT3X4 1848-1927, XMFLOAT4X4 1933-2016, XMFLOAT3X3 2021-2100). *)
Fixpoint rows_from (r c : nat) (m : mem) : option (list (list Z)) :=
  match r with
  | O => match m with [] => Some [] | _ => None end
  | S r' => if Nat.leb c (length m) then omap (cons (firstn c m)) (rows_from r' c (skipn c m)) else None
  end.
Definition rows_words (m : list (list Z)) : mem := concat m.
Definition XMFLOAT4X3_from := rows_from 4 3.
Definition XMFLOAT3X4_from := rows_from 3 4.
Definition XMFLOAT4X4_from := rows_from 4 4.
Definition XMFLOAT3X3_from := rows_from 3 3.
(** XMVector: From<&[f32; 4]>, vector.rs 12960-12965. XMMatrix: From<&[f32; 16]>, From<&[[f32; 4]; 4]>, matrix.rs 3732-3744,
    and Into<[f32; 16]>, Into<[[f32; 4]; 4]>, 3746-3766, which store into an uninitialised structure ([m], any 16 words) *)
Definition XMVector_from (b : backend) (a : list Z) : option (quad Z) :=
  obind (XMFLOAT4_from a) (fun s => pick b XMLoadFloat4_scalar XMLoadFloat4_sse (words4 s)).
Definition XMMatrix_from_flat (b : backend) (a : list Z) : option (mat Z) :=
  obind (XMFLOAT4X4_from a) (fun m => pick b XMLoadFloat4x4_scalar XMLoadFloat4x4_sse (rows_words m)).
Definition XMMatrix_from_rows (b : backend) (a : list (list Z)) : option (mat Z) :=
  obind (XMFLOAT4X4_from (rows_words a)) (fun m => pick b XMLoadFloat4x4_scalar XMLoadFloat4x4_sse (rows_words m)).
Definition XMMatrix_into_flat (b : backend) (m : mem) (M : mat Z) : option (list Z) :=
  pick b XMStoreFloat4x4_scalar XMStoreFloat4x4_sse m M.
Definition XMMatrix_into_rows (b : backend) (m : mem) (M : mat Z) : option (list (list Z)) :=
  obind (pick b XMStoreFloat4x4_scalar XMStoreFloat4x4_sse m M) (rows_from 4 4).
