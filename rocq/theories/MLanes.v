(** Model: construction, access, lane movement and select (src/vector.rs 52-2174, src/lib.rs 2118-2897).
    Lanes are 32-bit patterns; where the source is generic in the bits (moves), so is the model.
    Index arguments are [Z]; the debug assertions are modelled as panics ([None]), i.e. the
    model is of a build with debug assertions. *)
From Verif Require Import Base F32 Intrin.

Definition one32 : Z := 0x3F800000.

(** ** Construction *)
(** XMVectorZero, vector.rs 58-74 *)
Definition XMVectorZero : quad Z := Q 0 0 0 0.
(** XMVectorSet, vector.rs 80-101; XMVectorSetInt 107-129 (same lanes) *)
Definition XMVectorSet_scalar (x y z w : Z) : quad Z := Q x y z w.
Definition XMVectorSet_sse (x y z w : Z) : quad Z := set_ps w z y x.
(** XMVectorReplicate 135-155, ReplicatePtr 161-187, ReplicateInt 193-214 *)
Definition XMVectorReplicate (v : Z) : quad Z := Q v v v v.
(** XMVectorTrueInt 222-239, XMVectorFalseInt 245-261 *)
Definition XMVectorTrueInt : quad Z := qrep ones.
Definition XMVectorFalseInt : quad Z := qrep 0.

(** XMVectorSplatX 277-302, Y 318-338, Z 354-374, W 390-410 *)
Definition XMVectorSplat_scalar {A} (i : idx) (v : quad A) : quad A :=
  Q (lane v i) (lane v i) (lane v i) (lane v i).
Definition XMVectorSplat_sse {A} (i : idx) (v : quad A) : quad A := permute_ps v i i i i.

(** XMVectorSplatOne 422-442, Infinity 454-474, QNaN 486-506, Epsilon 518-538, SignMask 544-565:
    scalar literals and the globals.rs 40, 56-58 constants. *)
Definition XMVectorSplatOne : quad Z := qrep one32.
Definition XMVectorSplatInfinity : quad Z := qrep 0x7F800000.
Definition XMVectorSplatQNaN : quad Z := qrep 0x7FC00000.
Definition XMVectorSplatEpsilon : quad Z := qrep 0x34000000.
Definition XMVectorSplatSignMask : quad Z := qrep 0x80000000.

(** ** Access *)
(** XMVectorGetByIndex 571-590, XMVectorGetIntByIndex 847-866: checked array index on both backends. *)
Definition XMVectorGetByIndex {A} (v : quad A) (i : Z) : option A := omap (lane v) (idx_of i).
(** XMVectorGetX/Y/Z/W 606-717 (and GetIntX.. 882-1011, GetXPtr.. 726-841): array read, or permute to lane 0 then [_mm_cvtss_f32]. *)
Definition XMVectorGet_scalar {A} (i : idx) (v : quad A) : A := lane v i.
Definition XMVectorGet_sse {A} (i : idx) (v : quad A) : A :=
  match i with I0 => cvtss v | _ => cvtss (permute_ps v i i i i) end.
(** XMVectorSetByIndex 1023-1032, XMVectorSetIntByIndex 1263-1272: checked index store. *)
Definition XMVectorSetByIndex {A} (v : quad A) (a : A) (i : Z) : option (quad A) :=
  omap (fun k => setlane v k a) (idx_of i).
(** XMVectorSetX/Y/Z/W 1052-1251 (SetIntX.. 1288-1475), scalar *)
Definition XMVectorSet1_scalar {A} (i : idx) (v : quad A) (a : A) : quad A :=
  match i with
  | I0 => Q a (lane v I1) (lane v I2) (lane v I3)
  | I1 => Q (lane v I0) a (lane v I2) (lane v I3)
  | I2 => Q (lane v I0) (lane v I1) a (lane v I3)
  | I3 => Q (lane v I0) (lane v I1) (lane v I2) a
  end.
(** the same, SSE2: swap lane i with x, [_mm_move_ss], swap back *)
Definition XMVectorSet1_sse {A} (zero : A) (i : idx) (v : quad A) (a : A) : quad A :=
  match i with
  | I0 => move_ss v (set_ss zero a)
  | I1 => permute_ps (move_ss (permute_ps v I3 I2 I0 I1) (set_ss zero a)) I3 I2 I0 I1
  | I2 => permute_ps (move_ss (permute_ps v I3 I0 I1 I2) (set_ss zero a)) I3 I0 I1 I2
  | I3 => permute_ps (move_ss (permute_ps v I0 I2 I1 I3) (set_ss zero a)) I0 I2 I1 I3
  end.
(** the same, SSE4: [_mm_insert_ps(V, s, 0x10/0x20/0x30)] *)
Definition XMVectorSet1_sse4 {A} (zero : A) (i : idx) (v : quad A) (a : A) : quad A :=
  match i with
  | I0 => move_ss v (set_ss zero a)
  | _ => insert_ps v (set_ss zero a) i
  end.

(** ** Swizzle and permute *)
(** XMVectorSwizzle 1540-1590: scalar and SSE index the lanes; AVX [_mm_permutevar_ps] uses the low two bits.
    [debug_assert] 1548 is the panic. *)
Definition idx_low (n : Z) : idx :=
  match n mod 4 with 0 => I0 | 1 => I1 | 2 => I2 | _ => I3 end.
Definition lt4 (n : Z) : bool := (0 <=? n) && (n <? 4).
Definition XMVectorSwizzle_scalar {A} (v : quad A) (e0 e1 e2 e3 : Z) : option (quad A) :=
  if lt4 e0 && lt4 e1 && lt4 e2 && lt4 e3 then
    match idx_of e0, idx_of e1, idx_of e2, idx_of e3 with
    | Some a, Some b, Some c, Some d => Some (Q (lane v a) (lane v b) (lane v c) (lane v d))
    | _, _, _, _ => None
    end
  else None.
Definition XMVectorSwizzle_avx {A} (v : quad A) (e0 e1 e2 e3 : Z) : option (quad A) :=
  if lt4 e0 && lt4 e1 && lt4 e2 && lt4 e3 then
    Some (Q (lane v (idx_low e0)) (lane v (idx_low e1)) (lane v (idx_low e2)) (lane v (idx_low e3)))
  else None.

(** XMVectorPermute 1672-1700: [& 3] picks the lane, [>> 2] picks the vector (checked index into 2 pointers). *)
Definition permute_pick {A} (v1 v2 : quad A) (p : Z) : option A :=
  let i := idx_low (Z.land p 3) in
  let vi := Z.shiftr p 2 in
  if vi =? 0 then Some (lane v1 i) else if vi =? 1 then Some (lane v2 i) else None.
Definition le7 (n : Z) : bool := (0 <=? n) && (n <=? 7).
Definition XMVectorPermute_scalar {A} (v1 v2 : quad A) (px py pz pw : Z) : option (quad A) :=
  if le7 px && le7 py && le7 pz && le7 pw then
    match permute_pick v1 v2 px, permute_pick v1 v2 py, permute_pick v1 v2 pz, permute_pick v1 v2 pw with
    | Some a, Some b, Some c, Some d => Some (Q a b c d)
    | _, _, _, _ => None
    end
  else None.
(** XMVectorPermute 1653-1670 (AVX): permutevar of both, select by control > 3. *)
Definition permutevar_ps (v : quad Z) (c : quad Z) : quad Z := qmap (fun k => lane v (idx_low k)) c.
Definition XMVectorPermute_avx (v1 v2 : quad Z) (px py pz pw : Z) : option (quad Z) :=
  if le7 px && le7 py && le7 pz && le7 pw then
    let elem := Q px py pz pw in
    let three := qrep 3 in
    let sel := cmpgt_epi32 elem three in
    let ctl := and_ps elem three in
    Some (or_ps (andnot_ps sel (permutevar_ps v1 ctl)) (and_ps sel (permutevar_ps v2 ctl)))
  else None.

(** The tuple-type trait forms (lib.rs 2204-2517, nightly specialization bodies): shuffle both with
    [_MM_SHUFFLE(W&3, Z&3, Y&3, X&3)], select with SelectMask; special cases movelh / movehl / identity. *)
Inductive psel : Set := P0 (i : idx) | P1 (i : idx).
Definition psel_idx (p : psel) : idx := match p with P0 i | P1 i => i end.
Definition psel_which (p : psel) : bool := match p with P0 _ => false | P1 _ => true end.
Definition psel_z (p : psel) : Z := match p with P0 i => idx_z i | P1 i => 4 + idx_z i end.
Definition PermuteTrait_sse (x y z w : psel) (v1 v2 : quad Z) : quad Z :=
  match x, y, z, w with
  | P0 I0, P0 I1, P0 I2, P0 I3 => v1
  | P1 I0, P1 I1, P1 I2, P1 I3 => v2
  | P0 I0, P0 I1, P1 I0, P1 I1 => movelh v1 v2
  | P1 I2, P1 I3, P0 I2, P0 I3 => movehl v1 v2
  | _, _, _, _ =>
      let sh v := permute_ps v (psel_idx w) (psel_idx z) (psel_idx y) (psel_idx x) in
      let m := Q (mask (psel_which x)) (mask (psel_which y)) (mask (psel_which z)) (mask (psel_which w)) in
      or_ps (andnot_ps m (sh v1)) (and_ps m (sh v2))
  end.
(** lib.rs 2580-2787: swizzle tuples with their specializations *)
Definition SwizzleTrait_sse {A} (x y z w : idx) (v : quad A) : quad A :=
  match x, y, z, w with
  | I0, I1, I0, I1 => movelh v v
  | I2, I3, I2, I3 => movehl v v
  | I0, I0, I1, I1 => unpacklo v v
  | I2, I2, I3, I3 => unpackhi v v
  | _, _, _, _ => permute_ps v w z y x
  end.

(** XMVectorMergeXY 1933-1960, XMVectorMergeZW 1993-2020 *)
Definition XMVectorMergeXY_scalar {A} (v1 v2 : quad A) : quad A :=
  Q (lane v1 I0) (lane v2 I0) (lane v1 I1) (lane v2 I1).
Definition XMVectorMergeXY_sse {A} (v1 v2 : quad A) : quad A := unpacklo v1 v2.
Definition XMVectorMergeZW_scalar {A} (v1 v2 : quad A) : quad A :=
  Q (lane v1 I2) (lane v2 I2) (lane v1 I3) (lane v2 I3).
Definition XMVectorMergeZW_sse {A} (v1 v2 : quad A) : quad A := unpackhi v1 v2.

(** XMVectorShiftLeft 2054-2057, RotateLeft 2088-2091, RotateRight 2122-2125. [sw]/[pm] are the backend's Swizzle/Permute. *)
Definition XMVectorShiftLeft {A} (pm : quad A -> quad A -> Z -> Z -> Z -> Z -> option (quad A))
    (v1 v2 : quad A) (n : Z) : option (quad A) :=
  if lt4 n then pm v1 v2 n (n + 1) (n + 2) (n + 3) else None.
Definition XMVectorRotateLeft {A} (sw : quad A -> Z -> Z -> Z -> Z -> option (quad A))
    (v : quad A) (n : Z) : option (quad A) :=
  if lt4 n then sw v (Z.land n 3) (Z.land (n + 1) 3) (Z.land (n + 2) 3) (Z.land (n + 3) 3) else None.
Definition XMVectorRotateRight {A} (sw : quad A -> Z -> Z -> Z -> Z -> option (quad A))
    (v : quad A) (n : Z) : option (quad A) :=
  if lt4 n then sw v (Z.land (4 - n) 3) (Z.land (5 - n) 3) (Z.land (6 - n) 3) (Z.land (7 - n) 3) else None.

(** ** Select *)
(** XMVectorSelectControl 1774-1810: SSE compares signed > 0; scalar indexes a 2-element table (panic above 1). *)
Definition XMVectorSelectControl_sse (i0 i1 i2 i3 : Z) : quad Z :=
  cmpgt_epi32 (set_ps i3 i2 i1 i0) XMVectorZero.
Definition select_element (i : Z) : option Z :=
  if i =? 0 then Some 0 else if i =? 1 then Some ones else None.
Definition XMVectorSelectControl_scalar (i0 i1 i2 i3 : Z) : option (quad Z) :=
  match select_element i0, select_element i1, select_element i2, select_element i3 with
  | Some a, Some b, Some c, Some d => Some (Q a b c d)
  | _, _, _, _ => None
  end.
(** XMVectorSelect 1870-1900 *)
Definition XMVectorSelect_scalar (v1 v2 c : quad Z) : quad Z :=
  qmap3 (fun a b m => Z.lor (Z.land a (bnot m)) (Z.land b m)) v1 v2 c.
Definition XMVectorSelect_sse (v1 v2 c : quad Z) : quad Z :=
  or_ps (andnot_ps c v1) (and_ps v2 c).
(** XMVectorInsert 2163-2174 *)
Definition XMVectorInsert_scalar (vd vs : quad Z) (n s0 s1 s2 s3 : Z) : option (quad Z) :=
  obind (XMVectorSelectControl_scalar (Z.land s0 1) (Z.land s1 1) (Z.land s2 1) (Z.land s3 1)) (fun c =>
  obind (XMVectorRotateLeft XMVectorSwizzle_scalar vs n) (fun r => Some (XMVectorSelect_scalar vd r c))).
Definition XMVectorInsert_sse (vd vs : quad Z) (n s0 s1 s2 s3 : Z) : option (quad Z) :=
  let c := XMVectorSelectControl_sse (Z.land s0 1) (Z.land s1 1) (Z.land s2 1) (Z.land s3 1) in
  obind (XMVectorRotateLeft XMVectorSwizzle_scalar vs n) (fun r => Some (XMVectorSelect_sse vd r c)).

(** XMVectorSetBinaryConstant lib.rs 2807-2835. Scalar: [0 - (C & 1)] on u32 — panics on overflow in a
    debug build ([None]) and wraps in a release build. *)
Definition neg_u32_checked (c : Z) : option Z := if c =? 0 then Some 0 else None.
Definition XMVectorSetBinaryConstant_scalar_debug (c0 c1 c2 c3 : Z) : option (quad Z) :=
  let f c := omap (fun n => Z.land n one32) (neg_u32_checked (Z.land c 1)) in
  match f c0, f c1, f c2, f c3 with
  | Some a, Some b, Some c, Some d => Some (Q a b c d)
  | _, _, _, _ => None
  end.
Definition XMVectorSetBinaryConstant_scalar_release (c0 c1 c2 c3 : Z) : quad Z :=
  qmap (fun c => Z.land (wrap32 (0 - Z.land c 1)) one32) (Q c0 c1 c2 c3).
(** SSE with the mask written in the source, [1,2,3,4] (lib.rs 2825) *)
Definition XMVectorSetBinaryConstant_sse (c0 c1 c2 c3 : Z) : quad Z :=
  let g_vMask1 := Q 1 2 3 4 in
  let t := and_ps (set_ps c3 c2 c1 c0) g_vMask1 in
  and_ps (cmpeq_epi32 t g_vMask1) (qrep one32).

(** XMVectorSplatConstantInt lib.rs 2876-2897; the debug_assert range is the panic. *)
Definition XMVectorSplatConstantInt (i : Z) : option (quad Z) :=
  if (-16 <=? i) && (i <=? 15) then Some (qrep (wrap32 i)) else None.

(** ** Integer logic: vector.rs And 3512, AndC 3573, Or 3635, Nor 3697, Xor 3761. *)
Definition XMVectorAndInt_scalar (a b : quad Z) := qmap2 Z.land a b.
Definition XMVectorAndInt_sse (a b : quad Z) := and_ps a b.
Definition XMVectorAndCInt_scalar (a b : quad Z) := qmap2 (fun x y => Z.land x (bnot y)) a b.
Definition XMVectorAndCInt_sse (a b : quad Z) := andnot_ps b a.
Definition XMVectorOrInt_scalar (a b : quad Z) := qmap2 Z.lor a b.
Definition XMVectorOrInt_sse (a b : quad Z) := or_ps a b.
Definition XMVectorNorInt_scalar (a b : quad Z) := qmap2 (fun x y => bnot (Z.lor x y)) a b.
Definition XMVectorNorInt_sse (a b : quad Z) := andnot_ps (or_ps a b) (qrep ones).
Definition XMVectorXorInt_scalar (a b : quad Z) := qmap2 Z.lxor a b.
Definition XMVectorXorInt_sse (a b : quad Z) := xor_ps a b.
