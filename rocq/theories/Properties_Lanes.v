(** C01-C04, C13: memory, access, lane movement, select, bitwise logic. *)
From Verif Require Import Base F32 F32Facts Intrin MLanes MMem SpecLanes PLanes PMem.

(** * C01 Loading then storing preserves every bit.
    [m] is any memory that starts with the structure; its length bound says that at least the structure itself
    is there, so the theorems also say that no load or store touches a word outside the structure. *)
Theorem C01_load_float2 : forall m, (2 <= length m)%nat ->
  exists v, XMLoadFloat2_scalar m = Some v /\ XMLoadFloat2_sse m = Some v /\
    lanes_are v (fun k => if k <? 2 then word_at m k else 0).
Proof. exact load2_ok. Qed.
Theorem C01_load_float3 : forall m, (3 <= length m)%nat ->
  exists v, XMLoadFloat3_scalar m = Some v /\ XMLoadFloat3_sse m = Some v /\ XMLoadFloat3_sse4 m = Some v /\
    lanes_are v (fun k => if k <? 3 then word_at m k else 0).
Proof. exact load3_ok. Qed.
Theorem C01_load_float3_aligned : forall m, (4 <= length m)%nat -> Forall word m ->
  XMLoadFloat3A_sse m = XMLoadFloat3_scalar m.
Proof. exact load3a_ok. Qed.
Theorem C01_load_float4 : forall m, (4 <= length m)%nat ->
  exists v, XMLoadFloat4_scalar m = Some v /\ XMLoadFloat4_sse m = Some v /\ lanes_are v (word_at m).
Proof. exact load4_ok. Qed.
Theorem C01_store_float : forall m v, (1 <= length m)%nat ->
  exists m', XMStoreFloat m v = Some m' /\ overwritten m m' 1 (nth_lane v).
Proof. exact store1_ok. Qed.
Theorem C01_store_float2 : forall m v, (2 <= length m)%nat ->
  exists m', XMStoreFloat2_scalar m v = Some m' /\ XMStoreFloat2_sse m v = Some m' /\ overwritten m m' 2 (nth_lane v).
Proof. exact store2_ok. Qed.
Theorem C01_store_float3 : forall m v, (3 <= length m)%nat ->
  exists m', XMStoreFloat3_scalar m v = Some m' /\ XMStoreFloat3_sse m v = Some m' /\ XMStoreFloat3A_sse m v = Some m' /\
    overwritten m m' 3 (nth_lane v).
Proof. exact store3_ok. Qed.
Theorem C01_store_float4 : forall m v, (4 <= length m)%nat ->
  exists m', XMStoreFloat4_scalar m v = Some m' /\ XMStoreFloat4_sse m v = Some m' /\ overwritten m m' 4 (nth_lane v).
Proof. exact store4_ok. Qed.
(** store followed by load, and load followed by store, for every structure *)
Theorem C01_roundtrip_vectors : forall v m, (4 <= length m)%nat ->
  (obind (XMStoreFloat2_sse m v) XMLoadFloat2_scalar = Some (Q (qx v) (qy v) 0 0) /\
   obind (XMStoreFloat3_sse m v) XMLoadFloat3_scalar = Some (Q (qx v) (qy v) (qz v) 0) /\
   obind (XMStoreFloat4_sse m v) XMLoadFloat4_scalar = Some v) /\
  (obind (XMLoadFloat2_sse m) (XMStoreFloat2_scalar m) = Some m /\
   obind (XMLoadFloat3_sse m) (XMStoreFloat3_scalar m) = Some m /\
   obind (XMLoadFloat4_sse m) (XMStoreFloat4_scalar m) = Some m).
Proof. exact roundtrip_vectors. Qed.

Theorem C01_load_float3x3_scalar : forall m, (9 <= length m)%nat ->
  exists M, XMLoadFloat3x3_scalar m = Some M /\ mat_is M (img3x3 m).
Proof. exact load3x3_scalar_ok. Qed.
(** The SSE path adds a zero vector to row 1, so it is only bit exact when that row holds no NaN and no -0.0:
    missing for the full statement (see [C01_load_float3x3_sse_refuted]). *)
Theorem C01_load_float3x3_sse_partial : forall m, (9 <= length m)%nat -> Forall word m ->
  (forall k, 3 <= k < 6 -> f_isnan (word_at m k) = false /\ word_at m k <> 0x80000000) ->
  exists M, XMLoadFloat3x3_sse m = Some M /\ mat_is M (img3x3 m).
Proof. exact load3x3_sse_ok. Qed.
Theorem C01_load_float3x3_sse_refuted : exists m M1 M2, length m = 9%nat /\ Forall word m /\
  XMLoadFloat3x3_scalar m = Some M1 /\ XMLoadFloat3x3_sse m = Some M2 /\
  mij M1 I1 I1 = 0x80000000 /\ mij M2 I1 I1 = 0.
Proof. exact load3x3_sse_refuted. Qed.
Theorem C01_load_float4x3 : forall m, (12 <= length m)%nat -> Forall word m ->
  exists M, XMLoadFloat4x3_scalar m = Some M /\ XMLoadFloat4x3_sse m = Some M /\ mat_is M (img4x3 m).
Proof. exact load4x3_ok. Qed.
Theorem C01_load_float3x4 : forall m, (12 <= length m)%nat ->
  exists M, XMLoadFloat3x4_scalar m = Some M /\ XMLoadFloat3x4_sse m = Some M /\ mat_is M (img3x4 m).
Proof. exact load3x4_ok. Qed.
Theorem C01_load_float4x4 : forall m, (16 <= length m)%nat ->
  exists M, XMLoadFloat4x4_scalar m = Some M /\ XMLoadFloat4x4_sse m = Some M /\ mat_is M (fun i j => word_at m (4 * i + j)).
Proof. exact load4x4_ok. Qed.
Theorem C01_store_float3x3 : forall m M, (9 <= length m)%nat ->
  exists m', XMStoreFloat3x3_scalar m M = Some m' /\ XMStoreFloat3x3_sse m M = Some m' /\
    overwritten m m' 9 (fun k => ent M (k / 3) (k mod 3)).
Proof. exact store3x3_ok. Qed.
Theorem C01_store_float4x3 : forall m M, (12 <= length m)%nat ->
  exists m', XMStoreFloat4x3_scalar m M = Some m' /\ XMStoreFloat4x3_sse m M = Some m' /\
    overwritten m m' 12 (fun k => ent M (k / 3) (k mod 3)).
Proof. exact store4x3_ok. Qed.
Theorem C01_store_float3x4 : forall m M, (12 <= length m)%nat ->
  exists m', XMStoreFloat3x4_scalar m M = Some m' /\ XMStoreFloat3x4_sse m M = Some m' /\
    overwritten m m' 12 (fun k => ent M (k mod 4) (k / 4)).
Proof. exact store3x4_ok. Qed.
Theorem C01_store_float4x4 : forall m M, (16 <= length m)%nat ->
  exists m', XMStoreFloat4x4_scalar m M = Some m' /\ XMStoreFloat4x4_sse m M = Some m' /\
    overwritten m m' 16 (fun k => ent M (k / 4) (k mod 4)).
Proof. exact store4x4_ok. Qed.

(** the smallest memory: exactly the structure, with a signalling NaN and a -0.0 in it *)
Example C01_ex_load3 : XMLoadFloat3_sse [0x7F800001; 0x80000000; 3] = Some (Q 0x7F800001 0x80000000 3 0).
Proof. reflexivity. Qed.
Example C01_ex_store3 : XMStoreFloat3_sse [1; 2; 3; 4] (Q 0x7F800001 0x80000000 7 8) = Some [0x7F800001; 0x80000000; 7; 4].
Proof. reflexivity. Qed.
Example C01_ex_4x3 : option_map (fun M => mij M I3 I2) (XMLoadFloat4x3_sse [0;1;2;3;4;5;6;7;8;9;10;11]) = Some 11.
Proof. reflexivity. Qed.
Example C01_ex_3x3_hyp : forall k, 3 <= k < 6 ->
  let m := [1;2;3;0x3F800000;0xBF800000;0x7F800000;7;8;9] in
  f_isnan (word_at m k) = false /\ word_at m k <> 0x80000000.
Proof.
  intros k Hk. assert (k = 3 \/ k = 4 \/ k = 5) as [->|[->| ->]] by lia; (split; [vm_compute; reflexivity|vm_compute; discriminate]).
Qed.

(** * C02 Component accessors *)
Theorem C02_get_set_by_index : forall (v : quad Z) a i j, 0 <= i < 4 -> 0 <= j < 4 ->
  exists v', XMVectorSetByIndex v a i = Some v' /\
    XMVectorGetByIndex v' j = if i =? j then Some a else XMVectorGetByIndex v j.
Proof. exact get_set_by_index. Qed.
Theorem C02_get_by_index : forall (v : quad Z) i, 0 <= i < 4 -> XMVectorGetByIndex v i = Some (nth_lane v i).
Proof. exact get_by_index. Qed.
Theorem C02_set_twice_keeps_last : forall (v : quad Z) a b i, 0 <= i < 4 ->
  obind (XMVectorSetByIndex v a i) (fun v' => XMVectorSetByIndex v' b i) = XMVectorSetByIndex v b i.
Proof. exact set_set. Qed.
Theorem C02_write_back_is_identity : forall (v : quad Z) i, 0 <= i < 4 ->
  obind (XMVectorGetByIndex v i) (fun a => XMVectorSetByIndex v a i) = Some v.
Proof. exact set_get. Qed.
Theorem C02_by_name_is_by_index : forall (v : quad Z) a i,
  XMVectorGetByIndex v (idx_z i) = Some (XMVectorGet_scalar i v) /\
  XMVectorSetByIndex v a (idx_z i) = Some (XMVectorSet1_scalar i v a).
Proof. exact by_name_by_index. Qed.
Theorem C02_backends_agree : forall (v : quad Z) zero i a,
  XMVectorGet_sse i v = XMVectorGet_scalar i v /\
  XMVectorSet1_sse zero i v a = XMVectorSet1_scalar i v a /\
  XMVectorSet1_sse4 zero i v a = XMVectorSet1_scalar i v a.
Proof. exact access_backends. Qed.
Theorem C02_bad_index_panics : forall (v : quad Z) a i, ~ (0 <= i < 4) ->
  XMVectorGetByIndex v i = None /\ XMVectorSetByIndex v a i = None.
Proof. exact index_panics. Qed.
Example C02_ex : XMVectorSetByIndex (Q 1 2 3 4) 9 2 = Some (Q 1 2 9 4) /\ XMVectorSet1_sse 0 I2 (Q 1 2 3 4) 9 = Q 1 2 9 4
  /\ XMVectorGetByIndex (Q 1 2 3 4) 4 = None.
Proof. repeat split. Qed.

(** * C03 Lane movement *)
Theorem C03_swizzle : forall (v : quad Z) e0 e1 e2 e3, legal4 e0 e1 e2 e3 ->
  exists r, XMVectorSwizzle_scalar v e0 e1 e2 e3 = Some r /\ XMVectorSwizzle_avx v e0 e1 e2 e3 = Some r /\
    lanes_are r (fun k => nth_lane v (pick4 e0 e1 e2 e3 k)).
Proof. exact swizzle_ok. Qed.
Theorem C03_swizzle_illegal_panics : forall (v : quad Z) e0 e1 e2 e3, ~ legal4 e0 e1 e2 e3 ->
  XMVectorSwizzle_scalar v e0 e1 e2 e3 = None /\ XMVectorSwizzle_avx v e0 e1 e2 e3 = None.
Proof. exact swizzle_panics. Qed.
Theorem C03_permute : forall (v1 v2 : quad Z) e0 e1 e2 e3, legal8 e0 e1 e2 e3 ->
  exists r, XMVectorPermute_scalar v1 v2 e0 e1 e2 e3 = Some r /\
    lanes_are r (fun k => nth_lane2 v1 v2 (pick4 e0 e1 e2 e3 k)).
Proof. exact permute_ok. Qed.
Theorem C03_permute_avx_agrees : forall (v1 v2 : quad Z) e0 e1 e2 e3, wordq v1 -> wordq v2 ->
  XMVectorPermute_avx v1 v2 e0 e1 e2 e3 = XMVectorPermute_scalar v1 v2 e0 e1 e2 e3.
Proof. exact permute_avx_ok. Qed.
Theorem C03_permute_illegal_panics : forall (v1 v2 : quad Z) e0 e1 e2 e3, ~ legal8 e0 e1 e2 e3 ->
  XMVectorPermute_scalar v1 v2 e0 e1 e2 e3 = None.
Proof. exact permute_panics. Qed.
Theorem C03_permute_tuple : forall x y z w v1 v2, wordq v1 -> wordq v2 ->
  lanes_are (PermuteTrait_sse x y z w v1 v2)
    (fun k => nth_lane2 v1 v2 (pick4 (psel_z x) (psel_z y) (psel_z z) (psel_z w) k)).
Proof. exact permute_trait_ok. Qed.
Theorem C03_swizzle_tuple : forall x y z w (v : quad Z),
  lanes_are (SwizzleTrait_sse x y z w v) (fun k => nth_lane v (pick4 (idx_z x) (idx_z y) (idx_z z) (idx_z w) k)).
Proof. exact swizzle_trait_ok. Qed.
Theorem C03_shift_left : forall (v1 v2 : quad Z) n, 0 <= n < 4 ->
  exists r, XMVectorShiftLeft XMVectorPermute_scalar v1 v2 n = Some r /\ lanes_are r (fun k => nth_lane2 v1 v2 (k + n)).
Proof. exact shift_left_ok. Qed.
Theorem C03_rotate_left : forall (v : quad Z) n, 0 <= n < 4 ->
  exists r, XMVectorRotateLeft XMVectorSwizzle_scalar v n = Some r /\ lanes_are r (fun k => nth_lane v ((k + n) mod 4)).
Proof. exact rotate_left_ok. Qed.
Theorem C03_rotate_right : forall (v : quad Z) n, 0 <= n < 4 ->
  exists r, XMVectorRotateRight XMVectorSwizzle_scalar v n = Some r /\ lanes_are r (fun k => nth_lane v ((k - n) mod 4)).
Proof. exact rotate_right_ok. Qed.
Theorem C03_rotate_right_undoes_left : forall (v : quad Z) n, 0 <= n < 4 ->
  obind (XMVectorRotateLeft XMVectorSwizzle_scalar v n) (fun r => XMVectorRotateRight XMVectorSwizzle_scalar r n) = Some v.
Proof. exact rotate_inverse. Qed.
Theorem C03_shift_rotate_illegal_panics : forall (v1 v2 : quad Z) n, ~ (0 <= n < 4) ->
  XMVectorShiftLeft XMVectorPermute_scalar v1 v2 n = None /\
  XMVectorRotateLeft XMVectorSwizzle_scalar v1 n = None /\ XMVectorRotateRight XMVectorSwizzle_scalar v1 n = None.
Proof. exact shift_rotate_panics. Qed.
Theorem C03_merge : forall (v1 v2 : quad Z),
  (XMVectorMergeXY_sse v1 v2 = XMVectorMergeXY_scalar v1 v2 /\
   lanes_are (XMVectorMergeXY_scalar v1 v2) (fun k => nth_lane (if Z.even k then v1 else v2) (k / 2))) /\
  (XMVectorMergeZW_sse v1 v2 = XMVectorMergeZW_scalar v1 v2 /\
   lanes_are (XMVectorMergeZW_scalar v1 v2) (fun k => nth_lane (if Z.even k then v1 else v2) (2 + k / 2))).
Proof. exact merge_ok. Qed.
Theorem C03_splat : forall i (v : quad Z),
  XMVectorSplat_sse i v = XMVectorSplat_scalar i v /\ lanes_are (XMVectorSplat_scalar i v) (fun _ => nth_lane v (idx_z i)).
Proof. exact splat_ok. Qed.
Theorem C03_insert : forall vd vs n s0 s1 s2 s3, wordq vd -> wordq vs -> 0 <= n < 4 ->
  exists r, XMVectorInsert_scalar vd vs n s0 s1 s2 s3 = Some r /\ XMVectorInsert_sse vd vs n s0 s1 s2 s3 = Some r /\
    lanes_are r (fun k => if Z.odd (pick4 s0 s1 s2 s3 k) then nth_lane vs ((k + n) mod 4) else nth_lane vd k).
Proof. exact insert_ok. Qed.
Example C03_ex_permute : XMVectorPermute_avx (Q 10 11 12 13) (Q 20 21 22 23) 6 1 4 3 = Some (Q 22 11 20 13).
Proof. reflexivity. Qed.
Example C03_ex_insert : XMVectorInsert_sse (Q 10 11 12 13) (Q 20 21 22 23) 1 1 0 1 0 = Some (Q 21 11 23 13).
Proof. reflexivity. Qed.
Example C03_ex_legal : legal8 6 1 4 3 /\ ~ legal8 8 0 0 0.
Proof. unfold legal8; lia. Qed.

(** * C04 Select and control builders *)
Theorem C04_select : forall v1 v2 c, wordq v1 -> wordq v2 -> wordq c -> forall i,
  mux_bits (lane v1 i) (lane v2 i) (lane c i) (lane (XMVectorSelect_scalar v1 v2 c) i) /\
  mux_bits (lane v1 i) (lane v2 i) (lane c i) (lane (XMVectorSelect_sse v1 v2 c) i).
Proof. exact select_bits. Qed.
Theorem C04_select_control : forall i0 i1 i2 i3,
  (i0 = 0 \/ i0 = 1) -> (i1 = 0 \/ i1 = 1) -> (i2 = 0 \/ i2 = 1) -> (i3 = 0 \/ i3 = 1) ->
  exists r, XMVectorSelectControl_scalar i0 i1 i2 i3 = Some r /\ XMVectorSelectControl_sse i0 i1 i2 i3 = r /\
    lanes_are r (fun k => if pick4 i0 i1 i2 i3 k =? 0 then 0 else 0xFFFFFFFF).
Proof. exact select_control_ok. Qed.
(** The documented result of SetBinaryConstant is 1.0 where bit 0 of the argument is set, else 0.0.
    Only the scalar body with overflow checks off computes it: *)
Theorem C04_binary_constant_scalar_partial : forall c0 c1 c2 c3,
  lanes_are (XMVectorSetBinaryConstant_scalar_release c0 c1 c2 c3)
    (fun k => if Z.odd (pick4 c0 c1 c2 c3 k) then 0x3F800000 else 0).
Proof. exact binary_constant_release_ok. Qed.
(** with overflow checks on, the scalar body panics as soon as one argument is odd *)
Theorem C04_binary_constant_scalar_debug_refuted : forall c0 c1 c2 c3,
  Z.odd c0 || Z.odd c1 || Z.odd c2 || Z.odd c3 = true -> XMVectorSetBinaryConstant_scalar_debug c0 c1 c2 c3 = None.
Proof. exact binary_constant_debug_panics. Qed.
(** and the SSE body never sets lane y, z or w for the documented argument 1 *)
Theorem C04_binary_constant_sse_refuted :
  XMVectorSetBinaryConstant_sse 1 1 1 1 = Q 0x3F800000 0 0 0.
Proof. exact binary_constant_sse_wrong. Qed.
Example C04_ex_select : XMVectorSelect_sse (Q 0xF0F0F0F0 1 2 3) (Q 0x0F0F0F0F 5 6 7) (Q 0x00FF00FF 0 0xFFFFFFFF 1)
  = Q 0xF00FF00F 1 6 3.
Proof. reflexivity. Qed.

(** * C13 Integer vector logic *)
Theorem C13_bitwise : forall a b i n, wordq a -> wordq b -> 0 <= n < 32 ->
  let A := Z.testbit (lane a i) n in let B := Z.testbit (lane b i) n in
  Z.testbit (lane (XMVectorAndInt_scalar a b) i) n = A && B /\
  Z.testbit (lane (XMVectorAndCInt_scalar a b) i) n = A && negb B /\
  Z.testbit (lane (XMVectorOrInt_scalar a b) i) n = A || B /\
  Z.testbit (lane (XMVectorNorInt_scalar a b) i) n = negb (A || B) /\
  Z.testbit (lane (XMVectorXorInt_scalar a b) i) n = xorb A B.
Proof. exact int_logic_bits. Qed.
Theorem C13_results_are_words : forall a b, wordq a -> wordq b ->
  wordq (XMVectorAndInt_scalar a b) /\ wordq (XMVectorAndCInt_scalar a b) /\ wordq (XMVectorOrInt_scalar a b) /\
  wordq (XMVectorNorInt_scalar a b) /\ wordq (XMVectorXorInt_scalar a b).
Proof. exact int_logic_words. Qed.
Theorem C13_backends_agree : forall a b,
  XMVectorAndInt_sse a b = XMVectorAndInt_scalar a b /\
  XMVectorAndCInt_sse a b = XMVectorAndCInt_scalar a b /\
  XMVectorOrInt_sse a b = XMVectorOrInt_scalar a b /\
  (wordq a -> wordq b -> XMVectorNorInt_sse a b = XMVectorNorInt_scalar a b) /\
  XMVectorXorInt_sse a b = XMVectorXorInt_scalar a b.
Proof. exact int_logic_backends. Qed.
Theorem C13_boolean_laws : forall a b, wordq a -> wordq b ->
  let And := XMVectorAndInt_sse in let Or := XMVectorOrInt_sse in let Nor := XMVectorNorInt_sse in
  let Xor := XMVectorXorInt_sse in let AndC := XMVectorAndCInt_sse in
  Nor a b = And (Nor a a) (Nor b b) /\ Or a (And a b) = a /\ And a (Or a b) = a /\
  Xor a a = XMVectorZero /\ AndC a b = And a (Nor b b) /\ Xor (Xor a b) b = a /\
  Or (And a b) (AndC a b) = a /\ And a b = And b a /\ Or a b = Or b a.
Proof. exact int_logic_laws. Qed.
Example C13_ex : XMVectorNorInt_sse (Q 0xFF00FF00 0 1 2) (Q 0x00FF0000 0 1 2) = Q 0xFF 0xFFFFFFFF 0xFFFFFFFE 0xFFFFFFFD.
Proof. reflexivity. Qed.
