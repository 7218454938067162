(** C72: integer and pointer accessors, splatted constants, integer and aligned loads and stores, mask tests of collision.rs.
    [wordq V]: every lane is a 32-bit word. *)
From Coq Require Import Reals Lra ZArith Lia Bool List.
From Verif Require Import Base F32 F32Facts Intrin Lane SpecF32 SpecLanes MLanes MMem MCompare MMore MNames PMem PLanes PCompare.
Import ListNotations.
Open Scope Z_scope.

Lemma round_trip z : word z -> wrap32 (sint z) = z.
Proof.
  unfold word, wrap32, sint. intros H. destruct (2 ^ 31 <=? z) eqn:E; [|apply Z.mod_small; exact H].
  replace (z - 2 ^ 32) with (z + (-1) * 2 ^ 32) by ring. rewrite Z.mod_add by lia. apply Z.mod_small. exact H.
Qed.
Ltac word32 := unfold value, bit_exp, bit_frac, bit_sign, signed, pow2; simpl; f_equal; Lra.lra.
(** the four lanes of the result, on every backend *)
Theorem C72_set_int : forall b x y z w, word x -> word y -> word z -> word w -> XMVectorSetInt b x y z w = Q x y z w.
Proof. intros b x y z w X Y Z W. destruct b; [reflexivity|]. unfold XMVectorSetInt, set_epi32, as_i32. rewrite !round_trip by assumption. reflexivity. Qed.
Theorem C72_replicate : forall b v m, word v ->
  XMVectorReplicate_ b v = Q v v v v /\ XMVectorReplicatePtr b (v :: m) = Some (Q v v v v) /\ XMVectorReplicateInt b v = Q v v v v.
Proof.
  intros b v m W. split; [destruct b; reflexivity|]. split; [destruct b; reflexivity|]. destruct b; [reflexivity|].
  unfold XMVectorReplicateInt, set1_epi32, as_i32. rewrite round_trip by exact W. reflexivity.
Qed.
Theorem C72_true_false : forall b, (forall k, nth_lane (XMVectorTrueInt_ b) k = 2 ^ 32 - 1) /\ (forall k, nth_lane (XMVectorFalseInt_ b) k = 0).
Proof. intros b. split; intros k; destruct b; unfold nth_lane; destruct (k =? 0), (k =? 1), (k =? 2); vm_compute; reflexivity. Qed.
(** the constants by value: 1, +infinity, a NaN with the quiet bit, 2^-23, the sign bit alone *)
Theorem C72_constants : forall b k,
  value (nth_lane (XMVectorSplatOne_ b) k) = Fin (IZR 1) /\ value (nth_lane (XMVectorSplatInfinity_ b) k) = Inf false /\
  (value (nth_lane (XMVectorSplatQNaN_ b) k) = NaN /\ Z.testbit (nth_lane (XMVectorSplatQNaN_ b) k) 22 = true) /\
  value (nth_lane (XMVectorSplatEpsilon_ b) k) = Fin (pow2 (-23)) /\ nth_lane (XMVectorSplatSignMask_ b) k = 2 ^ 31.
Proof.
  intros b k. assert (E : forall z : Z, nth_lane (qrep z) k = z) by (intros z; unfold nth_lane; destruct (k =? 0), (k =? 1), (k =? 2); reflexivity).
  assert (O : f_lit 1 0 = 0x3F800000) by (vm_compute; reflexivity). assert (P : f_lit 1 (-23) = 0x34000000) by (vm_compute; reflexivity).
  assert (V1 : value 0x3F800000 = Fin (IZR 1)) by word32. assert (VE : value 0x34000000 = Fin (pow2 (-23))) by word32.
  unfold XMVectorSplatOne_. rewrite E, O. destruct b; unfold XMVectorSplatInfinity_, XMVectorSplatQNaN_, XMVectorSplatEpsilon_, XMVectorSplatSignMask_, set1_epi32; rewrite !E, ?P; repeat split; try assumption; reflexivity.
Qed.
Theorem C72_get_int : forall b V, wordq V ->
  XMVectorGetIntX b V = nth_lane V 0 /\ XMVectorGetIntY b V = nth_lane V 1 /\ XMVectorGetIntZ b V = nth_lane V 2 /\ XMVectorGetIntW b V = nth_lane V 3.
Proof.
  intros b V W. pose proof (wordq_lane V I0 W) as W0. pose proof (wordq_lane V I1 W) as W1. pose proof (wordq_lane V I2 W) as W2. pose proof (wordq_lane V I3 W) as W3.
  destruct V as [a c d e]. cbn [lane qx qy qz qw] in *. destruct b as [|s3 [|] f av]; repeat split;
    unfold XMVectorGetIntX, XMVectorGetIntY, XMVectorGetIntZ, XMVectorGetIntW, getint, as_u32, cvtsi128_si32, extract_epi32, permute_ps, shuffle, sse4; cbn [lane qx qy qz qw];
    rewrite ?round_trip by assumption; reflexivity.
Qed.
(** the pointer forms overwrite the one word with the lane *)
Theorem C72_get_ptr : forall b V a m, wordq V ->
  XMVectorGetXPtr b (a :: m) V = Some (nth_lane V 0 :: m) /\ XMVectorGetYPtr b (a :: m) V = Some (nth_lane V 1 :: m) /\
  XMVectorGetZPtr b (a :: m) V = Some (nth_lane V 2 :: m) /\ XMVectorGetWPtr b (a :: m) V = Some (nth_lane V 3 :: m).
Proof.
  intros b V q m W. pose proof (wordq_lane V I0 W) as W0. pose proof (wordq_lane V I1 W) as W1. pose proof (wordq_lane V I2 W) as W2. pose proof (wordq_lane V I3 W) as W3.
  destruct V as [a c d e]. cbn [lane qx qy qz qw] in *. destruct b as [|s3 [|] f av]; repeat split;
    unfold XMVectorGetXPtr, XMVectorGetYPtr, XMVectorGetZPtr, XMVectorGetWPtr, getptr, as_u32, extract_ps, store1, permute_ps, shuffle, sse4; cbn [lane qx qy qz qw];
    rewrite ?round_trip by assumption; reflexivity.
Qed.
(** setting one lane leaves the other three alone *)
Theorem C72_set_one_int : forall b V x k, word x -> 0 <= k < 4 ->
  nth_lane (XMVectorSetIntX b V x) k = (if k =? 0 then x else nth_lane V k) /\ nth_lane (XMVectorSetIntY b V x) k = (if k =? 1 then x else nth_lane V k) /\
  nth_lane (XMVectorSetIntZ b V x) k = (if k =? 2 then x else nth_lane V k) /\ nth_lane (XMVectorSetIntW b V x) k = (if k =? 3 then x else nth_lane V k).
Proof.
  intros b V x k W K. destruct V as [a c d e]. assert (k = 0 \/ k = 1 \/ k = 2 \/ k = 3) as [-> | [-> | [-> | ->]]] by lia; destruct b as [|s3 [|] f av]; repeat split;
    unfold XMVectorSetIntX, XMVectorSetIntY, XMVectorSetIntZ, XMVectorSetIntW, insert_epi32, cvtsi32_si128, as_i32, move_ss, permute_ps, shuffle, sse4, nth_lane; cbn [lane setlane qx qy qz qw Z.eqb Pos.eqb];
    rewrite ?round_trip by exact W; reflexivity.
Qed.
Theorem C72_load_int : forall b a c d e m,
  XMLoadInt2 b (a :: c :: m) = Some (Q a c 0 0) /\ XMLoadInt3 b (a :: c :: d :: m) = Some (Q a c d 0) /\ XMLoadInt4 b (a :: c :: d :: e :: m) = Some (Q a c d e).
Proof. intros b a c d e m. destruct b as [|s3 [|] f av]; repeat split. Qed.
Theorem C72_store_int : forall b V a c d e m,
  XMStoreInt2 b (a :: c :: m) V = Some (nth_lane V 0 :: nth_lane V 1 :: m) /\
  XMStoreInt3 b (a :: c :: d :: m) V = Some (nth_lane V 0 :: nth_lane V 1 :: nth_lane V 2 :: m) /\
  XMStoreInt4 b (a :: c :: d :: e :: m) V = Some (nth_lane V 0 :: nth_lane V 1 :: nth_lane V 2 :: nth_lane V 3 :: m).
Proof. intros b V a c d e m. destruct b as [|s3 [|] f av]; repeat split. Qed.
(** every word survives, NaN payloads and negative zeros included; nothing beyond the third word is written *)
Theorem C72_store_float3 : forall b V a c d m, wordq V ->
  XMStoreFloat3 b (a :: c :: d :: m) V = Some (nth_lane V 0 :: nth_lane V 1 :: nth_lane V 2 :: m) /\
  XMStoreFloat3A b (a :: c :: d :: m) V = Some (nth_lane V 0 :: nth_lane V 1 :: nth_lane V 2 :: m).
Proof.
  intros b V q r s m W. pose proof (wordq_lane V I0 W) as W0. pose proof (wordq_lane V I1 W) as W1. pose proof (wordq_lane V I2 W) as W2.
  destruct V as [a c d e]. cbn [lane qx qy qz qw] in *. destruct b as [|s3 [|] f av]; split;
    unfold XMStoreFloat3, XMStoreFloat3A, as_u32, extract_ps, sse4; cbn [lane qx qy qz qw]; rewrite ?round_trip by assumption; reflexivity.
Qed.
(** the aligned forms at a multiple of 16: no fault, the same words as the unaligned forms *)
Theorem C72_aligned : forall b at_ V a c d e m, at_ mod 16 = 0 ->
  (Forall word [a; c; d; e] -> XMLoadFloat3A b at_ (a :: c :: d :: e :: m) = Some (Q a c d 0)) /\
  XMLoadFloat4A b at_ (a :: c :: d :: e :: m) = Some (Q a c d e) /\
  XMStoreFloat4A b at_ (a :: c :: d :: e :: m) V = Some (nth_lane V 0 :: nth_lane V 1 :: nth_lane V 2 :: nth_lane V 3 :: m).
Proof.
  intros b at_ V a c d e m A. assert (G : aligned16 (at_ + 4 * Z.of_nat 0) = true) by (unfold aligned16; replace (at_ + 4 * Z.of_nat 0) with at_ by lia; apply Z.eqb_eq, A).
  split; [|split].
  - intros F. inversion F as [|? ? A0 F1]. inversion F1 as [|? ? A1 F2]. inversion F2 as [|? ? A2 F3]. destruct b; [reflexivity|]. unfold XMLoadFloat3A, load_ps. rewrite G. cbn [load4 skipn obind].
    unfold and_ps, Mask3, qmap2. cbn [qx qy qz qw]. rewrite !land_ones_word by assumption. rewrite Z.land_0_r. reflexivity.
  - destruct b; [reflexivity|]. unfold XMLoadFloat4A, load_ps. rewrite G. reflexivity.
  - destruct b; [reflexivity|]. unfold XMStoreFloat4A, store_ps. rewrite G. reflexivity.
Qed.
Theorem C72_aligned_matrix : forall b at_ (m : list Z) M, at_ mod 16 = 0 -> length m = 16%nat ->
  (exists R, XMLoadFloat4x4A b at_ m = Some R /\ mat_is R (fun i j => word_at m (4 * i + j))) /\
  exists m', XMStoreFloat4x4A b at_ m M = Some m' /\ length m' = 16%nat /\ forall i j, 0 <= i < 4 -> 0 <= j < 4 -> word_at m' (4 * i + j) = ent M i j.
Proof.
  intros b at_ m M A L. assert (G : forall k, aligned16 (at_ + 4 * Z.of_nat (4 * k)) = true).
  { intros k. unfold aligned16. replace (at_ + 4 * Z.of_nat (4 * k)) with (at_ + Z.of_nat k * 16) by lia. rewrite Z.mod_add by lia. apply Z.eqb_eq, A. }
  pose proof (G 0%nat) as G0. pose proof (G 1%nat) as G1. pose proof (G 2%nat) as G2. pose proof (G 3%nat) as G3. cbn [Nat.mul Nat.add] in G0, G1, G2, G3.
  do 16 (destruct m as [|? m]; [discriminate L|]). destruct m; [|discriminate L].
  assert (C : forall i, 0 <= i < 4 -> i = 0 \/ i = 1 \/ i = 2 \/ i = 3) by (intros; lia).
  split.
  - destruct b; [|unfold XMLoadFloat4x4A, load_ps; rewrite G0, G1, G2, G3]; (eexists; split; [reflexivity|]); intros i j Hi Hj; destruct (C i Hi) as [-> | [-> | [-> | ->]]]; destruct (C j Hj) as [-> | [-> | [-> | ->]]]; reflexivity.
  - destruct M as [[] [] [] []]. destruct b; [|unfold XMStoreFloat4x4A, store_ps; rewrite G0, G1, G2, G3]; (eexists; split; [reflexivity|]; split; [reflexivity|]); intros i j Hi Hj; destruct (C i Hi) as [-> | [-> | [-> | ->]]]; destruct (C j Hj) as [-> | [-> | [-> | ->]]]; reflexivity.
Qed.
(** an address that is not a multiple of 16 faults on the vector backends *)
Theorem C72_unaligned : forall s3 s4 f av at_ m V, at_ mod 16 <> 0 ->
  XMLoadFloat3A (SSE s3 s4 f av) at_ m = None /\ XMLoadFloat4A (SSE s3 s4 f av) at_ m = None /\ XMStoreFloat4A (SSE s3 s4 f av) at_ m V = None /\ XMLoadFloat4x4A (SSE s3 s4 f av) at_ m = None.
Proof.
  intros s3 s4 f av at_ m V A. assert (G : aligned16 (at_ + 4 * Z.of_nat 0) = false) by (unfold aligned16; replace (at_ + 4 * Z.of_nat 0) with at_ by lia; apply Z.eqb_neq, A).
  unfold XMLoadFloat3A, XMLoadFloat4A, XMStoreFloat4A, XMLoadFloat4x4A, load_ps, store_ps. rewrite G. auto.
Qed.
(** whatever the fourth lane holds *)
Theorem C72_any_all_true : forall b V, wordq V ->
  (XMVector3AnyTrue b V = true <-> exists k, 0 <= k < 3 /\ nth_lane V k = 2 ^ 32 - 1) /\
  (XMVector3AllTrue b V = true <-> forall k, 0 <= k < 3 -> nth_lane V k = 2 ^ 32 - 1).
Proof.
  intros b V W. assert (E : XMVectorTrueInt_ b = qrep (2 ^ 32 - 1)) by (destruct b; reflexivity).
  assert (S : equal_int_r4 b (dup_x V) (XMVectorTrueInt_ b) = XMVectorNEqualIntR_scalar D4 (dup_x V) (XMVectorTrueInt_ b)) by (destruct b; [reflexivity|symmetry; apply c06_dims_equal_same]).
  unfold XMVector3AnyTrue, XMVector3AllTrue. rewrite S, E. destruct V as [x y z w]. unfold dup_x, permute_ps, shuffle. cbn [lane qx qy qz qw].
  assert (N : forall k, 0 <= k < 3 -> nth_lane (Q x y z w) k = x \/ nth_lane (Q x y z w) k = y \/ nth_lane (Q x y z w) k = z) by (intros k K; assert (k = 0 \/ k = 1 \/ k = 2) as [-> | [-> | ->]] by lia; cbn; auto).
  set (t := 2 ^ 32 - 1). unfold XMVectorNEqualIntR_scalar, vnR_scalar, alln, qmap2, qrep, i_neq. cbn [qx qy qz qw].
  destruct (Z.eqb_spec x t) as [X|X], (Z.eqb_spec y t) as [Y|Y], (Z.eqb_spec z t) as [Zz|Zz]; cbn [andb negb]; (split; [split; intros H|split; intros H]); try (vm_compute; reflexivity); try (vm_compute in H; discriminate);
    try (intros k K; destruct (N k K) as [-> | [-> | ->]]; assumption);
    try (exists 0; split; [lia|exact X]); try (exists 1; split; [lia|exact Y]); try (exists 2; split; [lia|exact Zz]);
    try (destruct H as (k & K & H); destruct (N k K) as [T | [T | T]]; rewrite T in H; contradiction);
    try (exfalso; pose proof (H 0 ltac:(lia)); pose proof (H 1 ltac:(lia)); pose proof (H 2 ltac:(lia)); cbn in *; contradiction).
Qed.
Example C72_ex : wordq (Q 0x80000001 0xFFFFFFFF 0x7FC00000 5) /\ word 0xFFFFFFFE /\
  (forall b, XMVectorGetIntY b (Q 0x80000001 0xFFFFFFFF 0x7FC00000 5) = 0xFFFFFFFF /\ XMVectorSetIntZ b (Q 1 2 3 4) 0xFFFFFFFE = Q 1 2 0xFFFFFFFE 4 /\
    XMVector3AnyTrue b (Q 0 0xFFFFFFFF 0 0) = true /\ XMVector3AnyTrue b (Q 0 1 0 0xFFFFFFFF) = false /\ XMVector3AllTrue b (Q 0xFFFFFFFF 0xFFFFFFFF 0xFFFFFFFF 0) = true) /\
  0x7ffe1230 mod 16 = 0 /\ 0x7ffe1234 mod 16 <> 0.
Proof.
  split; [repeat split; vm_compute; congruence|]. split; [split; vm_compute; congruence|]. split; [|split; vm_compute; congruence].
  intros [|[|] [|] [|] [| |]]; vm_compute; repeat split.
Qed.
