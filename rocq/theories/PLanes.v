(** Proofs for lane movement, access, select, bitwise logic. *)
From Verif Require Import Base F32 F32Facts Intrin MLanes MMem SpecLanes.

(** ** bit facts *)
Lemma word_testbit_high z n : word z -> 32 <= n -> Z.testbit z n = false.
Proof.
  intros Hw Hn. rewrite <- (Z.mod_small z (2 ^ 32)) by (unfold word in Hw; lia).
  apply Z.mod_pow2_bits_high. lia.
Qed.
Lemma word_bits_iff z : 0 <= z -> (forall n, 32 <= n -> Z.testbit z n = false) -> word z.
Proof.
  intros H0 H. split; [assumption|].
  destruct (Z.lt_ge_cases z (2 ^ 32)); [assumption|exfalso].
  assert (Hp : 0 < z) by lia.
  pose proof (Z.bit_log2 z Hp) as Hb.
  rewrite H in Hb; [discriminate|].
  apply Z.log2_le_pow2; lia.
Qed.
Lemma ones_testbit n : 0 <= n -> Z.testbit ones n = (n <? 32).
Proof.
  intros Hn. unfold ones. change 4294967295 with (Z.ones 32).
  destruct (Z.ltb_spec n 32).
  - apply Z.ones_spec_low; lia.
  - apply Z.ones_spec_high; lia.
Qed.
Lemma bnot_testbit z n : 0 <= n -> Z.testbit (bnot z) n = xorb (Z.testbit z n) (n <? 32).
Proof. intros Hn. unfold bnot. now rewrite Z.lxor_spec, ones_testbit. Qed.
Lemma word_ones : word ones. Proof. unfold word, ones; lia. Qed.
Lemma word_0 : word 0. Proof. unfold word; lia. Qed.
Lemma word_mask b : word (mask b). Proof. destruct b; [apply word_ones | apply word_0]. Qed.
Lemma land_word a b : word a -> word b -> word (Z.land a b).
Proof.
  intros Ha Hb. apply word_bits_iff.
  - apply Z.land_nonneg. left; apply Ha.
  - intros n Hn. rewrite Z.land_spec, (word_testbit_high a) by assumption. reflexivity.
Qed.
Lemma lor_word a b : word a -> word b -> word (Z.lor a b).
Proof.
  intros Ha Hb. apply word_bits_iff.
  - apply Z.lor_nonneg. split; [apply Ha|apply Hb].
  - intros n Hn. rewrite Z.lor_spec, !word_testbit_high by assumption. reflexivity.
Qed.
Lemma lxor_word a b : word a -> word b -> word (Z.lxor a b).
Proof.
  intros Ha Hb. apply word_bits_iff.
  - apply Z.lxor_nonneg. split; intros; [apply Hb|apply Ha].
  - intros n Hn. rewrite Z.lxor_spec, !word_testbit_high by assumption. reflexivity.
Qed.
Lemma bnot_word a : word a -> word (bnot a).
Proof. intros; apply lxor_word; [assumption|apply word_ones]. Qed.

Lemma land_ones_word a : word a -> Z.land a ones = a.
Proof.
  intros Ha. apply Z.bits_inj'. intros n Hn. rewrite Z.land_spec, ones_testbit by assumption.
  destruct (Z.ltb_spec n 32); [apply andb_true_r|].
  rewrite word_testbit_high by assumption. reflexivity.
Qed.
Lemma bnot_ones : bnot ones = 0. Proof. reflexivity. Qed.
Lemma bnot_0 : bnot 0 = ones. Proof. reflexivity. Qed.

(** a mask ANDed with a word keeps or clears the lane *)
Lemma land_mask b a : word a -> Z.land (mask b) a = if b then a else 0.
Proof. intros Ha. destruct b; cbn [mask]; [rewrite Z.land_comm; now apply land_ones_word | apply Z.land_0_l]. Qed.
Lemma land_bnot_mask b a : word a -> Z.land (bnot (mask b)) a = if b then 0 else a.
Proof.
  intros Ha. destruct b; cbn [mask]; rewrite ?bnot_ones, ?bnot_0.
  - apply Z.land_0_l.
  - rewrite Z.land_comm; now apply land_ones_word.
Qed.
Lemma mask_select b x y : word x -> word y ->
  Z.lor (Z.land (bnot (mask b)) x) (Z.land (mask b) y) = if b then y else x.
Proof.
  intros Hx Hy. rewrite land_bnot_mask, land_mask by assumption.
  destruct b; [apply Z.lor_0_l | apply Z.lor_0_r].
Qed.

(** select *)
Lemma select_scalar_bits v1 v2 c i :
  word (lane v1 i) -> word (lane v2 i) -> word (lane c i) ->
  mux_bits (lane v1 i) (lane v2 i) (lane c i) (lane (XMVectorSelect_scalar v1 v2 c) i).
Proof.
  intros H1 H2 H3 n Hn. unfold XMVectorSelect_scalar. rewrite lane_qmap3.
  rewrite Z.lor_spec, !Z.land_spec, bnot_testbit by assumption.
  destruct (Z.ltb_spec n 32).
  - destruct (Z.testbit (lane c i) n), (Z.testbit (lane v1 i) n), (Z.testbit (lane v2 i) n); reflexivity.
  - rewrite !word_testbit_high by assumption. reflexivity.
Qed.
Lemma select_sse_scalar v1 v2 c : XMVectorSelect_sse v1 v2 c = XMVectorSelect_scalar v1 v2 c.
Proof.
  unfold XMVectorSelect_sse, XMVectorSelect_scalar, or_ps, andnot_ps, and_ps.
  apply quad_ext; intro i. rewrite !lane_qmap2, !lane_qmap3. f_equal. apply Z.land_comm.
Qed.
Lemma select_bits v1 v2 c :
  wordq v1 -> wordq v2 -> wordq c -> forall i,
  mux_bits (lane v1 i) (lane v2 i) (lane c i) (lane (XMVectorSelect_scalar v1 v2 c) i) /\
  mux_bits (lane v1 i) (lane v2 i) (lane c i) (lane (XMVectorSelect_sse v1 v2 c) i).
Proof.
  intros (?&?&?&?) (?&?&?&?) (?&?&?&?) i. rewrite select_sse_scalar.
  split; destruct i; apply select_scalar_bits; assumption.
Qed.

(** ** access *)
Lemma get_backends {A} i (v : quad A) : XMVectorGet_sse i v = XMVectorGet_scalar i v.
Proof. destruct i; reflexivity. Qed.
Lemma set_backends {A} zero i (v : quad A) a :
  XMVectorSet1_sse zero i v a = XMVectorSet1_scalar i v a /\
  XMVectorSet1_sse4 zero i v a = XMVectorSet1_scalar i v a.
Proof. destruct i, v; split; reflexivity. Qed.

Lemma idx_of_z i : idx_of (idx_z i) = Some i.
Proof. destruct i; reflexivity. Qed.
Lemma idx_of_some n i : idx_of n = Some i -> n = idx_z i.
Proof.
  unfold idx_of. destruct (Z.eqb_spec n 0); [intros [= <-]; assumption|].
  destruct (Z.eqb_spec n 1); [intros [= <-]; assumption|].
  destruct (Z.eqb_spec n 2); [intros [= <-]; assumption|].
  destruct (Z.eqb_spec n 3); [intros [= <-]; assumption|discriminate].
Qed.
Lemma idx_of_none n : idx_of n = None <-> ~ (0 <= n < 4).
Proof.
  unfold idx_of. destruct (Z.eqb_spec n 0); [split; [discriminate|lia]|].
  destruct (Z.eqb_spec n 1); [split; [discriminate|lia]|].
  destruct (Z.eqb_spec n 2); [split; [discriminate|lia]|].
  destruct (Z.eqb_spec n 3); [split; [discriminate|lia]|]. split; [lia|reflexivity].
Qed.
Lemma idx_cases n : 0 <= n < 4 -> exists i, n = idx_z i.
Proof.
  intros H. assert (n = 0 \/ n = 1 \/ n = 2 \/ n = 3) as [->|[->|[->| ->]]] by lia;
  [exists I0|exists I1|exists I2|exists I3]; reflexivity.
Qed.

Lemma get_set_by_index {A} (v : quad A) a i j : 0 <= i < 4 -> 0 <= j < 4 ->
  exists v', XMVectorSetByIndex v a i = Some v' /\
    XMVectorGetByIndex v' j = if i =? j then Some a else XMVectorGetByIndex v j.
Proof.
  intros Hi Hj. destruct (idx_cases i Hi) as [a1 ->], (idx_cases j Hj) as [a2 ->].
  unfold XMVectorSetByIndex, XMVectorGetByIndex. rewrite !idx_of_z. cbn [omap].
  eexists; split; [reflexivity|]. cbn [omap]. rewrite lane_setlane. destruct a1, a2; reflexivity.
Qed.
Lemma index_panics {A} (v : quad A) a i : ~ (0 <= i < 4) ->
  XMVectorGetByIndex v i = None /\ XMVectorSetByIndex v a i = None.
Proof.
  intros H. apply idx_of_none in H. unfold XMVectorSetByIndex, XMVectorGetByIndex. now rewrite H.
Qed.
Lemma by_name_by_index {A} (v : quad A) a i :
  XMVectorGetByIndex v (idx_z i) = Some (XMVectorGet_scalar i v) /\
  XMVectorSetByIndex v a (idx_z i) = Some (XMVectorSet1_scalar i v a).
Proof. unfold XMVectorSetByIndex, XMVectorGetByIndex. rewrite idx_of_z. destruct i, v; split; reflexivity. Qed.
Lemma set_set {A} (v : quad A) a b i : 0 <= i < 4 ->
  obind (XMVectorSetByIndex v a i) (fun v' => XMVectorSetByIndex v' b i) = XMVectorSetByIndex v b i.
Proof.
  intros Hi. destruct (idx_cases i Hi) as [k ->]. unfold XMVectorSetByIndex. rewrite idx_of_z.
  cbn [omap obind]. destruct k; reflexivity.
Qed.
Lemma set_get {A} (v : quad A) i : 0 <= i < 4 ->
  obind (XMVectorGetByIndex v i) (fun a => XMVectorSetByIndex v a i) = Some v.
Proof.
  intros Hi. destruct (idx_cases i Hi) as [k ->]. unfold XMVectorSetByIndex, XMVectorGetByIndex. rewrite idx_of_z.
  cbn [omap obind]. destruct k, v; reflexivity.
Qed.

(** ** swizzle, permute *)
Lemma nth_lane_idx {A} (q : quad A) i : nth_lane q (idx_z i) = lane q i.
Proof. destruct i; reflexivity. Qed.
Lemma lt4_spec n : lt4 n = true <-> 0 <= n < 4.
Proof. unfold lt4. rewrite andb_true_iff, Z.leb_le, Z.ltb_lt. lia. Qed.
Lemma le7_spec n : le7 n = true <-> 0 <= n <= 7.
Proof. unfold le7. rewrite andb_true_iff, !Z.leb_le. lia. Qed.

Lemma lanes_are_intro {A} (r : quad A) src :
  qx r = src 0 -> qy r = src 1 -> qz r = src 2 -> qw r = src 3 -> lanes_are r src.
Proof.
  intros H0 H1 H2 H3 k Hk.
  assert (k = 0 \/ k = 1 \/ k = 2 \/ k = 3) as [->|[->|[->| ->]]] by lia; cbn; assumption.
Qed.

Definition legal4 e0 e1 e2 e3 := 0 <= e0 < 4 /\ 0 <= e1 < 4 /\ 0 <= e2 < 4 /\ 0 <= e3 < 4.
Definition legal8 e0 e1 e2 e3 := 0 <= e0 <= 7 /\ 0 <= e1 <= 7 /\ 0 <= e2 <= 7 /\ 0 <= e3 <= 7.

Lemma swizzle_ok {A} (v : quad A) e0 e1 e2 e3 : legal4 e0 e1 e2 e3 ->
  exists r, XMVectorSwizzle_scalar v e0 e1 e2 e3 = Some r /\ XMVectorSwizzle_avx v e0 e1 e2 e3 = Some r /\
    lanes_are r (fun k => nth_lane v (pick4 e0 e1 e2 e3 k)).
Proof.
  intros (H0&H1&H2&H3).
  unfold XMVectorSwizzle_scalar, XMVectorSwizzle_avx.
  rewrite (proj2 (lt4_spec e0) H0), (proj2 (lt4_spec e1) H1), (proj2 (lt4_spec e2) H2), (proj2 (lt4_spec e3) H3).
  destruct (idx_cases e0 H0) as [i0 ->], (idx_cases e1 H1) as [i1 ->], (idx_cases e2 H2) as [i2 ->], (idx_cases e3 H3) as [i3 ->].
  rewrite !idx_of_z. cbn [andb]. eexists; split; [reflexivity|]. split.
  - f_equal. f_equal; match goal with |- lane v (idx_low (idx_z ?i)) = _ => destruct i; reflexivity end.
  - apply lanes_are_intro; cbn [qx qy qz qw]; symmetry; apply nth_lane_idx.
Qed.
Lemma swizzle_panics {A} (v : quad A) e0 e1 e2 e3 : ~ legal4 e0 e1 e2 e3 ->
  XMVectorSwizzle_scalar v e0 e1 e2 e3 = None /\ XMVectorSwizzle_avx v e0 e1 e2 e3 = None.
Proof.
  intros H. unfold XMVectorSwizzle_scalar, XMVectorSwizzle_avx.
  assert (E : lt4 e0 && lt4 e1 && lt4 e2 && lt4 e3 = false).
  { destruct (lt4 e0 && lt4 e1 && lt4 e2 && lt4 e3) eqn:E; [exfalso|reflexivity].
    rewrite !andb_true_iff, !lt4_spec in E. apply H. unfold legal4. tauto. }
  rewrite E. split; reflexivity.
Qed.

Lemma pick_ok {A} (v1 v2 : quad A) p : 0 <= p <= 7 -> permute_pick v1 v2 p = Some (nth_lane2 v1 v2 p).
Proof.
  intros H. assert (p = 0 \/ p = 1 \/ p = 2 \/ p = 3 \/ p = 4 \/ p = 5 \/ p = 6 \/ p = 7)
    as [->|[->|[->|[->|[->|[->|[->| ->]]]]]]] by lia; reflexivity.
Qed.
Lemma avx_lane v1 v2 p : wordq v1 -> wordq v2 -> 0 <= p <= 7 ->
  Z.lor (Z.land (bnot (mask (sint 3 <? sint p))) (lane v1 (idx_low (Z.land p 3))))
        (Z.land (mask (sint 3 <? sint p)) (lane v2 (idx_low (Z.land p 3)))) = nth_lane2 v1 v2 p.
Proof.
  intros (?&?&?&?) (?&?&?&?) Hp. rewrite mask_select.
  - assert (p = 0 \/ p = 1 \/ p = 2 \/ p = 3 \/ p = 4 \/ p = 5 \/ p = 6 \/ p = 7)
    as [->|[->|[->|[->|[->|[->|[->| ->]]]]]]] by lia; reflexivity.
  - destruct (idx_low (Z.land p 3)); assumption.
  - destruct (idx_low (Z.land p 3)); assumption.
Qed.
Lemma permute_ok {A} (v1 v2 : quad A) e0 e1 e2 e3 : legal8 e0 e1 e2 e3 ->
  exists r, XMVectorPermute_scalar v1 v2 e0 e1 e2 e3 = Some r /\
    lanes_are r (fun k => nth_lane2 v1 v2 (pick4 e0 e1 e2 e3 k)).
Proof.
  intros (H0&H1&H2&H3). unfold XMVectorPermute_scalar.
  rewrite (proj2 (le7_spec e0) H0), (proj2 (le7_spec e1) H1), (proj2 (le7_spec e2) H2), (proj2 (le7_spec e3) H3).
  rewrite !pick_ok by assumption. cbn [andb]. eexists; split; [reflexivity|].
  apply lanes_are_intro; reflexivity.
Qed.
Lemma permute_avx_ok (v1 v2 : quad Z) e0 e1 e2 e3 : wordq v1 -> wordq v2 ->
  XMVectorPermute_avx v1 v2 e0 e1 e2 e3 = XMVectorPermute_scalar v1 v2 e0 e1 e2 e3.
Proof.
  intros W1 W2. unfold XMVectorPermute_avx, XMVectorPermute_scalar.
  destruct (le7 e0 && le7 e1 && le7 e2 && le7 e3) eqn:E; [|reflexivity].
  rewrite !andb_true_iff, !le7_spec in E. destruct E as [[[H0 H1] H2] H3].
  rewrite !pick_ok by assumption. f_equal.
  unfold or_ps, andnot_ps, and_ps, cmpgt_epi32, permutevar_ps, qmap2, qmap, qrep.
  cbn [qx qy qz qw]. rewrite !avx_lane by assumption. reflexivity.
Qed.
Lemma permute_panics {A} (v1 v2 : quad A) e0 e1 e2 e3 : ~ legal8 e0 e1 e2 e3 ->
  XMVectorPermute_scalar v1 v2 e0 e1 e2 e3 = None.
Proof.
  intros H. unfold XMVectorPermute_scalar.
  assert (E : le7 e0 && le7 e1 && le7 e2 && le7 e3 = false).
  { destruct (le7 e0 && le7 e1 && le7 e2 && le7 e3) eqn:E; [exfalso|reflexivity].
    rewrite !andb_true_iff, !le7_spec in E. apply H. unfold legal8. tauto. }
  now rewrite E.
Qed.

Lemma psel_nth {A} (v1 v2 : quad A) p :
  nth_lane2 v1 v2 (psel_z p) = if psel_which p then lane v2 (psel_idx p) else lane v1 (psel_idx p).
Proof. destruct p as [[]|[]]; reflexivity. Qed.
Lemma wordq_lane q i : wordq q -> word (lane q i).
Proof. intros (?&?&?&?); destruct i; assumption. Qed.
Lemma permute_trait_general x y z w v1 v2 : wordq v1 -> wordq v2 ->
  let sh v := permute_ps v (psel_idx w) (psel_idx z) (psel_idx y) (psel_idx x) in
  let m := Q (mask (psel_which x)) (mask (psel_which y)) (mask (psel_which z)) (mask (psel_which w)) in
  lanes_are (or_ps (andnot_ps m (sh v1)) (and_ps m (sh v2)))
    (fun k => nth_lane2 v1 v2 (pick4 (psel_z x) (psel_z y) (psel_z z) (psel_z w) k)).
Proof.
  intros W1 W2 sh m.
  apply lanes_are_intro; unfold pick4, sh, m, or_ps, andnot_ps, and_ps, qmap2, permute_ps, shuffle; cbn [Z.eqb Pos.eqb qx qy qz qw];
    rewrite mask_select by (apply wordq_lane; assumption); symmetry; apply psel_nth.
Qed.
Lemma permute_trait_ok x y z w v1 v2 : wordq v1 -> wordq v2 ->
  lanes_are (PermuteTrait_sse x y z w v1 v2)
    (fun k => nth_lane2 v1 v2 (pick4 (psel_z x) (psel_z y) (psel_z z) (psel_z w) k)).
Proof.
  intros W1 W2.
  pose proof (permute_trait_general x y z w v1 v2 W1 W2) as G. cbv zeta in G.
  destruct x as [[]|[]]; try exact G; destruct y as [[]|[]]; try exact G;
  destruct z as [[]|[]]; try exact G; destruct w as [[]|[]]; try exact G;
  apply lanes_are_intro; reflexivity.
Qed.
Lemma swizzle_trait_ok {A} x y z w (v : quad A) :
  lanes_are (SwizzleTrait_sse x y z w v) (fun k => nth_lane v (pick4 (idx_z x) (idx_z y) (idx_z z) (idx_z w) k)).
Proof. destruct x, y, z, w; apply lanes_are_intro; reflexivity. Qed.

(** shift / rotate: lane k of the result is lane (k+n) *)
Lemma shift_left_ok {A} (v1 v2 : quad A) n : 0 <= n < 4 ->
  exists r, XMVectorShiftLeft XMVectorPermute_scalar v1 v2 n = Some r /\
    lanes_are r (fun k => nth_lane2 v1 v2 (k + n)).
Proof.
  intros H. assert (n = 0 \/ n = 1 \/ n = 2 \/ n = 3) as [->|[->|[->| ->]]] by lia;
  (eexists; split; [reflexivity|apply lanes_are_intro; reflexivity]).
Qed.
Lemma rotate_left_ok {A} (v : quad A) n : 0 <= n < 4 ->
  exists r, XMVectorRotateLeft XMVectorSwizzle_scalar v n = Some r /\
    lanes_are r (fun k => nth_lane v ((k + n) mod 4)).
Proof.
  intros H. assert (n = 0 \/ n = 1 \/ n = 2 \/ n = 3) as [->|[->|[->| ->]]] by lia;
  (eexists; split; [reflexivity|apply lanes_are_intro; reflexivity]).
Qed.
Lemma rotate_right_ok {A} (v : quad A) n : 0 <= n < 4 ->
  exists r, XMVectorRotateRight XMVectorSwizzle_scalar v n = Some r /\
    lanes_are r (fun k => nth_lane v ((k - n) mod 4)).
Proof.
  intros H. assert (n = 0 \/ n = 1 \/ n = 2 \/ n = 3) as [->|[->|[->| ->]]] by lia;
  (eexists; split; [reflexivity|apply lanes_are_intro; reflexivity]).
Qed.
Lemma rotate_inverse {A} (v : quad A) n : 0 <= n < 4 ->
  obind (XMVectorRotateLeft XMVectorSwizzle_scalar v n) (fun r => XMVectorRotateRight XMVectorSwizzle_scalar r n) = Some v.
Proof.
  intros H. assert (n = 0 \/ n = 1 \/ n = 2 \/ n = 3) as [->|[->|[->| ->]]] by lia;
  destruct v; reflexivity.
Qed.
Lemma shift_rotate_panics {A} (v1 v2 : quad A) n : ~ (0 <= n < 4) ->
  XMVectorShiftLeft XMVectorPermute_scalar v1 v2 n = None /\
  XMVectorRotateLeft XMVectorSwizzle_scalar v1 n = None /\
  XMVectorRotateRight XMVectorSwizzle_scalar v1 n = None.
Proof.
  intros H. unfold XMVectorShiftLeft, XMVectorRotateLeft, XMVectorRotateRight.
  destruct (lt4 n) eqn:E; [apply lt4_spec in E; contradiction|]. auto.
Qed.
Lemma merge_ok {A} (v1 v2 : quad A) :
  (XMVectorMergeXY_sse v1 v2 = XMVectorMergeXY_scalar v1 v2 /\
   lanes_are (XMVectorMergeXY_scalar v1 v2) (fun k => nth_lane (if Z.even k then v1 else v2) (k / 2))) /\
  (XMVectorMergeZW_sse v1 v2 = XMVectorMergeZW_scalar v1 v2 /\
   lanes_are (XMVectorMergeZW_scalar v1 v2) (fun k => nth_lane (if Z.even k then v1 else v2) (2 + k / 2))).
Proof. repeat split; try reflexivity; apply lanes_are_intro; reflexivity. Qed.
Lemma splat_ok {A} i (v : quad A) :
  XMVectorSplat_sse i v = XMVectorSplat_scalar i v /\
  lanes_are (XMVectorSplat_scalar i v) (fun _ => nth_lane v (idx_z i)).
Proof. destruct i; split; try reflexivity; apply lanes_are_intro; reflexivity. Qed.

(** insert: selected lanes come from the rotated source *)
Lemma land1 n : Z.land n 1 = n mod 2.
Proof. change 1 with (Z.ones 1). rewrite Z.land_ones by lia. reflexivity. Qed.
Lemma land1_cases n : Z.land n 1 = 0 \/ Z.land n 1 = 1.
Proof. rewrite land1. pose proof (Z.mod_pos_bound n 2). lia. Qed.
Lemma select_mask_lane a b (s : bool) : word a -> word b ->
  Z.lor (Z.land a (bnot (mask s))) (Z.land b (mask s)) = if s then b else a.
Proof.
  intros Ha Hb. rewrite (Z.land_comm a), (Z.land_comm b). now apply mask_select.
Qed.
Lemma insert_ok vd vs n s0 s1 s2 s3 : wordq vd -> wordq vs -> 0 <= n < 4 ->
  exists r, XMVectorInsert_scalar vd vs n s0 s1 s2 s3 = Some r /\ XMVectorInsert_sse vd vs n s0 s1 s2 s3 = Some r /\
    lanes_are r (fun k => if Z.odd (pick4 s0 s1 s2 s3 k) then nth_lane vs ((k + n) mod 4) else nth_lane vd k).
Proof.
  intros Wd Ws H.
  destruct (rotate_left_ok vs n H) as (rot & Hrot & Lrot).
  unfold XMVectorInsert_scalar, XMVectorInsert_sse.
  assert (Hc : XMVectorSelectControl_scalar (Z.land s0 1) (Z.land s1 1) (Z.land s2 1) (Z.land s3 1)
     = Some (Q (mask (Z.odd s0)) (mask (Z.odd s1)) (mask (Z.odd s2)) (mask (Z.odd s3)))).
  { unfold XMVectorSelectControl_scalar.
    assert (E : forall s, select_element (Z.land s 1) = Some (mask (Z.odd s))).
    { intros s. rewrite <- Z.bit0_odd. destruct (land1_cases s) as [E|E].
      - assert (Z.testbit (Z.land s 1) 0 = false) by now rewrite E.
        rewrite Z.land_spec, andb_true_r in H0. rewrite E, H0. reflexivity.
      - assert (Z.testbit (Z.land s 1) 0 = true) by now rewrite E.
        rewrite Z.land_spec, andb_true_r in H0. rewrite E, H0. reflexivity. }
    rewrite !E. reflexivity. }
  assert (Hs : XMVectorSelectControl_sse (Z.land s0 1) (Z.land s1 1) (Z.land s2 1) (Z.land s3 1)
     = Q (mask (Z.odd s0)) (mask (Z.odd s1)) (mask (Z.odd s2)) (mask (Z.odd s3))).
  { unfold XMVectorSelectControl_sse, cmpgt_epi32, qmap2, set_ps, XMVectorZero. cbn [qx qy qz qw].
    assert (E : forall s, (sint 0 <? sint (Z.land s 1)) = Z.odd s).
    { intros s. rewrite <- Z.bit0_odd. destruct (land1_cases s) as [E|E].
      - assert (Z.testbit (Z.land s 1) 0 = false) by now rewrite E.
        rewrite Z.land_spec, andb_true_r in H0. rewrite E, H0. reflexivity.
      - assert (Z.testbit (Z.land s 1) 0 = true) by now rewrite E.
        rewrite Z.land_spec, andb_true_r in H0. rewrite E, H0. reflexivity. }
    rewrite !E. reflexivity. }
  rewrite Hc, Hs, Hrot. cbn [obind]. rewrite select_sse_scalar.
  eexists; split; [reflexivity|split; [reflexivity|]].
  assert (Wr : wordq rot).
  { assert (Hk : forall k, 0 <= k < 4 -> word (nth_lane rot k)).
    { intros k Hk. rewrite (Lrot k Hk). destruct (idx_cases ((k + n) mod 4)) as [i ->].
      - apply Z.mod_pos_bound; lia.
      - rewrite nth_lane_idx. now apply wordq_lane. }
    exact (conj (Hk 0 ltac:(lia)) (conj (Hk 1 ltac:(lia)) (conj (Hk 2 ltac:(lia)) (Hk 3 ltac:(lia))))). }
  destruct Wd as (?&?&?&?), Wr as (?&?&?&?).
  apply lanes_are_intro; unfold XMVectorSelect_scalar, qmap3; cbn [qx qy qz qw pick4 Z.eqb Pos.eqb];
    rewrite select_mask_lane by assumption.
  - rewrite <- (Lrot 0) by lia. reflexivity.
  - rewrite <- (Lrot 1) by lia. reflexivity.
  - rewrite <- (Lrot 2) by lia. reflexivity.
  - rewrite <- (Lrot 3) by lia. reflexivity.
Qed.

(** ** control builders *)
Lemma select_control_ok i0 i1 i2 i3 :
  (i0 = 0 \/ i0 = 1) -> (i1 = 0 \/ i1 = 1) -> (i2 = 0 \/ i2 = 1) -> (i3 = 0 \/ i3 = 1) ->
  exists r, XMVectorSelectControl_scalar i0 i1 i2 i3 = Some r /\ XMVectorSelectControl_sse i0 i1 i2 i3 = r /\
    lanes_are r (fun k => if pick4 i0 i1 i2 i3 k =? 0 then 0 else 0xFFFFFFFF).
Proof.
  intros [-> | ->] [-> | ->] [-> | ->] [-> | ->];
  (eexists; split; [reflexivity|split; [reflexivity|apply lanes_are_intro; reflexivity]]).
Qed.

(** ** integer logic *)
Lemma int_logic_backends a b :
  XMVectorAndInt_sse a b = XMVectorAndInt_scalar a b /\
  XMVectorAndCInt_sse a b = XMVectorAndCInt_scalar a b /\
  XMVectorOrInt_sse a b = XMVectorOrInt_scalar a b /\
  (wordq a -> wordq b -> XMVectorNorInt_sse a b = XMVectorNorInt_scalar a b) /\
  XMVectorXorInt_sse a b = XMVectorXorInt_scalar a b.
Proof.
  repeat split; try reflexivity.
  - apply quad_ext; intro i. unfold XMVectorAndCInt_sse, XMVectorAndCInt_scalar, andnot_ps.
    rewrite !lane_qmap2. apply Z.land_comm.
  - intros Ha Hb. apply quad_ext; intro i.
    unfold XMVectorNorInt_sse, XMVectorNorInt_scalar, andnot_ps, or_ps. rewrite !lane_qmap2, lane_qrep.
    apply land_ones_word, bnot_word, lor_word; apply wordq_lane; assumption.
Qed.
Lemma int_logic_bits a b i n : wordq a -> wordq b -> 0 <= n < 32 ->
  let A := Z.testbit (lane a i) n in let B := Z.testbit (lane b i) n in
  Z.testbit (lane (XMVectorAndInt_scalar a b) i) n = A && B /\
  Z.testbit (lane (XMVectorAndCInt_scalar a b) i) n = A && negb B /\
  Z.testbit (lane (XMVectorOrInt_scalar a b) i) n = A || B /\
  Z.testbit (lane (XMVectorNorInt_scalar a b) i) n = negb (A || B) /\
  Z.testbit (lane (XMVectorXorInt_scalar a b) i) n = xorb A B.
Proof.
  intros Ha Hb Hn A B. unfold XMVectorAndInt_scalar, XMVectorAndCInt_scalar, XMVectorOrInt_scalar, XMVectorNorInt_scalar, XMVectorXorInt_scalar.
  rewrite !lane_qmap2, !Z.land_spec, !Z.lor_spec, !Z.lxor_spec, !bnot_testbit, Z.lor_spec by lia.
  destruct (Z.ltb_spec n 32); [|lia]. fold A B. rewrite !xorb_true_r. repeat split; reflexivity.
Qed.
Lemma int_logic_words a b : wordq a -> wordq b ->
  wordq (XMVectorAndInt_scalar a b) /\ wordq (XMVectorAndCInt_scalar a b) /\ wordq (XMVectorOrInt_scalar a b) /\
  wordq (XMVectorNorInt_scalar a b) /\ wordq (XMVectorXorInt_scalar a b).
Proof.
  intros (?&?&?&?) (?&?&?&?).
  repeat split; cbn [XMVectorAndInt_scalar XMVectorAndCInt_scalar XMVectorOrInt_scalar XMVectorNorInt_scalar XMVectorXorInt_scalar qmap2 qx qy qz qw];
  match goal with
  | |- 0 <= ?x => cut (word x); [intros [? ?]; assumption|]
  | |- ?x < _ => cut (word x); [intros [? ?]; assumption|]
  end; auto using land_word, lor_word, lxor_word, bnot_word.
Qed.

Lemma get_by_index {A} (v : quad A) i : 0 <= i < 4 -> XMVectorGetByIndex v i = Some (nth_lane v i).
Proof. intros H. destruct (idx_cases i H) as [k ->]. unfold XMVectorGetByIndex. rewrite idx_of_z, nth_lane_idx. reflexivity. Qed.
Lemma access_backends {A} (v : quad A) zero i a :
  XMVectorGet_sse i v = XMVectorGet_scalar i v /\
  XMVectorSet1_sse zero i v a = XMVectorSet1_scalar i v a /\
  XMVectorSet1_sse4 zero i v a = XMVectorSet1_scalar i v a.
Proof. split; [apply get_backends|apply set_backends]. Qed.

Lemma land1_odd c : Z.land c 1 = if Z.odd c then 1 else 0.
Proof. rewrite land1, Zmod_odd. destruct (Z.odd c); reflexivity. Qed.
Lemma binary_constant_release_ok c0 c1 c2 c3 :
  lanes_are (XMVectorSetBinaryConstant_scalar_release c0 c1 c2 c3)
    (fun k => if Z.odd (pick4 c0 c1 c2 c3 k) then 0x3F800000 else 0).
Proof.
  assert (E : forall c, Z.land (wrap32 (0 - Z.land c 1)) one32 = if Z.odd c then 0x3F800000 else 0).
  { intros c. rewrite land1_odd. destruct (Z.odd c); reflexivity. }
  apply lanes_are_intro; cbn [XMVectorSetBinaryConstant_scalar_release qmap qx qy qz qw]; apply E.
Qed.
Lemma binary_constant_debug_panics c0 c1 c2 c3 :
  Z.odd c0 || Z.odd c1 || Z.odd c2 || Z.odd c3 = true -> XMVectorSetBinaryConstant_scalar_debug c0 c1 c2 c3 = None.
Proof.
  intros H. unfold XMVectorSetBinaryConstant_scalar_debug. rewrite !land1_odd.
  destruct (Z.odd c0), (Z.odd c1), (Z.odd c2), (Z.odd c3); try reflexivity. discriminate.
Qed.
Lemma binary_constant_sse_wrong : XMVectorSetBinaryConstant_sse 1 1 1 1 = Q 0x3F800000 0 0 0.
Proof. reflexivity. Qed.

Lemma int_logic_laws a b : wordq a -> wordq b ->
  let And := XMVectorAndInt_sse in let Or := XMVectorOrInt_sse in let Nor := XMVectorNorInt_sse in
  let Xor := XMVectorXorInt_sse in let AndC := XMVectorAndCInt_sse in
  Nor a b = And (Nor a a) (Nor b b) /\ Or a (And a b) = a /\ And a (Or a b) = a /\
  Xor a a = XMVectorZero /\ AndC a b = And a (Nor b b) /\ Xor (Xor a b) b = a /\
  Or (And a b) (AndC a b) = a /\ And a b = And b a /\ Or a b = Or b a.
Proof.
  intros Ha Hb And Or Nor Xor AndC.
  unfold And, Or, Nor, Xor, AndC, XMVectorAndInt_sse, XMVectorOrInt_sse, XMVectorNorInt_sse, XMVectorXorInt_sse, XMVectorAndCInt_sse,
    and_ps, or_ps, xor_ps, andnot_ps.
  repeat split; apply quad_ext; intro i; rewrite ?lane_qmap2, ?lane_qrep;
    try (change (lane XMVectorZero i) with (lane (qrep 0) i); rewrite lane_qrep);
    pose proof (wordq_lane a i Ha) as Wa; pose proof (wordq_lane b i Hb) as Wb;
    apply Z.bits_inj'; intros n Hn;
    repeat (rewrite ?Z.land_spec, ?Z.lor_spec, ?Z.lxor_spec, ?ones_testbit, ?Z.bits_0 by assumption; try rewrite bnot_testbit by assumption);
    destruct (Z.ltb_spec n 32);
    try (rewrite (word_testbit_high (lane a i)) by assumption); try (rewrite (word_testbit_high (lane b i)) by assumption);
    destruct (Z.testbit (lane a i) n); try destruct (Z.testbit (lane b i) n); reflexivity.
Qed.
