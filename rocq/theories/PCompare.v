(** Proofs about comparisons, records, classification, min/max, negate/abs. *)
From Coq Require Import Reals Lra.
From Flocq Require Import Core IEEE754.BinarySingleNaN.
From Verif Require Import Base F32 F32Facts Intrin MLanes MCompare SpecLanes SpecF32 SpecCompare PLanes PF32.
Open Scope Z_scope.

Definition reflects (c : quad bool) (P : Z -> Prop) : Prop := forall k, 0 <= k < 4 -> (nth_lane c k = true <-> P k).

Lemma k4 k : 0 <= k < 4 -> k = 0 \/ k = 1 \/ k = 2 \/ k = 3. Proof. lia. Qed.
Lemma nth_qmap {A B} (f : A -> B) q k : nth_lane (qmap f q) k = f (nth_lane q k).
Proof. unfold nth_lane. destruct (k =? 0), (k =? 1), (k =? 2); reflexivity. Qed.
Lemma nth_qmap2 {A B C} (f : A -> B -> C) p q k : nth_lane (qmap2 f p q) k = f (nth_lane p k) (nth_lane q k).
Proof. unfold nth_lane. destruct (k =? 0), (k =? 1), (k =? 2); reflexivity. Qed.
Lemma nth_qmap3 {A B C D} (f : A -> B -> C -> D) p q r k :
  nth_lane (qmap3 f p q r) k = f (nth_lane p k) (nth_lane q k) (nth_lane r k).
Proof. unfold nth_lane. destruct (k =? 0), (k =? 1), (k =? 2); reflexivity. Qed.
Lemma nth_qrep {A} (a : A) k : nth_lane (qrep a) k = a.
Proof. unfold nth_lane. destruct (k =? 0), (k =? 1), (k =? 2); reflexivity. Qed.
Lemma nth_word q k : wordq q -> word (nth_lane q k).
Proof. intros (?&?&?&?). unfold nth_lane. destruct (k =? 0), (k =? 1), (k =? 2); assumption. Qed.

Lemma masks_of c P : reflects c P -> masks (qmap mask c) P.
Proof.
  intros H k Hk. rewrite nth_qmap. specialize (H k Hk). unfold is_mask, mask, ones.
  destruct (nth_lane c k); [left; tauto|right]. split; [intros HP; apply H in HP; discriminate|reflexivity].
Qed.
Lemma alln_every d c P : reflects c P -> (alln d c = true <-> every (ndim d) P).
Proof.
  intros H. pose proof (H 0 ltac:(lia)) as H0. pose proof (H 1 ltac:(lia)) as H1.
  pose proof (H 2 ltac:(lia)) as H2. pose proof (H 3 ltac:(lia)) as H3. cbn in H0, H1, H2, H3.
  unfold every. destruct d; cbn [alln ndim]; rewrite ?andb_true_iff; split.
  1,3,5: intros HH k Hk; destruct (k4 k ltac:(lia)) as [->|[->|[->| ->]]]; try lia; tauto.
  all: intros HH; pose proof (HH 0 ltac:(lia)); pose proof (HH 1 ltac:(lia));
    try (pose proof (HH 2 ltac:(lia))); try (pose proof (HH 3 ltac:(lia))); tauto.
Qed.
Lemma reflects_neg c P : reflects c P -> reflects (qmap negb c) (fun k => ~ P k).
Proof. intros H k Hk. rewrite nth_qmap, <- (H k Hk). destruct (nth_lane c k); cbn; intuition discriminate. Qed.
Lemma alln_neg d c : alln d (qmap negb c) = negb (anyn d c).
Proof. destruct d, c as [[] [] [] []]; reflexivity. Qed.
Lemma anyn_some d c P : reflects c P -> (anyn d c = true <-> some (ndim d) P).
Proof.
  intros H. pose proof (H 0 ltac:(lia)) as H0. pose proof (H 1 ltac:(lia)) as H1.
  pose proof (H 2 ltac:(lia)) as H2. pose proof (H 3 ltac:(lia)) as H3. cbn in H0, H1, H2, H3.
  unfold some. destruct d; cbn [anyn ndim]; rewrite ?orb_true_iff; split.
  1: intros [|]; [exists 0|exists 1]; split; (lia || tauto).
  2: intros [[|]|]; [exists 0|exists 1|exists 2]; split; (lia || tauto).
  3: intros [[[|]|]|]; [exists 0|exists 1|exists 2|exists 3]; split; (lia || tauto).
  all: intros (k & Hk & HP); destruct (k4 k ltac:(lia)) as [->|[->|[->| ->]]]; try lia; tauto.
Qed.
Lemma test_full d c : (test d (qmap mask c) =? full d) = alln d c.
Proof. destruct d, c as [[] [] [] []]; reflexivity. Qed.
Lemma test_zero d c : (test d (qmap mask c) =? 0) = alln d (qmap negb c).
Proof. destruct d, c as [[] [] [] []]; reflexivity. Qed.

Lemma qmap2_mask (op : Z -> Z -> bool) v1 v2 : qmap2 (fun a b => mask (op a b)) v1 v2 = qmap mask (qmap2 op v1 v2).
Proof. reflexivity. Qed.
Lemma lanes_scalar_mask op v1 v2 : lanes_scalar op v1 v2 = qmap mask (qmap2 op v1 v2).
Proof. reflexivity. Qed.

(** ** The relations decided by the lane operations *)
Lemma refl_rel (op : Z -> Z -> bool) (R : xreal -> xreal -> Prop) v1 v2 :
  (forall a b, op a b = true <-> R (value a) (value b)) -> reflects (qmap2 op v1 v2) (at_lane R v1 v2).
Proof. intros H k _. rewrite nth_qmap2. apply H. Qed.
Lemma f_gt_spec a b : f_gt a b = true <-> xgt (value a) (value b).
Proof. apply f_lt_spec. Qed.
Lemma f_ge_spec a b : f_ge a b = true <-> xge (value a) (value b).
Proof. apply f_le_spec. Qed.
Lemma f_neq_spec a b : f_neq a b = true <-> xne (value a) (value b).
Proof. unfold f_neq, xne. rewrite <- f_eq_spec. destruct (f_eq a b); cbn; intuition discriminate. Qed.
Lemma refl_int v1 v2 : reflects (qmap2 Z.eqb v1 v2) (same_bits v1 v2).
Proof. intros k _. rewrite nth_qmap2. apply Z.eqb_eq. Qed.
Lemma refl_int_neq v1 v2 : reflects (qmap2 i_neq v1 v2) (fun k => ~ same_bits v1 v2 k).
Proof.
  intros k _. rewrite nth_qmap2. unfold i_neq, same_bits. rewrite <- Z.eqb_eq.
  destruct (_ =? _); cbn; intuition discriminate.
Qed.
Lemma inb1_spec v b : word b -> (inb1 v b = true <-> xinbounds (value v) (value b)).
Proof.
  intros Hb. unfold inb1, xinbounds. rewrite andb_true_iff, f_le_spec, f_ge_spec. unfold xge.
  rewrite value_neg by assumption. tauto.
Qed.
Lemma refl_inb v b : wordq b -> reflects (qmap2 inb1 v b) (at_lane xinbounds v b).
Proof. intros Hb k _. rewrite nth_qmap2. apply inb1_spec, nth_word, Hb. Qed.
Lemma inb_sse_eq v b : wordq b -> XMVectorInBounds_sse v b = qmap mask (qmap2 inb1 v b).
Proof.
  intros Hb. apply quad_ext. intro i. unfold XMVectorInBounds_sse, and_ps, cmple_ps, mul_ps.
  rewrite !lane_qmap2, lane_qmap, !lane_qmap2, lane_qrep.
  replace (f_le (f_mul (lane b i) 0xBF800000) (lane v i)) with (f_ge (lane v i) (f_neg (lane b i))).
  - unfold inb1. destruct (f_le _ _), (f_ge _ _); reflexivity.
  - apply eq_true_iff_eq. rewrite f_ge_spec, f_le_spec. unfold xge.
    rewrite value_mul_m1, value_neg by (apply wordq_lane, Hb). tauto.
Qed.
Lemma value_absmax d : word d -> value (if f_lt d (f_sub 0 d) then f_sub 0 d else d) = xabs (value d).
Proof.
  intros Hd. destruct (f_lt d (f_sub 0 d)) eqn:E.
  - apply f_lt_spec in E. rewrite value_sub0 in * by assumption.
    destruct (value d) as [|[]|]; cbn in *; try tauto. f_equal. rewrite Rabs_left; lra.
  - assert (E' : ~ xlt (value d) (xneg (value d))).
    { rewrite <- value_sub0 by assumption. rewrite <- f_lt_spec, E. discriminate. }
    destruct (value d) as [|[]|]; cbn in *; try tauto. f_equal. rewrite Rabs_pos_eq; lra.
Qed.
Lemma enc_op_word f : word (enc f). Proof. apply enc_word. Qed.
Lemma f_sub_word a b : word (f_sub a b). Proof. apply enc_word. Qed.
Lemma near_sse_eq v1 v2 e : XMVectorNearEqual_sse v1 v2 e = qmap mask (qmap3 near1 v1 v2 e).
Proof.
  apply quad_ext. intro i. unfold XMVectorNearEqual_sse. cbv zeta. unfold cmple_ps, max_ps, sub_ps.
  rewrite !lane_qmap2, lane_qmap, lane_qmap3, lane_qrep.
  f_equal. unfold near1. apply eq_true_iff_eq. rewrite !f_le_spec.
  rewrite value_absmax, value_abs by apply f_sub_word. tauto.
Qed.
(** |exact-rounded difference| <= eps *)
Lemma near1_spec a b e : near1 a b e = true <-> xle (xabs (value (f_sub a b))) (value e).
Proof. unfold near1. rewrite f_le_spec, value_abs by apply f_sub_word. tauto. Qed.

(** ** C05 *)
Ltac both_masks H := repeat split; try reflexivity; apply (masks_of _ _ H).
Lemma c05_float v1 v2 :
  (XMVectorEqual_scalar v1 v2 = XMVectorEqual_sse v1 v2 /\ masks (XMVectorEqual_sse v1 v2) (at_lane xeq v1 v2)) /\
  (XMVectorNotEqual_scalar v1 v2 = XMVectorNotEqual_sse v1 v2 /\ masks (XMVectorNotEqual_sse v1 v2) (at_lane xne v1 v2)) /\
  (XMVectorGreater_scalar v1 v2 = XMVectorGreater_sse v1 v2 /\ masks (XMVectorGreater_sse v1 v2) (at_lane xgt v1 v2)) /\
  (XMVectorGreaterOrEqual_scalar v1 v2 = XMVectorGreaterOrEqual_sse v1 v2 /\ masks (XMVectorGreaterOrEqual_sse v1 v2) (at_lane xge v1 v2)) /\
  (XMVectorLess_scalar v1 v2 = XMVectorLess_sse v1 v2 /\ masks (XMVectorLess_sse v1 v2) (at_lane xlt v1 v2)) /\
  (XMVectorLessOrEqual_scalar v1 v2 = XMVectorLessOrEqual_sse v1 v2 /\ masks (XMVectorLessOrEqual_sse v1 v2) (at_lane xle v1 v2)).
Proof.
  exact (conj (conj eq_refl (masks_of _ _ (refl_rel _ _ v1 v2 f_eq_spec)))
        (conj (conj eq_refl (masks_of _ _ (refl_rel _ _ v1 v2 f_neq_spec)))
        (conj (conj eq_refl (masks_of _ _ (refl_rel _ _ v1 v2 f_gt_spec)))
        (conj (conj eq_refl (masks_of _ _ (refl_rel _ _ v1 v2 f_ge_spec)))
        (conj (conj eq_refl (masks_of _ _ (refl_rel _ _ v1 v2 f_lt_spec)))
              (conj eq_refl (masks_of _ _ (refl_rel _ _ v1 v2 f_le_spec)))))))).
Qed.
Lemma neint_sse_eq v1 v2 : XMVectorNotEqualInt_sse v1 v2 = qmap mask (qmap2 i_neq v1 v2).
Proof.
  apply quad_ext. intro i. unfold XMVectorNotEqualInt_sse, xor_ps, cmpeq_epi32.
  rewrite !lane_qmap2, lane_qmap, lane_qmap2, lane_qrep. unfold i_neq. destruct (_ =? _); reflexivity.
Qed.
Lemma c05_int v1 v2 :
  (XMVectorEqualInt_scalar v1 v2 = XMVectorEqualInt_sse v1 v2 /\ masks (XMVectorEqualInt_sse v1 v2) (same_bits v1 v2)) /\
  (XMVectorNotEqualInt_scalar v1 v2 = XMVectorNotEqualInt_sse v1 v2 /\
   masks (XMVectorNotEqualInt_sse v1 v2) (fun k => ~ same_bits v1 v2 k)).
Proof.
  split; (split; [try reflexivity|]).
  - apply (masks_of _ _ (refl_int v1 v2)).
  - rewrite neint_sse_eq. reflexivity.
  - rewrite neint_sse_eq. apply (masks_of _ _ (refl_int_neq v1 v2)).
Qed.
Lemma c05_inbounds v b : wordq b ->
  XMVectorInBounds_scalar v b = XMVectorInBounds_sse v b /\ masks (XMVectorInBounds_sse v b) (at_lane xinbounds v b).
Proof.
  intros Hb. rewrite inb_sse_eq by assumption. split; [reflexivity|]. apply masks_of, refl_inb, Hb.
Qed.
Lemma c05_near v1 v2 e :
  XMVectorNearEqual_scalar v1 v2 e = XMVectorNearEqual_sse v1 v2 e /\
  masks (XMVectorNearEqual_sse v1 v2 e)
    (fun k => xle (xabs (value (f_sub (nth_lane v1 k) (nth_lane v2 k)))) (value (nth_lane e k))).
Proof.
  rewrite near_sse_eq. split; [reflexivity|]. apply masks_of. intros k _. rewrite nth_qmap3. apply near1_spec.
Qed.

(** ** C07 *)
Lemma vn_ok op (sop : quad Z -> quad Z -> quad Z) P d v1 v2 :
  sop v1 v2 = qmap mask (qmap2 op v1 v2) -> reflects (qmap2 op v1 v2) P ->
  agrees (vn_scalar op d v1 v2) (vn_sse sop d v1 v2) (every (ndim d) P).
Proof.
  intros He Hr. unfold agrees, vn_sse, vn_scalar. rewrite He, test_full. split; [reflexivity|]. now apply alln_every.
Qed.
Lemma c07_all d v1 v2 :
  agrees (XMVectorNEqual_scalar d v1 v2) (XMVectorNEqual_sse d v1 v2) (every (ndim d) (at_lane xeq v1 v2)) /\
  agrees (XMVectorNEqualInt_scalar d v1 v2) (XMVectorNEqualInt_sse d v1 v2) (every (ndim d) (same_bits v1 v2)) /\
  agrees (XMVectorNGreater_scalar d v1 v2) (XMVectorNGreater_sse d v1 v2) (every (ndim d) (at_lane xgt v1 v2)) /\
  agrees (XMVectorNGreaterOrEqual_scalar d v1 v2) (XMVectorNGreaterOrEqual_sse d v1 v2) (every (ndim d) (at_lane xge v1 v2)) /\
  agrees (XMVectorNLess_scalar d v1 v2) (XMVectorNLess_sse d v1 v2) (every (ndim d) (at_lane xlt v1 v2)) /\
  agrees (XMVectorNLessOrEqual_scalar d v1 v2) (XMVectorNLessOrEqual_sse d v1 v2) (every (ndim d) (at_lane xle v1 v2)).
Proof.
  exact (conj (vn_ok f_eq cmpeq_ps _ d v1 v2 eq_refl (refl_rel _ _ v1 v2 f_eq_spec))
        (conj (vn_ok Z.eqb cmpeq_epi32 _ d v1 v2 eq_refl (refl_int v1 v2))
        (conj (vn_ok f_gt cmpgt_ps _ d v1 v2 eq_refl (refl_rel _ _ v1 v2 f_gt_spec))
        (conj (vn_ok f_ge cmpge_ps _ d v1 v2 eq_refl (refl_rel _ _ v1 v2 f_ge_spec))
        (conj (vn_ok f_lt cmplt_ps _ d v1 v2 eq_refl (refl_rel _ _ v1 v2 f_lt_spec))
              (vn_ok f_le cmple_ps _ d v1 v2 eq_refl (refl_rel _ _ v1 v2 f_le_spec))))))).
Qed.
Lemma c07_inbounds d v b : wordq b ->
  agrees (XMVectorNInBounds_scalar d v b) (XMVectorNInBounds_sse d v b) (every (ndim d) (at_lane xinbounds v b)).
Proof. intros Hb. apply vn_ok; [apply inb_sse_eq, Hb|apply refl_inb, Hb]. Qed.
Lemma c07_near d v1 v2 e :
  agrees (XMVectorNNearEqual_scalar d v1 v2 e) (XMVectorNNearEqual_sse d v1 v2 e)
    (every (ndim d) (fun k => xle (xabs (value (f_sub (nth_lane v1 k) (nth_lane v2 k)))) (value (nth_lane e k)))).
Proof.
  unfold agrees, XMVectorNNearEqual_sse, XMVectorNNearEqual_scalar. rewrite near_sse_eq, test_full.
  split; [reflexivity|]. apply alln_every. intros k _. rewrite nth_qmap3. apply near1_spec.
Qed.
Lemma c07_not_equal d v1 v2 :
  agrees (XMVectorNNotEqual_scalar d v1 v2) (XMVectorNNotEqual_sse d v1 v2) (some (ndim d) (at_lane xne v1 v2)).
Proof.
  assert (E : XMVectorNNotEqual_sse d v1 v2 = anyn d (qmap2 f_neq v1 v2)).
  { assert (E2 : negb (test d (cmpeq_ps v1 v2) =? full d) = anyn d (qmap2 f_neq v1 v2)).
    { change (cmpeq_ps v1 v2) with (qmap mask (qmap2 f_eq v1 v2)). rewrite test_full.
      change (qmap2 f_neq v1 v2) with (qmap negb (qmap2 f_eq v1 v2)).
      destruct d, (qmap2 f_eq v1 v2) as [[] [] [] []]; reflexivity. }
    destruct d; try exact E2.
    unfold XMVectorNNotEqual_sse. change (cmpneq_ps v1 v2) with (qmap mask (qmap2 f_neq v1 v2)).
    destruct (qmap2 f_neq v1 v2) as [[] [] [] []]; reflexivity. }
  unfold agrees. rewrite E. split; [reflexivity|]. apply anyn_some, refl_rel, f_neq_spec.
Qed.
Lemma c07_not_equal_int d v1 v2 :
  agrees (XMVectorNNotEqualInt_scalar d v1 v2) (XMVectorNNotEqualInt_sse d v1 v2)
    (some (ndim d) (fun k => ~ same_bits v1 v2 k)).
Proof.
  assert (E : XMVectorNNotEqualInt_sse d v1 v2 = anyn d (qmap2 i_neq v1 v2)).
  { unfold XMVectorNNotEqualInt_sse. change (cmpeq_epi32 v1 v2) with (qmap mask (qmap2 Z.eqb v1 v2)). rewrite test_full.
      change (qmap2 i_neq v1 v2) with (qmap negb (qmap2 Z.eqb v1 v2)).
      destruct d, (qmap2 Z.eqb v1 v2) as [[] [] [] []]; reflexivity. }
  unfold agrees. rewrite E. split; [reflexivity|]. apply anyn_some, refl_int_neq.
Qed.

(** ** C06 *)
Definition rec_of (all none : bool) : Z :=
  if all then XM_CRMASK_CR6TRUE else if none then XM_CRMASK_CR6FALSE else 0.
Lemma rec_of_tells d c P : reflects c P ->
  record_tells (rec_of (alln d c) (alln d (qmap negb c))) (ndim d) P.
Proof.
  intros H. pose proof (alln_every d c P H) as A. pose proof (alln_every d _ _ (reflects_neg c P H)) as N.
  pose proof (anyn_some d c P H) as S. pose proof (anyn_some d _ _ (reflects_neg c P H)) as SN.
  assert (X : anyn d (qmap negb c) = negb (alln d c)) by (destruct d, c as [[] [] [] []]; reflexivity).
  assert (Y : alln d (qmap negb c) = negb (anyn d c)) by apply alln_neg.
  assert (Z0 : alln d c = true -> anyn d c = true) by (destruct d, c as [[] [] [] []]; (reflexivity || discriminate)).
  rewrite X in SN. rewrite Y in *. unfold record_tells, rec_of.
  destruct (alln d c), (anyn d c); cbn in *; try (specialize (Z0 eq_refl); discriminate);
    vm_compute (XMComparisonAllTrue _); vm_compute (XMComparisonAllFalse _); vm_compute (XMComparisonMixed _);
    vm_compute (XMComparisonAnyTrue _); vm_compute (XMComparisonAnyFalse _); intuition discriminate.
Qed.
Lemma record_sse_of c : record_sse (qmap mask c) = rec_of (alln D4 c) (alln D4 (qmap negb c)).
Proof. destruct c as [[] [] [] []]; reflexivity. Qed.
Lemma record_scalar_of c : record_scalar XM_CRMASK_CR6TRUE (qmap mask c) = rec_of (alln D4 c) (alln D4 (qmap negb c)).
Proof. destruct c as [[] [] [] []]; reflexivity. Qed.
Lemma withR_ok c P : reflects c P ->
  same_record (withR_scalar (qmap mask c)) (withR_sse (qmap mask c)) 4 P.
Proof.
  intros H. unfold same_record, withR_scalar, withR_sse. rewrite record_sse_of, record_scalar_of.
  split; [reflexivity|]. split; [apply masks_of, H|]. exact (rec_of_tells D4 c P H).
Qed.
Lemma c06_lanes v1 v2 :
  same_record (XMVectorEqualR_scalar v1 v2) (XMVectorEqualR_sse v1 v2) 4 (at_lane xeq v1 v2) /\
  same_record (XMVectorGreaterR_scalar v1 v2) (XMVectorGreaterR_sse v1 v2) 4 (at_lane xgt v1 v2) /\
  same_record (XMVectorGreaterOrEqualR_scalar v1 v2) (XMVectorGreaterOrEqualR_sse v1 v2) 4 (at_lane xge v1 v2) /\
  same_record (XMVectorEqualIntR_scalar v1 v2) (XMVectorEqualIntR_sse v1 v2) 4 (same_bits v1 v2).
Proof.
  refine (conj (withR_ok _ _ (refl_rel _ _ v1 v2 f_eq_spec)) (conj (withR_ok _ _ (refl_rel _ _ v1 v2 f_gt_spec))
    (conj (withR_ok _ _ (refl_rel _ _ v1 v2 f_ge_spec)) _))).
  pose proof (withR_ok _ _ (refl_int v1 v2)) as [H1 H2]. 
  unfold same_record. split; [|exact H2].
  change (XMVectorEqualIntR_sse v1 v2) with (withR_sse (qmap mask (qmap2 Z.eqb v1 v2))). rewrite <- H1. unfold XMVectorEqualIntR_scalar, withR_scalar. rewrite record_scalar_of.
  change (XMVectorEqualInt_scalar v1 v2) with (qmap mask (qmap2 Z.eqb v1 v2)).
  destruct (qmap2 Z.eqb v1 v2) as [[] [] [] []]; reflexivity.
Qed.
Lemma c06_inbounds_sse v b : wordq b ->
  (XMComparisonAllInBounds (snd (XMVectorInBoundsR_sse v b)) = true <-> every 4 (at_lane xinbounds v b)) /\
  (XMComparisonAnyOutOfBounds (snd (XMVectorInBoundsR_sse v b)) = true <-> some 4 (fun k => ~ at_lane xinbounds v b k)).
Proof.
  intros Hb. unfold XMVectorInBoundsR_sse; cbv zeta; cbn [snd]. rewrite inb_sse_eq by assumption.
  pose proof (alln_every D4 _ _ (refl_inb v b Hb)) as A. pose proof (anyn_some D4 _ _ (reflects_neg _ _ (refl_inb v b Hb))) as S.
  cbn [ndim] in A, S. rewrite <- A, <- S.
  destruct (qmap2 inb1 v b) as [[] [] [] []]; vm_compute; intuition discriminate.
Qed.
Lemma c06_inbounds_scalar_wrong :
  exists v b, wordq v /\ wordq b /\ every 4 (at_lane xinbounds v b) /\
    XMComparisonAllInBounds (snd (XMVectorInBoundsR_scalar v b)) = false.
Proof.
  exists (qrep 0), (qrep one32). split; [|split; [|split]].
  - repeat split; vm_compute; congruence.
  - repeat split; vm_compute; congruence.
  - assert (H : wordq (qrep one32)) by (repeat split; vm_compute; congruence).
    apply (alln_every D4 _ _ (refl_inb (qrep 0) (qrep one32) H)). vm_compute. reflexivity.
  - vm_compute. reflexivity.
Qed.
Lemma vnR_sse_ok op (sop : quad Z -> quad Z -> quad Z) P d v1 v2 :
  sop v1 v2 = qmap mask (qmap2 op v1 v2) -> reflects (qmap2 op v1 v2) P ->
  record_tells (vnR_sse sop d v1 v2) (ndim d) P.
Proof.
  intros He Hr. unfold vnR_sse. cbv zeta. rewrite He, test_full, test_zero. now apply rec_of_tells.
Qed.
Lemma vnR_scalar_ok op op' d v1 v2 :
  (forall k, 0 <= k < ndim d -> op' (nth_lane v1 k) (nth_lane v2 k) = negb (op (nth_lane v1 k) (nth_lane v2 k))) ->
  vnR_scalar op op' d v1 v2 = rec_of (alln d (qmap2 op v1 v2)) (alln d (qmap negb (qmap2 op v1 v2))).
Proof.
  intros H. unfold vnR_scalar, rec_of. replace (alln d (qmap2 op' v1 v2)) with (alln d (qmap negb (qmap2 op v1 v2))); [reflexivity|].
  destruct d; cbn [alln qmap qmap2 qx qy qz qw ndim] in *;
    pose proof (H 0 ltac:(lia)) as H0; pose proof (H 1 ltac:(lia)) as H1; cbn in H0, H1; rewrite H0, H1; try reflexivity;
    pose proof (H 2 ltac:(lia)) as H2; cbn in H2; rewrite H2; try reflexivity.
  pose proof (H 3 ltac:(lia)) as H3; cbn in H3; rewrite H3; reflexivity.
Qed.
Lemma c06_dims_sse d v1 v2 :
  record_tells (XMVectorNEqualR_sse d v1 v2) (ndim d) (at_lane xeq v1 v2) /\
  record_tells (XMVectorNEqualIntR_sse d v1 v2) (ndim d) (same_bits v1 v2) /\
  record_tells (XMVectorNGreaterR_sse d v1 v2) (ndim d) (at_lane xgt v1 v2) /\
  record_tells (XMVectorNGreaterOrEqualR_sse d v1 v2) (ndim d) (at_lane xge v1 v2).
Proof.
  exact (conj (vnR_sse_ok f_eq cmpeq_ps _ d v1 v2 eq_refl (refl_rel _ _ v1 v2 f_eq_spec))
        (conj (vnR_sse_ok Z.eqb cmpeq_epi32 _ d v1 v2 eq_refl (refl_int v1 v2))
        (conj (vnR_sse_ok f_gt cmpgt_ps _ d v1 v2 eq_refl (refl_rel _ _ v1 v2 f_gt_spec))
              (vnR_sse_ok f_ge cmpge_ps _ d v1 v2 eq_refl (refl_rel _ _ v1 v2 f_ge_spec))))).
Qed.
Lemma vnR_same op op' sop d v1 v2 : sop v1 v2 = qmap mask (qmap2 op v1 v2) ->
  (forall k, 0 <= k < ndim d -> op' (nth_lane v1 k) (nth_lane v2 k) = negb (op (nth_lane v1 k) (nth_lane v2 k))) ->
  vnR_scalar op op' d v1 v2 = vnR_sse sop d v1 v2.
Proof.
  intros He H. rewrite (vnR_scalar_ok _ _ _ _ _ H). unfold vnR_sse. cbv zeta. rewrite He, test_full, test_zero. reflexivity.
Qed.
Lemma c06_dims_equal_same d v1 v2 :
  XMVectorNEqualR_scalar d v1 v2 = XMVectorNEqualR_sse d v1 v2 /\
  XMVectorNEqualIntR_scalar d v1 v2 = XMVectorNEqualIntR_sse d v1 v2.
Proof. split; apply vnR_same; reflexivity. Qed.
Lemma f_le_negb_lt a b : value a <> NaN -> value b <> NaN -> f_le a b = negb (f_lt b a).
Proof.
  intros Ha Hb. apply eq_true_iff_eq. rewrite f_le_spec, negb_true_iff, <- not_true_iff_false, f_lt_spec.
  now apply xle_not_lt.
Qed.
Lemma c06_dims_order_same d v1 v2 :
  every (ndim d) (fun k => value (nth_lane v1 k) <> NaN /\ value (nth_lane v2 k) <> NaN) ->
  XMVectorNGreaterR_scalar d v1 v2 = XMVectorNGreaterR_sse d v1 v2 /\
  XMVectorNGreaterOrEqualR_scalar d v1 v2 = XMVectorNGreaterOrEqualR_sse d v1 v2.
Proof.
  intros H. split; apply vnR_same; try reflexivity; intros k Hk; destruct (H k Hk) as [Ha Hb].
  - unfold f_gt. now apply f_le_negb_lt.
  - unfold f_ge. rewrite f_le_negb_lt by assumption. now rewrite negb_involutive.
Qed.
Lemma c06_dims_order_nan_wrong d : exists v1 v2, wordq v1 /\ wordq v2 /\
  every (ndim d) (fun k => ~ at_lane xgt v1 v2 k) /\ XMComparisonAllFalse (XMVectorNGreaterR_scalar d v1 v2) = false /\
  every (ndim d) (fun k => ~ at_lane xge v1 v2 k) /\ XMComparisonAllFalse (XMVectorNGreaterOrEqualR_scalar d v1 v2) = false.
Proof.
  exists (qrep qnan), (qrep 0).
  assert (Hn : value qnan = NaN) by reflexivity.
  assert (Wn : word qnan) by (unfold word, qnan; lia). assert (W0 : word 0) by apply word_0.
  split; [exact (conj Wn (conj Wn (conj Wn Wn)))|]. split; [exact (conj W0 (conj W0 (conj W0 W0)))|].
  split; [|split; [|split]].
  - intros k _. unfold at_lane, xgt. rewrite !nth_qrep, Hn. cbn [xlt]. destruct (value 0) as [|[]|]; tauto.
  - destruct d; vm_compute; reflexivity.
  - intros k _. unfold at_lane, xge. rewrite !nth_qrep, Hn. apply xle_nan_r.
  - destruct d; vm_compute; reflexivity.
Qed.

(** ** C09 *)
Lemma value_nan_iff z : value z = NaN <-> nan_pattern z.
Proof.
  unfold value, nan_pattern. destruct (Z.eqb_spec (bit_exp z) 255) as [E|E].
  - destruct (Z.eqb_spec (bit_frac z) 0); intuition discriminate.
  - split; [|tauto]. destruct (bit_exp z =? 0); discriminate.
Qed.
Lemma f_isnan_pattern z : f_isnan z = true <-> nan_pattern z.
Proof. rewrite f_isnan_spec. apply value_nan_iff. Qed.
Lemma neq_self z : f_neq z z = f_isnan z.
Proof.
  apply eq_true_iff_eq. rewrite f_neq_spec, f_isnan_spec. unfold xne.
  destruct (value z) as [|[]|]; cbn; intuition discriminate.
Qed.
Lemma value_pinf : value 0x7F800000 = Inf false. Proof. reflexivity. Qed.
Lemma value_inf_iff z : word z -> ((exists s, value z = Inf s) <-> inf_pattern z).
Proof.
  intros Hw. unfold inf_pattern. split.
  - intros [s H]. unfold value in H. pose proof (word_fields z Hw) as Hz.
    change (fexpo z) with (bit_exp z) in Hz. change (ffrac z) with (bit_frac z) in Hz. change (fsgn z) with (bit_sign z) in Hz.
    destruct (Z.eqb_spec (bit_exp z) 255) as [E|E]; [|destruct (bit_exp z =? 0); discriminate].
    destruct (Z.eqb_spec (bit_frac z) 0) as [F|F]; [|discriminate].
    rewrite E, F in Hz. destruct (bit_sign z); [right|left]; lia.
  - intros [-> | ->]; eexists; reflexivity.
Qed.
Lemma f_isinf_pattern z : word z -> (f_isinf z = true <-> inf_pattern z).
Proof.
  intros Hw. unfold f_isinf. rewrite f_eq_spec, value_abs, value_pinf, <- value_inf_iff by assumption.
  destruct (value z) as [|s|]; cbn; split; intros H; try tauto; try (destruct H; discriminate); eauto.
Qed.
Lemma refl_nan v : reflects (qmap f_isnan v) (fun k => nan_pattern (nth_lane v k)).
Proof. intros k _. rewrite nth_qmap. apply f_isnan_pattern. Qed.
Lemma refl_inf v : wordq v -> reflects (qmap f_isinf v) (fun k => inf_pattern (nth_lane v k)).
Proof. intros H k _. rewrite nth_qmap. apply f_isinf_pattern, nth_word, H. Qed.
Lemma nan_sse_eq v : cmpneq_ps v v = qmap mask (qmap f_isnan v).
Proof.
  apply quad_ext. intro i. unfold cmpneq_ps. rewrite !lane_qmap2, !lane_qmap. f_equal. apply neq_self.
Qed.
Lemma inf_sse_eq v : XMVectorIsInfinite_sse v = qmap mask (qmap f_isinf v).
Proof. reflexivity. Qed.
Lemma c09_vector v : wordq v ->
  (XMVectorIsNaN_scalar v = XMVectorIsNaN_sse v /\ masks (XMVectorIsNaN_sse v) (fun k => nan_pattern (nth_lane v k))) /\
  (XMVectorIsInfinite_scalar v = XMVectorIsInfinite_sse v /\ masks (XMVectorIsInfinite_sse v) (fun k => inf_pattern (nth_lane v k))).
Proof.
  intros Hv.
  refine (conj (conj _ _) (conj _ _)).
  - unfold XMVectorIsNaN_sse. rewrite nan_sse_eq. reflexivity.
  - unfold XMVectorIsNaN_sse. rewrite nan_sse_eq. apply masks_of, refl_nan.
  - reflexivity.
  - apply (masks_of (qmap f_isinf v)), refl_inf, Hv.
Qed.
Lemma c09_dims d v : wordq v ->
  agrees (XMVectorNIsNaN_scalar d v) (XMVectorNIsNaN_sse d v) (some (ndim d) (fun k => nan_pattern (nth_lane v k))) /\
  agrees (XMVectorNIsInfinite_scalar d v) (XMVectorNIsInfinite_sse d v) (some (ndim d) (fun k => inf_pattern (nth_lane v k))).
Proof.
  intros Hv. unfold agrees, XMVectorNIsNaN_sse, XMVectorNIsInfinite_sse. rewrite nan_sse_eq, (inf_sse_eq v), !test_zero, !alln_neg, !negb_involutive.
  split; (split; [reflexivity|]); apply anyn_some; [apply refl_nan|apply refl_inf, Hv].
Qed.
Lemma qfold_some f (m : mat Z) (P : Z -> Prop) : (forall i j, f (mij m i j) = true <-> P (mij m i j)) ->
  (qfold f m = true <-> somem (fun i j => P (ent m i j))).
Proof.
  intros H. unfold qfold, qany, somem. rewrite !orb_true_iff. cbn [qmap qx qy qz qw]. split.
  - intros HH.
    assert (X : exists i j, f (mij m i j) = true).
    { repeat (destruct HH as [HH|HH]).
      all: first [exists I0, I0; exact HH|exists I0, I1; exact HH|exists I0, I2; exact HH|exists I0, I3; exact HH|exists I1, I0; exact HH|exists I1, I1; exact HH|exists I1, I2; exact HH|exists I1, I3; exact HH|exists I2, I0; exact HH|exists I2, I1; exact HH|exists I2, I2; exact HH|exists I2, I3; exact HH|exists I3, I0; exact HH|exists I3, I1; exact HH|exists I3, I2; exact HH|exists I3, I3; exact HH]. }
    destruct X as (i & j & X). exists (idx_z i), (idx_z j). unfold ent. rewrite !nth_lane_idx.
    repeat split; try (destruct i; cbn; lia); try (destruct j; cbn; lia). apply H, X.
  - intros (i & j & Hi & Hj & HP). destruct (idx_cases i Hi) as [i' ->], (idx_cases j Hj) as [j' ->].
    unfold ent in HP. rewrite !nth_lane_idx in HP. apply H in HP. unfold mij in HP.
    destruct i', j'; cbn [lane] in HP; rewrite HP; tauto.
Qed.
Lemma land_abs z : word z -> Z.land z 0x7FFFFFFF = fexpo z * 2 ^ 23 + ffrac z.
Proof.
  intros Hw. destruct (word_abs z Hw) as (H & Hs & He & Hf). unfold f_abs in *.
  pose proof (word_fields _ H) as Hz. rewrite Hs, He, Hf in Hz. lia.
Qed.
Lemma nan_int z : word z -> (wrap32 (Z.land z 0x7FFFFFFF - 0x7F800001) <? 0x007FFFFF) = true <-> (f_isnan z = true).
Proof.
  intros Hw. rewrite f_isnan_pattern, Z.ltb_lt. unfold nan_pattern, wrap32. rewrite land_abs by assumption.
  change (bit_exp z) with (fexpo z). change (bit_frac z) with (ffrac z).
  pose proof (fexpo_range z). pose proof (ffrac_range z).
  destruct (Z.le_gt_cases 0x7F800001 (fexpo z * 2 ^ 23 + ffrac z)).
  - rewrite Z.mod_small by lia. lia.
  - replace ((fexpo z * 2 ^ 23 + ffrac z - 0x7F800001) mod 2 ^ 32) with (fexpo z * 2 ^ 23 + ffrac z - 0x7F800001 + 2 ^ 32).
    + lia.
    + apply Z.mod_unique with (-1); lia.
Qed.
Lemma inf_int z : word z -> (Z.land z 0x7FFFFFFF =? 0x7F800000) = true <-> f_isinf z = true.
Proof.
  intros Hw. rewrite f_isinf_pattern, Z.eqb_eq by assumption. rewrite land_abs by assumption. unfold inf_pattern.
  pose proof (word_fields z Hw) as Hz. pose proof (fexpo_range z). pose proof (ffrac_range z).
  destruct (fsgn z); lia.
Qed.
Lemma wordm_mij m i j : wordm m -> word (mij m i j).
Proof. intros H. apply wordq_lane, H. Qed.
Lemma or4_masks (f : Z -> bool) (a b c e : quad Z) :
  negb (movemask_ps (or_ps (or_ps (qmap mask (qmap f a)) (qmap mask (qmap f b))) (or_ps (qmap mask (qmap f c)) (qmap mask (qmap f e)))) =? 0)
  = qany (qmap f a) || qany (qmap f b) || qany (qmap f c) || qany (qmap f e).
Proof.
  destruct (qmap f a) as [a0 a1 a2 a3], (qmap f b) as [b0 b1 b2 b3], (qmap f c) as [c0 c1 c2 c3], (qmap f e) as [e0 e1 e2 e3].
  assert (L : forall x y z t, 2 ^ 31 <=? Z.lor (Z.lor (mask x) (mask y)) (Z.lor (mask z) (mask t)) = x || y || z || t)
    by (intros [] [] [] []; reflexivity).
  unfold movemask_ps, signs, or_ps, movemask, qany. cbn [qmap qmap2 qx qy qz qw]. rewrite !L.
  assert (M : forall a b c e, negb (b2z a + 2 * b2z b + 4 * b2z c + 8 * b2z e =? 0) = a || b || c || e) by (intros [] [] [] []; reflexivity).
  rewrite M. destruct a0, b0, c0, e0, a1, b1, c1, e1; cbn; try reflexivity; destruct a2, b2, c2, e2; try reflexivity; cbn; rewrite ?orb_true_r; try reflexivity;
    destruct a3, b3, c3, e3; reflexivity.
Qed.
Lemma c09_matrix m : wordm m ->
  agrees (XMMatrixIsNaN_scalar m) (XMMatrixIsNaN_sse m) (somem (fun i j => nan_pattern (ent m i j))) /\
  agrees (XMMatrixIsInfinite_scalar m) (XMMatrixIsInfinite_sse m) (somem (fun i j => inf_pattern (ent m i j))).
Proof.
  intros Hm.
  assert (N : XMMatrixIsNaN_sse m = qfold f_isnan m).
  { unfold XMMatrixIsNaN_sse. cbv zeta. rewrite !nan_sse_eq, or4_masks. unfold qfold.
    destruct (qany (qmap f_isnan (qx m))), (qany (qmap f_isnan (qy m))), (qany (qmap f_isnan (qz m))), (qany (qmap f_isnan (qw m))); reflexivity. }
  assert (I : XMMatrixIsInfinite_sse m = qfold f_isinf m).
  { unfold XMMatrixIsInfinite_sse. cbv zeta. rewrite !inf_sse_eq, or4_masks. reflexivity. }
  unfold agrees. rewrite N, I. split; split.
  - apply eq_true_iff_eq. unfold XMMatrixIsNaN_scalar.
    rewrite (qfold_some _ m nan_pattern), (qfold_some _ m nan_pattern); [tauto| |].
    + intros; apply f_isnan_pattern.
    + intros. rewrite nan_int by now apply wordm_mij. apply f_isnan_pattern.
  - apply qfold_some. intros; apply f_isnan_pattern.
  - apply eq_true_iff_eq. unfold XMMatrixIsInfinite_scalar.
    rewrite (qfold_some _ m inf_pattern), (qfold_some _ m inf_pattern); [tauto| |].
    + intros; apply f_isinf_pattern; now apply wordm_mij.
    + intros. rewrite inf_int by now apply wordm_mij. apply f_isinf_pattern. now apply wordm_mij.
  - apply qfold_some. intros; apply f_isinf_pattern; now apply wordm_mij.
Qed.

(** IsIdentity *)
Lemma value_0 : value 0 = Fin 0. Proof. change (value 0) with (Fin (0 * pow2 (-149))). f_equal. ring. Qed.
Lemma value_one : value one32 = Fin 1.
Proof. change (value one32) with (Fin (IZR 8388608 * / IZR 8388608)). f_equal. field. Qed.
Lemma dec_val_inj a b : word a -> word b -> f_isnan a = false -> dec a = dec b -> a = b.
Proof.
  intros Ha Hb Hn E. rewrite <- (enc_dec a Ha Hn), E. apply enc_dec; [assumption|]. unfold f_isnan in *. congruence.
Qed.
Lemma eq_zero_iff z : word z -> (f_eq z 0 = true <-> Z.land z 0x7FFFFFFF = 0).
Proof.
  intros Hw. rewrite f_eq_spec, value_0. rewrite land_abs by assumption.
  pose proof (fexpo_range z). pose proof (ffrac_range z). unfold value.
  change (bit_exp z) with (fexpo z). change (bit_frac z) with (ffrac z).
  assert (P : forall e, (0 < pow2 e)%R) by (intros; rewrite pow2_bpow; apply bpow_gt_0).
  destruct (Z.eqb_spec (fexpo z) 255); [destruct (ffrac z =? 0); cbn; lia|].
  destruct (Z.eqb_spec (fexpo z) 0) as [E|E]; cbn [xeq].
  - rewrite E. specialize (P (-149)). split.
    + intros HH. assert (IZR (ffrac z) = 0)%R.
      { destruct (bit_sign z); cbn [signed] in HH; apply (Rmult_eq_reg_r (pow2 (-149))); nra. }
      apply eq_IZR in H1. lia.
    + intros HH. replace (ffrac z) with 0 by lia. destruct (bit_sign z); cbn [signed]; ring.
  - split; [|lia]. intros HH. exfalso. specialize (P (fexpo z - 150)).
    assert (0 < IZR (2 ^ 23 + ffrac z))%R by (apply IZR_lt; lia).
    assert (0 < IZR (2 ^ 23 + ffrac z) * pow2 (fexpo z - 150))%R by (apply Rmult_lt_0_compat; assumption).
    destruct (bit_sign z); cbn [signed] in HH; lra.
Qed.
Lemma eq_one_iff z : word z -> (f_eq z one32 = true <-> Z.lxor z 0x3F800000 = 0).
Proof.
  intros Hw. rewrite Z.lxor_eq_0_iff. split; [|intros ->; reflexivity].
  intros H. unfold f_eq in H. apply dec_val_inj; try assumption.
  - unfold word; lia.
  - unfold f_isnan. destruct (dec z); (reflexivity || discriminate H).
  - change one32 with 0x3F800000 in H.
    assert (F : is_finite (dec z) = true).
    { destruct (dec z) as [|s| |]; try reflexivity; try discriminate. destruct s; discriminate. }
    assert (F1 : is_finite (dec 0x3F800000) = true) by reflexivity.
    rewrite Beqb_correct in H by assumption.
    destruct (Req_bool_spec (B2R (dec z)) (B2R (dec 0x3F800000))) as [E|]; [|discriminate].
    apply B2R_inj; try assumption.
    assert (E1 : B2R (dec 0x3F800000) = 1%R).
    { assert (HH : Fin (B2R (dec 0x3F800000)) = Fin 1); [|now injection HH].
      rewrite <- xof_fin by reflexivity. rewrite <- value_dec. apply value_one. }
    rewrite E1 in E. clear - E F. destruct (dec z) as [| | |]; try discriminate; try reflexivity. cbn [B2R] in E. lra.
Qed.
Lemma lor_eq_0 a b : Z.lor a b = 0 <-> a = 0 /\ b = 0. Proof. apply Z.lor_eq_0_iff. Qed.
Lemma identity_bits m : wordm m ->
  (XMMatrixIsIdentity_scalar m = true <-> forall i j, f_eq (mij m i j) (lane (idrow i) j) = true).
Proof.
  intros Hm. unfold XMMatrixIsIdentity_scalar. cbv zeta. cbn [fold_left].
  rewrite Z.eqb_eq, lor_eq_0, !Z.land_lor_distr_l, !lor_eq_0.
  rewrite <- !eq_zero_iff by now apply wordm_mij. rewrite <- !eq_one_iff by now apply wordm_mij.
  split.
  - intros H i j. destruct i, j; cbn [idrow setlane lane qrep qx qy qz qw]; change 0x3F800000 with one32 in *; tauto.
  - intros H. pose proof (H I0 I0). pose proof (H I0 I1). pose proof (H I0 I2). pose proof (H I0 I3).
    pose proof (H I1 I0). pose proof (H I1 I1). pose proof (H I1 I2). pose proof (H I1 I3).
    pose proof (H I2 I0). pose proof (H I2 I1). pose proof (H I2 I2). pose proof (H I2 I3).
    pose proof (H I3 I0). pose proof (H I3 I1). pose proof (H I3 I2). pose proof (H I3 I3).
    cbn [idrow setlane lane qrep qx qy qz qw] in *. tauto.
Qed.
Lemma c09_identity m : wordm m ->
  agrees (XMMatrixIsIdentity_scalar m) (XMMatrixIsIdentity_sse m)
    (forall i j, 0 <= i < 4 -> 0 <= j < 4 -> xeq (value (ent m i j)) (Fin (id_ent i j))).
Proof.
  intros Hm.
  assert (S : XMMatrixIsIdentity_sse m = true <-> forall i j, f_eq (mij m i j) (lane (idrow i) j) = true).
  { unfold XMMatrixIsIdentity_sse. cbv zeta.
    set (b := fun i j => f_eq (mij m i j) (lane (idrow i) j)).
    assert (C : forall i, cmpeq_ps (lane m i) (idrow i) = qmap mask (Q (b i I0) (b i I1) (b i I2) (b i I3))) by (intros []; reflexivity).
    rewrite !C.
    assert (L : forall x y z t, 2 ^ 31 <=? Z.land (Z.land (mask x) (mask y)) (Z.land (mask z) (mask t)) = x && y && z && t)
      by (intros [] [] [] []; reflexivity).
    unfold movemask_ps, signs, and_ps, movemask. cbn [qmap qmap2 qx qy qz qw]. rewrite !L.
    assert (M : forall a b c e, (b2z a + 2 * b2z b + 4 * b2z c + 8 * b2z e =? 15) = a && b && c && e) by (intros [] [] [] []; reflexivity).
    rewrite M, !andb_true_iff. split.
    - intros H i j. fold (b i j). destruct i, j; tauto.
    - intros H. repeat split; apply H. }
  assert (T : (forall i j, f_eq (mij m i j) (lane (idrow i) j) = true) <->
    (forall i j, 0 <= i < 4 -> 0 <= j < 4 -> xeq (value (ent m i j)) (Fin (id_ent i j)))).
  { assert (V : forall i j, value (lane (idrow i) j) = Fin (id_ent (idx_z i) (idx_z j)))
      by (intros [] []; first [exact value_0|exact value_one]).
    split.
    - intros H i j Hi Hj. destruct (idx_cases i Hi) as [i' ->], (idx_cases j Hj) as [j' ->].
      unfold ent. rewrite !nth_lane_idx. specialize (H i' j'). apply f_eq_spec in H. rewrite V in H. exact H.
    - intros H i j. apply f_eq_spec. rewrite V. unfold ent in H.
      specialize (H (idx_z i) (idx_z j)). rewrite !nth_lane_idx in H. apply H; [destruct i|destruct j]; cbn; lia. }
  unfold agrees. rewrite <- T. split; [|exact S]. apply eq_true_iff_eq. rewrite S. apply identity_bits, Hm.
Qed.

(** ** C08 *)
Lemma c08_minmax_same v1 v2 : XMVectorMin_scalar v1 v2 = XMVectorMin_sse v1 v2 /\ XMVectorMax_scalar v1 v2 = XMVectorMax_sse v1 v2.
Proof. split; reflexivity. Qed.
Lemma c08_minmax v1 v2 k : 0 <= k < 4 ->
  let a := nth_lane v1 k in let b := nth_lane v2 k in
  let mn := nth_lane (XMVectorMin_sse v1 v2) k in let mx := nth_lane (XMVectorMax_sse v1 v2) k in
  (xlt (value a) (value b) -> mn = a) /\ (~ xlt (value a) (value b) -> mn = b) /\
  (xlt (value b) (value a) -> mx = a) /\ (~ xlt (value b) (value a) -> mx = b).
Proof.
  intros _. cbv zeta. unfold XMVectorMin_sse, XMVectorMax_sse, min_ps, max_ps. rewrite !nth_qmap2.
  rewrite <- !f_lt_spec. destruct (f_lt _ _), (f_lt _ _); repeat split; intuition congruence.
Qed.
Lemma c08_bounds v1 v2 k : 0 <= k < 4 -> value (nth_lane v1 k) <> NaN -> value (nth_lane v2 k) <> NaN ->
  let mn := nth_lane (XMVectorMin_sse v1 v2) k in let mx := nth_lane (XMVectorMax_sse v1 v2) k in
  xle (value mn) (value (nth_lane v1 k)) /\ xle (value mn) (value (nth_lane v2 k)) /\
  xle (value (nth_lane v1 k)) (value mx) /\ xle (value (nth_lane v2 k)) (value mx).
Proof.
  intros Hk Ha Hb. cbv zeta. pose proof (c08_minmax v1 v2 k Hk) as H. cbv zeta in H.
  set (a := nth_lane v1 k) in *. set (b := nth_lane v2 k) in *.
  destruct H as (H1 & H2 & H3 & H4).
  assert (D : forall x y, {xlt (value x) (value y)} + {~ xlt (value x) (value y)}).
  { intros. destruct (f_lt x y) eqn:E; [left|right]; rewrite <- f_lt_spec, E; congruence. }
  destruct (D a b) as [L|L].
  - rewrite (H1 L). destruct (D b a) as [M|M].
    + exfalso. destruct (value a) as [|[]|], (value b) as [|[]|]; cbn in *; try tauto. lra.
    + rewrite (H4 M). repeat split; try apply xle_refl; try assumption; left; assumption.
  - rewrite (H2 L). destruct (D b a) as [M|M].
    + rewrite (H3 M). repeat split; try apply xle_refl; try assumption; left; assumption.
    + rewrite (H4 M). repeat split; try apply xle_refl; try assumption; apply xle_not_lt; assumption.
Qed.
Lemma c08_clamp v mn mx : every 4 (at_lane xle mn mx) ->
  exists r, XMVectorClamp_scalar v mn mx = Some r /\ XMVectorClamp_sse v mn mx = Some r /\
  forall k, 0 <= k < 4 -> value (nth_lane v k) <> NaN ->
    xle (value (nth_lane mn k)) (value (nth_lane r k)) /\ xle (value (nth_lane r k)) (value (nth_lane mx k)) /\
    (xlt (value (nth_lane mn k)) (value (nth_lane v k)) -> xlt (value (nth_lane v k)) (value (nth_lane mx k)) -> nth_lane r k = nth_lane v k) /\
    (xle (value (nth_lane mn k)) (value (nth_lane v k)) -> xle (value (nth_lane v k)) (value (nth_lane mx k)) -> value (nth_lane r k) = value (nth_lane v k)).
Proof.
  intros H. destruct (c07_all D4 mn mx) as (_&_&_&_&_& HA). destruct HA as [E1 E2].
  assert (T : XMVectorNLessOrEqual_sse D4 mn mx = true) by (apply E2, H).
  exists (min_ps mx (max_ps mn v)). unfold XMVectorClamp_scalar, XMVectorClamp_sse. rewrite E1, T.
  split; [reflexivity|]. split; [reflexivity|]. intros k Hk Hv. specialize (H k Hk). unfold at_lane in H.
  unfold min_ps, max_ps. rewrite !nth_qmap2. set (x := nth_lane v k) in *. set (a := nth_lane mn k) in *. set (b := nth_lane mx k) in *.
  assert (Na : value a <> NaN) by (intros E; rewrite E in H; now apply xle_nan_l in H).
  assert (Nb : value b <> NaN) by (intros E; rewrite E in H; now apply xle_nan_r in H).
  assert (F : forall p q, f_lt p q = false -> value p <> NaN -> value q <> NaN -> xle (value q) (value p)).
  { intros p q E Hp Hq. apply xle_not_lt; try assumption. rewrite <- f_lt_spec, E. discriminate. }
  assert (EQ : forall p q, xle (value p) (value q) -> xle (value q) (value p) -> value p = value q).
  { intros p q. unfold xle. destruct (value p) as [|[]|], (value q) as [|[]|]; cbn; intros; try tauto; try (intuition discriminate). f_equal. lra. }
  assert (FT : forall p q, f_lt p q = true -> xlt (value p) (value q)) by (intros p q; apply f_lt_spec).
  assert (AS : forall p q, xlt (value p) (value q) -> xle (value q) (value p) -> False).
  { intros p q. unfold xle. destruct (value p) as [|[]|], (value q) as [|[]|]; cbn; intros; try tauto; try (intuition discriminate). lra. }
  destruct (f_lt x a) eqn:E.
  - destruct (f_lt b a) eqn:G; [exfalso; apply (AS b a); auto|].
    repeat split.
    + now apply xle_refl.
    + now apply F.
    + intros L _. exfalso. apply (AS a x L). left. auto.
    + intros L _. exfalso. apply (AS x a); auto.
  - destruct (f_lt b x) eqn:G.
    + repeat split.
      * exact H.
      * now apply xle_refl.
      * intros _ L. exfalso. apply (AS x b L). left. auto.
      * intros _ L. exfalso. apply (AS b x); auto.
    + repeat split; auto.
Qed.
Lemma c08_clamp_panics v mn mx : ~ every 4 (at_lane xle mn mx) ->
  XMVectorClamp_scalar v mn mx = None /\ XMVectorClamp_sse v mn mx = None.
Proof.
  intros H. destruct (c07_all D4 mn mx) as (_&_&_&_&_& HA). destruct HA as [E1 E2].
  assert (T : XMVectorNLessOrEqual_sse D4 mn mx = false).
  { destruct (XMVectorNLessOrEqual_sse D4 mn mx); [|reflexivity]. exfalso. apply H, E2. reflexivity. }
  unfold XMVectorClamp_scalar, XMVectorClamp_sse. rewrite E1, T. auto.
Qed.
(** saturate: the ordered case *)
Lemma c08_saturate v :
  exists r, XMVectorSaturate_scalar v = Some r /\
  forall k, 0 <= k < 4 ->
    (value (nth_lane v k) <> NaN ->
      xclamp01 (value (nth_lane v k)) (value (nth_lane r k)) /\
      xclamp01 (value (nth_lane v k)) (value (nth_lane (XMVectorSaturate_sse v) k)) /\
      (nth_lane v k <> 0x80000000 -> word (nth_lane v k) -> nth_lane (XMVectorSaturate_sse v) k = nth_lane r k)) /\
    (value (nth_lane v k) = NaN -> nth_lane r k = nth_lane v k /\ nth_lane (XMVectorSaturate_sse v) k = 0).
Proof.
  assert (H : every 4 (at_lane xle (qrep 0) (qrep one32))).
  { intros k _. unfold at_lane. rewrite !nth_qrep, value_0, value_one. left. cbn. lra. }
  destruct (c07_all D4 (qrep 0) (qrep one32)) as (_&_&_&_&_& HA). destruct HA as [E1 E2]. apply E2 in H.
  eexists. split. { unfold XMVectorSaturate_scalar, XMVectorClamp_scalar. rewrite E1, H. reflexivity. }
  intros k Hk. unfold XMVectorSaturate_sse, XMVectorMin_scalar, XMVectorMax_scalar, min_ps, max_ps. rewrite !nth_qmap2, !nth_qrep.
  set (x := nth_lane v k). split.
  - intros Hn.
    assert (L01 : f_lt one32 0 = false) by (vm_compute; reflexivity). assert (L10 : f_lt 0 one32 = true) by (vm_compute; reflexivity).
    pose proof (f_lt_spec x 0) as A1. pose proof (f_lt_spec 0 x) as A2. pose proof (f_lt_spec x one32) as A3. pose proof (f_lt_spec one32 x) as A4.
    pose proof value_0 as V0. pose proof value_one as V1.
    rewrite V0 in A1, A2. rewrite V1 in A3, A4.
    assert (WW : xclamp01 (value x) (value (if f_lt one32 (if f_gt 0 x then 0 else x) then one32 else (if f_gt 0 x then 0 else x))) /\
                 xclamp01 (value x) (value (if f_lt (if f_lt 0 x then x else 0) one32 then (if f_lt 0 x then x else 0) else one32))).
    { unfold f_gt. clear H E1 E2 Hk. unfold xclamp01, xle. split.
      - destruct (f_lt x 0).
        + rewrite L01, V0. destruct (value x) as [|[]|]; cbn [xlt xeq] in *; repeat split; intros; try tauto; try (exfalso; intuition lra); try (f_equal; intuition lra).
        + destruct (f_lt one32 x); rewrite ?V1; destruct (value x) as [|[]|]; cbn [xlt xeq] in *; repeat split; intros; try tauto; try (intuition (discriminate || lra)); try (f_equal; intuition lra).
      - destruct (f_lt 0 x).
        + destruct (f_lt x one32); rewrite ?V1; destruct (value x) as [|[]|]; cbn [xlt xeq] in *; repeat split; intros; try tauto; try (intuition (discriminate || lra)); try (f_equal; intuition (discriminate || lra)).
        + rewrite L10, V0. destruct (value x) as [|[]|]; cbn [xlt xeq] in *; repeat split; intros; try tauto; try (intuition (discriminate || lra)); try (f_equal; intuition (discriminate || lra)). }
    split; [exact (proj1 WW)|]. split; [exact (proj2 WW)|]. clear WW. intros Hz Hw. unfold f_gt.
    pose proof (eq_one_iff x Hw) as Q1. rewrite f_eq_spec, V1 in Q1.
    assert (Q0 : value x = Fin 0 -> x = 0).
    { intros V. assert (E0 : f_eq x 0 = true) by (apply f_eq_spec; rewrite V, V0; reflexivity).
      apply eq_zero_iff in E0; [|assumption]. rewrite land_abs in E0 by assumption.
      pose proof (word_fields x Hw). pose proof (fexpo_range x). pose proof (ffrac_range x). destruct (fsgn x); lia. }
    assert (Q1' : value x = Fin 1 -> x = one32).
    { intros V. apply Z.lxor_eq. apply Q1. rewrite V. reflexivity. }
    clear Q1 H E1 E2.
    destruct (f_lt x 0); [rewrite L01|].
    + destruct (f_lt 0 x); [|now rewrite L10].
      exfalso. destruct (value x) as [|[]|]; cbn [xlt] in *; try (intuition lra); tauto.
    + destruct (f_lt 0 x).
      * destruct (f_lt one32 x).
        -- destruct (f_lt x one32); [|reflexivity]. exfalso. destruct (value x) as [|[]|]; cbn [xlt] in *; try (intuition lra); tauto.
        -- destruct (f_lt x one32); [reflexivity|]. symmetry. apply Q1'.
           destruct (value x) as [|[]|]; cbn [xlt] in *; try (intuition discriminate); try tauto.
           f_equal. destruct (Rtotal_order r 1) as [|[|]]; intuition (discriminate || lra).
      * rewrite L10. assert (X : x = 0).
        { apply Q0. destruct (value x) as [|[]|]; cbn [xlt] in *; try (intuition discriminate); try tauto.
          f_equal. destruct (Rtotal_order r 0) as [|[|]]; intuition (discriminate || lra). }
        rewrite X. now rewrite L01.
  - intros Hn. unfold f_gt.
    assert (A : forall y, f_lt x y = false /\ f_lt y x = false).
    { intros y. split; apply not_true_iff_false; rewrite f_lt_spec, Hn; destruct (value y) as [|[]|]; cbn; tauto. }
    destruct (A 0) as [A1 A2], (A one32) as [A3 A4]. rewrite A1, A2, A4. split; reflexivity.
Qed.

(** ** C17 *)
Lemma c17_negate_scalar v k : wordq v -> 0 <= k < 4 ->
  forall n, 0 <= n -> Z.testbit (nth_lane (XMVectorNegate_scalar v) k) n = xorb (Z.testbit (nth_lane v k) n) (n =? 31).
Proof.
  intros Hv Hk n Hn. unfold XMVectorNegate_scalar. rewrite nth_qmap. unfold f_neg. rewrite Z.lxor_spec.
  f_equal. change 0x80000000 with (2 ^ 31). rewrite Z.pow2_bits_eqb, Z.eqb_sym by lia. reflexivity.
Qed.
Lemma c17_abs_scalar v k : wordq v -> 0 <= k < 4 ->
  forall n, 0 <= n -> Z.testbit (nth_lane (XMVectorAbs_scalar v) k) n = Z.testbit (nth_lane v k) n && negb (n =? 31).
Proof.
  intros Hv Hk n Hn. unfold XMVectorAbs_scalar. rewrite nth_qmap. unfold f_abs. rewrite Z.land_spec.
  change 0x7FFFFFFF with (Z.ones 31). destruct (Z.lt_ge_cases n 31).
  - rewrite Z.ones_spec_low by lia. destruct (Z.eqb_spec n 31); [lia|reflexivity].
  - rewrite Z.ones_spec_high, andb_false_r by lia. destruct (Z.eqb_spec n 31) as [->|]; [now rewrite andb_false_r|].
    rewrite word_testbit_high; [reflexivity|apply nth_word, Hv|lia].
Qed.
Lemma c17_sse_value v k : wordq v -> 0 <= k < 4 ->
  value (nth_lane (XMVectorNegate_sse v) k) = xneg (value (nth_lane v k)) /\
  value (nth_lane (XMVectorAbs_sse v) k) = xabs (value (nth_lane v k)).
Proof.
  intros Hv Hk. unfold XMVectorNegate_sse, XMVectorAbs_sse, sub_ps, max_ps. rewrite !nth_qmap2, !nth_qrep.
  split; [apply value_sub0|apply value_absmax]; now apply nth_word.
Qed.
Lemma c17_scalar_value v k : wordq v -> 0 <= k < 4 ->
  value (nth_lane (XMVectorNegate_scalar v) k) = xneg (value (nth_lane v k)) /\
  value (nth_lane (XMVectorAbs_scalar v) k) = xabs (value (nth_lane v k)).
Proof.
  intros Hv Hk. unfold XMVectorNegate_scalar, XMVectorAbs_scalar. rewrite !nth_qmap.
  split; [apply value_neg|apply value_abs]; now apply nth_word.
Qed.
(** same bits on every lane that is neither a zero nor a NaN *)
Lemma c17_same v k : wordq v -> 0 <= k < 4 -> value (nth_lane v k) <> NaN -> value (nth_lane v k) <> Fin 0 ->
  nth_lane (XMVectorNegate_sse v) k = nth_lane (XMVectorNegate_scalar v) k /\
  nth_lane (XMVectorAbs_sse v) k = nth_lane (XMVectorAbs_scalar v) k.
Proof.
  intros Hv Hk Hn Hz. unfold XMVectorNegate_sse, XMVectorNegate_scalar, XMVectorAbs_sse, XMVectorAbs_scalar, sub_ps, max_ps.
  rewrite !nth_qmap2, !nth_qmap, !nth_qrep. pose proof (nth_word v k Hv) as Hw. set (x := nth_lane v k) in *.
  assert (S : f_sub 0 x = f_neg x).
  { rewrite f_sub0 by assumption. destruct (f_isnan x) eqn:E; [apply f_isnan_spec in E; contradiction|].
    destruct (f_eq x 0) eqn:E2; [|reflexivity]. exfalso. apply Hz. apply f_eq_spec in E2. rewrite value_0 in E2.
    destruct (value x); cbn in E2; try tauto. now subst. }
  split; [exact S|]. rewrite S.
  destruct (word_neg x Hw) as (Wn & Sn & En & Fn). pose proof (word_fields x Hw) as Fx. pose proof (word_fields _ Wn) as Fy.
  rewrite Sn, En, Fn in Fy. 
  assert (A : f_abs x = fexpo x * 2 ^ 23 + ffrac x) by (apply land_abs, Hw).
  assert (G : f_lt x (f_neg x) = fsgn x).
  { apply eq_true_iff_eq. rewrite f_lt_spec, value_neg by assumption.
    assert (P : forall e, (0 < pow2 e)%R) by (intros; rewrite pow2_bpow; apply bpow_gt_0).
    pose proof (ffrac_range x). unfold value in *. change (bit_exp x) with (fexpo x) in *. change (bit_frac x) with (ffrac x) in *. change (bit_sign x) with (fsgn x) in *.
    destruct (Z.eqb_spec (fexpo x) 255).
    - destruct (Z.eqb_spec (ffrac x) 0); [|congruence]. destruct (fsgn x); cbn; intuition discriminate.
    - destruct (Z.eqb_spec (fexpo x) 0).
      + assert (ffrac x <> 0). { intros E0. apply Hz. rewrite E0. f_equal. destruct (fsgn x); cbn [signed]; ring. }
        assert (0 < IZR (ffrac x) * pow2 (-149))%R by (apply Rmult_lt_0_compat; [apply IZR_lt; lia|apply P]).
        destruct (fsgn x); cbn [signed xneg xlt]; split; intros; try discriminate; try reflexivity; lra.
      + assert (0 < IZR (2 ^ 23 + ffrac x) * pow2 (fexpo x - 150))%R by (apply Rmult_lt_0_compat; [apply IZR_lt; lia|apply P]).
        destruct (fsgn x); cbn [signed xneg xlt]; split; intros; try discriminate; try reflexivity; lra. }
  rewrite G. destruct (fsgn x); cbn [negb] in *; lia.
Qed.
