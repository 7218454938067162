(** C05-C09, C17: comparisons, records, min/max/clamp, classification, negate/abs. *)
From Coq Require Import Reals Lra.
From Verif Require Import Base F32 F32Facts Intrin MLanes MCompare SpecLanes SpecF32 SpecCompare PLanes PF32 PCompare.
Open Scope Z_scope.

(** [value] is the IEEE meaning of a bit pattern (SpecF32.v); [xlt], [xeq], [xle] are false on NaN. *)

(** * C05 lane masks *)
Theorem C05_float_relations : forall v1 v2,
  (XMVectorEqual_scalar v1 v2 = XMVectorEqual_sse v1 v2 /\ masks (XMVectorEqual_sse v1 v2) (at_lane xeq v1 v2)) /\
  (XMVectorNotEqual_scalar v1 v2 = XMVectorNotEqual_sse v1 v2 /\ masks (XMVectorNotEqual_sse v1 v2) (at_lane xne v1 v2)) /\
  (XMVectorGreater_scalar v1 v2 = XMVectorGreater_sse v1 v2 /\ masks (XMVectorGreater_sse v1 v2) (at_lane xgt v1 v2)) /\
  (XMVectorGreaterOrEqual_scalar v1 v2 = XMVectorGreaterOrEqual_sse v1 v2 /\ masks (XMVectorGreaterOrEqual_sse v1 v2) (at_lane xge v1 v2)) /\
  (XMVectorLess_scalar v1 v2 = XMVectorLess_sse v1 v2 /\ masks (XMVectorLess_sse v1 v2) (at_lane xlt v1 v2)) /\
  (XMVectorLessOrEqual_scalar v1 v2 = XMVectorLessOrEqual_sse v1 v2 /\ masks (XMVectorLessOrEqual_sse v1 v2) (at_lane xle v1 v2)).
Proof. exact c05_float. Qed.
Theorem C05_int_relations : forall v1 v2,
  (XMVectorEqualInt_scalar v1 v2 = XMVectorEqualInt_sse v1 v2 /\ masks (XMVectorEqualInt_sse v1 v2) (same_bits v1 v2)) /\
  (XMVectorNotEqualInt_scalar v1 v2 = XMVectorNotEqualInt_sse v1 v2 /\
   masks (XMVectorNotEqualInt_sse v1 v2) (fun k => ~ same_bits v1 v2 k)).
Proof. exact c05_int. Qed.
Theorem C05_in_bounds : forall v b, wordq b ->
  XMVectorInBounds_scalar v b = XMVectorInBounds_sse v b /\ masks (XMVectorInBounds_sse v b) (at_lane xinbounds v b).
Proof. exact c05_inbounds. Qed.
(** NearEqual compares the absolute value of the rounded difference *)
Theorem C05_near_equal : forall v1 v2 e,
  XMVectorNearEqual_scalar v1 v2 e = XMVectorNearEqual_sse v1 v2 e /\
  masks (XMVectorNearEqual_sse v1 v2 e)
    (fun k => xle (xabs (value (f_sub (nth_lane v1 k) (nth_lane v2 k)))) (value (nth_lane e k))).
Proof. exact c05_near. Qed.
(** -0 = +0, NaN <> NaN, 1 < 2 seen through the masks *)
Example C05_ex_zero_nan :
  XMVectorEqual_scalar (Q 0x80000000 qnan 0x3F800000 0x3F800000) (Q 0 qnan 0x40000000 0x3F800000) = Q 0xFFFFFFFF 0 0 0xFFFFFFFF /\
  XMVectorLess_sse (Q 0x80000000 qnan 0x3F800000 0xFF800000) (Q 0 qnan 0x40000000 0x3F800000) = Q 0 0 0xFFFFFFFF 0xFFFFFFFF.
Proof. split; vm_compute; reflexivity. Qed.
Example C05_ex_in_bounds :
  XMVectorInBounds_sse (Q 0xBF800000 0x40000000 0 qnan) (qrep 0x3F800000) = Q 0xFFFFFFFF 0 0xFFFFFFFF 0.
Proof. vm_compute; reflexivity. Qed.

(** * C06 records *)
Theorem C06_lane_records : forall v1 v2,
  same_record (XMVectorEqualR_scalar v1 v2) (XMVectorEqualR_sse v1 v2) 4 (at_lane xeq v1 v2) /\
  same_record (XMVectorGreaterR_scalar v1 v2) (XMVectorGreaterR_sse v1 v2) 4 (at_lane xgt v1 v2) /\
  same_record (XMVectorGreaterOrEqualR_scalar v1 v2) (XMVectorGreaterOrEqualR_sse v1 v2) 4 (at_lane xge v1 v2) /\
  same_record (XMVectorEqualIntR_scalar v1 v2) (XMVectorEqualIntR_sse v1 v2) 4 (same_bits v1 v2).
Proof. exact c06_lanes. Qed.
Theorem C06_dims_sse : forall d v1 v2,
  record_tells (XMVectorNEqualR_sse d v1 v2) (ndim d) (at_lane xeq v1 v2) /\
  record_tells (XMVectorNEqualIntR_sse d v1 v2) (ndim d) (same_bits v1 v2) /\
  record_tells (XMVectorNGreaterR_sse d v1 v2) (ndim d) (at_lane xgt v1 v2) /\
  record_tells (XMVectorNGreaterOrEqualR_sse d v1 v2) (ndim d) (at_lane xge v1 v2).
Proof. exact c06_dims_sse. Qed.
Theorem C06_dims_equal_same : forall d v1 v2,
  XMVectorNEqualR_scalar d v1 v2 = XMVectorNEqualR_sse d v1 v2 /\
  XMVectorNEqualIntR_scalar d v1 v2 = XMVectorNEqualIntR_sse d v1 v2.
Proof. exact c06_dims_equal_same. Qed.
(** Missing for the full statement: lanes with NaN, where the scalar path really differs (next theorem). *)
Theorem C06_dims_order_same_partial : forall d v1 v2,
  every (ndim d) (fun k => value (nth_lane v1 k) <> NaN /\ value (nth_lane v2 k) <> NaN) ->
  XMVectorNGreaterR_scalar d v1 v2 = XMVectorNGreaterR_sse d v1 v2 /\
  XMVectorNGreaterOrEqualR_scalar d v1 v2 = XMVectorNGreaterOrEqualR_sse d v1 v2.
Proof. exact c06_dims_order_same. Qed.
Theorem C06_dims_order_scalar_nan_refuted : forall d, exists v1 v2, wordq v1 /\ wordq v2 /\
  every (ndim d) (fun k => ~ at_lane xgt v1 v2 k) /\ XMComparisonAllFalse (XMVectorNGreaterR_scalar d v1 v2) = false /\
  every (ndim d) (fun k => ~ at_lane xge v1 v2 k) /\ XMComparisonAllFalse (XMVectorNGreaterOrEqualR_scalar d v1 v2) = false.
Proof. exact c06_dims_order_nan_wrong. Qed.
Theorem C06_in_bounds_sse : forall v b, wordq b ->
  (XMComparisonAllInBounds (snd (XMVectorInBoundsR_sse v b)) = true <-> every 4 (at_lane xinbounds v b)) /\
  (XMComparisonAnyOutOfBounds (snd (XMVectorInBoundsR_sse v b)) = true <-> some 4 (fun k => ~ at_lane xinbounds v b k)).
Proof. exact c06_inbounds_sse. Qed.
(** the scalar path stores the "all true" bit, which AllInBounds does not read *)
Theorem C06_in_bounds_scalar_refuted : exists v b, wordq v /\ wordq b /\ every 4 (at_lane xinbounds v b) /\
  XMComparisonAllInBounds (snd (XMVectorInBoundsR_scalar v b)) = false.
Proof. exact c06_inbounds_scalar_wrong. Qed.
Example C06_ex_mixed :
  let r := snd (XMVectorGreaterR_sse (Q 0x3F800000 0 0 0) (qrep 0)) in
  XMComparisonMixed r = true /\ XMComparisonAnyTrue r = true /\ XMComparisonAnyFalse r = true.
Proof. vm_compute; repeat split. Qed.
Example C06_ex_dims : XMVectorNGreaterR_scalar D2 (Q 0x3F800000 0x3F800000 0 0) (qrep 0) = 0x80 /\
  XMVectorNGreaterR_scalar D3 (Q 0x3F800000 0x3F800000 0 0) (qrep 0) = 0.
Proof. split; vm_compute; reflexivity. Qed.

(** * C07 boolean tests *)
Theorem C07_all_lanes : forall d v1 v2,
  agrees (XMVectorNEqual_scalar d v1 v2) (XMVectorNEqual_sse d v1 v2) (every (ndim d) (at_lane xeq v1 v2)) /\
  agrees (XMVectorNEqualInt_scalar d v1 v2) (XMVectorNEqualInt_sse d v1 v2) (every (ndim d) (same_bits v1 v2)) /\
  agrees (XMVectorNGreater_scalar d v1 v2) (XMVectorNGreater_sse d v1 v2) (every (ndim d) (at_lane xgt v1 v2)) /\
  agrees (XMVectorNGreaterOrEqual_scalar d v1 v2) (XMVectorNGreaterOrEqual_sse d v1 v2) (every (ndim d) (at_lane xge v1 v2)) /\
  agrees (XMVectorNLess_scalar d v1 v2) (XMVectorNLess_sse d v1 v2) (every (ndim d) (at_lane xlt v1 v2)) /\
  agrees (XMVectorNLessOrEqual_scalar d v1 v2) (XMVectorNLessOrEqual_sse d v1 v2) (every (ndim d) (at_lane xle v1 v2)).
Proof. exact c07_all. Qed.
Theorem C07_in_bounds : forall d v b, wordq b ->
  agrees (XMVectorNInBounds_scalar d v b) (XMVectorNInBounds_sse d v b) (every (ndim d) (at_lane xinbounds v b)).
Proof. exact c07_inbounds. Qed.
Theorem C07_near_equal : forall d v1 v2 e,
  agrees (XMVectorNNearEqual_scalar d v1 v2 e) (XMVectorNNearEqual_sse d v1 v2 e)
    (every (ndim d) (fun k => xle (xabs (value (f_sub (nth_lane v1 k) (nth_lane v2 k)))) (value (nth_lane e k)))).
Proof. exact c07_near. Qed.
Theorem C07_not_equal : forall d v1 v2,
  agrees (XMVectorNNotEqual_scalar d v1 v2) (XMVectorNNotEqual_sse d v1 v2) (some (ndim d) (at_lane xne v1 v2)) /\
  agrees (XMVectorNNotEqualInt_scalar d v1 v2) (XMVectorNNotEqualInt_sse d v1 v2)
    (some (ndim d) (fun k => ~ same_bits v1 v2 k)).
Proof. intros d v1 v2. exact (conj (c07_not_equal d v1 v2) (c07_not_equal_int d v1 v2)). Qed.
Theorem C07_nan_infinite : forall d v, wordq v ->
  agrees (XMVectorNIsNaN_scalar d v) (XMVectorNIsNaN_sse d v) (some (ndim d) (fun k => nan_pattern (nth_lane v k))) /\
  agrees (XMVectorNIsInfinite_scalar d v) (XMVectorNIsInfinite_sse d v) (some (ndim d) (fun k => inf_pattern (nth_lane v k))).
Proof. exact c09_dims. Qed.
Example C07_ex_ignores_w :
  XMVectorNEqual_sse D3 (Q 1 2 3 4) (Q 1 2 3 5) = true /\ XMVectorNEqual_sse D4 (Q 1 2 3 4) (Q 1 2 3 5) = false /\
  XMVectorNNotEqual_sse D2 (Q 1 2 3 4) (Q 1 2 4 5) = false /\ XMVectorNNotEqual_scalar D3 (Q 1 2 3 4) (Q 1 2 4 5) = true.
Proof. vm_compute; repeat split. Qed.
Example C07_ex_nan : XMVectorNIsNaN_sse D3 (Q 0 0 0xFFC00001 0) = true /\ XMVectorNIsNaN_sse D2 (Q 0 0 0xFFC00001 0) = false /\
  XMVectorNIsInfinite_scalar D4 (Q 0 0 0 0xFF800000) = true.
Proof. vm_compute; repeat split. Qed.

(** * C08 min, max, clamp, saturate *)
Theorem C08_minmax_same : forall v1 v2,
  XMVectorMin_scalar v1 v2 = XMVectorMin_sse v1 v2 /\ XMVectorMax_scalar v1 v2 = XMVectorMax_sse v1 v2.
Proof. exact c08_minmax_same. Qed.
Theorem C08_minmax_which : forall v1 v2 k, 0 <= k < 4 ->
  let a := nth_lane v1 k in let b := nth_lane v2 k in
  let mn := nth_lane (XMVectorMin_sse v1 v2) k in let mx := nth_lane (XMVectorMax_sse v1 v2) k in
  (xlt (value a) (value b) -> mn = a) /\ (~ xlt (value a) (value b) -> mn = b) /\
  (xlt (value b) (value a) -> mx = a) /\ (~ xlt (value b) (value a) -> mx = b).
Proof. exact c08_minmax. Qed.
Theorem C08_minmax_bounds : forall v1 v2 k, 0 <= k < 4 ->
  value (nth_lane v1 k) <> NaN -> value (nth_lane v2 k) <> NaN ->
  let mn := nth_lane (XMVectorMin_sse v1 v2) k in let mx := nth_lane (XMVectorMax_sse v1 v2) k in
  xle (value mn) (value (nth_lane v1 k)) /\ xle (value mn) (value (nth_lane v2 k)) /\
  xle (value (nth_lane v1 k)) (value mx) /\ xle (value (nth_lane v2 k)) (value mx).
Proof. exact c08_bounds. Qed.
Theorem C08_clamp : forall v mn mx, every 4 (at_lane xle mn mx) ->
  exists r, XMVectorClamp_scalar v mn mx = Some r /\ XMVectorClamp_sse v mn mx = Some r /\
  forall k, 0 <= k < 4 -> value (nth_lane v k) <> NaN ->
    xle (value (nth_lane mn k)) (value (nth_lane r k)) /\ xle (value (nth_lane r k)) (value (nth_lane mx k)) /\
    (xlt (value (nth_lane mn k)) (value (nth_lane v k)) -> xlt (value (nth_lane v k)) (value (nth_lane mx k)) ->
       nth_lane r k = nth_lane v k) /\
    (xle (value (nth_lane mn k)) (value (nth_lane v k)) -> xle (value (nth_lane v k)) (value (nth_lane mx k)) ->
       value (nth_lane r k) = value (nth_lane v k)).
Proof. exact c08_clamp. Qed.
(** unordered bounds trip the debug assertion *)
Theorem C08_clamp_panics : forall v mn mx, ~ every 4 (at_lane xle mn mx) ->
  XMVectorClamp_scalar v mn mx = None /\ XMVectorClamp_sse v mn mx = None.
Proof. exact c08_clamp_panics. Qed.
(** The backends' results are the same bits except on NaN lanes (where both answers are stated) and on -0.0,
    where only the values agree: missing for the full statement "on both backends alike". *)
Theorem C08_saturate_partial : forall v,
  exists r, XMVectorSaturate_scalar v = Some r /\
  forall k, 0 <= k < 4 ->
    (value (nth_lane v k) <> NaN ->
      xclamp01 (value (nth_lane v k)) (value (nth_lane r k)) /\
      xclamp01 (value (nth_lane v k)) (value (nth_lane (XMVectorSaturate_sse v) k)) /\
      (nth_lane v k <> 0x80000000 -> word (nth_lane v k) -> nth_lane (XMVectorSaturate_sse v) k = nth_lane r k)) /\
    (value (nth_lane v k) = NaN -> nth_lane r k = nth_lane v k /\ nth_lane (XMVectorSaturate_sse v) k = 0).
Proof. exact c08_saturate. Qed.
Theorem C08_saturate_same_refuted : exists v r, wordq v /\
  XMVectorSaturate_scalar v = Some r /\ r <> XMVectorSaturate_sse v /\ f_isnan (qx r) = true /\ qx (XMVectorSaturate_sse v) = 0.
Proof.
  exists (Q qnan 0 0 0), (Q qnan 0 0 0). unfold wordq, word. cbn [qx qy qz qw].
  repeat split; try (unfold qnan; lia); try (vm_compute; (reflexivity || discriminate)).
Qed.
Example C08_ex_clamp : XMVectorClamp_scalar (Q 0x40400000 0xBF800000 0x3F000000 0x7F800000) (qrep 0) (qrep 0x3F800000)
  = Some (Q 0x3F800000 0 0x3F000000 0x3F800000).
Proof. vm_compute; reflexivity. Qed.
Example C08_ex_minmax : XMVectorMin_sse (Q qnan 0 0x80000000 0x3F800000) (Q 0 qnan 0 0x40000000) = Q 0 qnan 0 0x3F800000 /\
  XMVectorMax_scalar (Q qnan 0 0x80000000 0x3F800000) (Q 0 qnan 0 0x40000000) = Q 0 qnan 0 0x40000000.
Proof. split; vm_compute; reflexivity. Qed.

(** * C09 NaN, infinity, identity *)
Theorem C09_vector : forall v, wordq v ->
  (XMVectorIsNaN_scalar v = XMVectorIsNaN_sse v /\ masks (XMVectorIsNaN_sse v) (fun k => nan_pattern (nth_lane v k))) /\
  (XMVectorIsInfinite_scalar v = XMVectorIsInfinite_sse v /\ masks (XMVectorIsInfinite_sse v) (fun k => inf_pattern (nth_lane v k))).
Proof. exact c09_vector. Qed.
Theorem C09_matrix : forall m, wordm m ->
  agrees (XMMatrixIsNaN_scalar m) (XMMatrixIsNaN_sse m) (somem (fun i j => nan_pattern (ent m i j))) /\
  agrees (XMMatrixIsInfinite_scalar m) (XMMatrixIsInfinite_sse m) (somem (fun i j => inf_pattern (ent m i j))).
Proof. exact c09_matrix. Qed.
Theorem C09_is_identity : forall m, wordm m ->
  agrees (XMMatrixIsIdentity_scalar m) (XMMatrixIsIdentity_sse m)
    (forall i j, 0 <= i < 4 -> 0 <= j < 4 -> xeq (value (ent m i j)) (Fin (id_ent i j))).
Proof. exact c09_identity. Qed.
Example C09_ex_matrix :
  let I := Q (Q one32 0 0 0x80000000) (Q 0 one32 0 0) (Q 0 0 one32 0) (Q 0 0 0 one32) in
  XMMatrixIsIdentity_scalar I = true /\ XMMatrixIsIdentity_sse I = true /\ XMMatrixIsNaN_scalar I = false /\
  XMMatrixIsNaN_sse (setlane I I2 (Q 0 0x7FFFFFFF 0 0)) = true /\ XMMatrixIsNaN_scalar (setlane I I2 (Q 0 0x7FFFFFFF 0 0)) = true /\
  XMMatrixIsInfinite_scalar (setlane I I3 (Q 0xFF800000 0 0 0)) = true.
Proof. vm_compute; repeat split. Qed.

(** * C17 negate and abs *)
Theorem C17_negate_scalar_bits : forall v k, wordq v -> 0 <= k < 4 ->
  forall n, 0 <= n -> Z.testbit (nth_lane (XMVectorNegate_scalar v) k) n = xorb (Z.testbit (nth_lane v k) n) (n =? 31).
Proof. exact c17_negate_scalar. Qed.
Theorem C17_abs_scalar_bits : forall v k, wordq v -> 0 <= k < 4 ->
  forall n, 0 <= n -> Z.testbit (nth_lane (XMVectorAbs_scalar v) k) n = Z.testbit (nth_lane v k) n && negb (n =? 31).
Proof. exact c17_abs_scalar. Qed.
(** as values (signed zeros identified, NaN to NaN) the SSE path is right on every pattern ... *)
Theorem C17_sse_values : forall v k, wordq v -> 0 <= k < 4 ->
  value (nth_lane (XMVectorNegate_sse v) k) = xneg (value (nth_lane v k)) /\
  value (nth_lane (XMVectorAbs_sse v) k) = xabs (value (nth_lane v k)).
Proof. exact c17_sse_value. Qed.
(** ... and bit-identical to the scalar path off zeros and NaN (missing for the full statement: zeros and NaN) *)
Theorem C17_same_bits_partial : forall v k, wordq v -> 0 <= k < 4 ->
  value (nth_lane v k) <> NaN -> value (nth_lane v k) <> Fin 0 ->
  nth_lane (XMVectorNegate_sse v) k = nth_lane (XMVectorNegate_scalar v) k /\
  nth_lane (XMVectorAbs_sse v) k = nth_lane (XMVectorAbs_scalar v) k.
Proof. exact c17_same. Qed.
(** negating +0.0 gives +0.0 and the absolute value of -0.0 is -0.0 on the SSE path *)
Theorem C17_sse_sign_of_zero_refuted :
  XMVectorNegate_sse (qrep 0) = qrep 0 /\ XMVectorNegate_scalar (qrep 0) = qrep 0x80000000 /\
  XMVectorAbs_sse (qrep 0x80000000) = qrep 0x80000000 /\ XMVectorAbs_scalar (qrep 0x80000000) = qrep 0.
Proof. vm_compute; repeat split. Qed.
Example C17_ex : XMVectorNegate_sse (Q 0x3F800000 0xFF800000 0x00000001 0xC0000000) = Q 0xBF800000 0x7F800000 0x80000001 0x40000000 /\
  XMVectorAbs_sse (Q 0x3F800000 0xFF800000 0x80000001 0xC0000000) = Q 0x3F800000 0x7F800000 0x00000001 0x40000000.
Proof. split; vm_compute; reflexivity. Qed.
