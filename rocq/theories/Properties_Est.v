(** C57, C58: the estimate functions, over exact real arithmetic with the library's coefficients.
    C57 is about the polynomial estimates; C58 is about those that use the processor's approximate reciprocal and
    reciprocal square root, for any such approximation of relative accuracy e. *)
From Coq Require Import Reals ZArith Lra.
From Verif Require Import Base F32 Intrin Lane SpecGeom MVec MTrig MQuat MEst PReal PVec SpecTrig SpecEst PTrigFn PEstPoly PArc PEst.
Open Scope R_scope.

(** ** C57 *)
Theorem C57_scalar_sin_cos (v : R) : Rabs v <= 100000000 ->
  within (188 / 100000000 + 28 / 1000000000 * Rabs v) (XMScalarSinEst v) (sin v) /\
  within (968 / 100000000 + 28 / 1000000000 * Rabs v) (XMScalarCosEst v) (cos v).
Proof. exact (sin_est_scalar v). Qed.
Theorem C57_vector_sin_cos b (V : quad R) k : b <> Scalar -> Rabs (lane V k) <= 100000000 ->
  within (188 / 100000000 + 28 / 1000000000 * Rabs (lane V k)) (lane (XMVectorSinEst b V) k) (sin (lane V k)) /\
  within (968 / 100000000 + 28 / 1000000000 * Rabs (lane V k)) (lane (XMVectorCosEst b V) k) (cos (lane V k)).
Proof. exact (sin_est_vec b V k). Qed.
(** in every lane arithmetic, so in particular bit for bit *)
Theorem C57_sincos (L : Lane) (lm : Libm L) b (V : quad (T L)) (v : T L) :
  XMVectorSinCosEst b V = (XMVectorSinEst b V, XMVectorCosEst b V) /\ XMScalarSinCosEst v = (XMScalarSinEst v, XMScalarCosEst v).
Proof. split; [apply sincos_est_pair|apply sincos_est_scalar_pair]. Qed.
Theorem C57_scalar_acos_asin (v : R) :
  within (711 / 10000000) (XMScalarACosEst v) (acos v) /\ within (712 / 10000000) (XMScalarASinEst v) (asin v).
Proof. unfold within. rewrite scalar_acos_est_R, scalar_asin_est_R. split; [exact (racose_ok v)|exact (racose_asin v)]. Qed.
Theorem C57_vector_acos_asin b (V : quad R) k : b <> Scalar ->
  within (711 / 10000000) (lane (XMVectorACosEst b V) k) (acos (lane V k)) /\
  within (712 / 10000000) (lane (XMVectorASinEst b V) k) (asin (lane V k)).
Proof.
  intros H. unfold within. rewrite vacos_est_R, vasin_est_R by exact H. rt. rewrite !lane_qmap.
  split; [exact (racose_ok _)|exact (racose_asin _)].
Qed.
Theorem C57_vector_atan b (V : quad R) k : b <> Scalar -> within (131 / 10000000) (lane (XMVectorATanEst b V) k) (atan (lane V k)).
Proof. intros H. unfold within. rewrite vatan_est_R by exact H. rt. rewrite lane_qmap. exact (ratane_ok _). Qed.
(** the angle between two unit vectors has the inner product as cosine; in general the cosine is clamped *)
Theorem C57_angle_between b (N1 N2 : quad R) k :
  within (711 / 10000000) (lane (XMVector2AngleBetweenNormalsEst b N1 N2) k) (acos (dot2 N1 N2)) /\
  within (711 / 10000000) (lane (XMVector3AngleBetweenNormalsEst b N1 N2) k) (acos (dot3 N1 N2)) /\
  within (711 / 10000000) (lane (XMVector4AngleBetweenNormalsEst b N1 N2) k) (acos (dot4 N1 N2)).
Proof.
  unfold within, XMVector2AngleBetweenNormalsEst, XMVector3AngleBetweenNormalsEst, XMVector4AngleBetweenNormalsEst.
  rewrite Dot2_R, Dot3_R, Dot4_R. repeat apply conj; apply angle_est.
Qed.

(** ** C58 *)
Theorem C58_reciprocal b (hw : HwEst RL) e (V : quad R) k : accurate hw e -> lane V k <> 0 ->
  rel_within e (lane (XMVectorReciprocalEst b V) k) (/ lane V k).
Proof.
  intros H N. rewrite (RecipEst_R b hw). rt. rewrite lane_qmap. pose proof (rcpb_ok b hw e _ H N) as A. unfold rel_within.
  replace (rcpb b hw (lane V k) - / lane V k) with ((lane V k * rcpb b hw (lane V k) - 1) * / lane V k) by (field; exact N).
  rewrite Rabs_mult. apply Rmult_le_compat_r; [apply Rabs_pos|exact A].
Qed.
Theorem C58_reciprocal_sqrt b (hw : HwEst RL) e (V : quad R) k : accurate hw e -> 0 < lane V k ->
  rel_within e (lane (XMVectorReciprocalSqrtEst b V) k) (/ sqrt (lane V k)) /\ lane (XMVectorSqrtEst b V) k = sqrt (lane V k).
Proof.
  intros H N. rewrite (RecipSqrtEst_R b hw). unfold XMVectorSqrtEst. rt. rewrite !lane_qmap. split; [|reflexivity].
  apply len_rel; [exact N|apply rsqb_ok; assumption].
Qed.
(** the tangent of an angle r that differs from the argument by a multiple of XM_PI; no reduction for arguments within 1.57 *)
Theorem C58_tan b (hw : HwEst RL) e (V : quad R) k : b <> Scalar -> accurate hw e ->
  exists r, congruent XM_PI_c (lane V k) r /\ Rabs r <= 157080 / 100000 + 2 / 100000000 * Rabs (lane V k) /\
    (Rabs r <= 157 / 100 -> rel_within (68 / 10000 + e * (1 + 68 / 10000)) (lane (XMVectorTanEst b V) k) (tan r)) /\
    (Rabs (lane V k) <= 157 / 100 -> r = lane V k).
Proof. exact (tan_est_vec b hw e V k). Qed.
Theorem C58_atan2 b (hw : HwEst RL) e (Y X : quad R) k : b <> Scalar -> accurate hw e -> e <= 1 / 2 -> lane X k <> 0 \/ lane Y k <> 0 ->
  exists theta, polar (lane X k) (lane Y k) theta /\ within (132 / 10000000 + e) (lane (XMVectorATan2Est b Y X) k) theta.
Proof.
  intros H A He N. exists (Ratan2 (lane Y k) (lane X k)). split; [apply Ratan2_polar, N|]. unfold within. rewrite (vatan2_est_R b hw) by exact H. rt.
  replace (lane (qmap2 (ratan2e b hw) Y X) k) with (ratan2e b hw (lane Y k) (lane X k)) by (destruct X, Y, k; reflexivity).
  apply ratan2e_ok; assumption.
Qed.
(** the length estimates are exact: only the reciprocal is approximated *)
Theorem C58_length b (V : quad R) :
  XMVector2LengthEst b V = qrep (norm2 V) /\ XMVector3LengthEst b V = qrep (norm3 V) /\ XMVector4LengthEst b V = qrep (norm4 V).
Proof. exact (LengthEst_R b V). Qed.
Theorem C58_reciprocal_length b (hw : HwEst RL) e (V : quad R) k : accurate hw e ->
  (~ zero2 V -> rel_within e (lane (XMVector2ReciprocalLengthEst b V) k) (/ norm2 V)) /\
  (~ zero3 V -> rel_within e (lane (XMVector3ReciprocalLengthEst b V) k) (/ norm3 V)) /\
  (~ zero4 V -> rel_within e (lane (XMVector4ReciprocalLengthEst b V) k) (/ norm4 V)).
Proof.
  intros H. destruct (RLengthEst_R b hw V) as (-> & -> & ->).
  assert (G : forall d, 0 < d -> rel_within e (lane (qrep (rsqb b hw d)) k) (/ sqrt d)).
  { intros d D. replace (lane (qrep (rsqb b hw d)) k) with (rsqb b hw d) by (destruct k; reflexivity).
    apply len_rel; [exact D|apply rsqb_ok; assumption]. }
  repeat apply conj; intros N; apply G; [apply pos2|apply pos3|apply pos4]; exact N.
Qed.
(** same direction, length one up to e *)
Theorem C58_normalize b (hw : HwEst RL) e (V : quad R) : accurate hw e -> e <= 1 ->
  (~ zero2 V -> exists k, 0 <= k /\ XMVector2NormalizeEst b V = scale k V /\ within e (norm2 (XMVector2NormalizeEst b V)) 1) /\
  (~ zero3 V -> exists k, 0 <= k /\ XMVector3NormalizeEst b V = scale k V /\ within e (norm3 (XMVector3NormalizeEst b V)) 1) /\
  (~ zero4 V -> exists k, 0 <= k /\ XMVector4NormalizeEst b V = scale k V /\ within e (norm4 (XMVector4NormalizeEst b V)) 1) /\
  (~ zero4 V -> exists k, 0 <= k /\ XMQuaternionNormalizeEst b V = scale k V /\ within e (norm4 (XMQuaternionNormalizeEst b V)) 1) /\
  (~ zero3 V -> exists k, 0 <= k /\ XMPlaneNormalizeEst b V = scale k V /\ within e (norm3 (XMPlaneNormalizeEst b V)) 1).
Proof.
  intros H E. unfold XMQuaternionNormalizeEst.
  assert (G2 : forall F : quad R, ~ zero2 V -> (exists k, F = scale k V /\ near_unit e (norm2 V) k) -> exists k, 0 <= k /\ F = scale k V /\ within e (norm2 F) 1).
  { intros F N (k & -> & K). exists k. destruct (near_norm e (norm2 V) k _ (sqrt_lt_R0 _ (pos2 V N)) E K (scale_norm2 k V)). auto. }
  assert (G3 : forall F : quad R, ~ zero3 V -> (exists k, F = scale k V /\ near_unit e (norm3 V) k) -> exists k, 0 <= k /\ F = scale k V /\ within e (norm3 F) 1).
  { intros F N (k & -> & K). exists k. destruct (near_norm e (norm3 V) k _ (sqrt_lt_R0 _ (pos3 V N)) E K (scale_norm3 k V)). auto. }
  assert (G4 : forall F : quad R, ~ zero4 V -> (exists k, F = scale k V /\ near_unit e (norm4 V) k) -> exists k, 0 <= k /\ F = scale k V /\ within e (norm4 F) 1).
  { intros F N (k & -> & K). exists k. destruct (near_norm e (norm4 V) k _ (sqrt_lt_R0 _ (pos4 V N)) E K (scale_norm4 k V)). auto. }
  repeat apply Logic.conj; intros N; [apply G2|apply G3|apply G4|apply G4|apply G3]; try exact N;
  [eapply Normalize2Est_R|eapply Normalize3Est_R|eapply Normalize4Est_R|eapply Normalize4Est_R|eapply PlaneNormalizeEst_R]; eassumption.
Qed.

(** an approximation of the documented accuracy that is nowhere exact *)
Definition hw_ex : HwEst RL := MkHwEst RL (fun x : R => (1 + 3 / 8192) / x) (fun x : R => (1 - 3 / 8192) / sqrt x).
Example C58_ex_accurate : accurate hw_ex (3 / 8192).
Proof.
  split.
  - intros x X. cbn [hw_ex hw_rcp]. replace (x * ((1 + 3 / 8192) / x) - 1) with (3 / 8192) by (field; exact X). rewrite Rabs_pos_eq; lra.
  - intros x X. assert (0 < sqrt x) by (apply sqrt_lt_R0, X). cbn [hw_ex hw_rsqrt].
    replace (sqrt x * ((1 - 3 / 8192) / sqrt x) - 1) with (- (3 / 8192)) by (field; lra). rewrite Rabs_Ropp, Rabs_pos_eq; lra.
Qed.
Example C58_ex_normalize : @XMVector3NormalizeEst RL hw_ex (SSE true true true AVX) (Q 0 3 4 0) = scale ((1 - 3 / 8192) / 5) (Q 0 3 4 0).
Proof.
  transitivity (scale ((1 - 3 / 8192) / sqrt 25) (Q 0 3 4 0)).
  - rcbv. apply (@Qeq R); repeat (f_equal; try ring).
  - replace 25 with (5 * 5) by ring. rewrite sqrt_square by lra. reflexivity.
Qed.
(** binary32 values: sin 1 and acos 0.5 come out 13 and 388 units in the last place low *)
Example C57_ex_values : @XMScalarSinEst FL 0x3F800000%Z = 1062693527%Z /\ @XMScalarACosEst FL 0x3F000000%Z = 1065748750%Z.
Proof. vm_compute. auto. Qed.
