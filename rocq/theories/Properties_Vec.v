(** C14, C18-C25, C35: vector geometry. [b : backend] ranges over every compiled path. *)
From Coq Require Import Reals Lra.
From Verif Require Import Base F32 Intrin Lane MVec SpecGeom PReal PVec PAgree.
Open Scope R_scope.

Ltac ex_vec := rcbv; qeq; lra.

(** ** C14 *)
Theorem C14_add_angles : forall b (u v : rvec),
  (forall i, - pi32 <= lane u i < pi32) -> (forall i, - 2 * pi32 <= lane v i < 2 * pi32) ->
  forall i, - pi32 <= lane (XMVectorAddAngles b u v) i < pi32
    /\ exists k : Z, lane (XMVectorAddAngles b u v) i = lane u i + lane v i + IZR k * (2 * pi32).
Proof. exact c14_add. Qed.
Theorem C14_subtract_angles : forall b (u v : rvec),
  (forall i, - pi32 <= lane u i < pi32) -> (forall i, - 2 * pi32 <= lane v i < 2 * pi32) ->
  forall i, - pi32 <= lane (XMVectorSubtractAngles b u v) i < pi32
    /\ exists k : Z, lane (XMVectorSubtractAngles b u v) i = lane u i - lane v i + IZR k * (2 * pi32).
Proof. exact c14_sub. Qed.
Example C14_ex : (forall i, - pi32 <= lane (Q 3 (-3) 0 (-1)) i < pi32) /\ (forall i, -2 * pi32 <= lane (Q 6 (-6) 3 1) i < 2 * pi32)
  /\ XMVectorAddAngles Scalar (Q 3 (-3) 0 (-1)) (Q 6 (-6) 3 1) = Q (9 - 2 * pi32) (2 * pi32 - 9) 3 0.
Proof.
  split; [|split]; [intros []; unfold pi32; cbn; lra | intros []; unfold pi32; cbn; lra |].
  unfold pi32. rcbv. repeat (rcase; try lra). qeq; lra.
Qed.

(** ** C18: bit-level agreement and its exact limits *)
Theorem C18_elementwise : forall b b' (u v : fvec),
  XMVectorAdd b u v = XMVectorAdd b' u v /\ XMVectorSubtract b u v = XMVectorSubtract b' u v
  /\ XMVectorMultiply b u v = XMVectorMultiply b' u v /\ XMVectorDivide b u v = XMVectorDivide b' u v
  /\ XMVectorReciprocal b u = XMVectorReciprocal b' u /\ XMVectorSqrt b u = XMVectorSqrt b' u
  /\ XMVectorReciprocalSqrt b u = XMVectorReciprocalSqrt b' u.
Proof. exact agree_elem. Qed.
Theorem C18_scale : forall b b' (u : fvec) s, XMVectorScale b u s = XMVectorScale b' u s.
Proof. exact agree_scale. Qed.
Theorem C18_multiply_add : forall b b' (u v w : fvec), no_fma b -> no_fma b' ->
  XMVectorMultiplyAdd b u v w = XMVectorMultiplyAdd b' u v w
  /\ XMVectorNegativeMultiplySubtract b u v w = XMVectorNegativeMultiplySubtract b' u v w.
Proof. exact agree_muladd. Qed.
Theorem C18_dot2_cross2 : forall b b' (u v : fvec),
  XMVector2Dot b u v = XMVector2Dot b' u v /\ XMVector2Cross b u v = XMVector2Cross b' u v.
Proof. exact (fun b b' u v => conj (agree_dot2 b b' u v) (agree_cross2 b b' u v)). Qed.
Theorem C18_dot3_sse2 : forall b s3 f a (u v : fvec),
  b = Scalar \/ b = SSE s3 false f a -> XMVector3Dot b u v = XMVector3Dot Scalar u v.
Proof. exact agree_dot3. Qed.
(** The SSE4.1 path may turn a result of -0 into +0 and does nothing else. *)
Theorem C18_dot3_sse4 : forall s3 f a (u v : fvec),
  XMVector3Dot (SSE s3 true f a) u v = XMVector3Dot Scalar u v
  \/ (XMVector3Dot (SSE s3 true f a) u v = qrep 0%Z /\ XMVector3Dot Scalar u v = qrep 0x80000000%Z).
Proof. exact agree_dot3_sse4. Qed.
Theorem C18_cross3 : forall b b' (u v : fvec), no_fma b -> no_fma b' -> XMVector3Cross b u v = XMVector3Cross b' u v.
Proof. exact agree_cross3. Qed.
Theorem C18_transform : forall b b' (v : fvec) (m : fmat), no_fma b -> no_fma b' ->
  XMVector2Transform b v m = XMVector2Transform b' v m
  /\ XMVector3Transform b v m = XMVector3Transform b' v m
  /\ XMVector2TransformCoord b v m = XMVector2TransformCoord b' v m
  /\ XMVector3TransformCoord b v m = XMVector3TransformCoord b' v m
  /\ XMVector2TransformNormal b v m = XMVector2TransformNormal b' v m
  /\ XMVector3TransformNormal b v m = XMVector3TransformNormal b' v m.
Proof. exact agree_transform. Qed.
Theorem C18_dot4_sse3_sse4 : forall f a s3 f' a' (u v : fvec),
  XMVector4Dot (SSE true false f a) u v = XMVector4Dot (SSE s3 true f' a') u v.
Proof. exact agree_dot4_sse34. Qed.
(** Where the association or the fusing differs, so do the bits. *)
Theorem C18_dot4_assoc_refuted : exists u v : fvec,
  XMVector4Dot Scalar u v <> XMVector4Dot (SSE true false false NoAVX) u v.
Proof. exists w1, wd. rewrite dot4_scalar_val, dot4_sse3_val. discriminate. Qed.
Theorem C18_dot4_sse2_refuted : exists u v : fvec,
  XMVector4Dot (SSE false false false NoAVX) u v <> XMVector4Dot (SSE true false false NoAVX) u v.
Proof. exists w1, we. rewrite dot4_sse2_val', dot4_sse3_val'. discriminate. Qed.
Theorem C18_dot3_sse4_refuted : exists u v : fvec,
  XMVector3Dot (SSE true true false NoAVX) u v <> XMVector3Dot Scalar u v.
Proof. eexists _, _. rewrite (proj1 dot3_sse4_val), (proj2 dot3_sse4_val). discriminate. Qed.
(** with FMA the cross product of a vector with itself need not vanish *)
Theorem C18_cross3_fma_refuted : exists u : fvec,
  XMVector3Cross Scalar u u = qrep 0%Z /\ XMVector3Cross (SSE true true true AVX2) u u <> qrep 0%Z.
Proof. exists wa. rewrite cross_scalar_val, cross_fma_val. split; [reflexivity|discriminate]. Qed.
Theorem C18_transform4_refuted : exists (v : fvec) (m : fmat),
  XMVector4Transform Scalar v m <> XMVector4Transform (SSE false false false NoAVX) v m.
Proof. exists w1, wm. rewrite (proj1 transform4_val), (proj2 transform4_val). discriminate. Qed.
Example C18_ex : no_fma (SSE true true false AVX2) /\ no_fma Scalar
  /\ XMVector3Dot Scalar wa wd = qrep 0x4B800003%Z /\ XMVector3Dot (SSE false false true NoAVX) wa wd = qrep 0x4B800003%Z.
Proof. vm_compute. repeat split. Qed.

(** ** C19 *)
Theorem C19_dot : forall b u v,
  XMVector2Dot b u v = qrep (dot2 u v) /\ XMVector3Dot b u v = qrep (dot3 u v) /\ XMVector4Dot b u v = qrep (dot4 u v).
Proof. exact c19_dot. Qed.
Theorem C19_length : forall b u,
  (XMVector2LengthSq b u = qrep (dot2 u u) /\ XMVector2Length b u = qrep (norm2 u))
  /\ (XMVector3LengthSq b u = qrep (dot3 u u) /\ XMVector3Length b u = qrep (norm3 u))
  /\ (XMVector4LengthSq b u = qrep (dot4 u u) /\ XMVector4Length b u = qrep (norm4 u)).
Proof. exact c19_length. Qed.
Theorem C19_reciprocal_length : forall b u,
  (~ zero2 u -> vmul (XMVector2ReciprocalLength b u) (XMVector2Length b u) = qrep 1)
  /\ (~ zero3 u -> vmul (XMVector3ReciprocalLength b u) (XMVector3Length b u) = qrep 1)
  /\ (~ zero4 u -> vmul (XMVector4ReciprocalLength b u) (XMVector4Length b u) = qrep 1).
Proof. exact c19_recip. Qed.
Theorem C19_cauchy_schwarz_triangle : forall b u v,
  (Rabs (qx (XMVector2Dot b u v)) <= qx (XMVector2Length b u) * qx (XMVector2Length b v)
   /\ qx (XMVector2Length b (XMVectorAdd b u v)) <= qx (XMVector2Length b u) + qx (XMVector2Length b v))
  /\ (Rabs (qx (XMVector3Dot b u v)) <= qx (XMVector3Length b u) * qx (XMVector3Length b v)
   /\ qx (XMVector3Length b (XMVectorAdd b u v)) <= qx (XMVector3Length b u) + qx (XMVector3Length b v))
  /\ (Rabs (qx (XMVector4Dot b u v)) <= qx (XMVector4Length b u) * qx (XMVector4Length b v)
   /\ qx (XMVector4Length b (XMVectorAdd b u v)) <= qx (XMVector4Length b u) + qx (XMVector4Length b v)).
Proof. exact c19_ineq. Qed.
Example C19_ex_dot : XMVector3Dot (SSE true true true AVX2) (Q 1 2 3 9) (Q 4 5 6 7) = qrep 32.
Proof. ex_vec. Qed.
Example C19_ex_len : XMVector2Length Scalar (Q 3 4 7 7) = qrep 5 /\ ~ zero2 (Q 3 4 7 7).
Proof.
  split; [|unfold zero2; cbn; lra]. rewrite Length2_R. f_equal. unfold norm2.
  replace (dot2 _ _) with (5 * 5) by (unfold dot2; cbn; lra). apply sqrt_square; lra.
Qed.

(** ** C20 *)
Theorem C20_cross2_signed_area : forall b u v, XMVector2Cross b u v = qrep (det2 (qx u) (qy u) (qx v) (qy v)).
Proof. exact c20_cross2. Qed.
Theorem C20_cross3_value : forall b u v, XMVector3Cross b u v = cross u v.
Proof. exact c20_cross3. Qed.
Theorem C20_cross3_laws : forall b u v,
  XMVector3Dot b (XMVector3Cross b u v) u = qrep 0
  /\ XMVector3Dot b (XMVector3Cross b u v) v = qrep 0
  /\ XMVector3Cross b v u = XMVectorNegate b (XMVector3Cross b u v)
  /\ qx (XMVector3LengthSq b (XMVector3Cross b u v)) + Rsqr (qx (XMVector3Dot b u v))
     = qx (XMVector3LengthSq b u) * qx (XMVector3LengthSq b v).
Proof. exact c20_cross3_laws. Qed.
Theorem C20_cross4 : forall b u v w x,
  XMVector4Dot b x (XMVector4Cross b u v w) = qrep (det4 x u v w)
  /\ XMVector4Dot b u (XMVector4Cross b u v w) = qrep 0
  /\ XMVector4Dot b v (XMVector4Cross b u v w) = qrep 0
  /\ XMVector4Dot b w (XMVector4Cross b u v w) = qrep 0.
Proof. exact c20_cross4. Qed.
Example C20_ex : XMVector3Cross Scalar (Q 1 0 0 5) (Q 0 1 0 5) = Q 0 0 1 0
  /\ XMVector4Cross (SSE false false false NoAVX) (Q 1 0 0 0) (Q 0 1 0 0) (Q 0 0 1 0) = Q 0 0 0 (-1).
Proof. split; ex_vec. Qed.

(** ** C21 *)
Theorem C21_unit_parallel : forall b V,
  (~ zero2 V -> norm2 (XMVector2Normalize b V) = 1 /\ exists k, 0 < k /\ XMVector2Normalize b V = scale k V)
  /\ (~ zero3 V -> norm3 (XMVector3Normalize b V) = 1 /\ exists k, 0 < k /\ XMVector3Normalize b V = scale k V)
  /\ (~ zero4 V -> norm4 (XMVector4Normalize b V) = 1 /\ exists k, 0 < k /\ XMVector4Normalize b V = scale k V).
Proof. exact c21_unit. Qed.
Theorem C21_zero : forall b V,
  (zero2 V -> XMVector2Normalize b V = qrep 0) /\ (zero3 V -> XMVector3Normalize b V = qrep 0)
  /\ (zero4 V -> XMVector4Normalize b V = qrep 0).
Proof. exact c21_zero. Qed.
Example C21_ex : ~ zero2 (Q 3 4 0 0) /\ XMVector2Normalize (SSE true false false NoAVX) (Q 3 4 0 10) = Q (3/5) (4/5) 0 2.
Proof.
  split; [unfold zero2; cbn; lra|]. rewrite Normalize2_R by (unfold zero2; cbn; lra).
  replace (norm2 (Q 3 4 0 10)) with 5. 2:{ unfold norm2. replace (dot2 _ _) with (5 * 5) by (unfold dot2; cbn; lra).
    rewrite sqrt_square; lra. }
  unfold scale. qeq; lra.
Qed.

(** ** C22 *)
Theorem C22_nonzero_partial : forall b V lo hi, 0 <= lo <= hi ->
  (~ zero2 V -> exists k W, XMVector2ClampLength b V lo hi = Some W /\ 0 <= k /\ W = scale k V
                          /\ norm2 W = clampR lo hi (norm2 V))
  /\ (~ zero3 V -> exists k, 0 <= k /\ XMVector3ClampLength b V lo hi = scale k V
                          /\ norm3 (XMVector3ClampLength b V lo hi) = clampR lo hi (norm3 V))
  /\ (~ zero4 V -> exists k W, XMVector4ClampLength b V lo hi = Some W /\ 0 <= k /\ W = scale k V
                          /\ norm4 W = clampR lo hi (norm4 V)).
Proof. exact c22_clamp. Qed.
(** The zero vector has no direction and stays zero, so a positive minimum is not reached. *)
Theorem C22_zero : forall b V lo hi, 0 <= lo <= hi ->
  (zero2 V -> exists W, XMVector2ClampLength b V lo hi = Some W /\ zero2 W)
  /\ (zero3 V -> zero3 (XMVector3ClampLength b V lo hi))
  /\ (zero4 V -> exists W, XMVector4ClampLength b V lo hi = Some W /\ zero4 W).
Proof. exact c22_zero. Qed.
Theorem C22_zero_refuted : exists b V lo hi, 0 <= lo <= hi /\ norm3 (XMVector3ClampLength b V lo hi) <> clampR lo hi (norm3 V).
Proof.
  exists Scalar, (qrep 0), 1, 2. split; [lra|].
  pose proof (proj1 (proj2 (C22_zero Scalar (qrep 0) 1 2 ltac:(lra)))) as Z.
  assert (N : norm3 (qrep 0) = 0) by (unfold norm3; replace (dot3 _ _) with 0 by (unfold dot3; cbn; ring); apply sqrt_0).
  rewrite N. unfold norm3. rewrite (proj2 (dot3_0 _) (Z (conj eq_refl (conj eq_refl eq_refl)))), sqrt_0.
  unfold clampR. rewrite Rmax_left, Rmin_right by lra. lra.
Qed.
Example C22_ex : exists V, ~ zero2 V /\ norm2 V = 5 /\ XMVector2ClampLength Scalar V 1 2 = Some (Q (6/5) (8/5) 0 0).
Proof.
  exists (Q 3 4 0 0). split; [unfold zero2; cbn; lra|].
  assert (N : norm2 (Q 3 4 0 0) = 5) by (unfold norm2; replace (dot2 _ _) with (5 * 5) by (unfold dot2; cbn; lra); rewrite sqrt_square; lra).
  split; [exact N|]. rewrite Clamp2_some by lra. rewrite clamp_R by (unfold dot2; cbn; lra).
  fold (norm2 (Q 3 4 0 0)). rewrite N. unfold clampR. rewrite Rmax_right, Rmin_left by lra. f_equal. unfold scale. qeq; lra.
Qed.

(** ** C23 *)
Theorem C23_reflect2 : forall b i n, dot2 n n = 1 ->
  XMVector2Reflect b (XMVector2Reflect b i n) n = i
  /\ norm2 (XMVector2Reflect b i n) = norm2 i
  /\ dot2 (XMVector2Reflect b i n) n = - dot2 i n
  /\ (forall t, dot2 t n = 0 -> dot2 (XMVector2Reflect b i n) t = dot2 i t).
Proof. exact c23_reflect2. Qed.
Theorem C23_reflect3 : forall b i n, dot3 n n = 1 ->
  XMVector3Reflect b (XMVector3Reflect b i n) n = i
  /\ norm3 (XMVector3Reflect b i n) = norm3 i
  /\ dot3 (XMVector3Reflect b i n) n = - dot3 i n
  /\ (forall t, dot3 t n = 0 -> dot3 (XMVector3Reflect b i n) t = dot3 i t).
Proof. exact c23_reflect3. Qed.
Theorem C23_reflect4 : forall b i n, dot4 n n = 1 ->
  XMVector4Reflect b (XMVector4Reflect b i n) n = i
  /\ norm4 (XMVector4Reflect b i n) = norm4 i
  /\ dot4 (XMVector4Reflect b i n) n = - dot4 i n
  /\ (forall t, dot4 t n = 0 -> dot4 (XMVector4Reflect b i n) t = dot4 i t).
Proof. exact c23_reflect4. Qed.
Theorem C23_refract2 : forall b i n m, dot2 i i = 1 -> dot2 n n = 1 ->
  (0 < snell (dot2 i n) m ->
     norm2 (XMVector2Refract b i n m) = 1
     /\ (forall t, dot2 t n = 0 -> dot2 (XMVector2Refract b i n m) t = m * dot2 i t)
     /\ dot2 (XMVector2Refract b i n m) n < 0)
  /\ (snell (dot2 i n) m < 0 -> zero2 (XMVector2Refract b i n m)).
Proof. exact c23_refract2. Qed.
Theorem C23_refract3 : forall b i n m, dot3 i i = 1 -> dot3 n n = 1 ->
  (0 < snell (dot3 i n) m ->
     norm3 (XMVector3Refract b i n m) = 1
     /\ (forall t, dot3 t n = 0 -> dot3 (XMVector3Refract b i n m) t = m * dot3 i t)
     /\ dot3 (XMVector3Refract b i n m) n < 0)
  /\ (snell (dot3 i n) m <= 0 -> XMVector3Refract b i n m = qrep 0).
Proof. exact c23_refract3. Qed.
Theorem C23_refract4 : forall b i n m, dot4 i i = 1 -> dot4 n n = 1 ->
  (0 < snell (dot4 i n) m ->
     norm4 (XMVector4Refract b i n m) = 1
     /\ (forall t, dot4 t n = 0 -> dot4 (XMVector4Refract b i n m) t = m * dot4 i t)
     /\ dot4 (XMVector4Refract b i n m) n < 0)
  /\ (snell (dot4 i n) m <= 0 -> XMVector4Refract b i n m = qrep 0).
Proof. exact c23_refract4. Qed.
(** At exactly the critical angle the scalar 2D path returns the grazing ray, the SSE path (and 3D, 4D) zero. *)
Theorem C23_critical_angle_refuted : exists i n m,
  dot2 i i = 1 /\ dot2 n n = 1 /\ snell (dot2 i n) m = 0
  /\ zero2 (XMVector2Refract (SSE false false false NoAVX) i n m) /\ ~ zero2 (XMVector2Refract Scalar i n m).
Proof.
  exists (Q 1 0 0 0), (Q 0 1 0 0), 1. unfold snell, dot2, zero2; cbn -[XMVector2Refract].
  repeat (apply conj; [ring|]). rcbv. replace (1 * 0 + 0 * 1) with 0 by ring.
  replace (1 - (1 - 0 * 0) * 1 * 1) with 0 by ring.
  destruct (Rltb_spec 0 0); [lra|]. destruct (Rleb_spec 0 0); [|lra]. rewrite sqrt_0. split; [split; reflexivity|]. lra.
Qed.
Example C23_ex_reflect : dot3 (Q 0 1 0 0) (Q 0 1 0 0) = 1 /\ XMVector3Reflect Scalar (Q 1 (-1) 2 0) (Q 0 1 0 0) = Q 1 1 2 0.
Proof. split; [unfold dot3; cbn; lra | ex_vec]. Qed.
Example C23_ex_refract : let i := Q (3/5) (-4/5) 0 0 in let n := Q 0 1 0 0 in
  dot3 i i = 1 /\ dot3 n n = 1 /\ 0 < snell (dot3 i n) 1 /\ snell (dot3 i n) 2 < 0.
Proof. unfold snell, dot3; cbn; lra. Qed.

(** ** C24 *)
Theorem C24_orthogonal2 : forall b V, dot2 V (XMVector2Orthogonal b V) = 0 /\ norm2 (XMVector2Orthogonal b V) = norm2 V.
Proof. exact c24_2. Qed.
Theorem C24_orthogonal3 : forall b V, dot3 V (XMVector3Orthogonal b V) = 0 /\ (~ zero3 V -> ~ zero3 (XMVector3Orthogonal b V)).
Proof. exact c24_3. Qed.
Theorem C24_orthogonal4 : forall b V, dot4 V (XMVector4Orthogonal b V) = 0 /\ norm4 (XMVector4Orthogonal b V) = norm4 V.
Proof. exact c24_4. Qed.
Example C24_ex : ~ zero3 (Q 1 (-2) 3 0) /\ XMVector3Orthogonal Scalar (Q 1 (-2) 3 0) = Q (-5) (-1) 1 1.
Proof. split; [unfold zero3; cbn; lra|]. rcbv. repeat (rcase; try lra). cbn [Bool.eqb]. qeq; lra. Qed.

(** ** C25 *)
Theorem C25_line_point_distance2 : forall b P1 P2 P, ~ eq2 P1 P2 -> exists d,
  XMVector2LinePointDistance b P1 P2 P = qrep d
  /\ (exists t, d = norm2 (minus P (along P1 P2 t))) /\ (forall t, d <= norm2 (minus P (along P1 P2 t))).
Proof. exact c25_dist2. Qed.
Theorem C25_line_point_distance3 : forall b P1 P2 P, ~ eq3 P1 P2 -> exists d,
  XMVector3LinePointDistance b P1 P2 P = qrep d
  /\ (exists t, d = norm3 (minus P (along P1 P2 t))) /\ (forall t, d <= norm3 (minus P (along P1 P2 t))).
Proof. exact c25_dist3. Qed.
Theorem C25_components_from_normal : forall b V N, dot3 N N = 1 ->
  let (par, perp) := XMVector3ComponentsFromNormal b V N in
  (exists k, par = scale k N) /\ plus par perp = V /\ dot3 perp N = 0.
Proof. exact c25_components. Qed.
(** lines whose direction cross product exceeds the code's tolerance 2^-23 *)
Theorem C25_intersect_line : forall b A1 A2 B1 B2,
  / 8388608 < Rabs (det2 (qx A2 - qx A1) (qy A2 - qy A1) (qx B2 - qx B1) (qy B2 - qy B1)) ->
  exists s t, eq2 (XMVector2IntersectLine b A1 A2 B1 B2) (along A1 A2 s)
    /\ eq2 (XMVector2IntersectLine b A1 A2 B1 B2) (along B1 B2 t).
Proof. exact c25_intersect. Qed.
Example C25_ex_distance : ~ eq2 (qrep 0) (Q 1 0 0 0) /\ XMVector2LinePointDistance Scalar (qrep 0) (Q 1 0 0 0) (Q 7 3 0 0) = qrep 3.
Proof.
  split; [unfold eq2; cbn; lra|]. rewrite LPD2_R. f_equal. unfold norm2.
  replace (dot2 _ _) with (3 * 3) by (unfold dot2, along; cbn; field). apply sqrt_square; lra.
Qed.
Example C25_ex_intersect : / 8388608 < Rabs (det2 (1 - 0) (1 - 0) (1 - 0) (0 - 1)).
Proof. unfold det2. rewrite Rabs_left; lra. Qed.

(** ** C35 *)
Theorem C35_transform : forall b V M,
  XMVector2Transform b V M = vecmat (point2 V) M /\ XMVector3Transform b V M = vecmat (point V) M
  /\ XMVector4Transform b V M = vecmat V M.
Proof. exact (fun b V M => conj (Transform2_R b V M) (conj (Transform3_R b V M) (Transform4_R b V M))). Qed.
Theorem C35_transform_normal : forall b V M,
  XMVector2TransformNormal b V M = vecmat (direction2 V) M /\ XMVector3TransformNormal b V M = vecmat (direction V) M.
Proof. exact (fun b V M => conj (TransformNormal2_R b V M) (TransformNormal3_R b V M)). Qed.
Theorem C35_transform_coord : forall b V M,
  XMVector2TransformCoord b V M = dehom (vecmat (point2 V) M) /\ XMVector3TransformCoord b V M = dehom (vecmat (point V) M).
Proof. exact (fun b V M => conj (TransformCoord2_R b V M) (TransformCoord3_R b V M)). Qed.
Example C35_ex : XMVector3Transform (SSE true true true AVX2) (Q 1 2 3 9) (Q (Q 1 0 0 0) (Q 0 1 0 0) (Q 0 0 1 0) (Q 10 20 30 1)) = Q 11 22 33 1.
Proof. ex_vec. Qed.
