(** C32-C42 and the composition part of C35: matrices, on every backend [b]. [RL] is exact arithmetic; where a theorem
    speaks of any [Lane], it also covers the binary32 bit patterns [FL]. *)
From Coq Require Import ZArith Reals Lra.
From Verif Require Import Base F32 Intrin Lane MVec MTrig MQuat MPlane MMatrix SpecGeom SpecQuat SpecMat PReal PVec PQuat PMatrix PTransf PBuild PView PAgree PDecomp PMatProps.
Open Scope R_scope.

(** ** C32 *)
Theorem C32_product : forall b A B i j, entry (XMMatrixMultiply (L:=RL) b A B) i j =
  entry A i I0 * entry B I0 j + entry A i I1 * entry B I1 j + entry A i I2 * entry B I2 j + entry A i I3 * entry B I3 j.
Proof. exact c32_entry. Qed.
Theorem C32_associative : forall b A B C,
  XMMatrixMultiply (L:=RL) b (XMMatrixMultiply b A B) C = XMMatrixMultiply b A (XMMatrixMultiply b B C).
Proof. exact c32_assoc. Qed.
Theorem C32_identity : forall b A,
  XMMatrixMultiply (L:=RL) b XMMatrixIdentity A = A /\ XMMatrixMultiply (L:=RL) b A XMMatrixIdentity = A.
Proof. exact c32_identity. Qed.
Theorem C32_distributes : forall b A B C,
  XMMatrixMultiply (L:=RL) b (XMMatrix_add b A B) C = XMMatrix_add b (XMMatrixMultiply b A C) (XMMatrixMultiply b B C)
  /\ XMMatrixMultiply (L:=RL) b A (XMMatrix_add b B C) = XMMatrix_add b (XMMatrixMultiply b A B) (XMMatrixMultiply b A C).
Proof. exact c32_distr. Qed.
Theorem C32_multiply_transpose : forall b A B i j,
  entry (XMMatrixMultiplyTranspose (L:=RL) b A B) i j = entry (XMMatrixMultiply (L:=RL) b A B) j i.
Proof. exact c32_transpose. Qed.
Example C32_ex : forall b, XMMatrixMultiply (L:=RL) b (mtrans (Q 1 2 3 0)) (mscaling (Q 2 3 4 0)) <> XMMatrixMultiply b (mscaling (Q 2 3 4 0)) (mtrans (Q 1 2 3 0)).
Proof. intros b H. rewrite !MMul_R in H. apply (f_equal (fun M => qx (qw M))) in H. revert H. ms. lra. Qed.

(** ** C33 *)
Theorem C33_transpose : forall (L : Lane) b (M : quad (quad (T L))) i j, entry (XMMatrixTranspose b M) i j = entry M j i.
Proof. exact @c33_entry. Qed.
Theorem C33_involution : forall (L : Lane) b b' (M : quad (quad (T L))), XMMatrixTranspose b (XMMatrixTranspose b' M) = M.
Proof. exact @c33_invol. Qed.
Example C33_ex : forall b, XMMatrixTranspose (L:=FL) b (Q (Q 1 2 3 4) (Q 5 6 7 8) (Q 9 10 11 12) (Q 13 14 0x7FC00001 0x80000000))%Z
  = (Q (Q 1 5 9 13) (Q 2 6 10 14) (Q 3 7 11 0x7FC00001) (Q 4 8 12 0x80000000))%Z.
Proof. intros b. destruct b as [|a b c [| |]]; reflexivity. Qed.

(** ** C34 *)
Theorem C34_determinant : forall b M, XMMatrixDeterminant (L:=RL) b M = qrep (mdet M).
Proof. exact Det_R. Qed.
Theorem C34_multiplicative : forall b A B, exists a c d,
  XMMatrixDeterminant (L:=RL) b A = qrep a /\ XMMatrixDeterminant (L:=RL) b B = qrep c
  /\ XMMatrixDeterminant (L:=RL) b (XMMatrixMultiply b A B) = qrep d /\ d = a * c.
Proof. exact c34_mult. Qed.
Theorem C34_inverse : forall b M, mdet M <> 0 ->
  fst (XMMatrixInverse (L:=RL) b M) = qrep (mdet M)
  /\ matmul (snd (XMMatrixInverse (L:=RL) b M)) M = ident /\ matmul M (snd (XMMatrixInverse (L:=RL) b M)) = ident.
Proof. exact c34_inverse. Qed.
(** singular matrices included *)
Theorem C34_backends_agree : forall b b' M, XMMatrixInverse (L:=RL) b M = XMMatrixInverse (L:=RL) b' M.
Proof. exact c34_agree. Qed.
Example C34_ex : mdet (Q (Q 0 2 0 1) (Q 3 0 0 1) (Q 0 0 4 1) (Q 1 1 1 1)) = 2.
Proof. ms. cbv [det4 det3 det2 qx qy qz qw]. ring. Qed.

(** ** C35 *)
(** the image of a transform, as a homogeneous vector, transformed by [B], is the transform by the product *)
Theorem C35_compose : forall b V A B,
  XMVector4Transform (L:=RL) b (XMVector4Transform b V A) B = XMVector4Transform b V (XMMatrixMultiply b A B)
  /\ XMVector4Transform (L:=RL) b (XMVector3Transform b V A) B = XMVector3Transform b V (XMMatrixMultiply b A B)
  /\ XMVector4Transform (L:=RL) b (XMVector2Transform b V A) B = XMVector2Transform b V (XMMatrixMultiply b A B)
  /\ XMVector4Transform (L:=RL) b (XMVector3TransformNormal b V A) B = XMVector3TransformNormal b V (XMMatrixMultiply b A B).
Proof. exact c35_compose. Qed.
Theorem C35_compose_coord : forall b V A B, qw (vecmat (point V) A) <> 0 -> qw (vecmat (point V) (matmul A B)) <> 0 ->
  XMVector3TransformCoord (L:=RL) b (XMVector3TransformCoord b V A) B = XMVector3TransformCoord b V (XMMatrixMultiply b A B).
Proof. exact c35_compose_coord. Qed.
Theorem C35_linear : forall b k U V M,
  XMVector4Transform (L:=RL) b (plus (scale k U) V) M = plus (scale k (XMVector4Transform b U M)) (XMVector4Transform b V M)
  /\ XMVector3TransformNormal (L:=RL) b (plus (scale k U) V) M = plus (scale k (XMVector3TransformNormal b U M)) (XMVector3TransformNormal b V M).
Proof. exact c35_linear. Qed.
Example C35_ex_compose : qw (vecmat (point (Q 1 2 3 0)) (perspm (-1) 1 (-1) 1 1 2)) = 3
  /\ qw (vecmat (point (Q 1 2 3 0)) (matmul (perspm (-1) 1 (-1) 1 1 2) (perspm (-1) 1 (-1) 1 1 2))) = 4.
Proof. unfold perspm. ms. cbv [det4 det3 det2 qx qy qz qw]. split; field. Qed.

(** ** C36 *)
Theorem C36_points : forall b v t s,
  XMVector3Transform (L:=RL) b v (XMMatrixTranslationFromVector b t) = point (plus v t)
  /\ XMVector3TransformNormal (L:=RL) b v (XMMatrixTranslationFromVector b t) = direction v
  /\ XMMatrixTranslation (L:=RL) b (qx t) (qy t) (qz t) = XMMatrixTranslationFromVector b t
  /\ XMVector3Transform (L:=RL) b v (XMMatrixScalingFromVector b s) = Q (qx v * qx s) (qy v * qy s) (qz v * qz s) 1
  /\ XMMatrixScaling (L:=RL) b (qx s) (qy s) (qz s) = XMMatrixScalingFromVector b s.
Proof. exact c36_points. Qed.
(** scale about [so] in the frame of [oq], then rotate by [rq] about [ro], then translate by [t]; [transp] of a rotation
    undoes it *)
Theorem C36_transformation : forall b so oq s ro rq t,
  XMMatrixTransformation (L:=RL) b so oq s ro rq t =
  matmul (matmul (matmul (matmul (matmul (matmul (matmul (matmul
    (mtrans (opp so)) (transp (XMMatrixRotationQuaternion b oq))) (mscaling s)) (XMMatrixRotationQuaternion b oq)) (mtrans so))
    (mtrans (opp ro))) (XMMatrixRotationQuaternion b rq)) (mtrans ro)) (mtrans t).
Proof. exact c36_transformation. Qed.
Theorem C36_affine : forall b s ro rq t,
  XMMatrixAffineTransformation (L:=RL) b s ro rq t =
  matmul (matmul (matmul (matmul (mscaling s) (mtrans (opp ro))) (XMMatrixRotationQuaternion b rq)) (mtrans ro)) (mtrans t).
Proof. exact c36_affine. Qed.
(** The 2D forms as functions of the sines and cosines the code obtains for its two angles. How far these are
    from the true ones: C36_transformation2d, C36_affine2d. *)
Theorem C36_transformation2d_sines : forall b so sn cs s ro sr cr t,
  transformation2d_sc (L:=RL) b so sn cs s ro sr cr t =
  matmul (matmul (matmul (matmul (matmul (matmul (matmul (matmul
    (mtrans (opp (flat so))) (transp (mrotz sn cs))) (mscaling (flat_scale s))) (mrotz sn cs)) (mtrans (flat so)))
    (mtrans (opp (flat ro)))) (mrotz sr cr)) (mtrans (flat ro))) (mtrans (flat t)).
Proof. exact Transformation2D_R. Qed.
Theorem C36_affine2d_sines : forall b s ro sr cr t,
  affine2d_sc (L:=RL) b s ro sr cr t =
  matmul (matmul (matmul (matmul (mscaling (flat_scale s)) (mtrans (opp (flat ro)))) (mrotz sr cr)) (mtrans (flat ro))) (mtrans (flat t)).
Proof. exact Affine2D_R. Qed.
Theorem C36_tensor_product : forall b u v i j, entry (XMMatrixVectorTensorProduct (L:=RL) b u v) i j = lane u i * lane v j.
Proof. exact c36_tensor. Qed.
Example C36_ex : forall b, vecmat (point (Q 1 0 0 0)) (XMMatrixAffineTransformation (L:=RL) b (Q 2 3 4 0) (Q 0 0 0 0) (Q 0 0 (3/5) (4/5)) (Q 1 1 1 0))
  = Q (39/25) (73/25) 1 1.
Proof. intros b. rewrite Affine_R. ms. apply (@Qeq R); field. Qed.

(** ** C37 *)
Theorem C37_reflect : forall b P x, ~ zero3 P -> exists M, XMMatrixReflect (L:=RL) b P = Some M /\
  let y := vecmat (point x) M in
  qw y = 1 /\ on_plane P (scale (/ 2) (plus x y)) /\ (exists k, minus y (point x) = scale k (direction P))
  /\ vecmat (point y) M = point x /\ (on_plane P x -> y = point x) /\ matmul M M = ident.
Proof. exact reflect_mirror. Qed.
(** [l] with w = 0 is the direction of the light, with w = 1 its position *)
Theorem C37_shadow : forall b P l, ~ zero3 P -> exists M, XMMatrixShadow (L:=RL) b P l = Some M /\ forall x,
  let y := vecmat (point x) M in
  dot4 P y = 0 /\ (on_plane P x -> exists k, y = scale k (point x)) /\
  (qw y <> 0 -> on_plane P (dehom y)) /\
  (qw l = 0 -> dot4 P l <> 0 -> qw y <> 0 /\ exists t, dehom y = plus (point x) (scale t l)) /\
  (qw l = 1 -> qw y <> 0 -> exists t, dehom y = plus (point x) (scale t (minus l (point x)))).
Proof. exact shadow_proj. Qed.
Example C37_ex : ~ zero3 (Q 0 3 4 5) /\ on_plane (Q 0 3 4 5) (Q 7 (-3) 1 0) /\ dot4 (Q 0 3 4 5) (Q 1 1 1 0) <> 0.
Proof. unfold zero3, on_plane; ms. repeat split; lra. Qed.

(** ** C38 *)
Theorem C38_look_to : forall b e d u, ~ zero3 d -> ~ zero3 (cross u d) ->
  (exists M, XMMatrixLookToLH (L:=RL) b e d u = Some M /\ looks M e d u 1)
  /\ (exists M, XMMatrixLookToRH (L:=RL) b e d u = Some M /\ looks M e d u (-1)).
Proof. exact c38_look_to. Qed.
Theorem C38_look_at : forall b e t u, let d := minus t e in ~ zero3 d -> ~ zero3 (cross u d) ->
  (exists M, XMMatrixLookAtLH (L:=RL) b e t u = Some M /\ looks M e d u 1)
  /\ (exists M, XMMatrixLookAtRH (L:=RL) b e t u = Some M /\ looks M e d u (-1)).
Proof. exact c38_look_at. Qed.
Theorem C38_handedness : forall b e d u, ~ zero3 d -> ~ zero3 (cross u d) ->
  exists M, XMMatrixLookToLH (L:=RL) b e d u = Some M /\ XMMatrixLookToRH (L:=RL) b e d u = Some (matmul M flipxz).
Proof. exact look_lh_rh. Qed.
Example C38_ex : ~ zero3 (Q 1 2 3 0) /\ ~ zero3 (cross (Q 0 1 0 0) (Q 1 2 3 0)).
Proof. unfold zero3; ms. split; lra. Qed.

(** ** C39 *)
Theorem C39_perspective : forall b w h n f,
  ((exists M, XMMatrixPerspectiveLH (L:=RL) b w h n f = Some M) <-> size_ok w h n f) /\
  ((exists M, XMMatrixPerspectiveRH (L:=RL) b w h n f = Some M) <-> size_ok w h n f) /\
  (forall M, XMMatrixPerspectiveLH (L:=RL) b w h n f = Some M -> maps_frustum M (- w / 2) (w / 2) (- h / 2) (h / 2) n f) /\
  (forall M, XMMatrixPerspectiveRH (L:=RL) b w h n f = Some M -> maps_frustum (matmul flipz M) (- w / 2) (w / 2) (- h / 2) (h / 2) n f).
Proof. exact c39_perspective. Qed.
Theorem C39_offcenter : forall b l r bt t n f,
  ((exists M, XMMatrixPerspectiveOffCenterLH (L:=RL) b l r bt t n f = Some M) <-> window_ok l r bt t n f) /\
  ((exists M, XMMatrixPerspectiveOffCenterRH (L:=RL) b l r bt t n f = Some M) <-> window_ok l r bt t n f) /\
  (forall M, XMMatrixPerspectiveOffCenterLH (L:=RL) b l r bt t n f = Some M -> maps_frustum M l r bt t n f) /\
  (forall M, XMMatrixPerspectiveOffCenterRH (L:=RL) b l r bt t n f = Some M -> maps_frustum (matmul flipz M) l r bt t n f).
Proof. exact c39_offcenter. Qed.
(** [s], [c]: the sine and cosine the library computes for half the angle *)
Theorem C39_fov : forall b v a n f (s c : R), XMScalarSinCos (L:=RL) (v / 2) = (s, c) -> s <> 0 -> c <> 0 ->
  (forall M, XMMatrixPerspectiveFovLH (L:=RL) b v a n f = Some M ->
     maps_frustum M (- (a * (n * (s / c)))) (a * (n * (s / c))) (- (n * (s / c))) (n * (s / c)) n f) /\
  (forall M, XMMatrixPerspectiveFovRH (L:=RL) b v a n f = Some M ->
     maps_frustum (matmul flipz M) (- (a * (n * (s / c)))) (a * (n * (s / c))) (- (n * (s / c))) (n * (s / c)) n f).
Proof. exact c39_fov. Qed.
Theorem C39_orthographic : forall b w h n f,
  ((exists M, XMMatrixOrthographicLH (L:=RL) b w h n f = Some M) <-> box_ok w h n f) /\
  ((exists M, XMMatrixOrthographicRH (L:=RL) b w h n f = Some M) <-> box_ok w h n f) /\
  (forall M, XMMatrixOrthographicLH (L:=RL) b w h n f = Some M -> maps_box M (- w / 2) (w / 2) (- h / 2) (h / 2) n f) /\
  (forall M, XMMatrixOrthographicRH (L:=RL) b w h n f = Some M -> maps_box (matmul flipz M) (- w / 2) (w / 2) (- h / 2) (h / 2) n f).
Proof. exact c39_orthographic. Qed.
Example C39_ex : size_ok 4 3 1 100 /\ window_ok (-1) 2 (-1) 1 1 100 /\ box_ok 4 3 (-1) 100 /\ in_frustum (-1) 2 (-1) 1 1 100 3 (-1) 50.
Proof. unfold size_ok, window_ok, box_ok, in_frustum, eps5R. repeat split; try (unfold Rabs; destruct Rcase_abs); lra. Qed.

(** ** C40 *)
Theorem C40_project : forall b v X Y W H Z0 Z1 P V Wo, XMVector3Project (L:=RL) b v X Y W H Z0 Z1 P V Wo =
  to_screen X Y W H Z0 Z1 (dehom (vecmat (point v) (matmul (matmul Wo V) P))).
Proof. exact Project_R. Qed.
Theorem C40_round_trip : forall b v X Y W H Z0 Z1 P V Wo, W <> 0 -> H <> 0 -> Z1 <> Z0 ->
  mdet (matmul (matmul Wo V) P) <> 0 -> qw (vecmat (point v) (matmul (matmul Wo V) P)) <> 0 ->
  XMVector3Unproject (L:=RL) b (XMVector3Project (L:=RL) b v X Y W H Z0 Z1 P V Wo) X Y W H Z0 Z1 P V Wo = point v.
Proof. exact project_unproject. Qed.
Example C40_ex : let M := matmul (matmul (mtrans (Q 1 0 0 0)) (mtrans (Q 0 0 5 0))) (perspm (-1) 1 (-1) 1 1 2) in
  mdet M = 2 /\ qw (vecmat (point (Q 1 2 3 0)) M) = 8.
Proof. unfold perspm. ms. cbv [det4 det3 det2 qx qy qz qw]. split; field. Qed.

(** ** C41 *)
(** "Recomposing the returned parts gives the matrix back", for rotations [M] and scales that are not below the
    library's 0.0001 in magnitude, or one of which is zero. *)
Theorem C41_recompose_partial : forall b s M t, rotation M ->
  (epsR <= Rabs (qx s) /\ epsR <= Rabs (qy s) /\ epsR <= Rabs (qz s)) \/ one_zero s ->
  exists sc q, XMMatrixDecompose (L:=RL) b (srt s M t) = Some (sc, q, point t) /\ unitq q
    /\ XMMatrixAffineTransformation (L:=RL) b sc (qrep 0) q t = srt s M t.
Proof. exact c41_decompose. Qed.
(** A negative scale of tiny magnitude loses its sign: the call succeeds and the parts do not recompose. *)
Theorem C41_tiny_scale_refuted : forall b, exists s M t sc q t', rotation M /\ XMMatrixDecompose (L:=RL) b (srt s M t) = Some (sc, q, t')
  /\ XMMatrixAffineTransformation (L:=RL) b sc (qrep 0) q t' <> srt s M t.
Proof. exact c41_small. Qed.
(** Two zero scales: the canonical basis contains the rows e1, e3, e4 of the identity instead of e1, e2, e3, and the call fails. *)
Theorem C41_two_zero_scales_refuted : forall b, exists s M t, rotation M /\ XMMatrixDecompose (L:=RL) b (srt s M t) = None.
Proof. exact c41_two_zero. Qed.
Example C41_ex : rotation (qmat (Q (3/5) 0 0 (4/5))) /\ one_zero (Q (-2) 0 (1/2) 0).
Proof.
  split.
  - unfold rotation. ms. split; [meq; field|]. repeat split; try field. 
  - right; left. cbn [qx qy qz]. unfold epsR, Rabs. repeat split; destruct Rcase_abs; lra.
Qed.

(** ** C42 *)
Theorem C42_matrix : forall (L : Lane) b (A B : quad (quad (T L))) (s : T L) i j,
  entry (XMMatrix_add b A B) i j = tadd (entry A i j) (entry B i j)
  /\ entry (XMMatrix_sub b A B) i j = tsub (entry A i j) (entry B i j)
  /\ entry (XMMatrix_div_f32 b A s) i j = tdiv (entry A i j) s
  /\ entry (XMMatrix_div_assign_f32 b A s) i j = tdiv (entry A i j) s
  /\ XMMatrix_mul b A B = XMMatrixMultiply b A B /\ XMMatrix_mul_assign b A B = XMMatrixMultiply b A B
  /\ XMMatrix_mul_f32 b A s = f32_mul_XMMatrix b s A /\ XMMatrix_mul_assign_f32 b A s = f32_mul_XMMatrix b s A.
Proof. exact @c42_matrix. Qed.
Theorem C42_vector : forall (L : Lane) b (u v : quad (T L)) (s : T L) i,
  lane (XMVector_add b u v) i = tadd (lane u i) (lane v i) /\ lane (XMVector_add_assign b u v) i = tadd (lane u i) (lane v i)
  /\ lane (XMVector_sub b u v) i = tsub (lane u i) (lane v i) /\ lane (XMVector_sub_assign b u v) i = tsub (lane u i) (lane v i)
  /\ lane (XMVector_mul b u v) i = tmul (lane u i) (lane v i) /\ lane (XMVector_mul_assign b u v) i = tmul (lane u i) (lane v i)
  /\ lane (XMVector_div b u v) i = tdiv (lane u i) (lane v i) /\ lane (XMVector_div_assign b u v) i = tdiv (lane u i) (lane v i)
  /\ lane (XMVector_div_f32 b u s) i = tdiv (lane u i) s /\ lane (XMVector_div_assign_f32 b u s) i = tdiv (lane u i) s
  /\ XMVector_mul_f32 b u s = f32_mul_XMVector b s u /\ XMVector_mul_assign_f32 b u s = f32_mul_XMVector b s u.
Proof. exact @c42_vector. Qed.
Theorem C42_scale_negate : forall b (A : rmat) (v : rvec) s i j,
  entry (f32_mul_XMMatrix (L:=RL) b s A) i j = s * entry A i j /\ lane (f32_mul_XMVector (L:=RL) b s v) i = s * lane v i
  /\ entry (XMMatrix_neg (L:=RL) b A) i j = - entry A i j /\ lane (XMVector_neg (L:=RL) b v) i = - lane v i.
Proof. exact c42_scale_real. Qed.
Theorem C42_scale_float : forall b (A : fmat) (v : fvec) s i j,
  entry (f32_mul_XMMatrix (L:=FL) b s A) i j = f_mul (entry A i j) s /\ lane (f32_mul_XMVector (L:=FL) b s v) i = f_mul (lane v i) s.
Proof. exact c42_scale_float. Qed.
Theorem C42_equality : forall (A B : rmat) (u v : rvec),
  (XMMatrix_eq (L:=RL) A B = true <-> A = B) /\ (XMVector_eq (L:=RL) u v = true <-> u = v).
Proof. exact c42_eq. Qed.
(** The SSE builds compute 0 - x, so that negating zero gives +0 there and -0 in the scalar build. *)
Theorem C42_negate_zero_refuted : exists v : fvec, XMVector_neg (L:=FL) Scalar v <> XMVector_neg (L:=FL) (SSE true true true AVX2) v.
Proof. exact c42_neg_float. Qed.
(** "M += N equals M + N" is false: the code assigns all four sums to row 0. *)
Theorem C42_add_assign_refuted : forall b, exists A B, XMMatrix_add_assign (L:=RL) b A B <> XMMatrix_add b A B.
Proof. exact c42_add_assign. Qed.
Theorem C42_sub_assign_refuted : forall b, exists A B, XMMatrix_sub_assign (L:=RL) b A B <> XMMatrix_sub b A B.
Proof. exact c42_sub_assign. Qed.
Theorem C42_assign_row0 : forall b (A B : rmat),
  XMMatrix_add_assign (L:=RL) b A B = Q (plus (qw A) (qw B)) (qy A) (qz A) (qw A)
  /\ XMMatrix_sub_assign (L:=RL) b A B = Q (minus (qw A) (qw B)) (qy A) (qz A) (qw A).
Proof. exact c42_add_assign_row0. Qed.
