(** Statements about matrices in the form used by Properties_Matrix. *)
From Coq Require Import ZArith Reals Lra Psatz Nsatz Bool.
From Verif Require Import Base F32 F32Facts Intrin Lane MVec MTrig MQuat MPlane MMatrix SpecGeom SpecQuat SpecMat PReal PVec PQuat PMatrix PRot PTransf PPlane PBuild PView PAgree PDecomp.
Open Scope R_scope.

Lemma MAdd_R b A B : XMMatrix_add (L:=RL) b A B = madd A B.
Proof. unfold XMMatrix_add, madd, qmap2. rewrite !Add_R. reflexivity. Qed.
Lemma c32_identity b A : XMMatrixMultiply (L:=RL) b XMMatrixIdentity A = A /\ XMMatrixMultiply (L:=RL) b A XMMatrixIdentity = A.
Proof. rewrite !MMul_R. split; [apply matmul_1l|apply matmul_1r]. Qed.
Lemma c32_assoc b A B C : XMMatrixMultiply (L:=RL) b (XMMatrixMultiply b A B) C = XMMatrixMultiply b A (XMMatrixMultiply b B C).
Proof. rewrite !MMul_R. apply matmul_assoc. Qed.
Lemma c32_distr b A B C :
  XMMatrixMultiply (L:=RL) b (XMMatrix_add b A B) C = XMMatrix_add b (XMMatrixMultiply b A C) (XMMatrixMultiply b B C)
  /\ XMMatrixMultiply (L:=RL) b A (XMMatrix_add b B C) = XMMatrix_add b (XMMatrixMultiply b A B) (XMMatrixMultiply b A C).
Proof. rewrite !MMul_R, !MAdd_R. split; [apply matmul_add_l|apply matmul_add_r]. Qed.
Lemma c32_entry b A B i j : entry (XMMatrixMultiply (L:=RL) b A B) i j =
  entry A i I0 * entry B I0 j + entry A i I1 * entry B I1 j + entry A i I2 * entry B I2 j + entry A i I3 * entry B I3 j.
Proof. rewrite MMul_R. dm A; dm B. destruct i, j; reflexivity. Qed.
Lemma c32_transpose b A B i j : entry (XMMatrixMultiplyTranspose (L:=RL) b A B) i j = entry (XMMatrixMultiply (L:=RL) b A B) j i.
Proof. rewrite MulT_R, MMul_R. generalize (matmul A B). intros M. dm M. destruct i, j; reflexivity. Qed.
Lemma c33_entry {L : Lane} b (M : quad (quad (T L))) i j : entry (XMMatrixTranspose b M) i j = entry M j i.
Proof. rewrite Transpose_any. destruct M. destruct i, j; reflexivity. Qed.
Lemma c33_invol {L : Lane} b b' (M : quad (quad (T L))) : XMMatrixTranspose b (XMMatrixTranspose b' M) = M.
Proof. rewrite !Transpose_any. destruct M as [[? ? ? ?] [? ? ? ?] [? ? ? ?] [? ? ? ?]]. reflexivity. Qed.
Lemma c34_mult b A B : exists a c d, XMMatrixDeterminant (L:=RL) b A = qrep a /\ XMMatrixDeterminant (L:=RL) b B = qrep c
  /\ XMMatrixDeterminant (L:=RL) b (XMMatrixMultiply b A B) = qrep d /\ d = a * c.
Proof. exists (detM A), (detM B), (detM (matmul A B)). rewrite MMul_R, !Det_R. repeat split. apply det_matmul. Qed.
Lemma c34_inverse b M : mdet M <> 0 ->
  fst (XMMatrixInverse (L:=RL) b M) = qrep (mdet M)
  /\ matmul (snd (XMMatrixInverse (L:=RL) b M)) M = ident /\ matmul M (snd (XMMatrixInverse (L:=RL) b M)) = ident.
Proof.
  change (mdet M) with (detM M). intros D. rewrite Inverse_R. cbn [fst snd]. split; [reflexivity|].
  assert (E1 : forall k A, matmul (mscale k A) M = mscale k (matmul A M)) by (clear; intros k A; dm A; dm M; unfold mscale; qs; meq; ring).
  assert (E2 : forall k A, matmul M (mscale k A) = mscale k (matmul M A)) by (clear; intros k A; dm A; dm M; unfold mscale; qs; meq; ring).
  rewrite E1, E2, adj_l, adj_r. generalize dependent (detM M). clear. intros d D.
  split; unfold mscale; qs; meq; field; exact D.
Qed.
Lemma c34_agree b b' M : XMMatrixInverse (L:=RL) b M = XMMatrixInverse (L:=RL) b' M.
Proof. rewrite !Inverse_R. reflexivity. Qed.
Lemma c35_compose b V A B :
  XMVector4Transform (L:=RL) b (XMVector4Transform b V A) B = XMVector4Transform b V (XMMatrixMultiply b A B)
  /\ XMVector4Transform (L:=RL) b (XMVector3Transform b V A) B = XMVector3Transform b V (XMMatrixMultiply b A B)
  /\ XMVector4Transform (L:=RL) b (XMVector2Transform b V A) B = XMVector2Transform b V (XMMatrixMultiply b A B)
  /\ XMVector4Transform (L:=RL) b (XMVector3TransformNormal b V A) B = XMVector3TransformNormal b V (XMMatrixMultiply b A B).
Proof. rewrite ?Transform4_R, ?Transform3_R, ?Transform2_R, ?TransformNormal3_R, !MMul_R. rt. rewrite !vecmat_matmul. repeat split; reflexivity. Qed.
Lemma c35_compose_coord b V A B : qw (vecmat (point V) A) <> 0 -> qw (vecmat (point V) (matmul A B)) <> 0 ->
  XMVector3TransformCoord (L:=RL) b (XMVector3TransformCoord b V A) B = XMVector3TransformCoord b V (XMMatrixMultiply b A B).
Proof.
  intros W1 W2. rewrite !TransformCoord3_R, MMul_R. rt. rewrite <- vecmat_matmul in *. set (u := vecmat (point V) A) in *. clearbody u.
  assert (E : point (dehom u) = scale (/ qw u) u) by (dq u; unfold point, dehom, scale; cbn [qx qy qz qw] in *; apply (@Qeq R); field; assumption).
  rewrite E.
  assert (S : forall k, vecmat (scale k u) B = scale k (vecmat u B)) by (clear; intros k; dq u; dm B; qs; apply (@Qeq R); ring).
  rewrite S. set (w := vecmat u B) in *. clearbody w. set (k := / qw u). assert (K : k <> 0) by (apply Rinv_neq_0_compat; exact W1). clearbody k.
  dq w. unfold dehom, scale; cbn [qx qy qz qw] in *. apply (@Qeq R); field; split; assumption.
Qed.
Lemma c35_linear b k U V M : XMVector4Transform (L:=RL) b (plus (scale k U) V) M = plus (scale k (XMVector4Transform b U M)) (XMVector4Transform b V M)
  /\ XMVector3TransformNormal (L:=RL) b (plus (scale k U) V) M = plus (scale k (XMVector3TransformNormal b U M)) (XMVector3TransformNormal b V M).
Proof. rewrite !Transform4_R, !TransformNormal3_R. rt. split; dq U; dq V; dm M; qs; apply (@Qeq R); ring. Qed.
Lemma c36_points b v t s :
  XMVector3Transform (L:=RL) b v (XMMatrixTranslationFromVector b t) = point (plus v t)
  /\ XMVector3TransformNormal (L:=RL) b v (XMMatrixTranslationFromVector b t) = direction v
  /\ XMMatrixTranslation (L:=RL) b (qx t) (qy t) (qz t) = XMMatrixTranslationFromVector b t
  /\ XMVector3Transform (L:=RL) b v (XMMatrixScalingFromVector b s) = Q (qx v * qx s) (qy v * qy s) (qz v * qz s) 1
  /\ XMMatrixScaling (L:=RL) b (qx s) (qy s) (qz s) = XMMatrixScalingFromVector b s.
Proof.
  rewrite !Transform3_R, TransformNormal3_R, TranslationV_R, Translation_R, Scaling_R, ScalingV_R. rt.
  rewrite vecmat_mtrans, vecmat_mtrans_dir, vecmat_mscaling. repeat split; reflexivity.
Qed.
Lemma mtrans3 t : mtrans (Q (qx t) (qy t) (qz t) 0) = mtrans t. Proof. reflexivity. Qed.
Lemma c36_transformation b so oq s ro rq t :
  XMMatrixTransformation (L:=RL) b so oq s ro rq t =
  matmul (matmul (matmul (matmul (matmul (matmul (matmul (matmul
    (mtrans (opp so)) (transp (XMMatrixRotationQuaternion b oq))) (mscaling s)) (XMMatrixRotationQuaternion b oq)) (mtrans so))
    (mtrans (opp ro))) (XMMatrixRotationQuaternion b rq)) (mtrans ro)) (mtrans t).
Proof. rewrite !RotQuat_R. apply Transformation_R. Qed.
Lemma c36_affine b s ro rq t :
  XMMatrixAffineTransformation (L:=RL) b s ro rq t =
  matmul (matmul (matmul (matmul (mscaling s) (mtrans (opp ro))) (XMMatrixRotationQuaternion b rq)) (mtrans ro)) (mtrans t).
Proof. rewrite !RotQuat_R. apply Affine_R. Qed.
Lemma c36_tensor b u v i j : entry (XMMatrixVectorTensorProduct (L:=RL) b u v) i j = lane u i * lane v j.
Proof. rewrite Tensor_R. dq u; dq v. destruct i, j; reflexivity. Qed.
(** ** Projections *)
Lemma maps_ok l r bt t n f : window_ok l r bt t n f -> maps_frustum (perspm l r bt t n f) l r bt t n f.
Proof. intros W. pose proof (window_ne _ _ _ _ _ _ W) as (A & B & C & D). destruct W as (N & F & _). apply perspm_maps; assumption. Qed.
Lemma size_window w h n f : size_ok w h n f -> window_ok (- w / 2) (w / 2) (- h / 2) (h / 2) n f.
Proof. intros (A & B & C & D & E). unfold window_ok. replace (w / 2 - - w / 2) with w by field. replace (h / 2 - - h / 2) with h by field. auto. Qed.
Lemma c39_perspective b w h n f :
  ((exists M, XMMatrixPerspectiveLH (L:=RL) b w h n f = Some M) <-> size_ok w h n f) /\
  ((exists M, XMMatrixPerspectiveRH (L:=RL) b w h n f = Some M) <-> size_ok w h n f) /\
  (forall M, XMMatrixPerspectiveLH (L:=RL) b w h n f = Some M -> maps_frustum M (- w / 2) (w / 2) (- h / 2) (h / 2) n f) /\
  (forall M, XMMatrixPerspectiveRH (L:=RL) b w h n f = Some M -> maps_frustum (matmul flipz M) (- w / 2) (w / 2) (- h / 2) (h / 2) n f).
Proof.
  split; [split|split; [split|split]].
  - intros (M & H). apply persp_lh in H. apply H.
  - intros H. eexists. apply persp_lh. eauto.
  - intros (M & H). apply persp_rh in H. apply H.
  - intros H. eexists. apply persp_rh. eauto.
  - intros M (H & ->)%persp_lh. apply maps_ok, size_window, H.
  - intros M (H & ->)%persp_rh. rewrite flipz_flipz. apply maps_ok, size_window, H.
Qed.
Lemma c39_offcenter b l r bt t n f :
  ((exists M, XMMatrixPerspectiveOffCenterLH (L:=RL) b l r bt t n f = Some M) <-> window_ok l r bt t n f) /\
  ((exists M, XMMatrixPerspectiveOffCenterRH (L:=RL) b l r bt t n f = Some M) <-> window_ok l r bt t n f) /\
  (forall M, XMMatrixPerspectiveOffCenterLH (L:=RL) b l r bt t n f = Some M -> maps_frustum M l r bt t n f) /\
  (forall M, XMMatrixPerspectiveOffCenterRH (L:=RL) b l r bt t n f = Some M -> maps_frustum (matmul flipz M) l r bt t n f).
Proof.
  split; [split|split; [split|split]].
  - intros (M & H). apply off_lh in H. apply H.
  - intros H. eexists. apply off_lh. eauto.
  - intros (M & H). apply off_rh in H. apply H.
  - intros H. eexists. apply off_rh. eauto.
  - intros M (H & ->)%off_lh. apply maps_ok, H.
  - intros M (H & ->)%off_rh. rewrite flipz_flipz. apply maps_ok, H.
Qed.
Lemma fov_R v a n f : fov_ok (L:=RL) v a n f = true -> 0 < n /\ 0 < f /\ a <> 0 /\ f <> n.
Proof.
  unfold fov_ok. rewrite !andb_true_iff, near_far_R, !distinct_R. intros (((( A & B) & _) & C) & D).
  repeat split; try assumption; apply distinct_ne; assumption.
Qed.
Lemma c39_fov b v a n f (s c : R) : XMScalarSinCos (L:=RL) (v / 2) = (s, c) -> s <> 0 -> c <> 0 ->
  (forall M, XMMatrixPerspectiveFovLH (L:=RL) b v a n f = Some M ->
     maps_frustum M (- (a * (n * (s / c)))) (a * (n * (s / c))) (- (n * (s / c))) (n * (s / c)) n f) /\
  (forall M, XMMatrixPerspectiveFovRH (L:=RL) b v a n f = Some M ->
     maps_frustum (matmul flipz M) (- (a * (n * (s / c)))) (a * (n * (s / c))) (- (n * (s / c))) (n * (s / c)) n f).
Proof.
  intros E S C.
  assert (E' : XMScalarSinCos (L:=RL) (tmul (L:=RL) (half (L:=RL)) v) = (s, c)).
  { rewrite <- E. f_equal. rewrite half_R. rl. field. }
  split; intros M; [unfold XMMatrixPerspectiveFovLH|unfold XMMatrixPerspectiveFovRH];
  (destruct (fov_ok v a n f) eqn:O; [|discriminate]); apply fov_R in O; destruct O as (N & F & A & FN); rewrite E'; intros H; injection H as <-.
  - rewrite fov_lh_sc by (try assumption; lra). apply perspm_maps; try assumption; destruct (fov_half s c n S C ltac:(lra)) as (HH & _).
    + assert (a * (n * (s / c)) <> 0) by (apply Rmult_integral_contrapositive_currified; assumption). lra.
    + lra.
  - rewrite fov_rh_sc by (try assumption; lra). rewrite flipz_flipz. apply perspm_maps; try assumption; destruct (fov_half s c n S C ltac:(lra)) as (HH & _).
    + assert (a * (n * (s / c)) <> 0) by (apply Rmult_integral_contrapositive_currified; assumption). lra.
    + lra.
Qed.
Lemma c39_orthographic b w h n f :
  ((exists M, XMMatrixOrthographicLH (L:=RL) b w h n f = Some M) <-> box_ok w h n f) /\
  ((exists M, XMMatrixOrthographicRH (L:=RL) b w h n f = Some M) <-> box_ok w h n f) /\
  (forall M, XMMatrixOrthographicLH (L:=RL) b w h n f = Some M -> maps_box M (- w / 2) (w / 2) (- h / 2) (h / 2) n f) /\
  (forall M, XMMatrixOrthographicRH (L:=RL) b w h n f = Some M -> maps_box (matmul flipz M) (- w / 2) (w / 2) (- h / 2) (h / 2) n f).
Proof.
  split; [split|split; [split|split]].
  - intros (M & H). apply ortho_lh in H. apply H.
  - intros H. eexists. apply ortho_lh. eauto.
  - intros (M & H). apply ortho_rh in H. apply H.
  - intros H. eexists. apply ortho_rh. eauto.
  - intros M (H & ->)%ortho_lh. apply box_ne in H. apply orthm_maps; apply H.
  - intros M (H & ->)%ortho_rh. rewrite flipz_flipz. apply box_ne in H. apply orthm_maps; apply H.
Qed.
(** ** Decompose *)
Lemma affine_srt b sc q t : XMMatrixAffineTransformation (L:=RL) b sc (qrep 0) q t = srt sc (qmat q) t.
Proof.
  rewrite Affine_R. unfold srt. f_equal.
  assert (Z : mtrans (opp (qrep 0)) = ident) by (ms; cbn; meq; ring). assert (Z' : mtrans (qrep 0) = ident) by reflexivity.
  rewrite Z, Z', !matmul_1r. reflexivity.
Qed.
Lemma c41_decompose b s M t : rotation M -> (epsR <= Rabs (qx s) /\ epsR <= Rabs (qy s) /\ epsR <= Rabs (qz s)) \/ one_zero s ->
  exists sc q, XMMatrixDecompose (L:=RL) b (srt s M t) = Some (sc, q, point t) /\ unitq q
    /\ XMMatrixAffineTransformation (L:=RL) b sc (qrep 0) q t = srt s M t.
Proof. intros RM O. destruct (decompose_srt b s M t RM O) as (sc & q & A & B & C). exists sc, q. rewrite affine_srt. auto. Qed.
Lemma c41_small b : exists s M t sc q t', rotation M /\ XMMatrixDecompose (L:=RL) b (srt s M t) = Some (sc, q, t')
  /\ XMMatrixAffineTransformation (L:=RL) b sc (qrep 0) q t' <> srt s M t.
Proof.
  destruct (decompose_small b) as (sc & q & t & A & B). exists (Q 1 1 (- / 16384) 1), ident, (Q 0 0 0 0), sc, q, t.
  split; [|rewrite affine_srt; auto]. unfold rotation. split; [apply matmul_1l|]. cbn [ident qx qy qz qw]. repeat split. ms. ring.
Qed.
Lemma c41_two_zero b : exists s M t, rotation M /\ XMMatrixDecompose (L:=RL) b (srt s M t) = None.
Proof.
  exists (Q 1 0 0 1), ident, (Q 0 0 0 0). split; [|apply decompose_two_zero].
  unfold rotation. split; [apply matmul_1l|]. cbn [ident qx qy qz qw]. repeat split. ms. ring.
Qed.
(** ** Operators *)
Section Op.
Context {L : Lane}.
Notation matrix := (quad (quad (T L))).
Lemma c42_matrix b (A B : matrix) (s : T L) i j :
  entry (XMMatrix_add b A B) i j = tadd (entry A i j) (entry B i j)
  /\ entry (XMMatrix_sub b A B) i j = tsub (entry A i j) (entry B i j)
  /\ entry (XMMatrix_div_f32 b A s) i j = tdiv (entry A i j) s
  /\ entry (XMMatrix_div_assign_f32 b A s) i j = tdiv (entry A i j) s
  /\ XMMatrix_mul b A B = XMMatrixMultiply b A B /\ XMMatrix_mul_assign b A B = XMMatrixMultiply b A B
  /\ XMMatrix_mul_f32 b A s = f32_mul_XMMatrix b s A /\ XMMatrix_mul_assign_f32 b A s = f32_mul_XMMatrix b s A.
Proof. destruct A as [[? ? ? ?] [? ? ? ?] [? ? ? ?] [? ? ? ?]], B as [[? ? ? ?] [? ? ? ?] [? ? ? ?] [? ? ? ?]]. repeat split; destruct b, i, j; reflexivity. Qed.
Lemma c42_vector b (u v : quad (T L)) (s : T L) i :
  lane (XMVector_add b u v) i = tadd (lane u i) (lane v i) /\ lane (XMVector_add_assign b u v) i = tadd (lane u i) (lane v i)
  /\ lane (XMVector_sub b u v) i = tsub (lane u i) (lane v i) /\ lane (XMVector_sub_assign b u v) i = tsub (lane u i) (lane v i)
  /\ lane (XMVector_mul b u v) i = tmul (lane u i) (lane v i) /\ lane (XMVector_mul_assign b u v) i = tmul (lane u i) (lane v i)
  /\ lane (XMVector_div b u v) i = tdiv (lane u i) (lane v i) /\ lane (XMVector_div_assign b u v) i = tdiv (lane u i) (lane v i)
  /\ lane (XMVector_div_f32 b u s) i = tdiv (lane u i) s /\ lane (XMVector_div_assign_f32 b u s) i = tdiv (lane u i) s
  /\ XMVector_mul_f32 b u s = f32_mul_XMVector b s u /\ XMVector_mul_assign_f32 b u s = f32_mul_XMVector b s u.
Proof. destruct u, v. repeat split; destruct b, i; reflexivity. Qed.
End Op.
Lemma c42_scale_real b (A : rmat) (v : rvec) s i j :
  entry (f32_mul_XMMatrix (L:=RL) b s A) i j = s * entry A i j /\ lane (f32_mul_XMVector (L:=RL) b s v) i = s * lane v i
  /\ entry (XMMatrix_neg (L:=RL) b A) i j = - entry A i j /\ lane (XMVector_neg (L:=RL) b v) i = - lane v i.
Proof. dm A; dq v. repeat split; destruct b, i, j; rcbv; rt; ring. Qed.
Lemma c42_eq (A B : rmat) (u v : rvec) : (XMMatrix_eq (L:=RL) A B = true <-> A = B) /\ (XMVector_eq (L:=RL) u v = true <-> u = v).
Proof.
  assert (V : forall x y : rvec, vector_eq (L:=RL) x y = true <-> x = y).
  { intros x y. dq x; dq y. unfold vector_eq, qall, veq, qmap2. cbn [qx qy qz qw teq RL]. rewrite !andb_true_iff, !Reqb_true. split; [intros (((-> & ->) & ->) & ->); reflexivity|intros H; injection H; auto]. }
  split; [|apply V]. unfold XMMatrix_eq. rewrite !andb_true_iff. rewrite !V. destruct A as [A1 A2 A3 A4], B as [B1 B2 B3 B4]; cbn [qx qy qz qw]. split; [intros (((-> & ->) & ->) & ->); reflexivity|intros H; injection H; auto].
Qed.
Lemma c42_add_assign b : exists A B, XMMatrix_add_assign (L:=RL) b A B <> XMMatrix_add b A B.
Proof.
  exists ident, ident. intros H. apply (f_equal (fun M => qy (qy M))) in H. revert H. destruct b; rcbv; lra.
Qed.
Lemma c42_sub_assign b : exists A B, XMMatrix_sub_assign (L:=RL) b A B <> XMMatrix_sub b A B.
Proof.
  exists ident, ident. intros H. apply (f_equal (fun M => qy (qy M))) in H. revert H. destruct b; rcbv; lra.
Qed.
(** what they do instead *)
Lemma c42_add_assign_row0 b (A B : rmat) :
  XMMatrix_add_assign (L:=RL) b A B = Q (plus (qw A) (qw B)) (qy A) (qz A) (qw A) /\ XMMatrix_sub_assign (L:=RL) b A B = Q (minus (qw A) (qw B)) (qy A) (qz A) (qw A).
Proof. dm A; dm B. split; destruct b; reflexivity. Qed.
Lemma c42_scale_float b (A : fmat) (v : fvec) s i j :
  entry (f32_mul_XMMatrix (L:=FL) b s A) i j = f_mul (entry A i j) s /\ lane (f32_mul_XMVector (L:=FL) b s v) i = f_mul (lane v i) s.
Proof.
  unfold f32_mul_XMMatrix, f32_mul_XMVector, entry. rewrite (agree_scale b Scalar v s). split.
  - destruct A as [A1 A2 A3 A4]. destruct i; cbn [lane qmap qx qy qz qw]; rewrite (agree_scale b Scalar); destruct j; reflexivity.
  - destruct i; reflexivity.
Qed.
Lemma c42_neg_float : exists v : fvec, XMVector_neg (L:=FL) Scalar v <> XMVector_neg (L:=FL) (SSE true true true AVX2) v.
Proof. exists (qrep 0%Z). vm_compute. discriminate. Qed.
Lemma c38_look_to b e d u : ~ zero3 d -> ~ zero3 (cross u d) ->
  (exists M, XMMatrixLookToLH (L:=RL) b e d u = Some M /\ looks M e d u 1)
  /\ (exists M, XMMatrixLookToRH (L:=RL) b e d u = Some M /\ looks M e d u (-1)).
Proof. intros D C. split; [exact (look_to_lh b e d u D C)|exact (look_to_rh b e d u D C)]. Qed.
Lemma c38_look_at b e t u : let d := minus t e in ~ zero3 d -> ~ zero3 (cross u d) ->
  (exists M, XMMatrixLookAtLH (L:=RL) b e t u = Some M /\ looks M e d u 1)
  /\ (exists M, XMMatrixLookAtRH (L:=RL) b e t u = Some M /\ looks M e d u (-1)).
Proof. intros d D C. split; [exact (look_at_lh b e t u D C)|exact (look_at_rh b e t u D C)]. Qed.
