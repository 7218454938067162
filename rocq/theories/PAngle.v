(** Angles between vectors. *)
From Coq Require Import Reals ZArith Lra Psatz.
From Verif Require Import Base F32 Intrin Lane SpecF32 SpecGeom SpecQuat SpecAngle MVec MTrig MQuat PReal PVec PArc PEst PF32 PHyp.
Open Scope R_scope.

Definition aerr : R := 62 / 100000000.
Lemma clamp_R b (c : R) : XMVectorClamp b (qrep c : rvec) (qrep (@mone RL)) (@vone RL) = qrep (Rmin 1 (Rmax (-1) c)).
Proof. bk b; rcbv; unfold Rmin, Rmax; apply (@Qeq R); repeat rcase; repeat destruct (Rle_dec _ _); lra. Qed.
Lemma angle_ok b (c : R) : all_lanes (close aerr (acos c)) (@angle_of_cos RL RM b (qrep c)).
Proof.
  unfold angle_of_cos. rt. rewrite clamp_R, <- (acos_clamp c). generalize (Rmin 1 (Rmax (-1) c)). intros r. unfold all_lanes, close, aerr. destruct b.
  - change (XMVectorACos Scalar (qrep r)) with (qrep (acos r)). unfold qrep. cbn [qx qy qz qw]. rewrite Rminus_eq_0, Rabs_R0. lra.
  - rewrite vacos_R by discriminate. unfold qrep, qmap. cbn [qx qy qz qw]. pose proof (racos_ok r). auto.
Qed.
Lemma normals_ok b u v : all_lanes (close aerr (acos (dot2 u v))) (@XMVector2AngleBetweenNormals RL RM b u v) /\
  all_lanes (close aerr (acos (dot3 u v))) (@XMVector3AngleBetweenNormals RL RM b u v) /\
  all_lanes (close aerr (acos (dot4 u v))) (@XMVector4AngleBetweenNormals RL RM b u v).
Proof.
  unfold XMVector2AngleBetweenNormals, XMVector3AngleBetweenNormals, XMVector4AngleBetweenNormals. rewrite Dot2_R, Dot3_R, Dot4_R.
  split; [|split]; apply angle_ok.
Qed.
Lemma mul3_R b (d x y : R) : XMVectorMultiply b (qrep d) (XMVectorMultiply b (qrep x) (qrep y)) = qrep (d * (x * y)).
Proof. rewrite !Mul_R. reflexivity. Qed.
Lemma vectors_ok b u v :
  (norm2 u <> 0 -> norm2 v <> 0 -> all_lanes (close aerr (angle2 u v)) (@XMVector2AngleBetweenVectors RL RM b u v)) /\
  (norm3 u <> 0 -> norm3 v <> 0 -> all_lanes (close aerr (angle3 u v)) (@XMVector3AngleBetweenVectors RL RM b u v)) /\
  (norm4 u <> 0 -> norm4 v <> 0 -> all_lanes (close aerr (angle4 u v)) (@XMVector4AngleBetweenVectors RL RM b u v)).
Proof.
  unfold XMVector2AngleBetweenVectors, XMVector3AngleBetweenVectors, XMVector4AngleBetweenVectors, angle2, angle3, angle4. cbv zeta.
  rewrite !RLength2_R, !RLength3_R, !RLength4_R, Dot2_R, Dot3_R, Dot4_R. rt. rewrite !mul3_R.
  split; [|split]; intros Hu Hv.
  - replace (dot2 u v / (norm2 u * norm2 v)) with (dot2 u v * (1 / norm2 u * (1 / norm2 v))) by (field; auto). apply angle_ok.
  - replace (dot3 u v / (norm3 u * norm3 v)) with (dot3 u v * (1 / norm3 u * (1 / norm3 v))) by (field; auto). apply angle_ok.
  - replace (dot4 u v / (norm4 u * norm4 v)) with (dot4 u v * (1 / norm4 u * (1 / norm4 v))) by (field; auto). apply angle_ok.
Qed.
(** the cosine is one: Cauchy-Schwarz *)
Lemma cs_quot d a c : 0 < a -> 0 < c -> d * d <= a * c -> -1 <= d / (sqrt a * sqrt c) <= 1.
Proof.
  intros Ha Hc H. pose proof (sqrt_lt_R0 a Ha) as A. pose proof (sqrt_lt_R0 c Hc) as C. pose proof (sqrt_sqrt a ltac:(lra)) as EA. pose proof (sqrt_sqrt c ltac:(lra)) as EC.
  set (p := sqrt a * sqrt c). assert (P : 0 < p) by (apply Rmult_lt_0_compat; assumption).
  assert (PP : p * p = a * c) by (unfold p; replace (sqrt a * sqrt c * (sqrt a * sqrt c)) with ((sqrt a * sqrt a) * (sqrt c * sqrt c)) by ring; rewrite EA, EC; reflexivity).
  assert (D : Rabs d <= p) by (apply Rsqr_incr_0_var; [unfold Rsqr; rewrite <- Rabs_mult, Rabs_pos_eq by nra; lra|lra]).
  assert (D' : - p <= d <= p) by (revert D; unfold Rabs; destruct (Rcase_abs d); lra).
  split; [apply Rmult_le_reg_r with p|apply Rmult_le_reg_r with p]; try exact P; unfold Rdiv; rewrite Rmult_assoc, Rinv_l by lra; lra.
Qed.
Lemma cs4 u v : dot4 u v * dot4 u v <= dot4 u u * dot4 v v.
Proof.
  dq u; dq v. unfold dot4. cbn [qx qy qz qw].
  match goal with |- ?a <= ?b => assert (0 <= b - a); [|lra] end.
  pose proof (Rle_0_sqr (ux * vy - uy * vx)). pose proof (Rle_0_sqr (ux * vz - uz * vx)). pose proof (Rle_0_sqr (ux * vw - uw * vx)).
  pose proof (Rle_0_sqr (uy * vz - uz * vy)). pose proof (Rle_0_sqr (uy * vw - uw * vy)). pose proof (Rle_0_sqr (uz * vw - uw * vz)). unfold Rsqr in *. lra.
Qed.
Lemma dot3_as4 u v : dot3 u v = dot4 (direction u) (direction v).
Proof. dq u; dq v. unfold dot3, dot4, direction. cbn [qx qy qz qw]. ring. Qed.
Lemma dot2_as4 u v : dot2 u v = dot4 (Q (qx u) (qy u) 0 0) (Q (qx v) (qy v) 0 0).
Proof. dq u; dq v. unfold dot2, dot4. cbn [qx qy qz qw]. ring. Qed.
Lemma dot4_ge0 u : 0 <= dot4 u u.
Proof. dq u. unfold dot4. cbn [qx qy qz qw]. pose proof (Rle_0_sqr ux). pose proof (Rle_0_sqr uy). pose proof (Rle_0_sqr uz). pose proof (Rle_0_sqr uw). unfold Rsqr in *. lra. Qed.
Lemma sqrt_ne a : 0 <= a -> sqrt a <> 0 -> 0 < a.
Proof. intros H N. destruct H as [H|H]; [exact H|]. exfalso. apply N. rewrite <- H. apply sqrt_0. Qed.
Lemma cosine_range u v :
  (norm2 u <> 0 -> norm2 v <> 0 -> -1 <= dot2 u v / (norm2 u * norm2 v) <= 1) /\
  (norm3 u <> 0 -> norm3 v <> 0 -> -1 <= dot3 u v / (norm3 u * norm3 v) <= 1) /\
  (norm4 u <> 0 -> norm4 v <> 0 -> -1 <= dot4 u v / (norm4 u * norm4 v) <= 1).
Proof.
  unfold norm2, norm3, norm4. rewrite !dot3_as4, !dot2_as4. split; [|split]; intros Hu Hv; apply cs_quot; try (apply sqrt_ne; [apply dot4_ge0|assumption]); apply cs4.
Qed.
(** ** bit patterns: the arc cosine is only asked inside its domain *)
Definition acos_domain (z : Z) : Prop := match value z with NaN => True | Inf _ => False | Fin x => -1 <= x <= 1 end.
Lemma one_FL : @one FL = 0x3F800000%Z. Proof. vm_compute. reflexivity. Qed.
Lemma mone_FL : @mone FL = 0xBF800000%Z. Proof. vm_compute. reflexivity. Qed.
Lemma clampz (z : Z) : let m := (if f_lt z 0xBF800000 then 0xBF800000 else z)%Z in acos_domain (if f_lt 0x3F800000 m then 0x3F800000 else m)%Z.
Proof.
  cbv zeta. assert (V1 : value 0x3F800000 = Fin 1) by exact val_1. assert (V2 : value 0xBF800000 = Fin (-1)) by exact val_m1.
  pose proof (f_lt_spec z 0xBF800000) as A. destruct (f_lt z 0xBF800000) eqn:E.
  - replace (f_lt 0x3F800000 0xBF800000) with false by (vm_compute; reflexivity). unfold acos_domain. rewrite V2. lra.
  - pose proof (f_lt_spec 0x3F800000 z) as B. rewrite V2 in A. rewrite V1 in B. destruct (f_lt 0x3F800000 z) eqn:F; unfold acos_domain.
    + rewrite V1. lra.
    + destruct (value z) as [|s|x].
      * exact I.
      * destruct s; [pose proof (proj2 A I) as C|pose proof (proj2 B I) as C]; discriminate C.
      * destruct A as [_ A]. destruct B as [_ B]. cbn [xlt] in A, B. split; apply Rnot_lt_le; intros C; [discriminate (A C)|discriminate (B C)].
Qed.
Lemma angle_domain (lm lm' : Libm FL) b (c : quad Z) : (forall z, acos_domain z -> m_acos (Libm:=lm) z = m_acos (Libm:=lm') z) ->
  @angle_of_cos FL lm b c = @angle_of_cos FL lm' b c.
Proof.
  intros H. unfold angle_of_cos. destruct b; [|reflexivity]. unfold XMVectorACos, XMVectorClamp, vmin, vmax, vone. rewrite one_FL, mone_FL. destruct c as [x y z w].
  unfold qmap2, qrep. cbn [qx qy qz qw]. change (@tlt FL) with f_lt. rewrite !H by apply clampz. reflexivity.
Qed.
Lemma angles_domain (lm lm' : Libm FL) b (u v : quad Z) : (forall z, acos_domain z -> m_acos (Libm:=lm) z = m_acos (Libm:=lm') z) ->
  @XMVector2AngleBetweenNormals FL lm b u v = @XMVector2AngleBetweenNormals FL lm' b u v /\
  @XMVector3AngleBetweenNormals FL lm b u v = @XMVector3AngleBetweenNormals FL lm' b u v /\
  @XMVector4AngleBetweenNormals FL lm b u v = @XMVector4AngleBetweenNormals FL lm' b u v /\
  @XMVector2AngleBetweenVectors FL lm b u v = @XMVector2AngleBetweenVectors FL lm' b u v /\
  @XMVector3AngleBetweenVectors FL lm b u v = @XMVector3AngleBetweenVectors FL lm' b u v /\
  @XMVector4AngleBetweenVectors FL lm b u v = @XMVector4AngleBetweenVectors FL lm' b u v.
Proof.
  intros H. repeat apply Logic.conj; [unfold XMVector2AngleBetweenNormals|unfold XMVector3AngleBetweenNormals|unfold XMVector4AngleBetweenNormals|
    unfold XMVector2AngleBetweenVectors|unfold XMVector3AngleBetweenVectors|unfold XMVector4AngleBetweenVectors]; apply angle_domain, H.
Qed.
