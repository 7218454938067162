(** Statements about quaternions and rotations in the form used by Properties_Quat. *)
From Coq Require Import Reals Lra Nsatz.
From Verif Require Import Base F32 Intrin Lane MVec MTrig MQuat MPlane MMatrix SpecGeom SpecQuat SpecMat PReal PVec PQuat PMatrix PRot PTransf PPlane PBuild PView.
Open Scope R_scope.

Lemma c27_norm b p q : XMQuaternionLength (L:=RL) b (XMQuaternionMultiply b p q) = qrep (norm4 p * norm4 q).
Proof.
  rewrite QMul_R. unfold XMQuaternionLength. rewrite Length4_R. f_equal. unfold norm4. rewrite ham_norm, Rmult_comm.
  apply sqrt_mult; [dq p|dn q]; unfold dot4; cbn [qx qy qz qw]; nra.
Qed.
Lemma c27_conj b p q : XMQuaternionConjugate (L:=RL) b (XMQuaternionMultiply b p q) = XMQuaternionMultiply b (XMQuaternionConjugate b q) (XMQuaternionConjugate b p).
Proof. rewrite !QMul_R, !QConj_R. apply conj_ham. Qed.
Lemma c27_inverse_small b : exists q, ~ zero4 q /\ XMQuaternionMultiply (L:=RL) b q (XMQuaternionInverse b q) = Q 0 0 0 0.
Proof.
  exists (Q (/ 4096) 0 0 0). split; [unfold zero4; cbn; lra|].
  rewrite QInv_small by (unfold dot4; cbn; lra). rewrite QMul_R. qs. apply (@Qeq R); ring.
Qed.
Lemma c28_isometry b q u v : unitq q ->
  dot3 (XMVector3Rotate (L:=RL) b u q) (XMVector3Rotate b v q) = dot3 u v
  /\ cross (XMVector3Rotate (L:=RL) b u q) (XMVector3Rotate b v q) = XMVector3Rotate b (cross u v) q.
Proof. intros H. rewrite !Rotate_R. split; [rewrite qrot_dot, H; ring|apply qrot_cross; exact H]. Qed.
Lemma c28_inverse b q v : unitq q ->
  XMVector3InverseRotate (L:=RL) b (XMVector3Rotate b v q) q = direction v /\ XMVector3Rotate (L:=RL) b (XMVector3InverseRotate b v q) q = direction v.
Proof. intros H. rewrite !Rotate_R, !InvRotate_R. split; [apply qrot_conj|apply qrot_conj']; exact H. Qed.
Lemma c28_product b p q v : XMVector3Rotate (L:=RL) b v (XMQuaternionMultiply b p q) = XMVector3Rotate b (XMVector3Rotate b v p) q.
Proof. rewrite !Rotate_R, QMul_R. apply qrot_ham. Qed.
Lemma c28_matrix b q v : unitq q -> XMVector3Rotate (L:=RL) b v q = XMVector3TransformNormal b v (XMMatrixRotationQuaternion b q).
Proof. intros H. rewrite Rotate_R, TransformNormal3_R, RotQuat_R. rt. symmetry. apply qmat_rot. exact H. Qed.
Lemma c29_matrix b q : unitq q -> rotation (XMMatrixRotationQuaternion (L:=RL) b q).
Proof. intros H. rewrite RotQuat_R. apply qmat_rotation. exact H. Qed.
Lemma c29_product b p q : unitq p -> unitq q ->
  XMMatrixRotationQuaternion (L:=RL) b (XMQuaternionMultiply b p q) = XMMatrixMultiply b (XMMatrixRotationQuaternion b p) (XMMatrixRotationQuaternion b q).
Proof. intros. rewrite !RotQuat_R, MMul_R, QMul_R. apply qmat_ham; assumption. Qed.
Lemma c31_normal b n s c v : unit3 n -> s * s + c * c = 1 ->
  rotation (matrix_rotation_normal_sc (L:=RL) b n s c)
  /\ XMVector3TransformNormal (L:=RL) b v (matrix_rotation_normal_sc b n s c) = rodrigues n v s c
  /\ XMVector3TransformNormal (L:=RL) b n (matrix_rotation_normal_sc b n s c) = direction n.
Proof.
  intros N H. rewrite RotN_R, !TransformNormal3_R. rt. split; [apply mrotn_rotation; assumption|]. rewrite !mrotn_rodrigues. split; [reflexivity|].
  revert N. unfold unit3. dq n. ms. intros N. apply (@Qeq R); try nsatz.
Qed.
Lemma c31_quaternion b n s c : unit3 n -> s * s + c * c = 1 ->
  unitq (rotation_normal_sc (L:=RL) b n s c) /\
  XMMatrixRotationQuaternion (L:=RL) b (rotation_normal_sc b n s c) = matrix_rotation_normal_sc b n (2 * s * c) (c * c - s * s).
Proof.
  intros N H. rewrite RotQuat_R, RotN_R, RotNQ_R. split; [apply rotnq_unit|apply rotnq_mat]; assumption.
Qed.
Lemma c31_xyz b s c v : s * s + c * c = 1 ->
  XMVector3TransformNormal (L:=RL) b v (rotation_x_sc b s c) = rodrigues (Q 1 0 0 0) v s c
  /\ XMVector3TransformNormal (L:=RL) b v (rotation_y_sc b s c) = rodrigues (Q 0 1 0 0) v s c
  /\ XMVector3TransformNormal (L:=RL) b v (rotation_z_sc b s c) = rodrigues (Q 0 0 1 0) v s c
  /\ rotation (rotation_x_sc (L:=RL) b s c) /\ rotation (rotation_y_sc (L:=RL) b s c) /\ rotation (rotation_z_sc (L:=RL) b s c).
Proof.
  intros H. rewrite !TransformNormal3_R, RotX_R, RotY_R, RotZ_R, mrotx_n, mroty_n, mrotz_n. rt. rewrite !mrotn_rodrigues.
  repeat (split; [reflexivity|]).
  repeat split; apply mrotn_rotation; try exact H; unfold unit3; ms; ring.
Qed.
Lemma c31_rpy b sx cx sy cy sz cz w w' : sx * sx + cx * cx = 1 -> sy * sy + cy * cy = 1 -> sz * sz + cz * cz = 1 ->
  unitq (roll_pitch_yaw_sc (L:=RL) b (Q sx sy sz w) (Q cx cy cz w')) /\
  XMMatrixRotationQuaternion (L:=RL) b (roll_pitch_yaw_sc b (Q sx sy sz w) (Q cx cy cz w')) =
  matmul (matmul (mrotz (2 * sz * cz) (cz * cz - sz * sz)) (mrotx (2 * sx * cx) (cx * cx - sx * sx))) (mroty (2 * sy * cy) (cy * cy - sy * sy)).
Proof.
  intros X Y Z. rewrite RotQuat_R, RPY_R. cbn [qx qy qz]. split; [|apply rpy_mat; assumption].
  unfold unitq. rewrite !ham_norm. ms. replace (0 * 0 + sy * sy + 0 * 0 + cy * cy) with 1 by lra. replace (sx * sx + 0 * 0 + 0 * 0 + cx * cx) with 1 by lra.
  replace (0 * 0 + 0 * 0 + sz * sz + cz * cz) with 1 by lra. ring.
Qed.
