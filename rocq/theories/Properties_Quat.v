(** C27-C29, C31: quaternions and rotations in exact arithmetic, on every backend [b]. *)
From Coq Require Import Reals Lra.
From Verif Require Import Base F32 Intrin Lane MVec MTrig MQuat MPlane MMatrix SpecGeom SpecQuat SpecMat PReal PVec PQuat PRot PQuatProps.
Open Scope R_scope.

(** ** C27 *)
(** The product is Hamilton's, with the factors exchanged (rotate by the first, then by the second). *)
Theorem C27_multiply : forall b p q, XMQuaternionMultiply (L:=RL) b p q = ham q p.
Proof. exact QMul_R. Qed.
Theorem C27_associative : forall b p q r,
  XMQuaternionMultiply (L:=RL) b (XMQuaternionMultiply b p q) r = XMQuaternionMultiply b p (XMQuaternionMultiply b q r).
Proof. exact mul_assoc. Qed.
Theorem C27_identity : forall b q,
  XMQuaternionMultiply (L:=RL) b XMQuaternionIdentity q = q /\ XMQuaternionMultiply (L:=RL) b q XMQuaternionIdentity = q.
Proof. exact mul_id. Qed.
Theorem C27_norm : forall b p q, XMQuaternionLength (L:=RL) b (XMQuaternionMultiply b p q) = qrep (norm4 p * norm4 q).
Proof. exact c27_norm. Qed.
Theorem C27_conjugate : forall b p q,
  XMQuaternionConjugate (L:=RL) b (XMQuaternionMultiply b p q) = XMQuaternionMultiply b (XMQuaternionConjugate b q) (XMQuaternionConjugate b p).
Proof. exact c27_conj. Qed.
(** "Inverse is a two-sided inverse of any non-zero quaternion": true above the library's threshold 2^-23 on the squared
    length, and false below it, where the function returns zero. *)
Theorem C27_inverse_partial : forall b q, / 8388608 < dot4 q q ->
  XMQuaternionMultiply b q (XMQuaternionInverse (L:=RL) b q) = qone /\ XMQuaternionMultiply b (XMQuaternionInverse (L:=RL) b q) q = qone.
Proof. exact inv_two_sided. Qed.
Theorem C27_inverse_refuted : forall b, exists q, ~ zero4 q /\ XMQuaternionMultiply (L:=RL) b q (XMQuaternionInverse b q) = Q 0 0 0 0.
Proof. exact c27_inverse_small. Qed.
Theorem C27_inverse_below : forall b q, dot4 q q <= / 8388608 -> XMQuaternionInverse (L:=RL) b q = Q 0 0 0 0.
Proof. exact QInv_small. Qed.
Example C27_ex : XMQuaternionMultiply (L:=RL) (SSE true true true AVX2) (Q 1 0 0 0) (Q 0 1 0 0) = Q 0 0 (-1) 0
  /\ XMQuaternionMultiply (L:=RL) Scalar (Q 1 0 0 0) (Q 0 1 0 0) = Q 0 0 (-1) 0.
Proof. rewrite !QMul_R. split; qs; apply (@Qeq R); ring. Qed.
Example C27_ex_inverse : / 8388608 < dot4 (Q 1 2 3 4) (Q 1 2 3 4) /\ XMQuaternionInverse (L:=RL) Scalar (Q 1 2 3 4) = Q (-1/30) (-1/15) (-1/10) (2/15).
Proof. assert (H : / 8388608 < dot4 (Q 1 2 3 4) (Q 1 2 3 4)) by (qs; lra). split; [exact H|]. rewrite QInv_R by exact H. qs. apply (@Qeq R); field. Qed.

(** ** C28 *)
Theorem C28_isometry : forall b q u v, unitq q ->
  dot3 (XMVector3Rotate (L:=RL) b u q) (XMVector3Rotate b v q) = dot3 u v
  /\ cross (XMVector3Rotate (L:=RL) b u q) (XMVector3Rotate b v q) = XMVector3Rotate b (cross u v) q.
Proof. exact c28_isometry. Qed.
Theorem C28_inverse_rotate : forall b q v, unitq q ->
  XMVector3InverseRotate (L:=RL) b (XMVector3Rotate b v q) q = direction v /\ XMVector3Rotate (L:=RL) b (XMVector3InverseRotate b v q) q = direction v.
Proof. exact c28_inverse. Qed.
Theorem C28_product : forall b p q v,
  XMVector3Rotate (L:=RL) b v (XMQuaternionMultiply b p q) = XMVector3Rotate b (XMVector3Rotate b v p) q.
Proof. exact c28_product. Qed.
Theorem C28_matrix : forall b q v, unitq q ->
  XMVector3Rotate (L:=RL) b v q = XMVector3TransformNormal b v (XMMatrixRotationQuaternion b q).
Proof. exact c28_matrix. Qed.
Example C28_ex : unitq (Q (3/5) 0 0 (4/5)) /\ XMVector3Rotate (L:=RL) (SSE false false false NoAVX) (Q 0 1 0 5) (Q (3/5) 0 0 (4/5)) = Q 0 (7/25) (24/25) 0.
Proof. split; [unfold unitq; qs; lra|]. rewrite Rotate_R. qs. apply (@Qeq R); field. Qed.

(** ** C29 *)
Theorem C29_quaternion_to_matrix : forall b q, unitq q -> rotation (XMMatrixRotationQuaternion (L:=RL) b q).
Proof. exact c29_matrix. Qed.
Theorem C29_quaternion_round_trip : forall b q, unitq q ->
  XMQuaternionRotationMatrix (L:=RL) b (XMMatrixRotationQuaternion b q) = q \/ XMQuaternionRotationMatrix (L:=RL) b (XMMatrixRotationQuaternion b q) = negv q.
Proof. exact quat_mat_quat. Qed.
Theorem C29_matrix_round_trip : forall b M, rotation M ->
  XMMatrixRotationQuaternion (L:=RL) b (XMQuaternionRotationMatrix b M) = M /\ unitq (XMQuaternionRotationMatrix (L:=RL) b M).
Proof. exact mat_quat_mat. Qed.
Theorem C29_backends_agree : forall b1 b2 M, rotation M -> XMQuaternionRotationMatrix (L:=RL) b1 M = XMQuaternionRotationMatrix b2 M.
Proof. exact quat_backends_agree. Qed.
Theorem C29_product : forall b p q, unitq p -> unitq q ->
  XMMatrixRotationQuaternion (L:=RL) b (XMQuaternionMultiply b p q) = XMMatrixMultiply b (XMMatrixRotationQuaternion b p) (XMMatrixRotationQuaternion b q).
Proof. exact c29_product. Qed.
Example C29_ex : unitq (Q (3/5) 0 0 (4/5)) /\ rotation (Q (Q 1 0 0 0) (Q 0 (7/25) (24/25) 0) (Q 0 (-24/25) (7/25) 0) (Q 0 0 0 1))
  /\ XMMatrixRotationQuaternion (L:=RL) Scalar (Q (3/5) 0 0 (4/5)) = Q (Q 1 0 0 0) (Q 0 (7/25) (24/25) 0) (Q 0 (-24/25) (7/25) 0) (Q 0 0 0 1).
Proof.
  assert (U : unitq (Q (3/5) 0 0 (4/5))) by (unfold unitq; qs; lra).
  assert (E : XMMatrixRotationQuaternion (L:=RL) Scalar (Q (3/5) 0 0 (4/5)) = Q (Q 1 0 0 0) (Q 0 (7/25) (24/25) 0) (Q 0 (-24/25) (7/25) 0) (Q 0 0 0 1))
    by (rewrite RotQuat_R; unfold qmat; qs; apply (@Qeq (quad R)); apply (@Qeq R); field).
  split; [exact U|]. split; [rewrite <- E; apply c29_matrix; exact U|exact E].
Qed.

(** ** C31: given the exact sine and cosine of the angle (of half the angle, for quaternions) *)
Theorem C31_rotation_normal : forall b n s c v, unit3 n -> s * s + c * c = 1 ->
  rotation (matrix_rotation_normal_sc (L:=RL) b n s c)
  /\ XMVector3TransformNormal (L:=RL) b v (matrix_rotation_normal_sc b n s c) = rodrigues n v s c
  /\ XMVector3TransformNormal (L:=RL) b n (matrix_rotation_normal_sc b n s c) = direction n.
Proof. exact c31_normal. Qed.
(** the double-angle identities turn the half-angle pair (s, c) into the pair for the whole angle *)
Theorem C31_quaternion_is_matrix : forall b n s c, unit3 n -> s * s + c * c = 1 ->
  unitq (rotation_normal_sc (L:=RL) b n s c) /\
  XMMatrixRotationQuaternion (L:=RL) b (rotation_normal_sc b n s c) = matrix_rotation_normal_sc b n (2 * s * c) (c * c - s * s).
Proof. exact c31_quaternion. Qed.
Theorem C31_axes : forall b s c v, s * s + c * c = 1 ->
  XMVector3TransformNormal (L:=RL) b v (rotation_x_sc b s c) = rodrigues (Q 1 0 0 0) v s c
  /\ XMVector3TransformNormal (L:=RL) b v (rotation_y_sc b s c) = rodrigues (Q 0 1 0 0) v s c
  /\ XMVector3TransformNormal (L:=RL) b v (rotation_z_sc b s c) = rodrigues (Q 0 0 1 0) v s c
  /\ rotation (rotation_x_sc (L:=RL) b s c) /\ rotation (rotation_y_sc (L:=RL) b s c) /\ rotation (rotation_z_sc (L:=RL) b s c).
Proof. exact c31_xyz. Qed.
(** roll about z first, then pitch about x, then yaw about y *)
Theorem C31_roll_pitch_yaw : forall b sx cx sy cy sz cz w w', sx * sx + cx * cx = 1 -> sy * sy + cy * cy = 1 -> sz * sz + cz * cz = 1 ->
  unitq (roll_pitch_yaw_sc (L:=RL) b (Q sx sy sz w) (Q cx cy cz w')) /\
  XMMatrixRotationQuaternion (L:=RL) b (roll_pitch_yaw_sc b (Q sx sy sz w) (Q cx cy cz w')) =
  matmul (matmul (mrotz (2 * sz * cz) (cz * cz - sz * sz)) (mrotx (2 * sx * cx) (cx * cx - sx * sx))) (mroty (2 * sy * cy) (cy * cy - sy * sy)).
Proof. exact c31_rpy. Qed.
Example C31_ex : unit3 (Q 0 (3/5) (4/5) 7) /\ (3/5) * (3/5) + (4/5) * (4/5) = 1
  /\ XMVector3TransformNormal (L:=RL) Scalar (Q 1 0 0 0) (matrix_rotation_normal_sc Scalar (Q 0 (3/5) (4/5) 7) (3/5) (4/5)) = Q (4/5) (12/25) (-9/25) 0.
Proof.
  assert (U : unit3 (Q 0 (3/5) (4/5) 7)) by (unfold unit3; qs; lra).
  split; [exact U|]. split; [lra|]. destruct (c31_normal Scalar _ (3/5) (4/5) (Q 1 0 0 0) U ltac:(lra)) as (_ & -> & _).
  qs. apply (@Qeq R); field.
Qed.
