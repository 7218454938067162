(** C31 on bit patterns: the rotation builders that take an angle, with every binary32 rounding counted. The lane type is binary32
    words; [is32 z a]: the word z is finite and holds the real a; [within e z y]: the lane z is finite and within e of y. *)
From Coq Require Import Reals ZArith Lra Lia.
From Verif Require Import Base F32 F32Facts Intrin Lane MVec MTrig MQuat MMatrix SpecF32 SpecGeom SpecQuat SpecMat SpecRot PF32 PFloat PTrigPoly PTrig PTrigFn PRotFn SpecErr PErr PFix PTrigF PRotF.
Open Scope R_scope.

(** every entry within e *)
Definition entries (e : R) (M : quad (quad Z)) (m : rmat) : Prop := forall i j, within e (lane (lane M i) j) (entry m i j).

Theorem C31_rotation_axes_binary32 : forall b z a, is32 z a -> Rabs a <= 1000000 ->
  let e := 15 / 10000000 + 1 / 10000000 * Rabs a in
  entries e (XMMatrixRotationX (L:=FL) b z) (rot_about ex3 a) /\ entries e (XMMatrixRotationY (L:=FL) b z) (rot_about ey3 a) /\
  entries e (XMMatrixRotationZ (L:=FL) b z) (rot_about ez3 a).
Proof. exact rot_xyz_F. Qed.
(** any axis whose components are at most 1 in size; no unit length is needed for this comparison *)
Theorem C31_rotation_normal_binary32 : forall b N n z a, holds3 N n -> Rabs (qx n) <= 1 /\ Rabs (qy n) <= 1 /\ Rabs (qz n) <= 1 -> is32 z a -> Rabs a <= 10 ->
  entries (60 / 10000000) (XMMatrixRotationNormal (L:=FL) b N z) (rot_about n a).
Proof. exact rot_normal_F. Qed.
(** a finite axis that is neither tiny nor huge is accepted, normalised and turned about *)
Theorem C31_rotation_axis_binary32 : forall b V v z a, holds3 V v -> mid_range (norm3 v) -> is32 z a -> Rabs a <= 10 ->
  exists M, XMMatrixRotationAxis (L:=FL) b V z = Some M /\ entries (80 / 10000000) M (rot_about (scale (/ norm3 v) v) a).
Proof. exact rot_axis_F. Qed.
Theorem C31_quaternion_normal_binary32 : forall (lm : Libm FL) b N n z a, holds3 N n -> Rabs (qx n) <= 1 /\ Rabs (qy n) <= 1 /\ Rabs (qz n) <= 1 -> is32 z a -> Rabs a <= 10 ->
  forall k, within (25 / 10000000) (lane (XMQuaternionRotationNormal (L:=FL) b N z) k) (lane (quat_about n a) k).
Proof. exact quat_normal_F. Qed.
Theorem C31_quaternion_axis_binary32 : forall (lm : Libm FL) b V v z a, holds3 V v -> mid_range (norm3 v) -> is32 z a -> Rabs a <= 10 ->
  exists q, XMQuaternionRotationAxis (L:=FL) b V z = Some q /\ forall k, within (25 / 10000000) (lane q k) (lane (quat_about (scale (/ norm3 v) v) a) k).
Proof. exact quat_axis_F. Qed.
(** the textbook matrix of a quaternion, for components at most 1 in size *)
Theorem C29_quaternion_to_matrix_binary32 : forall b N x y z w, holds4 N (Q x y z w) -> Rabs x <= 1 -> Rabs y <= 1 -> Rabs z <= 1 -> Rabs w <= 1 ->
  entries (1 / 1000000) (XMMatrixRotationQuaternion (L:=FL) b N)
    (Q (Q (1 - 2 * (y * y + z * z)) (2 * (x * y + z * w)) (2 * (x * z - y * w)) 0)
       (Q (2 * (x * y - z * w)) (1 - 2 * (x * x + z * z)) (2 * (y * z + x * w)) 0)
       (Q (2 * (x * z + y * w)) (2 * (y * z - x * w)) (1 - 2 * (x * x + y * y)) 0)
       (Q 0 0 0 1)).
Proof.
  intros b N x y z w H X Y Z W i j. eapply within_le; [apply (mat_quat_F b N (Q x y z w) H); intros []; assumption|lra].
Qed.
(** roll about z, then pitch about x, then yaw about y; the portable code calls the platform's sine and cosine and is left out *)
Theorem C31_quaternion_roll_pitch_yaw_binary32 : forall (lm : Libm FL) b zp zy zr p y r, b <> Scalar -> is32 zp p -> is32 zy y -> is32 zr r ->
  Rabs p <= 10 -> Rabs y <= 10 -> Rabs r <= 10 ->
  forall k, within (14 / 1000000) (lane (XMQuaternionRotationRollPitchYaw (L:=FL) b zp zy zr) k) (lane (ham (ham (quat_about ey3 y) (quat_about ex3 p)) (quat_about ez3 r)) k).
Proof. exact quat_rpy_F. Qed.
Theorem C31_matrix_roll_pitch_yaw_binary32 : forall (lm : Libm FL) b zp zy zr p y r, b <> Scalar -> is32 zp p -> is32 zy y -> is32 zr r ->
  Rabs p <= 10 -> Rabs y <= 10 -> Rabs r <= 10 ->
  entries (150 / 1000000) (XMMatrixRotationRollPitchYaw (L:=FL) b zp zy zr) (matmul (matmul (rot_about ez3 r) (rot_about ex3 p)) (rot_about ey3 y)).
Proof. exact mat_rpy_F. Qed.

Ltac word32 := split; [lia|]; unfold value, bit_exp, bit_frac, bit_sign, signed, pow2; simpl; f_equal; lra.
(** the hypotheses are met by a turn of 1 about (0,0,2), whose matrix is computed here *)
Example C31_ex_binary32 : holds3 (Q 0 0 0x40000000 0)%Z (Q 0 0 2 0) /\ mid_range (norm3 (Q 0 0 2 0)) /\ is32 0x3F800000 1 /\ Rabs 1 <= 10 /\
  XMMatrixRotationAxis (L:=FL) Scalar (Q 0 0 0x40000000 0)%Z 0x3F800000%Z =
    Some (Q (Q 0x3F0A5140 0x3F576AA4 0 0) (Q 0xBF576AA4 0x3F0A5140 0 0) (Q 0 0 0x3F800000 0) (Q 0 0 0 0x3F800000))%Z.
Proof.
  split; [|split; [|split; [|split]]].
  - assert (Z0 : is32 0 0) by (split; [lia|]; change (Fin (IZR 0 * pow2 (-149)) = Fin 0); f_equal; apply Rmult_0_l). split; [exact Z0|split; [exact Z0|change (is32 0x40000000 2); word32]].
  - unfold norm3, dot3. cbn [qx qy qz]. replace (0 * 0 + 0 * 0 + 2 * 2) with (2 * 2) by ring. rewrite sqrt_square by lra.
    unfold mid_range. change (pow2 (-48)) with (/ IZR (2 ^ 48)). change (pow2 63) with (IZR (2 ^ 63)). split; [|apply IZR_le; vm_compute; discriminate].
    apply Rle_trans with 1; [|lra]. rewrite <- Rinv_1. apply Rinv_le_contravar; [lra|]. apply IZR_le. vm_compute. discriminate.
  - word32.
  - rewrite Rabs_R1. lra.
  - vm_compute. reflexivity.
Qed.
