(** C31, C36, C39: the builders that take angles, with the library's own sine and cosine in them. [mnear e], [vnear e]: every
    entry within e; [trig_err a] = 2.06e-7 + 2.8e-8 |a|; [rot_about n a]: the rotation about n by a; over the reals. *)
From Coq Require Import Reals ZArith Lra.
From Verif Require Import Base F32 Intrin Lane SpecGeom SpecQuat SpecMat SpecTrig SpecRot MVec MTrig MQuat MMatrix PReal PTransf PRotFn.
Open Scope R_scope.

Theorem C31_rotation_axes : forall b a, Rabs a <= 100000000 ->
  mnear (2 * trig_err a) (XMMatrixRotationX (L:=RL) b a) (rot_about ex3 a) /\
  mnear (2 * trig_err a) (XMMatrixRotationY (L:=RL) b a) (rot_about ey3 a) /\
  mnear (2 * trig_err a) (XMMatrixRotationZ (L:=RL) b a) (rot_about ez3 a).
Proof. exact rot_xyz. Qed.
Theorem C31_rotation_normal_angle : forall b n a, unit3 n -> Rabs a <= 100000000 ->
  mnear (2 * trig_err a) (XMMatrixRotationNormal (L:=RL) b n a) (rot_about n a).
Proof. exact rot_normal. Qed.
Theorem C31_rotation_axis : forall b v a, ~ zero3 v -> Rabs a <= 100000000 ->
  exists M, XMMatrixRotationAxis (L:=RL) b v a = Some M /\ mnear (2 * trig_err a) M (rot_about (scale (/ norm3 v) v) a).
Proof. exact rot_axis. Qed.
(** the debug assertion *)
Theorem C31_rotation_axis_zero : forall b v a, zero3 v -> XMMatrixRotationAxis (L:=RL) b v a = None /\ XMQuaternionRotationAxis (L:=RL) b v a = None.
Proof. exact axis_zero. Qed.
Theorem C31_quaternion_normal : forall b n a, unit3 n -> Rabs a <= 200000000 ->
  vnear (trig_err (a / 2)) (XMQuaternionRotationNormal (L:=RL) b n a) (quat_about n a).
Proof. exact quat_normal. Qed.
Theorem C31_quaternion_axis : forall b v a, ~ zero3 v -> Rabs a <= 200000000 ->
  exists q, XMQuaternionRotationAxis (L:=RL) b v a = Some q /\ vnear (trig_err (a / 2)) q (quat_about (scale (/ norm3 v) v) a).
Proof. exact quat_axis. Qed.
(** first roll about z, then pitch about x, then yaw about y; errors in units of the three half-angle errors together *)
Theorem C31_quaternion_roll_pitch_yaw : forall b p y r, Rabs p <= 50000 -> Rabs y <= 50000 -> Rabs r <= 50000 ->
  vnear (201 / 100 * (trig_err (p / 2) + trig_err (y / 2) + trig_err (r / 2))) (XMQuaternionRotationRollPitchYaw (L:=RL) b p y r)
    (ham (ham (quat_about ey3 y) (quat_about ex3 p)) (quat_about ez3 r)).
Proof. exact quat_rpy. Qed.
Theorem C31_matrix_roll_pitch_yaw : forall b p y r, Rabs p <= 50000 -> Rabs y <= 50000 -> Rabs r <= 50000 ->
  mnear (17 * (trig_err (p / 2) + trig_err (y / 2) + trig_err (r / 2))) (XMMatrixRotationRollPitchYaw (L:=RL) b p y r)
    (matmul (matmul (rot_about ez3 r) (rot_about ex3 p)) (rot_about ey3 y)).
Proof. exact mat_rpy. Qed.
(** the axis forms are met by (1,2,2), and rot_about turns x into y in a quarter turn about z *)
Example C31_ex_angle : ~ zero3 (Q 1 2 2 7) /\ scale (/ norm3 (Q 1 2 2 7)) (Q 1 2 2 0) = Q (1 / 3) (2 / 3) (2 / 3) 0 /\
  vecmat (Q 1 0 0 0) (rot_about ez3 (PI / 2)) = Q 0 1 0 0.
Proof.
  split; [unfold zero3; cbn [qx qy qz]; lra|]. split.
  - unfold norm3, dot3, scale. cbn [qx qy qz qw]. replace (1 * 1 + 2 * 2 + 2 * 2) with (3 * 3) by ring. rewrite sqrt_square by lra. apply (@Qeq R); field.
  - unfold rot_about, ez3, rodrigues. rewrite sin_PI2, cos_PI2. ms. apply (@Qeq R); ring.
Qed.

Theorem C36_transformation2d : forall b so a s ro r t, Rabs a <= 100000000 -> Rabs r <= 100000000 ->
  exists Ma Mr, mnear (trig_err a) Ma (rot_about ez3 a) /\ mnear (trig_err r) Mr (rot_about ez3 r) /\
  XMMatrixTransformation2D (L:=RL) b so a s ro r t =
  matmul (matmul (matmul (matmul (matmul (matmul (matmul (matmul
    (mtrans (opp (flat so))) (transp Ma)) (mscaling (flat_scale s))) Ma) (mtrans (flat so)))
    (mtrans (opp (flat ro)))) Mr) (mtrans (flat ro))) (mtrans (flat t)).
Proof. exact transformation2d. Qed.
Theorem C36_affine2d : forall b s ro r t, Rabs r <= 100000000 ->
  exists Mr, mnear (trig_err r) Mr (rot_about ez3 r) /\ XMMatrixAffineTransformation2D (L:=RL) b s ro r t =
  matmul (matmul (matmul (matmul (mscaling (flat_scale s)) (mtrans (opp (flat ro)))) Mr) (mtrans (flat ro))) (mtrans (flat t)).
Proof. exact affine2d. Qed.

(** the frustum of the angle: half height over near distance is the tangent of half the angle, up to 1.02e-4 of it *)
Theorem C39_fov_angle : forall b v a n f, 1 / 100 <= v <= 313 / 100 -> exists t, Rabs (t - tan (v / 2)) <= 102 / 1000000 * tan (v / 2) /\
  (forall M, XMMatrixPerspectiveFovLH (L:=RL) b v a n f = Some M -> maps_frustum M (- (a * (n * t))) (a * (n * t)) (- (n * t)) (n * t) n f) /\
  (forall M, XMMatrixPerspectiveFovRH (L:=RL) b v a n f = Some M -> maps_frustum (matmul flipz M) (- (a * (n * t))) (a * (n * t)) (- (n * t)) (n * t) n f).
Proof. exact fov_angle. Qed.
