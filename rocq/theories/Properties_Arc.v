(** C56: the inverse trigonometric functions, over exact real arithmetic with the library's coefficients. *)
From Coq Require Import Reals ZArith Lra.
From Verif Require Import Base F32 Intrin Lane MVec MTrig PReal SpecTrig PTrig PTrigFn PTrigPoly PArc.
Open Scope R_scope.

(** every argument; outside [-1, 1] both sides are clamped *)
Theorem C56_scalar_acos (v : R) : within (62 / 100000000) (XMScalarACos v) (acos v).
Proof. unfold within. rewrite scalar_acos_R. exact (racos_ok v). Qed.
Theorem C56_scalar_asin (v : R) : within (67 / 100000000) (XMScalarASin v) (asin v).
Proof.
  unfold within. rewrite scalar_asin_R. pose proof (racos_asin v) as H. unfold racos in H. destruct (Rleb 0 v); [exact H|].
  replace (arcc v - halfPI32 - asin v) with (halfPI32 - (PI32 - arcc v) - asin v); [exact H|]. unfold halfPI32, PI32. lra.
Qed.
Theorem C56_vector_acos b (V : quad R) k : b <> Scalar -> within (62 / 100000000) (lane (XMVectorACos b V) k) (acos (lane V k)).
Proof. intros H. unfold within. rewrite vacos_R by exact H. rewrite lane_qmap. apply racos_ok. Qed.
Theorem C56_vector_asin b (V : quad R) k : b <> Scalar -> within (67 / 100000000) (lane (XMVectorASin b V) k) (asin (lane V k)).
Proof. intros H. unfold within. rewrite vasin_R by exact H. rewrite lane_qmap. apply racos_asin. Qed.
(** the two are complementary exactly, in every lane *)
Theorem C56_complementary b (V : quad R) k : b <> Scalar -> lane (XMVectorASin b V) k + lane (XMVectorACos b V) k = XM_PIDIV2_c.
Proof. intros H. rewrite vasin_R, vacos_R by exact H. rewrite !lane_qmap. unfold halfPI32, XM_PIDIV2_c. ring. Qed.
Theorem C56_vector_atan b (V : quad R) k : b <> Scalar -> within (44 / 100000000) (lane (XMVectorATan b V) k) (atan (lane V k)).
Proof. intros H. unfold within. rewrite vatan_R by exact H. rewrite lane_qmap. apply ratan_ok. Qed.
(** the angle of the point (X, Y), in the right quadrant; the origin gives 0 *)
Theorem C56_vector_atan2 b (Y X : quad R) k : b <> Scalar -> lane X k <> 0 \/ lane Y k <> 0 ->
  exists theta, polar (lane X k) (lane Y k) theta /\ within (53 / 100000000) (lane (XMVectorATan2 b Y X) k) theta.
Proof.
  intros H N. exists (Ratan2 (lane Y k) (lane X k)). split; [apply Ratan2_polar, N|]. unfold within. rewrite vatan2_R by exact H. rt.
  replace (lane (qmap2 ratan2 Y X) k) with (ratan2 (lane Y k) (lane X k)) by (destruct X, Y, k; reflexivity). apply ratan2_ok.
Qed.
Theorem C56_vector_atan2_origin b (Y X : quad R) k : b <> Scalar -> lane X k = 0 -> lane Y k = 0 -> lane (XMVectorATan2 b Y X) k = 0.
Proof.
  intros H HX HY. rewrite vatan2_R by exact H. rt.
  replace (lane (qmap2 ratan2 Y X) k) with (ratan2 (lane Y k) (lane X k)) by (destruct X, Y, k; reflexivity).
  rewrite HX, HY. unfold ratan2. destruct (Reqb_spec 0 0); [|lra]. destruct (Rltb_spec 0 0); [lra|reflexivity].
Qed.
(** an angle is determined by its point, so the theorem above says which angle is meant *)
Theorem C56_polar_unique x y a b : x <> 0 \/ y <> 0 -> polar x y a -> polar x y b -> a = b.
Proof. exact (polar_unique x y a b). Qed.

(** a point in the second quadrant; in binary32 acos 0.5 and asin (-0.5) come out one and two units in the last place off *)
Example C56_ex_point : polar (-1) 1 (3 * (PI / 4)).
Proof.
  pose proof PI_RGT_0. unfold polar. rewrite cos_3PI4, sin_3PI4. replace (-1 * -1 + 1 * 1) with 2 by ring.
  assert (sqrt 2 <> 0) by (apply Rgt_not_eq, sqrt_lt_R0; lra).
  split; [lra|]. split; field; assumption.
Qed.
Example C56_ex_values : @XMScalarACos FL 0x3F000000%Z = 0x3F860A91%Z /\ @XMScalarASin FL 0xBF000000%Z = 0xBF060A94%Z.
Proof. vm_compute. auto. Qed.
