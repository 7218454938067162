(** C62: angles between vectors. [angle2/3/4 u v]: arc cosine of the normalised dot product; [close e a x]: x within e of a. *)
From Coq Require Import Reals ZArith Lra.
From Verif Require Import Base F32 Intrin Lane SpecF32 SpecGeom SpecQuat SpecAngle MVec MTrig MQuat PReal PAngle.
Open Scope R_scope.

(** 6.2e-7 is the error of the arc cosine polynomial (C46); the portable backend uses the platform's *)
Theorem C62_between_vectors : forall b u v, let e := 62 / 100000000 in
  (norm2 u <> 0 -> norm2 v <> 0 -> all_lanes (close e (angle2 u v)) (@XMVector2AngleBetweenVectors RL RM b u v)) /\
  (norm3 u <> 0 -> norm3 v <> 0 -> all_lanes (close e (angle3 u v)) (@XMVector3AngleBetweenVectors RL RM b u v)) /\
  (norm4 u <> 0 -> norm4 v <> 0 -> all_lanes (close e (angle4 u v)) (@XMVector4AngleBetweenVectors RL RM b u v)).
Proof. exact vectors_ok. Qed.
(** the specification's cosine is a cosine *)
Theorem C62_cosine_range : forall u v,
  (norm2 u <> 0 -> norm2 v <> 0 -> -1 <= dot2 u v / (norm2 u * norm2 v) <= 1) /\
  (norm3 u <> 0 -> norm3 v <> 0 -> -1 <= dot3 u v / (norm3 u * norm3 v) <= 1) /\
  (norm4 u <> 0 -> norm4 v <> 0 -> -1 <= dot4 u v / (norm4 u * norm4 v) <= 1).
Proof. exact cosine_range. Qed.
Theorem C62_between_normals : forall b u v, let e := 62 / 100000000 in
  (norm2 u = 1 -> norm2 v = 1 -> all_lanes (close e (angle2 u v)) (@XMVector2AngleBetweenNormals RL RM b u v)) /\
  (norm3 u = 1 -> norm3 v = 1 -> all_lanes (close e (angle3 u v)) (@XMVector3AngleBetweenNormals RL RM b u v)) /\
  (norm4 u = 1 -> norm4 v = 1 -> all_lanes (close e (angle4 u v)) (@XMVector4AngleBetweenNormals RL RM b u v)).
Proof.
  intros b u v e. destruct (normals_ok b u v) as (A & B & C). unfold angle2, angle3, angle4.
  assert (D : forall x : R, x / (1 * 1) = x) by (intros x; field). split; [|split]; intros -> ->; rewrite D; assumption.
Qed.
(** inputs slightly off unit length: a dot product beyond one counts as one *)
Theorem C62_normals_clamped : forall b u v, dot3 u v >= 1 -> all_lanes (close (62 / 100000000) 0) (@XMVector3AngleBetweenNormals RL RM b u v).
Proof.
  intros b u v H. destruct (normals_ok b u v) as (_ & B & _). replace 0 with (acos (dot3 u v)); [exact B|].
  unfold acos. destruct (Rle_dec (dot3 u v) (-1)); [lra|]. destruct (Rle_dec 1 (dot3 u v)); lra.
Qed.
(** on bit patterns, for every input: the platform's arc cosine is only ever asked at a NaN or a number in [-1, 1], so two
    platforms that agree there agree on the angles *)
Theorem C62_acos_in_domain : forall (lm lm' : Libm FL) b (u v : quad Z),
  (forall z, match value z with NaN => True | Inf _ => False | Fin x => -1 <= x <= 1 end -> m_acos (Libm:=lm) z = m_acos (Libm:=lm') z) ->
  @XMVector2AngleBetweenNormals FL lm b u v = @XMVector2AngleBetweenNormals FL lm' b u v /\
  @XMVector3AngleBetweenNormals FL lm b u v = @XMVector3AngleBetweenNormals FL lm' b u v /\
  @XMVector4AngleBetweenNormals FL lm b u v = @XMVector4AngleBetweenNormals FL lm' b u v /\
  @XMVector2AngleBetweenVectors FL lm b u v = @XMVector2AngleBetweenVectors FL lm' b u v /\
  @XMVector3AngleBetweenVectors FL lm b u v = @XMVector3AngleBetweenVectors FL lm' b u v /\
  @XMVector4AngleBetweenVectors FL lm b u v = @XMVector4AngleBetweenVectors FL lm' b u v.
Proof. exact angles_domain. Qed.
Example C62_ex : norm3 (Q 2 0 0 9) <> 0 /\ norm3 (Q 0 (-3) 0 1) <> 0 /\ angle3 (Q 2 0 0 9) (Q 0 (-3) 0 1) = PI / 2.
Proof.
  unfold angle3, norm3, dot3. cbn [qx qy qz qw]. replace (2 * 2 + 0 * 0 + 0 * 0) with (2 * 2) by ring. replace (0 * 0 + -3 * -3 + 0 * 0) with (3 * 3) by ring.
  rewrite !sqrt_square by lra. replace ((2 * 0 + 0 * -3 + 0 * 0) / (2 * 3)) with 0 by field. rewrite acos_0. lra.
Qed.
(** a dot product just above one, where an unclamped arc cosine has no value *)
Example C62_ex_domain : f_lt 0x3F800000 (qx (XMVector2Dot (L:=FL) Scalar (Q 0x3F800001 0 0 0)%Z (Q 0x3F800001 0 0 0)%Z)) = true.
Proof. vm_compute. reflexivity. Qed.
