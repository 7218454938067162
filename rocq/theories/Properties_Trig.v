(** C15, C45: angle reduction, and the sine and cosine approximations, over exact real arithmetic with the library's
    single-precision constants (XM_PI_c etc. in SpecTrig.v). *)
From Coq Require Import Reals ZArith Lra.
From Verif Require Import Base F32 Intrin Lane MVec MTrig SpecTrig PTrig PTrigFn.
Open Scope R_scope.

(** XMScalarModAngle: congruent modulo XM_2PI and inside [-XM_PI, XM_PI] while the quotient fits an i32 (missing: larger
    angles, where it is wrong) *)
Theorem C15_scalar_mod_angle_partial (a : R) : Rabs (a + XM_PI_c) < 2147483648 * XM_2PI_c ->
  congruent XM_2PI_c a (XMScalarModAngle a) /\ Rabs (XMScalarModAngle a) <= XM_PI_c.
Proof. exact (scalar_modangle_R a). Qed.
Theorem C15_scalar_mod_angle_refuted : exists a : R, Rabs (XMScalarModAngle a) > XM_PI_c + 1000000.
Proof. exact scalar_modangle_wrong. Qed.
(** against the true period *)
Theorem C15_scalar_mod_angle_true_period (a : R) : Rabs a <= 10000000000 ->
  exists r, congruent (2 * PI) a r /\ within (27 / 100000000 + 3 / 100000000 * Rabs a) (XMScalarModAngle a) r.
Proof. exact (scalar_modangle_true a). Qed.
(** XMVectorModAngles with intrinsics, every lane on its own: congruent modulo XM_2PI, within a relative 1/70000000 of
    [-XM_PI, XM_PI], and the identity on [-XM_PI, XM_PI] *)
Theorem C15_vector_mod_angles b (V : quad R) k : b <> Scalar ->
  let a := lane V k in let r := lane (@XMVectorModAngles RL b V) k in
  congruent XM_2PI_c a r /\ Rabs r <= XM_PI_c + Rabs a / 70000000 /\ (Rabs a <= XM_PI_c -> r = a).
Proof. exact (modangles_sse_ok b V k). Qed.
Theorem C15_vector_mod_angles_true_period b (V : quad R) k : b <> Scalar ->
  exists r, congruent (2 * PI) (lane V k) r /\ within (9 / 100000000 + 3 / 100000000 * Rabs (lane V k)) (lane (@XMVectorModAngles RL b V) k) r.
Proof. exact (modangles_sse_true b V k). Qed.
(** binary32 arithmetic: the result can leave [-XM_PI, XM_PI] (5 pi gives the next float above XM_PI) *)
Theorem C15_vector_mod_angles_refuted : exists a, forall b, b <> Scalar ->
  f_lt (@XM_PI FL) (qx (@XMVectorModAngles FL b (qrep a))) = true.
Proof. exact modangles_sse_wrong. Qed.
(** the no-intrinsics path: lane 0 as above; the other lanes are congruent but lose lane 0's number of periods *)
Theorem C15_vector_mod_angles_scalar_partial (V : quad R) : let a := qx V in let r := qx (@XMVectorModAngles RL Scalar V) in
  congruent XM_2PI_c a r /\ Rabs r <= XM_PI_c + Rabs a / 70000000.
Proof. exact (modangles_scalar_x V). Qed.
Theorem C15_vector_mod_angles_scalar_congruent (V : quad R) k : congruent XM_2PI_c (lane V k) (lane (@XMVectorModAngles RL Scalar V) k).
Proof. exact (modangles_scalar_congruent V k). Qed.
Theorem C15_vector_mod_angles_scalar_refuted : exists V : quad R, Rabs (qy (@XMVectorModAngles RL Scalar V)) > XM_PI_c + 90.
Proof. exact modangles_scalar_wrong. Qed.

(** C45: all lanes, all intrinsics configurations, angles up to 10^8: the error is at most 2.06e-7 + 2.8e-8 |a| *)
Theorem C45_vector_sin_cos b (V : quad R) k : b <> Scalar -> Rabs (lane V k) <= 100000000 ->
  let e := 206 / 1000000000 + 28 / 1000000000 * Rabs (lane V k) in
  within e (lane (XMVectorSin b V) k) (sin (lane V k)) /\ within e (lane (XMVectorCos b V) k) (cos (lane V k)).
Proof. exact (sin_vec b V k). Qed.
(** on the principal range 1.2e-7 *)
Theorem C45_vector_sin_cos_principal b (V : quad R) k : b <> Scalar -> Rabs (lane V k) <= XM_PI_c ->
  within (12 / 100000000) (lane (XMVectorSin b V) k) (sin (lane V k)) /\
  within (12 / 100000000) (lane (XMVectorCos b V) k) (cos (lane V k)).
Proof. exact (sin_vec_principal b V k). Qed.
Theorem C45_scalar_sin_cos (v : R) : Rabs v <= 100000000 ->
  let e := 206 / 1000000000 + 28 / 1000000000 * Rabs v in
  within e (XMScalarSin v) (sin v) /\ within e (XMScalarCos v) (cos v).
Proof. exact (sin_scalar v). Qed.
(** the no-intrinsics path calls the math library lane by lane *)
Theorem C45_vector_sin_cos_libm (V : quad R) : XMVectorSin Scalar V = qmap sin V /\ XMVectorCos Scalar V = qmap cos V.
Proof. exact (sin_exact_scalar V). Qed.
(** SinCos is the pair, over reals and over binary32, whatever the math library *)
Theorem C45_sin_cos_pair (L : Lane) (lm : Libm L) b (V : quad (T L)) : XMVectorSinCos b V = (XMVectorSin b V, XMVectorCos b V).
Proof. exact (sincos_pair L lm b V). Qed.
Theorem C45_scalar_sin_cos_pair (L : Lane) (v : T L) : XMScalarSinCos v = (XMScalarSin v, XMScalarCos v).
Proof. exact (sincos_scalar_pair L v). Qed.

(** the hypotheses hold at 100 radians (16 periods off), and the bound there is 3.01e-6 *)
Example C15_ex_scalar : Rabs (100 + XM_PI_c) < 2147483648 * XM_2PI_c /\ ~ Rabs 100 <= XM_PI_c.
Proof. unfold XM_PI_c, XM_2PI_c. rewrite !Rabs_pos_eq by lra. split; lra. Qed.
Example C45_ex_hyp : SSE false false false NoAVX <> Scalar /\ Rabs (lane (Q 1 2 (-100) 3) I2) <= 100000000 /\
  206 / 1000000000 + 28 / 1000000000 * Rabs (-100) < 4 / 1000000.
Proof. split; [discriminate|]. cbn [lane qx qy qz qw]. rewrite !Rabs_left by lra.
  split; lra. Qed.
(** in binary32: the angle 1 gives the correctly rounded pair 0.84147096, 0.54030228; the angle 100 gives
    (-0.50636800, 0.86231744) for (-0.50636564, 0.86231887) *)
Example C45_ex_values : XMScalarSinCos (L := FL) 0x3F800000%Z = (0x3F576AA4, 0x3F0A5140)%Z /\
  XMScalarSinCos (L := FL) 0x42C80000%Z = (0xBF01A156, 0x3F5CC0D6)%Z.
Proof. vm_compute. auto. Qed.
