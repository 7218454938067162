(** C15, C45, C56 on bit patterns: angle reduction, sine, cosine and their inverses with every binary32 rounding counted.
    [is32 z a]: the word z is finite and holds the real a; [within e z y]: the lane z is finite and within e of y. *)
From Coq Require Import Reals ZArith Lra Lia.
From Verif Require Import Base F32 F32Facts Intrin Lane MVec MTrig SpecF32 SpecTrig SpecErr PF32 PFloat PTrigPoly PTrig PTrigFn PArc PFix PTrigF PArcF.
Open Scope R_scope.

(** XMVectorModAngles with intrinsics, angles up to a million radians: every lane is within 7e-7 + 1e-7 |a| of an angle that differs
    from the argument by whole turns, leaves [-XM_PI, XM_PI] by at most 1.2e-6 + 8e-7 |a|, and angles in [-XM_PI, XM_PI] are kept *)
Theorem C15_vector_mod_angles_binary32 : forall b V k a, b <> Scalar -> is32 (lane V k) a -> Rabs a <= 1000000 ->
  exists r, value (lane (XMVectorModAngles (L:=FL) b V) k) = Fin r /\
    (exists t, congruent (2 * PI) a t /\ Rabs (r - t) <= 7 / 10000000 + 1 / 10000000 * Rabs a) /\
    Rabs r <= XM_PI_c + 12 / 10000000 + 8 / 10000000 * Rabs a /\ (Rabs a <= XM_PI_c -> r = a).
Proof.
  intros b V k a Hb I H. rewrite (modangles_lane b V k Hb). destruct (mod_lane_ok (fma_of b) _ a I H) as (n & r & Vr & _ & Hn & Er & Z0).
  exists r. split; [exact Vr|]. destruct (reduced_F a n H Hn) as (RD & _). pose proof (n_bound a n H Hn) as NB. pose proof twoPI32_err as TP. pose proof (Rabs_pos a) as PA.
  split; [|split; [|intros K; apply Z0; exact K]].
  - exists (a - IZR n * (2 * PI)). split; [exists n; reflexivity|].
    replace (r - (a - IZR n * (2 * PI))) with ((r - (a - IZR n * twoPI32)) + - (IZR n * (twoPI32 - 2 * PI))) by ring.
    eapply Rle_trans; [apply Rabs_triang|]. rewrite Rabs_Ropp, Rabs_mult.
    assert (Rabs (IZR n) * Rabs (twoPI32 - 2 * PI) <= (16 / 100 * Rabs a + 6 / 10) * (2 * pi_err)) by (apply Rmult_le_compat; try apply Rabs_pos; assumption).
    unfold red_err, ulp_half, pi_err in *. lra.
  - replace r with ((r - (a - IZR n * twoPI32)) + (a - IZR n * twoPI32)) by ring. eapply Rle_trans; [apply Rabs_triang|].
    unfold red_err, ulp_half, XM_PI_c, PI32 in *. lra.
Qed.

(** sine and cosine with intrinsics: 1.5e-6 + 1e-7 |a| up to a million radians *)
Theorem C45_vector_sin_cos_binary32 : forall (lm : Libm FL) b V k a, b <> Scalar -> is32 (lane V k) a -> Rabs a <= 1000000 ->
  let e := 15 / 10000000 + 1 / 10000000 * Rabs a in
  within e (lane (XMVectorSin (L:=FL) b V) k) (sin a) /\ within e (lane (XMVectorCos (L:=FL) b V) k) (cos a).
Proof. intros lm b V k a Hb I H. exact (proj1 (vector_sincos_F lm b V k a Hb I H)). Qed.
(** 9e-7 on [-XM_PI, XM_PI] *)
Theorem C45_vector_sin_cos_principal_binary32 : forall (lm : Libm FL) b V k a, b <> Scalar -> is32 (lane V k) a -> Rabs a <= XM_PI_c ->
  within (9 / 10000000) (lane (XMVectorSin (L:=FL) b V) k) (sin a) /\ within (9 / 10000000) (lane (XMVectorCos (L:=FL) b V) k) (cos a).
Proof. intros lm b V k a Hb I H. apply (vector_sincos_F lm b V k a Hb I); [|exact H]. unfold amax, XM_PI_c in *. lra. Qed.
Theorem C45_scalar_sin_cos_binary32 : forall z a, is32 z a -> Rabs a <= 1000000 ->
  let e := 15 / 10000000 + 1 / 10000000 * Rabs a in within e (XMScalarSin (L:=FL) z) (sin a) /\ within e (XMScalarCos (L:=FL) z) (cos a).
Proof. exact scalar_sincos_F. Qed.

(** inverse sine and cosine on [-1, 1] *)
Theorem C56_scalar_acos_asin_binary32 : forall z v, is32 z v -> Rabs v <= 1 ->
  within (16 / 10000000) (XMScalarACos (L:=FL) z) (acos v) /\ within (16 / 10000000) (XMScalarASin (L:=FL) z) (asin v).
Proof. intros z v I H. split; [apply scalar_acos_F|apply scalar_asin_F]; assumption. Qed.
Theorem C56_vector_acos_asin_binary32 : forall (lm : Libm FL) b V k v, b <> Scalar -> is32 (lane V k) v -> Rabs v <= 1 ->
  within (16 / 10000000) (lane (XMVectorACos (L:=FL) b V) k) (acos v) /\ within (21 / 10000000) (lane (XMVectorASin (L:=FL) b V) k) (asin v).
Proof. exact vector_acos_F. Qed.
(** the clamping outside [-1, 1] is lost in binary32: the polynomial overflows and meets the zero of the square root *)
Theorem C56_acos_clamp_refuted : exists z, is32 z 1073741824 /\ value (XMScalarACos (L:=FL) z) = NaN /\ value (XMScalarASin (L:=FL) z) = NaN /\
  forall (lm : Libm FL) b, b <> Scalar -> value (qx (XMVectorACos (L:=FL) b (qrep z))) = NaN.
Proof.
  exists (f_lit 1 30). split; [|split; [|split]].
  - split; [apply enc_word|]. rewrite lit_exact by lia. f_equal. change (Flocq.Core.Raux.bpow Flocq.Core.Zaux.radix2 30) with (IZR (2 ^ 30)). rewrite Rmult_1_l. reflexivity.
  - replace (@XMScalarACos FL (f_lit 1 30)) with 0x7FC00000%Z by (vm_compute; reflexivity). reflexivity.
  - replace (@XMScalarASin FL (f_lit 1 30)) with 0x7FC00000%Z by (vm_compute; reflexivity). reflexivity.
  - intros lm [|s3 s4 [|] av] Hb; [congruence|..];
      (replace (qx (@XMVectorACos FL lm _ (qrep (f_lit 1 30)))) with 0x7FC00000%Z by (vm_compute; reflexivity)); reflexivity.
Qed.
(** the arc tangent of every finite number, and of the infinities *)
Theorem C56_vector_atan_binary32 : forall (lm : Libm FL) b V k v, b <> Scalar -> is32 (lane V k) v ->
  within (15 / 10000000) (lane (XMVectorATan (L:=FL) b V) k) (atan v).
Proof.
  intros lm b V k v Hb (W & E). pose proof (vector_atan_F lm b V k Hb W) as H. rewrite E in H. apply H. discriminate.
Qed.
Theorem C56_vector_atan_infinity_binary32 : forall (lm : Libm FL) b V k s, b <> Scalar -> (0 <= lane V k < 2 ^ 32)%Z -> value (lane V k) = Inf s ->
  within (15 / 10000000) (lane (XMVectorATan (L:=FL) b V) k) (if s then - (PI / 2) else PI / 2).
Proof.
  intros lm b V k s Hb W E. pose proof (vector_atan_F lm b V k Hb W) as H. rewrite E in H. apply H. discriminate.
Qed.
(** the angle of every finite point off the negative half-axis, whether or not the quotient overflows or underflows *)
Theorem C56_vector_atan2_binary32 : forall (lm : Libm FL) b Y X k y x, b <> Scalar -> is32 (lane Y k) y -> is32 (lane X k) x -> y <> 0 \/ 0 < x ->
  exists theta, polar x y theta /\ within (2 / 1000000) (lane (XMVectorATan2 (L:=FL) b Y X) k) theta.
Proof.
  intros lm b Y X k y x Hb Iy Ix H. exists (Ratan2 y x). split; [|exact (vector_atan2_F lm b Y X k y x Hb Iy Ix H)].
  apply Ratan2_polar. destruct H; [right; assumption|left; lra].
Qed.
(** on the negative half-axis the sign bit of the zero picks the side *)
Theorem C56_vector_atan2_negative_axis_binary32 : forall (lm : Libm FL) b Y X k x, b <> Scalar -> is32 (lane Y k) 0 -> is32 (lane X k) x -> x < 0 ->
  within (1 / 10000000) (lane (XMVectorATan2 (L:=FL) b Y X) k) (if bit_sign (lane Y k) then - PI else PI).
Proof.
  intros lm b Y X k x Hb Iy Ix H. rewrite (vatan2_lane lm b Y X k Hb). eexists. split; [apply (atan2_lane_neg (fma_of b) _ _ x Iy Ix H)|].
  pose proof PI32_err as P. unfold pi_err in P. rewrite (sgn_bit _ (proj1 Iy)). apply Flocq.Core.Raux.Rabs_le_inv in P.
  destruct (bit_sign (lane Y k)); apply Rabs_le; lra.
Qed.


(** the value of a literal word *)
Ltac word32 := split; [lia|]; unfold value, bit_exp, bit_frac, bit_sign, signed, pow2; simpl; f_equal; lra.
(** 100 radians are 16 turns off; 1 radian is in the principal range; the results agree with C45_ex_values *)
Example C15_ex_binary32 : is32 0x42C80000 100 /\ Rabs 100 <= 1000000 /\ ~ Rabs 100 <= XM_PI_c.
Proof. unfold XM_PI_c. rewrite Rabs_pos_eq by lra. split; [word32|]. lra. Qed.
Example C45_ex_binary32 : is32 0x3F800000 1 /\ Rabs 1 <= XM_PI_c /\ SSE true true true AVX2 <> Scalar.
Proof. unfold XM_PI_c. rewrite Rabs_pos_eq by lra. split; [word32|]. split; [lra|discriminate]. Qed.
Example C56_ex_binary32 : is32 0xBF000000 (-1/2) /\ Rabs (-1/2) <= 1 /\ value 0xFF800000 = Inf true /\ is32 0x80000000 0 /\ is32 0xC0000000 (-2).
Proof. rewrite Rabs_left by lra. split; [word32|]. split; [lra|]. split; [reflexivity|]. split; [|word32].
  split; [lia|]. change (Fin (- (IZR 0 * pow2 (-149))) = Fin 0). f_equal. rewrite Rmult_0_l. apply Ropp_0.
Qed.
Example C56_ex_axis : forall lm : Libm FL, qx (XMVectorATan2 (L:=FL) (SSE false false false NoAVX) (qrep 0x80000000%Z) (qrep 0xC0000000%Z)) = 0xC0490FDB%Z /\
  qx (XMVectorATan2 (L:=FL) (SSE false false false NoAVX) (qrep 0x00000000%Z) (qrep 0xC0000000%Z)) = 0x40490FDB%Z.
Proof. intros lm. vm_compute. auto. Qed.
