(** C57 on bit patterns: the estimate forms with every binary32 rounding counted; and C56 just outside [-1, 1].
    [is32 z a]: the word z is finite and holds the real a; [within e z y]: the lane z is finite and within e of y. *)
From Coq Require Import Reals ZArith Lra Lia.
From Verif Require Import Base F32 F32Facts Intrin Lane MVec MTrig MEst SpecF32 SpecTrig SpecErr PF32 PFloat PTrigPoly PTrig PTrigFn PArc PFix PTrigF PArcF PEstF.
Open Scope R_scope.

Theorem C57_scalar_sin_cos_binary32 : forall z a, is32 z a -> Rabs a <= 1000000 ->
  within (34 / 10000000 + 1 / 10000000 * Rabs a) (XMScalarSinEst (L:=FL) z) (sin a) /\
  within (112 / 10000000 + 1 / 10000000 * Rabs a) (XMScalarCosEst (L:=FL) z) (cos a).
Proof. exact scalar_sincos_est_F. Qed.
Theorem C57_vector_sin_cos_binary32 : forall (lm : Libm FL) b V k a, b <> Scalar -> is32 (lane V k) a -> Rabs a <= 1000000 ->
  within (34 / 10000000 + 1 / 10000000 * Rabs a) (lane (XMVectorSinEst (L:=FL) b V) k) (sin a) /\
  within (112 / 10000000 + 1 / 10000000 * Rabs a) (lane (XMVectorCosEst (L:=FL) b V) k) (cos a).
Proof. exact vector_sincos_est_F. Qed.
Theorem C57_scalar_acos_asin_binary32 : forall z v, is32 z v -> Rabs v <= 1 ->
  within (721 / 10000000) (XMScalarACosEst (L:=FL) z) (acos v) /\ within (722 / 10000000) (XMScalarASinEst (L:=FL) z) (asin v).
Proof. exact scalar_acos_est_F. Qed.
Theorem C57_vector_acos_asin_binary32 : forall (lm : Libm FL) b V k v, b <> Scalar -> is32 (lane V k) v -> Rabs v <= 1 ->
  within (721 / 10000000) (lane (XMVectorACosEst (L:=FL) b V) k) (acos v) /\ within (726 / 10000000) (lane (XMVectorASinEst (L:=FL) b V) k) (asin v).
Proof. exact vector_acos_est_F. Qed.
Theorem C57_vector_atan_binary32 : forall (lm : Libm FL) b V k v, b <> Scalar -> is32 (lane V k) v ->
  within (142 / 10000000) (lane (XMVectorATanEst (L:=FL) b V) k) (atan v).
Proof.
  intros lm b V k v Hb (W & E). pose proof (vector_atan_est_F lm b V k Hb W) as H. rewrite E in H. apply H. discriminate.
Qed.
Theorem C57_vector_atan_infinity_binary32 : forall (lm : Libm FL) b V k s, b <> Scalar -> (0 <= lane V k < 2 ^ 32)%Z -> value (lane V k) = Inf s ->
  within (142 / 10000000) (lane (XMVectorATanEst (L:=FL) b V) k) (if s then - (PI / 2) else PI / 2).
Proof.
  intros lm b V k s Hb W E. pose proof (vector_atan_est_F lm b V k Hb W) as H. rewrite E in H. apply H. discriminate.
Qed.
(** arguments outside [-1, 1] are clamped as long as the polynomial stays finite (C56_acos_clamp_refuted: at 2^30 it does not) *)
Theorem C56_scalar_clamp_binary32 : forall z v, is32 z v -> 1 <= Rabs v <= 65536 ->
  within (1 / 10000000) (XMScalarACos (L:=FL) z) (acos v) /\ within (1 / 10000000) (XMScalarASin (L:=FL) z) (asin v).
Proof. exact scalar_arc_clamp_F. Qed.
Theorem C56_vector_clamp_binary32 : forall (lm : Libm FL) b V k v, b <> Scalar -> is32 (lane V k) v -> 1 <= Rabs v <= 65536 ->
  within (1 / 10000000) (lane (XMVectorACos (L:=FL) b V) k) (acos v) /\ within (1 / 10000000) (lane (XMVectorASin (L:=FL) b V) k) (asin v).
Proof. exact vector_arc_clamp_F. Qed.

Ltac word32 := split; [lia|]; unfold value, bit_exp, bit_frac, bit_sign, signed, pow2; simpl; f_equal; lra.
(** 100 radians, one half, minus two *)
Example C57_ex_binary32 : is32 0x42C80000 100 /\ Rabs 100 <= 1000000 /\ is32 0x3F000000 (1/2) /\ Rabs (1/2) <= 1 /\
  XMScalarSinEst (L:=FL) 0x42C80000%Z = 0xBF01A15F%Z /\ XMScalarACosEst (L:=FL) 0x3F000000%Z = 0x3F86090E%Z.
Proof. rewrite !Rabs_pos_eq by lra. split; [word32|]. split; [lra|]. split; [word32|]. split; [lra|]. vm_compute. auto. Qed.
Example C56_ex_clamp : is32 0xC0000000 (-2) /\ 1 <= Rabs (-2) <= 65536 /\ XMScalarACos (L:=FL) 0xC0000000%Z = 0x40490FDB%Z.
Proof. rewrite Rabs_left by lra. split; [word32|]. split; [lra|]. vm_compute. auto. Qed.
