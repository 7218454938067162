(** Statements about planes and the Fresnel term in the form used by Properties_Plane. *)
From Coq Require Import ZArith Reals Lra Bool.
From Flocq Require Import Core IEEE754.BinarySingleNaN.
From Verif Require Import Base F32 F32Facts PF32 Intrin Lane MVec MTrig MQuat MPlane MMatrix SpecGeom SpecQuat SpecMat PReal PVec PQuat PMatrix PTransf PAgree PPlane.
Open Scope R_scope.

Lemma plane_dots b P v : XMPlaneDot (L:=RL) b P v = qrep (dot4 P v)
  /\ XMPlaneDotCoord (L:=RL) b P v = qrep (plane_at P v) /\ XMPlaneDotNormal (L:=RL) b P v = qrep (dot3 P v).
Proof. split; [apply PDot_R|split; [apply PDotCoord_R|apply PDotNormal_R]]. Qed.
Lemma normalize_zero_float : exists P : fvec, XMPlaneNormalize (L:=FL) Scalar P = qrep 0%Z
  /\ qmap f_isnan (XMPlaneNormalize (L:=FL) (SSE true true true AVX2) P) = qrep true.
Proof. exists (qrep 0%Z). split; vm_compute; reflexivity. Qed.
Lemma c44_fresnel b c n : exists r, XMFresnelTerm (L:=RL) b c n = Some r /\ forall i,
  0 <= lane r i <= 1 /\
  (0 < lane c i <= 1 -> 1 <= lane n i ->
   let ct := sqrt (1 - (1 - lane c i * lane c i) / (lane n i * lane n i)) in
   let rs := (lane c i - lane n i * ct) / (lane c i + lane n i * ct) in
   let rp := (lane n i * lane c i - ct) / (lane n i * lane c i + ct) in
   lane r i = (rs * rs + rp * rp) / 2).
Proof.
  eexists; split; [apply Fresnel_R|]. intros i.
  assert (E : lane (A:=R) (qmap2 (fun c n => clampR 0 1 (fres c n)) c n) i = clampR 0 1 (fres (lane c i) (lane n i))) by (destruct i; reflexivity).
  rt. rewrite E. generalize (lane c i), (lane n i). intros x y. split.
  - unfold clampR, Rmin, Rmax. repeat destruct Rle_dec; lra.
  - intros X Y. pose proof (fres_physical x y X Y) as (A & B & C). cbv zeta in *. rewrite <- A.
    unfold clampR, Rmin, Rmax. repeat destruct Rle_dec; lra.
Qed.
Lemma c44_agree b b' c n : XMFresnelTerm (L:=RL) b c n = XMFresnelTerm (L:=RL) b' c n.
Proof. rewrite !Fresnel_R. reflexivity. Qed.
Lemma c44_disagree : exists c n : fvec, qmap f_fin c = qrep true /\ qmap f_fin n = qrep true
  /\ XMFresnelTerm (L:=FL) Scalar c n <> XMFresnelTerm (L:=FL) (SSE true true true AVX2) c n.
Proof. exists (qrep 0%Z), (qrep 0x3F800000%Z). split; [vm_compute; reflexivity|]. split; [vm_compute; reflexivity|]. vm_compute. discriminate. Qed.
Lemma c44_ex : XMFresnelTerm (L:=RL) Scalar (qrep 1) (qrep 2) = Some (qrep (1 / 9)).
Proof.
  rewrite Fresnel_R. f_equal. unfold qmap2, qrep. cbn [qx qy qz qw].
  replace (clampR 0 1 (fres 1 2)) with (1 / 9); [reflexivity|].
  unfold fres. replace (2 * 2 + 1 * 1 - 1) with (2 * 2) by ring. rewrite Rabs_pos_eq by lra. rewrite sqrt_square by lra. cbv zeta.
  unfold clampR, Rmin, Rmax. repeat destruct Rle_dec; lra.
Qed.
Lemma f_sub_self a : f_fin a = true -> f_sub a a = 0%Z.
Proof.
  unfold f_fin, f_sub. intros H. generalize (Bminus_correct 24 128 eq_refl eq_refl mode_NE (dec a) (dec a) H H).
  rewrite Rminus_diag_eq by reflexivity. rewrite round_0 by apply valid_rnd_N. rewrite Rabs_R0, Rlt_bool_true by apply bpow_gt_0.
  intros (A & B & C). rewrite Rcompare_Eq in C by reflexivity.
  unfold enc. destruct (Bminus mode_NE (dec a) (dec a)) as [s|s| |s m e E]; try discriminate B.
  - cbn in C. subst s. destruct (Bsign (dec a)); reflexivity.
  - exfalso. revert A. unfold B2R. intros A. apply eq_0_F2R in A. destruct s; discriminate A.
Qed.
Lemma parallel_line_float b P A : f_fin (qx (XMVector3Dot (L:=FL) b P A)) = true ->
  qmap f_isnan (XMPlaneIntersectLine (L:=FL) b P A A) = qrep true.
Proof.
  intros H. unfold XMPlaneIntersectLine.
  assert (E : exists d, XMVector3Dot (L:=FL) b P A = qrep d) by (destruct P, A; bk b; eexists; reflexivity).
  destruct E as (d & E). rewrite E in *. cbn [qrep qx] in H.
  assert (S : XMVectorSubtract (L:=FL) b (qrep d) (qrep d) = qrep 0%Z).
  { transitivity (qrep (f_sub d d)); [destruct b; reflexivity|]. rewrite f_sub_self by exact H. reflexivity. }
  rewrite S. replace (XMVectorNearEqual (L:=FL) b (qrep 0%Z) vzero (qrep epsilon)) with (qrep true) by (destruct b; vm_compute; reflexivity).
  match goal with |- qmap _ (vsel ?x _ _) = _ => generalize x end. intros [x y z w]. vm_compute. reflexivity.
Qed.
