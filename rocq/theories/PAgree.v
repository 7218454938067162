(** Agreement and disagreement of the code paths on binary32 lanes. *)
From Coq Require Import ZArith.
From Flocq Require Import Core IEEE754.BinarySingleNaN.
From Verif Require Import Base F32 F32Facts Intrin Lane MVec.
Open Scope Z_scope.

Notation fvec := (quad Z).
Notation fmat := (quad (quad Z)).
(** builds whose multiply-adds round twice, as the scalar code does *)
Definition no_fma (b : backend) : Prop := match b with SSE _ _ true _ => False | _ => True end.

(** unfold the lane layer at [FL] *)
Ltac fl := cbv beta iota zeta delta [T tadd tsub tmul tdiv tsqrt tneg tabs tfma tlt tle teq tlit pinf tqnan is_pinf Lane.is_nan FL
  qx qy qz qw qmap qmap2 qmap3 qrep lane setlane zero one two half tge tgt vadd vsub vmul vdiv vsqrt vmin vmax vzero vone
  add_ss sub_ss mul_ss div_ss sqrt_ss hadd moveldup vlt vle vgt vge veq vneq vand vsel mask3 mask_x splat permute_ps shuffle].

Lemma agree_elem b b' (u v : fvec) :
  XMVectorAdd b u v = XMVectorAdd b' u v /\ XMVectorSubtract b u v = XMVectorSubtract b' u v
  /\ XMVectorMultiply b u v = XMVectorMultiply b' u v /\ XMVectorDivide b u v = XMVectorDivide b' u v
  /\ XMVectorReciprocal b u = XMVectorReciprocal b' u /\ XMVectorSqrt b u = XMVectorSqrt b' u
  /\ XMVectorReciprocalSqrt b u = XMVectorReciprocalSqrt b' u.
Proof. destruct b, b'; repeat apply conj; reflexivity. Qed.
Lemma agree_scale b b' (u : fvec) s : XMVectorScale b u s = XMVectorScale b' u s.
Proof.
  assert (E : forall b, XMVectorScale b u s = XMVectorScale Scalar u s).
  { intros c; destruct c; [reflexivity|]. destruct u. unfold XMVectorScale. fl. repeat rewrite (f_mul_comm s). reflexivity. }
  rewrite (E b), (E b'); reflexivity.
Qed.
Lemma agree_muladd b b' (u v w : fvec) : no_fma b -> no_fma b' ->
  XMVectorMultiplyAdd b u v w = XMVectorMultiplyAdd b' u v w
  /\ XMVectorNegativeMultiplySubtract b u v w = XMVectorNegativeMultiplySubtract b' u v w.
Proof. destruct b as [|? ? [|] ?], b' as [|? ? [|] ?]; cbn [no_fma]; intros; try contradiction; split; reflexivity. Qed.
Lemma agree_dot2 b b' (u v : fvec) : XMVector2Dot b u v = XMVector2Dot b' u v.
Proof. destruct b, b'; reflexivity. Qed.
Lemma agree_cross2 b b' (u v : fvec) : XMVector2Cross b u v = XMVector2Cross b' u v.
Proof.
  assert (E : forall b, XMVector2Cross b u v = XMVector2Cross Scalar u v).
  { intros c; destruct c; [reflexivity|]. destruct u as [ux uy uz uw], v as [vx vy vz vw]. unfold XMVector2Cross. fl.
    rewrite (f_mul_comm vx uy), (f_mul_comm vy ux). reflexivity. }
  rewrite (E b), (E b'); reflexivity.
Qed.
Lemma agree_dot3 b s3 f a (u v : fvec) : b = Scalar \/ b = SSE s3 false f a -> XMVector3Dot b u v = XMVector3Dot Scalar u v.
Proof. intros [-> | ->]; [reflexivity|destruct s3; reflexivity]. Qed.
Lemma agree_cross3 b b' (u v : fvec) : no_fma b -> no_fma b' -> XMVector3Cross b u v = XMVector3Cross b' u v.
Proof. destruct b as [|? ? [|] ?], b' as [|? ? [|] ?]; cbn [no_fma]; intros; try contradiction; reflexivity. Qed.
Lemma agree_transform b b' (v : fvec) (m : fmat) : no_fma b -> no_fma b' ->
  XMVector2Transform b v m = XMVector2Transform b' v m
  /\ XMVector3Transform b v m = XMVector3Transform b' v m
  /\ XMVector2TransformCoord b v m = XMVector2TransformCoord b' v m
  /\ XMVector3TransformCoord b v m = XMVector3TransformCoord b' v m
  /\ XMVector2TransformNormal b v m = XMVector2TransformNormal b' v m
  /\ XMVector3TransformNormal b v m = XMVector3TransformNormal b' v m.
Proof.
  destruct b as [|? ? [|] ?], b' as [|? ? [|] ?]; cbn [no_fma]; intros; try contradiction; repeat apply conj; reflexivity.
Qed.
Lemma agree_dot4_sse34 f a s3 f' a' (u v : fvec) :
  XMVector4Dot (SSE true false f a) u v = XMVector4Dot (SSE s3 true f' a') u v.
Proof. destruct s3; reflexivity. Qed.

(** the SSE4.1 dot product adds the masked lane's +0 to the third product *)
Definition nz : bf32 := B754_zero true.
Definition pz : bf32 := B754_zero false.
Lemma dec0 : dec 0 = pz. Proof. apply (dec_enc pz). Qed.
Lemma Bplus_pz f : f = nz \/ Bplus mode_NE f pz = f.
Proof. destruct f as [[]| | |]; auto. Qed.
Lemma Bplus_nz_pz s : Bplus mode_NE s nz = Bplus mode_NE s pz \/ s = nz.
Proof. destruct s as [[]| | |]; auto. Qed.
Lemma zero_FL : zero (L:=FL) = 0. Proof. vm_compute. reflexivity. Qed.
Lemma dot3_sse4_core p q : let s4 := f_add p (f_add q 0) in let s := f_add p q in
  s4 = s \/ (s4 = 0 /\ s = 0x80000000 /\ dec p = nz /\ dec q = nz).
Proof.
  cbv zeta. unfold f_add at 1 3 4. unfold f_add. rewrite dec_enc, dec0.
  destruct (Bplus_pz (dec q)) as [E|E]; [|rewrite E; auto].
  rewrite E. change (Bplus mode_NE nz pz) with pz.
  destruct (Bplus_nz_pz (dec p)) as [F|F]; [rewrite F; auto|].
  right. rewrite F. repeat apply conj; reflexivity.
Qed.
Lemma agree_dot3_sse4 s3 f a (u v : fvec) :
  XMVector3Dot (SSE s3 true f a) u v = XMVector3Dot Scalar u v
  \/ (XMVector3Dot (SSE s3 true f a) u v = qrep 0 /\ XMVector3Dot Scalar u v = qrep 0x80000000).
Proof.
  assert (E : XMVector3Dot (SSE s3 true f a) u v
    = qrep (f_add (f_add (f_mul (qx u) (qx v)) (f_mul (qy u) (qy v))) (f_add (f_mul (qz u) (qz v)) 0))).
  { rewrite <- zero_FL. destruct s3; reflexivity. }
  rewrite E.
  change (XMVector3Dot Scalar u v)
    with (qrep (f_add (f_add (f_mul (qx u) (qx v)) (f_mul (qy u) (qy v))) (f_mul (qz u) (qz v)))).
  destruct (dot3_sse4_core (f_add (f_mul (qx u) (qx v)) (f_mul (qy u) (qy v))) (f_mul (qz u) (qz v))) as [H|(H & H' & _)].
  - left. rewrite H. reflexivity.
  - right. rewrite H, H'. split; reflexivity.
Qed.

(** witnesses of disagreement: 1.0 = 0x3F800000, 2^24 = 0x4B800000 *)
Definition w1 : fvec := qrep 0x3F800000.
Definition wd : fvec := Q 0x4B800000 0x3F800000 0x3F800000 0xCB800000.
Definition we : fvec := Q 0x4B800000 0x3F800000 0xCB800000 0.
Lemma dot4_scalar_val : XMVector4Dot Scalar w1 wd = qrep 0. Proof. vm_compute. reflexivity. Qed.
Lemma dot4_sse3_val : XMVector4Dot (SSE true false false NoAVX) w1 wd = qrep 0x3F800000. Proof. vm_compute. reflexivity. Qed.
Lemma dot4_sse3_val' : XMVector4Dot (SSE true false false NoAVX) w1 we = qrep 0. Proof. vm_compute. reflexivity. Qed.
Lemma dot4_sse2_val' : XMVector4Dot (SSE false false false NoAVX) w1 we = qrep 0x3F800000. Proof. vm_compute. reflexivity. Qed.
(** 1 + 2^-23 *)
Definition wa : fvec := qrep 0x3F800001.
Lemma cross_scalar_val : XMVector3Cross Scalar wa wa = qrep 0. Proof. vm_compute. reflexivity. Qed.
Lemma cross_fma_val : XMVector3Cross (SSE true true true AVX2) wa wa = Q 0xA8800000 0xA8800000 0xA8800000 0.
Proof. vm_compute. reflexivity. Qed.
Lemma dot3_sse4_val : XMVector3Dot (SSE true true false NoAVX) (Q 0x80000000 0x80000000 0x80000000 0) w1 = qrep 0
  /\ XMVector3Dot Scalar (Q 0x80000000 0x80000000 0x80000000 0) w1 = qrep 0x80000000.
Proof. vm_compute. split; reflexivity. Qed.
Definition wm : fmat := Q (qrep 0x4B800000) w1 w1 (qrep 0xCB800000).
Lemma transform4_val : XMVector4Transform Scalar w1 wm = qrep 0
  /\ XMVector4Transform (SSE false false false NoAVX) w1 wm = qrep 0x40000000.
Proof. vm_compute. split; reflexivity. Qed.
