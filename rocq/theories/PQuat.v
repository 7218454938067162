(** Proofs about quaternions in exact arithmetic. *)
From Coq Require Import Reals Lra Psatz Nsatz.
From Verif Require Import Base F32 Intrin Lane MVec MTrig MQuat MMatrix SpecGeom SpecQuat PReal PVec.
Open Scope R_scope.

Ltac qq := unfold qrot, rodrigues, matmul, vecmat, plus, minus, scale, ham, conj, qone, negv, direction, point, cross, dot3, dot4, dot2, ident, transp in *.
Ltac qr := qq; qring.
(** the same with the projections computed, for goals whose vectors are destructed *)
Ltac qs := cbv beta iota zeta delta [qrot rodrigues matmul vecmat plus minus scale ham conj qone negv direction point cross dot3 dot4 dot2 ident transp qx qy qz qw] in *.
(** [dq] under a name that does not clash with the projections *)
Ltac dn v := destruct v as [a1 a2 a3 a4]; rt.

Lemma QMul_R b p q : XMQuaternionMultiply (L:=RL) b p q = ham q p.
Proof. bk b; dq p; dn q; rcbv; qring. Qed.
Lemma QConj_R b q : XMQuaternionConjugate (L:=RL) b q = conj q.
Proof. bk b; dn q; rcbv; qring. Qed.
Lemma ham_assoc p q r : ham (ham p q) r = ham p (ham q r).
Proof. qr. Qed.
Lemma ham_1l q : ham qone q = q.
Proof. dn q; qr. Qed.
Lemma ham_1r q : ham q qone = q.
Proof. dn q; qr. Qed.
Lemma ham_norm p q : dot4 (ham p q) (ham p q) = dot4 p p * dot4 q q.
Proof. qq; rl; ring. Qed.
Lemma conj_ham p q : conj (ham p q) = ham (conj q) (conj p).
Proof. qr. Qed.
Lemma conj_conj q : conj (conj q) = q.
Proof. dn q; qr. Qed.
Lemma ham_conj q : ham q (conj q) = Q 0 0 0 (dot4 q q).
Proof. qr. Qed.
Lemma conj_norm q : dot4 (conj q) (conj q) = dot4 q q.
Proof. qq; rl; ring. Qed.
Lemma conj_ham_self q : ham (conj q) q = Q 0 0 0 (dot4 q q).
Proof. qr. Qed.

Lemma mul_assoc b p q r : XMQuaternionMultiply (L:=RL) b (XMQuaternionMultiply b p q) r = XMQuaternionMultiply b p (XMQuaternionMultiply b q r).
Proof. rewrite !QMul_R. symmetry. apply ham_assoc. Qed.
Lemma mul_id b q : XMQuaternionMultiply (L:=RL) b XMQuaternionIdentity q = q /\ XMQuaternionMultiply (L:=RL) b q XMQuaternionIdentity = q.
Proof. rewrite !QMul_R. split; [apply ham_1r|apply ham_1l]. Qed.

Lemma QInv_R b q : / 8388608 < dot4 q q -> XMQuaternionInverse (L:=RL) b q = scale (/ dot4 q q) (conj q).
Proof.
  intros H. unfold XMQuaternionInverse. rewrite LengthSq4_R, QConj_R, Div_R.
  unfold vle, qmap2, qrep, vsel, qmap3; cbn [qx qy qz qw tle RL].
  replace (Rleb _ _) with false.
  - dn q. cbn [qx qy qz qw]. unfold scale, conj. cbn [qx qy qz qw]. qeq; field; lra.
  - symmetry; apply Rleb_false. unfold epsilon; rl. lra.
Qed.
Lemma QInv_small b q : dot4 q q <= / 8388608 -> XMQuaternionInverse (L:=RL) b q = Q 0 0 0 0.
Proof.
  intros H. unfold XMQuaternionInverse. rewrite LengthSq4_R, QConj_R, Div_R.
  unfold vle, qmap2, qrep, vsel, qmap3; cbn [qx qy qz qw tle RL].
  replace (Rleb _ _) with true; [reflexivity|].
  symmetry; apply Rleb_true. unfold epsilon; rl. lra.
Qed.
Lemma inv_two_sided b q : / 8388608 < dot4 q q ->
  XMQuaternionMultiply b q (XMQuaternionInverse (L:=RL) b q) = qone /\ XMQuaternionMultiply b (XMQuaternionInverse (L:=RL) b q) q = qone.
Proof.
  intros H. rewrite QInv_R by exact H. rewrite !QMul_R. dn q.
  split; qq; cbn [qx qy qz qw] in *; qeq; field; lra.
Qed.

(** ** Rotation of vectors *)
Lemma Rotate_R b v q : XMVector3Rotate (L:=RL) b v q = qrot q v.
Proof.
  unfold XMVector3Rotate. rewrite QConj_R, !QMul_R. unfold qrot. rewrite <- ham_assoc. reflexivity.
Qed.
Lemma InvRotate_R b v q : XMVector3InverseRotate (L:=RL) b v q = qrot (conj q) v.
Proof.
  unfold XMVector3InverseRotate. rewrite QConj_R, !QMul_R. unfold qrot. rewrite <- ham_assoc, conj_conj. reflexivity.
Qed.
Lemma qrot_real q v : qw (qrot q v) = 0.
Proof. qq; rl; ring. Qed.
Lemma qrot_dot q u v : dot3 (qrot q u) (qrot q v) = dot4 q q * dot4 q q * dot3 u v.
Proof. qq; rl; ring. Qed.
Lemma qrot_cross q u v : unitq q -> cross (qrot q u) (qrot q v) = qrot q (cross u v).
Proof.
  unfold unitq; intros H.
  transitivity (scale (dot4 q q) (qrot q (cross u v))).
  - qr.
  - rewrite H. dn q. qq; rl. qring.
Qed.
Lemma qrot_linear q u v k : qrot q (plus (scale k u) v) = plus (scale k (qrot q u)) (qrot q v).
Proof. qr. Qed.
Lemma qrot_direction q v : direction (qrot q v) = qrot q v.
Proof. pose proof (qrot_real q v) as H. destruct (qrot q v) as [x y z w]; cbn in *; subst; reflexivity. Qed.
Lemma qrot_ham p q v : qrot (ham p q) v = qrot p (qrot q v).
Proof.
  unfold qrot at 2. rewrite qrot_direction. unfold qrot. rewrite conj_ham, !ham_assoc. reflexivity.
Qed.
Lemma qrot_conj q v : unitq q -> qrot (conj q) (qrot q v) = direction v.
Proof.
  unfold unitq; intros H. rewrite <- qrot_ham, conj_ham_self, H. dq v. qr.
Qed.
Lemma qrot_conj' q v : unitq q -> qrot q (qrot (conj q) v) = direction v.
Proof.
  unfold unitq; intros H. rewrite <- qrot_ham, ham_conj, H. dq v. qr.
Qed.

(** ** Quaternion and matrix *)
Definition qmat (q : rvec) : rmat :=
  let x := qx q in let y := qy q in let z := qz q in let w := qw q in
  Q (Q (1 - 2 * (y * y + z * z)) (2 * (x * y + z * w)) (2 * (x * z - y * w)) 0)
    (Q (2 * (x * y - z * w)) (1 - 2 * (x * x + z * z)) (2 * (y * z + x * w)) 0)
    (Q (2 * (x * z + y * w)) (2 * (y * z - x * w)) (1 - 2 * (x * x + y * y)) 0)
    (Q 0 0 0 1).
Lemma RotQuat_R b q : XMMatrixRotationQuaternion (L:=RL) b q = qmat q.
Proof.
  unfold XMMatrixRotationQuaternion. rewrite ?Add_R, ?Sub_R, ?Mul_R, ?MulAdd_R, ?NMulSub_R.
  bk b; dn q; unfold qmat; rcbv; repeat first [apply (@Qeq (quad R)) | apply (@Qeq R)]; ring.
Qed.
Lemma qmat_rot q v : unitq q -> vecmat (direction v) (qmat q) = qrot q v.
Proof.
  unfold unitq; intros H. dn q. dq v. unfold qmat. qq. cbn [qx qy qz qw] in *.
  qeq; nsatz.
Qed.

Lemma qmat_ham p q : unitq p -> unitq q -> qmat (ham q p) = matmul (qmat p) (qmat q).
Proof.
  unfold unitq; intros Hp Hq. dn q. dq p. unfold qmat. qs.
  apply (@Qeq (quad R)); qeq; nsatz.
Qed.
Lemma qmat_rotation q : unitq q -> rotation (qmat q).
Proof.
  unfold unitq; intros H. dn q. unfold rotation, qmat. qs.
  split; [apply (@Qeq (quad R)); qeq; nsatz|]. repeat (split; [reflexivity|]). nsatz.
Qed.
Lemma qmat_neg q : qmat (negv q) = qmat q.
Proof. dn q. unfold qmat. qq. cbn [qx qy qz qw] in *. apply (@Qeq (quad R)); qring. Qed.

(** the candidate rows of the conversion and their pivots *)
Section FromMatrix.
Variable M : rmat.
Let m00 := qx (qx M). Let m01 := qy (qx M). Let m02 := qz (qx M).
Let m10 := qx (qy M). Let m11 := qy (qy M). Let m12 := qz (qy M).
Let m20 := qx (qz M). Let m21 := qy (qz M). Let m22 := qz (qz M).
Definition candX : rvec := Q (1 + m00 - m11 - m22) (m01 + m10) (m02 + m20) (m12 - m21).
Definition candY : rvec := Q (m01 + m10) (1 - m00 + m11 - m22) (m12 + m21) (m20 - m02).
Definition candZ : rvec := Q (m02 + m20) (m12 + m21) (1 - m00 - m11 + m22) (m01 - m10).
Definition candW : rvec := Q (m12 - m21) (m20 - m02) (m01 - m10) (1 + m00 + m11 + m22).
Definition cand_of (f : rvec -> R -> rvec) : rvec :=
  if Rleb m22 0 then if Rleb (m11 - m00) 0 then f candX (qx candX) else f candY (qy candY)
  else if Rleb (m11 + m00) 0 then f candZ (qz candZ) else f candW (qw candW).
End FromMatrix.
Lemma vdiv_rep (v : rvec) k : vdiv (L:=RL) v (qrep k) = scale (/ k) v.
Proof. dq v. qeq; unfold Rdiv; ring. Qed.
Lemma QFromMat_R b M : XMQuaternionRotationMatrix (L:=RL) b M =
  cand_of M (fun v p => match b with Scalar => scale (/ 2 / sqrt p) v | _ => scale (/ norm4 v) v end).
Proof.
  destruct M as [r0 r1 r2 r3]; dq r0; dq r1; dq r2; dq r3.
  destruct b as [|s3 s4 f a].
  - unfold XMQuaternionRotationMatrix, cand_of. cbn [qx qy qz qw lane]. rl. cbn [qx qy qz qw].
    repeat match goal with |- context [Rleb ?x ?y] => destruct (Rleb x y) eqn:? end;
    unfold candX, candY, candZ, candW, scale; cbn [qx qy qz qw];
    apply (@Qeq R);
    match goal with |- context [sqrt ?x] => match goal with |- _ = / 2 / sqrt ?y * _ => replace y with x by ring end end;
    unfold Rdiv; ring.
  - unfold XMQuaternionRotationMatrix, cand_of. rewrite !FMADD_R, Length4_R.
    cbn [qx qy qz qw].
    match goal with |- vdiv ?v _ = _ => set (cv := v) end.
    assert (E : cv = cand_of (Q (Q r0x r0y r0z r0w) (Q r1x r1y r1z r1w) (Q r2x r2y r2z r2w) (Q r3x r3y r3z r3w)) (fun v _ => v)).
    { subst cv. unfold mone, cand_of, candX, candY, candZ, candW. cbn [qx qy qz qw]. rl.
      repeat match goal with |- context [Rleb ?x ?y] => destruct (Rleb x y) eqn:? end; qring. }
    rewrite E. unfold cand_of. cbn [qx qy qz qw].
    repeat match goal with |- context [Rleb ?x ?y] => destruct (Rleb x y) eqn:? end; apply vdiv_rep.
Qed.

(** what a rotation matrix satisfies: it is its own cofactor matrix, and rows and columns are unit *)
Lemma pos_pivot p n : 1 <= p -> n = 4 * p -> / sqrt n = / 2 / sqrt p.
Proof.
  intros Hp ->. rewrite sqrt_mult by lra. replace 4 with (2 * 2) by ring. rewrite sqrt_square by lra.
  assert (0 < sqrt p) by (apply sqrt_lt_R0; lra). field. lra.
Qed.
Record rot_eqs (a b c d e f g h i : R) : Prop := {
  re1 : a*a+b*b+c*c = 1; re2 : d*d+e*e+f*f = 1; re3 : g*g+h*h+i*i = 1;
  re4 : a*d+b*e+c*f = 0; re5 : a*g+b*h+c*i = 0; re6 : d*g+e*h+f*i = 0;
  rc1 : a*a+d*d+g*g = 1; rc2 : b*b+e*e+h*h = 1; rc3 : c*c+f*f+i*i = 1;
  rc4 : a*b+d*e+g*h = 0; rc5 : a*c+d*f+g*i = 0; rc6 : b*c+e*f+h*i = 0;
  rd1 : a = e*i-f*h; rd2 : b = f*g-d*i; rd3 : c = d*h-e*g;
  rd4 : d = c*h-b*i; rd5 : e = a*i-c*g; rd6 : f = b*g-a*h;
  rd7 : g = b*f-c*e; rd8 : h = c*d-a*f; rd9 : i = a*e-b*d }.
Lemma rotation_eqs r0 r1 r2 r3 : rotation (Q r0 r1 r2 r3) ->
  rot_eqs (qx r0) (qy r0) (qz r0) (qx r1) (qy r1) (qz r1) (qx r2) (qy r2) (qz r2).
Proof.
  intros (H & h1 & h2 & h3 & h4 & D). dq r0. dq r1. dq r2. cbn [qx qy qz qw] in *. subst. revert H D. qs. intros H D.
  injection H; intros; clear H.
  constructor; nsatz.
Qed.
