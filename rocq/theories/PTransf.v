(** Proofs about the matrix builders in exact arithmetic. *)
From Coq Require Import Reals Lra Psatz Nsatz.
From Verif Require Import Base F32 Intrin Lane MVec MTrig MQuat MPlane MMatrix SpecGeom SpecQuat SpecMat PReal PVec PQuat PMatrix PRot.
Open Scope R_scope.
Ltac ms := cbv beta iota zeta delta [mtrans mscaling mrotx mroty mrotz flat flat_scale opp outer plane_at mdet
  qmat qrot rodrigues matmul vecmat plus minus scale ham conj qone negv direction point cross dot3 dot4 dot2 ident transp qx qy qz qw] in *.

(** ** Elementary matrices *)
Lemma Translation_R b x y z : XMMatrixTranslation (L:=RL) b x y z = mtrans (Q x y z 0).
Proof. destruct b; reflexivity. Qed.
Lemma TranslationV_R b v : XMMatrixTranslationFromVector (L:=RL) b v = mtrans v.
Proof. destruct b; reflexivity. Qed.
Lemma Scaling_R b x y z : XMMatrixScaling (L:=RL) b x y z = mscaling (Q x y z 0).
Proof. destruct b; reflexivity. Qed.
Lemma ScalingV_R b v : XMMatrixScalingFromVector (L:=RL) b v = mscaling v.
Proof. destruct b; reflexivity. Qed.
Lemma RotX_R b s c : rotation_x_sc (L:=RL) b s c = mrotx s c.
Proof. rt; destruct b; rcbv; meq; ring. Qed.
Lemma RotY_R b s c : rotation_y_sc (L:=RL) b s c = mroty s c.
Proof. rt; destruct b; rcbv; meq; ring. Qed.
Lemma RotZ_R b s c : rotation_z_sc (L:=RL) b s c = mrotz s c.
Proof. rt; destruct b; rcbv; meq; ring. Qed.
Definition mrotn (n : rvec) (s c : R) : rmat :=
  let x := qx n in let y := qy n in let z := qz n in
  Q (Q (c + x*x*(1-c)) (x*y*(1-c) + z*s) (x*z*(1-c) - y*s) 0) (Q (x*y*(1-c) - z*s) (c + y*y*(1-c)) (y*z*(1-c) + x*s) 0)
    (Q (x*z*(1-c) + y*s) (y*z*(1-c) - x*s) (c + z*z*(1-c)) 0) (Q 0 0 0 1).
Lemma RotN_R b n s c : matrix_rotation_normal_sc (L:=RL) b n s c = mrotn n s c.
Proof. bk b; dq n; unfold mrotn; rcbv; meq; ring. Qed.
Lemma mrotn_rodrigues n s c v : vecmat (direction v) (mrotn n s c) = rodrigues n v s c.
Proof. dq n; dq v; unfold mrotn; ms; apply (@Qeq R); ring. Qed.
Lemma rotation_of (M : rmat) : (exists q, unitq q /\ M = qmat q) -> rotation M.
Proof. intros (q & H & ->). apply qmat_rotation. exact H. Qed.
Lemma mrotn_rotation n s c : unit3 n -> s * s + c * c = 1 -> rotation (mrotn n s c).
Proof.
  unfold unit3. intros N H. dq n. unfold rotation, mrotn. ms. split; [meq; nsatz|].
  repeat (split; [reflexivity|]). nsatz.
Qed.
Lemma mrotx_n s c : mrotx s c = mrotn (Q 1 0 0 0) s c.
Proof. unfold mrotn; ms; meq; ring. Qed.
Lemma mroty_n s c : mroty s c = mrotn (Q 0 1 0 0) s c.
Proof. unfold mrotn; ms; meq; ring. Qed.
Lemma mrotz_n s c : mrotz s c = mrotn (Q 0 0 1 0) s c.
Proof. unfold mrotn; ms; meq; ring. Qed.

(** ** Rotation quaternions *)
Lemma RotNQ_R b n s c : rotation_normal_sc (L:=RL) b n s c = Q (qx n * s) (qy n * s) (qz n * s) c.
Proof. destruct b; dq n; rcbv; rt; apply (@Qeq R); ring. Qed.
Lemma rotnq_unit n s c : unit3 n -> s * s + c * c = 1 -> unitq (Q (qx n * s) (qy n * s) (qz n * s) c).
Proof. unfold unit3, unitq. dq n. ms. intros. nsatz. Qed.
Lemma rotnq_mat n s c : unit3 n -> s * s + c * c = 1 -> qmat (Q (qx n * s) (qy n * s) (qz n * s) c) = mrotn n (2 * s * c) (c * c - s * s).
Proof. unfold unit3. dq n. unfold mrotn. ms. intros. meq; nsatz. Qed.
Lemma RPY_R b sn cs : roll_pitch_yaw_sc (L:=RL) b sn cs =
  ham (ham (Q 0 (qy sn) 0 (qy cs)) (Q (qx sn) 0 0 (qx cs))) (Q 0 0 (qz sn) (qz cs)).
Proof. bk b; dq sn; dq cs; rcbv; apply (@Qeq R); ring. Qed.
