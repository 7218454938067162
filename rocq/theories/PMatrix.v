(** Proofs about matrices in exact arithmetic. *)
From Coq Require Import Reals Lra Psatz Nsatz.
From Verif Require Import Base F32 Intrin Lane MVec MTrig MQuat MPlane MMatrix SpecGeom SpecQuat SpecMat PReal PVec PQuat.
Open Scope R_scope.

Ltac meq := apply (@Qeq (quad R)); apply (@Qeq R).
Ltac dm M := let a := fresh M "a" in let b := fresh M "b" in let c := fresh M "c" in let d := fresh M "d" in
  destruct M as [a b c d]; dq a; dq b; dq c; dq d.

(** ** Product *)
Lemma mul_row_scalar_R r M : mul_row_scalar (L:=RL) r M = vecmat r M.
Proof. dm M; dq r; rcbv; apply (@Qeq R); ring. Qed.
Lemma mul_row_sse_R r M : mul_row_sse (L:=RL) r M = vecmat r M.
Proof. dm M; dq r; rcbv; apply (@Qeq R); ring. Qed.
Lemma mul_avx2_R A B : mul_avx2 (L:=RL) A B = ((vecmat (qx A) B, vecmat (qy A) B), (vecmat (qz A) B, vecmat (qw A) B)).
Proof.
  destruct A as [a1 a2 a3 a4], B as [b1 b2 b3 b4]. unfold mul_avx2, ymap3, ymap2, ysplat, yperm00, yperm11; cbn [fst snd qx qy qz qw].
  repeat apply f_equal2; unfold vecmat, plus, scale; qring.
Qed.
Lemma MMul_R b A B : XMMatrixMultiply (L:=RL) b A B = matmul A B.
Proof.
  unfold XMMatrixMultiply, matmul. destruct b as [|s3 s4 f [| |]]; rewrite ?mul_avx2_R, ?mul_row_scalar_R, ?mul_row_sse_R; reflexivity.
Qed.
Lemma vecmat_matmul v A B : vecmat (vecmat v A) B = vecmat v (matmul A B).
Proof. dq v; dm A; dm B; qs; apply (@Qeq R); ring. Qed.
Lemma matmul_assoc A B C : matmul (matmul A B) C = matmul A (matmul B C).
Proof. unfold matmul at 1 3; cbn [qx qy qz qw]. unfold matmul at 1 2 3 4. cbn [qx qy qz qw]. rewrite !vecmat_matmul. reflexivity. Qed.
Lemma vecmat_ident v : vecmat v ident = v.
Proof. dq v. unfold vecmat, ident, plus, scale; qring. Qed.
Lemma matmul_1l A : matmul ident A = A.
Proof. dm A; qs; meq; ring. Qed.
Lemma matmul_1r A : matmul A ident = A.
Proof. unfold matmul. rewrite !vecmat_ident. destruct A; reflexivity. Qed.
Lemma matmul_add_l A B C : matmul (madd A B) C = madd (matmul A C) (matmul B C).
Proof. dm A; dm B; dm C; unfold madd; qs; meq; ring. Qed.
Lemma matmul_add_r A B C : matmul A (madd B C) = madd (matmul A B) (matmul A C).
Proof. dm A; dm B; dm C; unfold madd; qs; meq; ring. Qed.
Lemma transp_matmul A B : transp (matmul A B) = matmul (transp B) (transp A).
Proof. dm A; dm B; qs; meq; ring. Qed.
Lemma transp_transp A : transp (transp A) = A.
Proof. dm A; reflexivity. Qed.

(** ** Transpose *)
Lemma Transpose_any {L : Lane} b (M : quad (quad (T L))) : XMMatrixTranspose b M =
  Q (qmap qx M) (qmap qy M) (qmap qz M) (qmap qw M).
Proof. destruct M as [[? ? ? ?] [? ? ? ?] [? ? ? ?] [? ? ? ?]]. destruct b as [|s3 s4 f [| |]]; reflexivity. Qed.
Lemma Transpose_R b M : XMMatrixTranspose (L:=RL) b M = transp M.
Proof. rewrite Transpose_any. reflexivity. Qed.
Lemma MulT_R b A B : XMMatrixMultiplyTranspose (L:=RL) b A B = transp (matmul A B).
Proof.
  unfold XMMatrixMultiplyTranspose. destruct b as [|s3 s4 f [| |]]; rewrite ?mul_avx2_R, ?mul_row_sse_R; try reflexivity.
Qed.

(** ** Determinant and inverse *)
Definition detM (M : rmat) : R := det4 (qx M) (qy M) (qz M) (qw M).
Definition adj (M : rmat) : rmat :=
  let a := qx (qx M) in let b := qy (qx M) in let c := qz (qx M) in let d := qw (qx M) in
  let e := qx (qy M) in let f := qy (qy M) in let g := qz (qy M) in let h := qw (qy M) in
  let i := qx (qz M) in let j := qy (qz M) in let k := qz (qz M) in let l := qw (qz M) in
  let m := qx (qw M) in let n := qy (qw M) in let o := qz (qw M) in let p := qw (qw M) in
  Q (Q (det3 f g h j k l n o p) (- det3 b c d j k l n o p) (det3 b c d f g h n o p) (- det3 b c d f g h j k l))
    (Q (- det3 e g h i k l m o p) (det3 a c d i k l m o p) (- det3 a c d e g h m o p) (det3 a c d e g h i k l))
    (Q (det3 e f h i j l m n p) (- det3 a b d i j l m n p) (det3 a b d e f h m n p) (- det3 a b d e f h i j l))
    (Q (- det3 e f g i j k m n o) (det3 a b c i j k m n o) (- det3 a b c e f g m n o) (det3 a b c e f g i j k)).
Definition mscale (k : R) (M : rmat) : rmat := Q (scale k (qx M)) (scale k (qy M)) (scale k (qz M)) (scale k (qw M)).
Lemma Det_R b M : XMMatrixDeterminant (L:=RL) b M = qrep (detM M).
Proof.
  unfold XMMatrixDeterminant. rewrite Dot4_R, ?MulAdd_R, ?NMulSub_R, ?Mul_R. f_equal.
  unfold mone, detM. dm M. unfold det4, det3, det2, dot4; rl. ring.
Qed.
Lemma adj_l M : matmul (adj M) M = mscale (detM M) ident.
Proof. dm M; cbv [mscale detM adj det4 det3 det2]; qs; meq; ring. Qed.
Lemma adj_r M : matmul M (adj M) = mscale (detM M) ident.
Proof. dm M; cbv [mscale detM adj det4 det3 det2]; qs; meq; ring. Qed.
Ltac inverse_tac M :=
  dm M; rcbv;
  match goal with |- (Q ?d _ _ _, _) = (Q ?e _ _ _, _) => assert (D : d = e) by ring; rewrite ?D; clear D; set (dd := e); clearbody dd end;
  f_equal; meq; ring.
Lemma Inverse_R b M : XMMatrixInverse (L:=RL) b M = (qrep (detM M), mscale (1 / detM M) (adj M)).
Proof.
  destruct b as [|s3 s4 f a]; unfold XMMatrixInverse; rewrite Dot4_R; [|destruct f]; inverse_tac M.
Qed.
Lemma det_matmul A B : detM (matmul A B) = detM A * detM B.
Proof. dm A; dm B; cbv [detM det4 det3 det2]; qs; ring. Qed.
