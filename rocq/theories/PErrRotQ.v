(** Rounding errors of the rotation matrix of a quaternion on bit patterns. *)
From Coq Require Import Reals Lra Lia ZArith Bool.
From Flocq Require Import Core Relative IEEE754.BinarySingleNaN.
From Verif Require Import Base F32 F32Facts Intrin Lane MVec MTrig MQuat MInterp MMatrix SpecF32 PF32 SpecRound PFloat PExp SpecGeom SpecMat SpecErr SpecErrR SpecErrP PErr PErrVec PErrMat PFix PErrR PErrDet PErrInt.
From Verif Require PQuat.
Open Scope R_scope.
Local Opaque f_add f_sub f_mul f_div f_sqrt f_fma f_lit f_neg f_eq f_lt.

Lemma rotq_err b V q i j : holds4 V q -> bounded 4 q ->
  within (5 * ulp_half * entry (qmatrix_size q) i j + 100 * tiny) (entry (XMMatrixRotationQuaternion (L:=FL) b V) i j) (entry (qmatrix q) i j).
Proof.
  pose proof eta_pos as E0. pose proof eta_small as E1. pose proof big_pos as BP. dq4 V a0 a1 a2 a3; dq4 q x0 x1 x2 x3. hyps. bnds. pose proof val_one as C1. pose proof (Req_le _ _ Rabs_R1) as B1.
  unfold entry, qmatrix, qmatrix_size. cbn [lane qx qy qz qw] in *.
  destruct b; destruct i, j; cbv beta iota zeta delta [XMMatrixRotationQuaternion perm swz pick IdR3]; flx; rfix.
Qed.
Lemma rotq_real b q : XMMatrixRotationQuaternion (L:=RL) b q = qmatrix q.
Proof. rewrite PQuat.RotQuat_R. destruct q as [x y z t]. unfold PQuat.qmat, qmatrix. cbn [qx qy qz qw]. repeat match goal with |- Q _ _ _ _ = Q _ _ _ _ => f_equal end; try ring. Qed.
