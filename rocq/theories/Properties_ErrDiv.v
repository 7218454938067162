(** C77: rounding errors of the matrix inverse and of the transforms with perspective divide, on bit patterns.
    Vocabulary of C65 and C76; [det_cond m] is the sum of the absolute terms of the determinant over the determinant. *)
From Coq Require Import Reals ZArith Lra Lia.
From Verif Require Import Base F32 F32Facts Intrin Lane SpecF32 SpecGeom SpecMat SpecErr SpecErrR SpecErrI MVec MTrig MQuat MMatrix PFloat PErr PErrR PErrDet PErrInv PErrInvE PErrCoord.
From Verif Require PExp.
Open Scope R_scope.

(** [inverse_at] is the inverse: its product with the matrix is the identity *)
Theorem C77_inverse_is : forall m i j, mdet m <> 0 ->
  entry m i I0 * inverse_at m I0 j + entry m i I1 * inverse_at m I1 j + entry m i I2 * inverse_at m I2 j + entry m i I3 * inverse_at m I3 j = (if idx_eqb i j then 1 else 0).
Proof.
  intros m i j H. destruct m as [[y0 y1 y2 y3] [z0 z1 z2 z3] [m0 m1 m2 m3] [t0 t1 t2 t3]]. unfold inverse_at. revert H. set (d := mdet _). assert (D : d = mdet (Q (Q y0 y1 y2 y3) (Q z0 z1 z2 z3) (Q m0 m1 m2 m3) (Q t0 t1 t2 t3))) by reflexivity. clearbody d. intros H.
  destruct i, j; cbv [minor rest checker even_idx Bool.eqb entry lane idx_eqb idx_z det3 det2]; cbn [qx qy qz qw]; apply Rmult_eq_reg_r with d; try exact H; field_simplify; try exact H; rewrite ?D; unfold mdet, det4, det3, det2; cbn [qx qy qz qw]; ring.
Qed.
(** the determinant returned beside the inverse *)
Theorem C77_inverse_determinant : forall b M m i S, holdsM M m -> 1 <= S <= pow2 30 -> mbounded S m ->
  within (10 * ulp_half * mperm m + 420 * (S * S) * tiny) (lane (fst (XMMatrixInverse (L:=FL) b M)) i) (mdet m).
Proof. exact inv_det_err. Qed.
(** each entry of the inverse is within 40 units of 2^-24 times the condition of the determinant times the size of the cofactor over the determinant *)
Theorem C77_inverse : forall b M m i j S, holdsM M m -> 1 <= S <= pow2 30 -> mbounded S m -> pow2 (-20) <= Rabs (mdet m) -> 40 * ulp_half * mperm m <= Rabs (mdet m) ->
  within (40 * ulp_half * (det_cond m * (minor_size m j i / Rabs (mdet m))) + (300 * (S / Rabs (mdet m)) + 3) * tiny)
    (entry (snd (XMMatrixInverse (L:=FL) b M)) i j) (inverse_at m i j).
Proof. exact inverse_err. Qed.
(** perspective transforms: the error is governed by the sums of absolute products of the coordinate and of w, both over w *)
Theorem C77_transform3_coord : forall b V M x m i, let h := vecmat (point x) m in let s := vecmat (vabs (point x)) (mabs m) in
  holds3 V x -> holdsM M m -> safe (lane s i) -> safe (qw s) -> pow2 (-100) <= Rabs (qw h) -> 24 * ulp_half * qw s <= Rabs (qw h) -> lane s i / Rabs (qw h) <= pow2 125 ->
  within (ulp_half * (lane s i / Rabs (qw h)) * (10 + 8 * (qw s / Rabs (qw h))) + (20 / Rabs (qw h) + 2) * tiny) (lane (XMVector3TransformCoord (L:=FL) b V M) i) (lane h i / qw h).
Proof. exact coord3_err. Qed.
Theorem C77_transform2_coord : forall b V M x m i, let h := vecmat (point2 x) m in let s := vecmat (vabs (point2 x)) (mabs m) in
  holds2 V x -> holdsM M m -> safe (lane s i) -> safe (qw s) -> pow2 (-100) <= Rabs (qw h) -> 24 * ulp_half * qw s <= Rabs (qw h) -> lane s i / Rabs (qw h) <= pow2 125 ->
  within (ulp_half * (lane s i / Rabs (qw h)) * (10 + 8 * (qw s / Rabs (qw h))) + (20 / Rabs (qw h) + 2) * tiny) (lane (XMVector2TransformCoord (L:=FL) b V M) i) (lane h i / qw h).
Proof. exact coord2_err. Qed.
Definition n4 (a b c d : Z) : quad Z := Q (f_of_Z a) (f_of_Z b) (f_of_Z c) (f_of_Z d).
Definition r4 (a b c d : Z) : rvec := Q (IZR a) (IZR b) (IZR c) (IZR d).
Lemma n4_holds a b c d : (Z.abs a <= 2 ^ 24 -> Z.abs b <= 2 ^ 24 -> Z.abs c <= 2 ^ 24 -> Z.abs d <= 2 ^ 24 -> holds4 (n4 a b c d) (r4 a b c d))%Z.
Proof.
  intros. assert (O : forall k, (Z.abs k <= 2 ^ 24)%Z -> is32 (f_of_Z k) (IZR k)) by (intros k K; split; [apply enc_word|apply of_Z_exact, K]).
  unfold holds4, n4, r4. cbn [qx qy qz qw]. auto.
Qed.
Ltac holdm := intros i; destruct i; cbn [lane qx qy qz qw]; apply n4_holds; vm_compute; discriminate.
(** the proviso is needed: this matrix of determinant 1 gets an infinity on every backend where its inverse has 4097 *)
Theorem C77_inverse_ill_refuted : exists M m, holdsM M m /\ mdet m = 1 /\ mbounded 4098 m /\ inverse_at m I2 I2 = 4097 /\
  forall b, value (entry (snd (XMMatrixInverse (L:=FL) b M)) I2 I2) = Inf false.
Proof.
  exists (Q (n4 1 0 0 0) (n4 0 1 0 0) (n4 0 0 4097 4096) (n4 0 0 4098 4097)). exists (Q (r4 1 0 0 0) (r4 0 1 0 0) (r4 0 0 4097 4096) (r4 0 0 4098 4097)).
  split; [holdm|]. assert (D : mdet (Q (r4 1 0 0 0) (r4 0 1 0 0) (r4 0 0 4097 4096) (r4 0 0 4098 4097)) = 1) by (unfold mdet, det4, det3, det2, r4; cbn [qx qy qz qw]; ring).
  split; [exact D|]. split; [intros i j; destruct i, j; unfold r4; cbn [lane qx qy qz qw]; rewrite Rabs_pos_eq; lra|].
  split; [unfold inverse_at; rewrite D; cbv [minor rest checker even_idx Bool.eqb entry lane det3 det2 r4]; cbn [qx qy qz qw]; field|].
  intros b. match goal with |- value ?z = _ => assert (E : z = 0x7f800000%Z) by (destruct b as [|[|] [|] [|] [| |]]; vm_compute; reflexivity); rewrite E end. reflexivity.
Qed.
(** ** the hypotheses hold of ordinary data *)
Example C77_ex_inverse : forall b, exists M m, holdsM M m /\ mbounded 7 m /\ mdet m = 210 /\ inverse_at m I1 I1 = / 3 /\ within (/ 100000) (entry (snd (XMMatrixInverse (L:=FL) b M)) I1 I1) (/ 3).
Proof.
  intros b. exists (Q (n4 2 0 0 0) (n4 0 3 0 0) (n4 0 0 5 0) (n4 0 0 0 7)), (Q (r4 2 0 0 0) (r4 0 3 0 0) (r4 0 0 5 0) (r4 0 0 0 7)).
  set (M := Q (n4 2 0 0 0) _ _ _). set (m := Q (r4 2 0 0 0) _ _ _).
  assert (HM : holdsM M m) by (unfold M, m; holdm).
  assert (HB : mbounded 7 m) by (intros i j; destruct i, j; unfold m, r4; cbn [lane qx qy qz qw]; rewrite Rabs_pos_eq; lra).
  assert (HD : mdet m = 210) by (unfold mdet, det4, det3, det2, m, r4; cbn [qx qy qz qw]; ring).
  assert (HP : mperm m = 210) by (unfold mperm, perm4, perm3, perm2, mabs, vabs, m, r4; cbn [qx qy qz qw]; rewrite ?Rabs_R0, !Rabs_pos_eq by lra; ring).
  assert (HI : inverse_at m I1 I1 = / 3) by (unfold inverse_at; rewrite HD; cbv [minor rest checker even_idx Bool.eqb entry lane det3 det2 r4 m]; cbn [qx qy qz qw]; field).
  assert (HZ : minor_size m I1 I1 = 70) by (cbv [minor_size rest entry lane perm3 perm2 r4 m]; cbn [qx qy qz qw]; rewrite ?Rabs_R0, !Rabs_pos_eq by lra; ring).
  split; [exact HM|]. split; [exact HB|]. split; [exact HD|]. split; [exact HI|].
  assert (HS : 1 <= 7 <= pow2 30) by (unfold pow2; cbn; lra).
  destruct (C77_inverse b M m I1 I1 7 HM HS HB) as (r & V & E); [rewrite HD, Rabs_pos_eq by lra; unfold pow2; cbn; lra|rewrite HD, HP, Rabs_pos_eq by lra; unfold ulp_half; lra|].
  exists r. split; [exact V|]. rewrite HI in E. eapply Rle_trans; [exact E|]. unfold det_cond. rewrite HD, HP, HZ, Rabs_pos_eq by lra. unfold ulp_half. rewrite tiny_eta. pose proof PExp.eta_small. lra.
Qed.
Example C77_ex_coord : forall b, exists V M x m, holds3 V x /\ holdsM M m /\ qw (vecmat (point x) m) = 4 /\ within (/ 100000) (qx (XMVector3TransformCoord (L:=FL) b V M)) (7 / 4).
Proof.
  intros b. exists (n4 3 5 4 9), (Q (n4 1 0 0 0) (n4 0 1 0 0) (n4 1 0 1 1) (n4 0 0 2 0)), (r4 3 5 4 9), (Q (r4 1 0 0 0) (r4 0 1 0 0) (r4 1 0 1 1) (r4 0 0 2 0)).
  set (M := Q (n4 1 0 0 0) _ _ _). set (m := Q (r4 1 0 0 0) _ _ _).
  assert (HM : holdsM M m) by (unfold M, m; holdm).
  assert (HV : holds3 (n4 3 5 4 9) (r4 3 5 4 9)) by (destruct (n4_holds 3 5 4 9) as (A & B & C & _); try (vm_compute; discriminate); split; [exact A|split; [exact B|exact C]]).
  assert (Hh : vecmat (point (r4 3 5 4 9)) m = Q 7 5 6 4) by (unfold vecmat, point, plus, scale, m, r4; cbn [qx qy qz qw]; f_equal; ring).
  assert (Hs : vecmat (vabs (point (r4 3 5 4 9))) (mabs m) = Q 7 5 6 4) by (unfold vecmat, point, plus, scale, mabs, vabs, m, r4; cbn [qx qy qz qw]; rewrite ?Rabs_R0, !Rabs_pos_eq by lra; f_equal; ring).
  split; [exact HV|]. split; [exact HM|]. split; [rewrite Hh; reflexivity|].
  pose proof (C77_transform3_coord b _ M _ m I0 HV HM) as H. cbv zeta in H. rewrite Hh, Hs in H. cbn [lane qx qy qz qw] in H. rewrite Rabs_pos_eq in H by lra. rewrite tiny_eta in H.
  assert (P : 1 <= pow2 125) by (change 1 with (IZR 1); unfold pow2; cbn [Z.leb Z.compare]; apply IZR_le; vm_compute; discriminate).
  assert (P' : pow2 126 = 2 * pow2 125) by (change 2 with (IZR 2); unfold pow2; cbn [Z.leb Z.compare]; rewrite <- mult_IZR; f_equal).
  assert (P8 : 16 <= pow2 125) by (change 16 with (IZR 16); unfold pow2; cbn [Z.leb Z.compare]; apply IZR_le; vm_compute; discriminate).
  assert (N : pow2 (-100) <= 1). { unfold pow2; cbn [Z.leb Z.compare Z.opp]. rewrite <- Rinv_1. apply Rinv_le_contravar; [lra|]. apply IZR_le. vm_compute. discriminate. }
  destruct H as (r & V & E); unfold safe; try lra; [unfold ulp_half; lra|]. exists r. split; [exact V|]. eapply Rle_trans; [exact E|]. unfold ulp_half. pose proof PExp.eta_small. lra.
Qed.
