(** XMMatrixDecompose in exact arithmetic. *)
From Coq Require Import Reals Lra Psatz Nsatz Bool.
From Verif Require Import Base F32 Intrin Lane MVec MTrig MQuat MPlane MMatrix SpecGeom SpecQuat SpecMat PReal PVec PQuat PMatrix PRot PTransf PPlane PBuild.
Open Scope R_scope.

Lemma decomp_eps_R : decomp_eps (L:=RL) = epsR.
Proof. unfold decomp_eps, epsR; cbn; unfold Rlit; cbn; field. Qed.
Definition sg (x : R) : R := if Rltb x 0 then -1 else 1.
Lemma sg_cases x : sg x = 1 \/ sg x = -1. Proof. unfold sg; destruct (Rltb x 0); auto. Qed.
Lemma sg_abs x : sg x * Rabs x = x.
Proof. unfold sg. destruct (Rltb_spec x 0); [rewrite Rabs_left|rewrite Rabs_right]; lra. Qed.
Lemma abs_sg x : x <> 0 -> x / Rabs x = sg x.
Proof. intros H. unfold sg. destruct (Rltb_spec x 0); [rewrite Rabs_left|rewrite Rabs_right]; try lra; field; lra. Qed.
Lemma norm3_scaled k r : dot3 r r = 1 -> norm3 (scale k r) = Rabs k.
Proof.
  intros H. unfold norm3. replace (dot3 (scale k r) (scale k r)) with (Rsqr k * dot3 r r) by (dq r; unfold dot3, scale, Rsqr; cbn [qx qy qz]; ring).
  rewrite H, Rmult_1_r. apply sqrt_Rsqr_abs.
Qed.
Lemma normalize_scaled b k r : k <> 0 -> dot3 r r = 1 -> XMVector3Normalize (L:=RL) b (scale k r) = scale (sg k) r.
Proof.
  intros K H. rewrite Normalize3_R.
  - rewrite norm3_scaled by assumption. rewrite <- (abs_sg k K). pose proof (Rabs_pos_lt k K). dq r. unfold scale; cbn [qx qy qz qw]. apply (@Qeq R); field; lra.
  - intros (A & B & C). assert (N : norm3 (scale k r) = 0) by (unfold norm3, dot3; rewrite A, B, C; replace (0*0+0*0+0*0) with 0 by ring; apply sqrt_0).
    rewrite norm3_scaled in N by assumption. pose proof (Rabs_pos_lt k K). lra.
Qed.
(** rows of a rotation *)
Lemma rotation_rows M : rotation M -> exists r0 r1 r2, M = Q r0 r1 r2 (Q 0 0 0 1) /\ qw r0 = 0 /\ qw r1 = 0 /\ qw r2 = 0 /\
  dot3 r0 r0 = 1 /\ dot3 r1 r1 = 1 /\ dot3 r2 r2 = 1 /\ dot3 r0 r1 = 0 /\ dot3 r0 r2 = 0 /\ dot3 r1 r2 = 0 /\
  cross r0 r1 = r2 /\ cross r1 r2 = r0 /\ cross r2 r0 = r1.
Proof.
  intros H. destruct (mat_of_rotation M H) as (a & b & c & d & e & f & g & h & i & -> & E). 
  exists (Q a b c 0), (Q d e f 0), (Q g h i 0). ms.
  destruct E. repeat (split; [reflexivity|]). repeat (split; [lra|]). repeat split; apply (@Qeq R); lra.
Qed.
Lemma IdR3_R : IdR3 (L:=RL) = Q 0 0 0 1. Proof. reflexivity. Qed.
Lemma rank_perm x y z : let n := Q x y z 0 in
  exists a b c, rank (L:=RL) x y z = (a, b, c) /\ lane n b <= lane n a /\ lane n c <= lane n b /\
  ((a = I0 /\ b = I1 /\ c = I2) \/ (a = I0 /\ b = I2 /\ c = I1) \/ (a = I1 /\ b = I0 /\ c = I2) \/ (a = I1 /\ b = I2 /\ c = I0) \/ (a = I2 /\ b = I0 /\ c = I1) \/ (a = I2 /\ b = I1 /\ c = I0)).
Proof.
  cbv zeta. unfold rank. rl.
  repeat match goal with |- context [Rltb ?p ?q] => destruct (Rltb_spec p q) end;
  (do 3 eexists; split; [reflexivity|]; cbn [lane qx qy qz qw]; repeat split; try lra; tauto).
Qed.
Section Main.
Variables (r0 r1 r2 : rvec).
Hypotheses (W0 : qw r0 = 0) (W1 : qw r1 = 0) (W2 : qw r2 = 0).
Hypotheses (N0 : dot3 r0 r0 = 1) (N1 : dot3 r1 r1 = 1) (N2 : dot3 r2 r2 = 1).
Hypotheses (P01 : dot3 r0 r1 = 0) (P02 : dot3 r0 r2 = 0) (P12 : dot3 r1 r2 = 0).
Hypotheses (X01 : cross r0 r1 = r2) (X12 : cross r1 r2 = r0) (X20 : cross r2 r0 = r1).
Definition rows (e0 e1 e2 : R) : rmat := Q (scale e0 r0) (scale e1 r1) (scale e2 r2) (Q 0 0 0 1).
Definition unit_sign (e : R) := e = 1 \/ e = -1.
Lemma dot3_ss k l u v : dot3 (scale k u) (scale l v) = k * l * dot3 u v.
Proof. dq u; dq v; unfold dot3, scale; cbn [qx qy qz]; ring. Qed.
Lemma cross_ss k l u v : cross (scale k u) (scale l v) = scale (k * l) (cross u v).
Proof. dq u; dq v; unfold cross, scale; cbn [qx qy qz qw]; apply (@Qeq R); ring. Qed.
Lemma det_rows u v w : detM (Q u v w (Q 0 0 0 1)) = dot3 (cross u v) w.
Proof. dq u; dq v; dq w. unfold detM, det4, det3, det2. ms. ring. Qed.
Lemma trip : dot3 (cross r0 r1) r2 = 1. Proof. rewrite X01. exact N2. Qed.
Lemma rows_rot e0 e1 e2 : unit_sign e0 -> unit_sign e1 -> unit_sign e2 -> e0 * e1 * e2 = 1 -> rotation (rows e0 e1 e2).
Proof.
  intros S0 S1 S2 E.
  assert (Q0 : e0 * e0 = 1) by (destruct S0 as [-> | ->]; ring). assert (Q1 : e1 * e1 = 1) by (destruct S1 as [-> | ->]; ring). assert (Q2 : e2 * e2 = 1) by (destruct S2 as [-> | ->]; ring).
  pose proof trip as TR. unfold rotation, rows. cbn [qx qy qz qw].
  split; [|repeat (split; [cbn [scale qw]; rewrite ?W0, ?W1, ?W2; try ring; reflexivity|]); rewrite cross_ss, dot3_ss, TR, Rmult_1_r; exact E].
  clear TR X01 X12 X20. revert W0 W1 W2 N0 N1 N2 P01 P02 P12 Q0 Q1 Q2. clear.
  dq r0; dq r1; dq r2. cbn [qw]. intros -> -> ->. ms. intros. meq; try ring; nsatz.
Qed.
Definition good (s t : rvec) (res : option (rvec * rvec * rvec)) : Prop :=
  exists sc q, res = Some (sc, q, point t) /\ unitq q /\ srt sc (qmat q) t = srt s (Q r0 r1 r2 (Q 0 0 0 1)) t.
Lemma srt_rows s t : srt s (Q r0 r1 r2 (Q 0 0 0 1)) t = Q (scale (qx s) r0) (scale (qy s) r1) (scale (qz s) r2) (point t).
Proof. unfold srt. clear - W0 W1 W2. dq r0; dq r1; dq r2. cbn [qw] in *. subst. dq s; dq t. ms. meq; ring. Qed.
Lemma finish b s t sc e0 e1 e2 : unit_sign e0 -> unit_sign e1 -> unit_sign e2 -> e0 * e1 * e2 = 1 ->
  qx sc * e0 = qx s -> qy sc * e1 = qy s -> qz sc * e2 = qz s ->
  good s t (Some (sc, XMQuaternionRotationMatrix (L:=RL) b (rows e0 e1 e2), point t)).
Proof.
  intros S0 S1 S2 E A B C. pose proof (rows_rot e0 e1 e2 S0 S1 S2 E) as RR. destruct (mat_quat_mat b _ RR) as (M1 & M2).
  do 2 eexists; split; [reflexivity|]. split; [exact M2|]. rewrite RotQuat_R in M1. rewrite M1, srt_rows.
  clear M1 M2 RR. unfold srt, rows. clear - W0 W1 W2 A B C. dq r0; dq r1; dq r2. cbn [qw] in *. subst. dq s; dq t; dq sc. cbn [qx qy qz qw] in *. subst. ms. meq; ring.
Qed.
Lemma sign_sg x : unit_sign (sg x). Proof. apply sg_cases. Qed.
Lemma neg_scale b k r : XMVectorNegate (L:=RL) b (scale k r) = scale (- k) r.
Proof. rewrite Neg_R. dq r; unfold opp, scale; cbn [qx qy qz qw]; apply (@Qeq R); ring. Qed.
Lemma det_rows3 g0 g1 g2 : detM (rows g0 g1 g2) = g0 * g1 * g2.
Proof. unfold rows. rewrite det_rows, cross_ss, dot3_ss, trip. ring. Qed.
Lemma final b s t sc g0 g1 g2 (a : idx) (B : rmat) : a <> I3 ->
  unit_sign g0 -> unit_sign g1 -> unit_sign g2 -> B = rows g0 g1 g2 ->
  qx sc * g0 = qx s -> qy sc * g1 = qy s -> qz sc * g2 = qz s ->
  good s t (decompose_d (L:=RL) b sc a B (point t)).
Proof.
  intros A S0 S1 S2 -> E0 E1 E2. unfold decompose_d. rewrite decomp_eps_R, Det_R. change (@tlt RL) with Rltb. change (zero (L:=RL)) with 0. change (one (L:=RL)) with 1. rewrite det_rows3. cbn [qrep qx]. cbv zeta. change (@tneg RL) with Ropp. change (@tsub RL) with Rminus. change (@tmul RL) with Rmult.
  assert (D : g0 * g1 * g2 = 1 \/ g0 * g1 * g2 = -1) by (destruct S0 as [-> | ->], S1 as [-> | ->], S2 as [-> | ->]; lra).
  destruct D as [D | D]; rewrite D.
  - replace (Rltb 1 0) with false by (symmetry; apply Rltb_false; lra).
    replace (Rltb epsR ((1 - 1) * (1 - 1))) with false by (symmetry; apply Rltb_false; unfold epsR; lra).
    apply finish; assumption.
  - replace (Rltb (-1) 0) with true by (symmetry; apply Rltb_true; lra).
    replace (Rltb epsR ((- -1 - 1) * (- -1 - 1))) with false by (symmetry; apply Rltb_false; unfold epsR; lra).
    dq sc. destruct a; cbn [setlane lane qx qy qz qw rows] in *; try congruence; rewrite neg_scale;
    [apply (finish b s t _ (- g0) g1 g2)|apply (finish b s t _ g0 (- g1) g2)|apply (finish b s t _ g0 g1 (- g2))]; cbn [qx qy qz qw]; try assumption; try lra;
    unfold unit_sign in *; lra.
Qed.
Lemma nz s : epsR <= Rabs s -> s <> 0. Proof. intros H ->. rewrite Rabs_R0 in H. unfold epsR in H. lra. Qed.
Lemma lt_false a c : c <= a -> Rltb a c = false. Proof. intros. apply Rltb_false. lra. Qed.
Lemma lt_true a c : a < c -> Rltb a c = true. Proof. apply Rltb_true. Qed.
Lemma decompose_steps b M : XMMatrixDecompose (L:=RL) b M =
  let sc := Q (norm3 (qx M)) (norm3 (qy M)) (norm3 (qz M)) 0 in
  let '(a, b', c) := rank (L:=RL) (qx sc) (qy sc) (qz sc) in
  decompose_d (L:=RL) b sc a (decompose_c (L:=RL) b sc (decompose_b (L:=RL) b sc (decompose_a (L:=RL) b sc (Q (qx M) (qy M) (qz M) (Q 0 0 0 1)) a) a b') a b' c) (qw M).
Proof.
  unfold XMMatrixDecompose. cbn [qx qy qz qw]. rewrite !Length3_R. cbn [qrep qx qy qz qw]. reflexivity.
Qed.
Lemma decompose_a_ok b sc B i : epsR <= lane sc i -> decompose_a (L:=RL) b sc B i = setlane B i (XMVector3Normalize (L:=RL) b (lane B i)).
Proof. intros H. unfold decompose_a. rewrite decomp_eps_R; change (@tlt RL) with Rltb; rewrite lt_false by assumption. reflexivity. Qed.
Lemma decompose_b_ok b sc B a i : epsR <= lane sc i -> decompose_b (L:=RL) b sc B a i = setlane B i (XMVector3Normalize (L:=RL) b (lane B i)).
Proof. intros H. unfold decompose_b. rewrite decomp_eps_R; change (@tlt RL) with Rltb; rewrite lt_false by assumption. reflexivity. Qed.
Lemma decompose_c_ok b sc B a b' i : epsR <= lane sc i -> decompose_c (L:=RL) b sc B a b' i = setlane B i (XMVector3Normalize (L:=RL) b (lane B i)).
Proof. intros H. unfold decompose_c. rewrite decomp_eps_R; change (@tlt RL) with Rltb; rewrite lt_false by assumption. reflexivity. Qed.
Lemma decompose_c_small b sc B a b' i : lane sc i < epsR -> decompose_c (L:=RL) b sc B a b' i = setlane B i (XMVector3Normalize (L:=RL) b (cross (lane B a) (lane B b'))).
Proof. intros H. unfold decompose_c. rewrite decomp_eps_R; change (@tlt RL) with Rltb; rewrite lt_true by assumption. rewrite Cross3_R. destruct i; reflexivity. Qed.
Lemma decomp_nondeg b s t : epsR <= Rabs (qx s) -> epsR <= Rabs (qy s) -> epsR <= Rabs (qz s) ->
  good s t (XMMatrixDecompose (L:=RL) b (srt s (Q r0 r1 r2 (Q 0 0 0 1)) t)).
Proof.
  intros A B C. rewrite srt_rows, decompose_steps. cbn [qx qy qz qw]. rewrite !norm3_scaled by assumption.
  cbv zeta. set (sc := Q (Rabs (qx s)) (Rabs (qy s)) (Rabs (qz s)) 0).
  destruct (rank_perm (Rabs (qx s)) (Rabs (qy s)) (Rabs (qz s))) as (a & bb & c & -> & _ & _ & PM).
  pose proof (nz _ A) as A'. pose proof (nz _ B) as B'. pose proof (nz _ C) as C'.
  repeat destruct PM as [PM|PM]; destruct PM as (-> & -> & ->);
  (rewrite decompose_a_ok, decompose_b_ok, decompose_c_ok by assumption; cbn [lane setlane qx qy qz qw];
  rewrite !normalize_scaled by assumption;
  refine (final b s t sc (sg (qx s)) (sg (qy s)) (sg (qz s)) _ _ _ _ _ _ eq_refl _ _ _);
   [discriminate|apply sign_sg|apply sign_sg|apply sign_sg|..]; subst sc; cbn [qx qy qz]; rewrite Rmult_comm; apply sg_abs).
Qed.
(** one vanishing scale: the missing row is rebuilt *)
Lemma sg_0 : sg 0 = 1. Proof. unfold sg. rewrite (proj2 (Rltb_false 0 0)) by lra. reflexivity. Qed.
Lemma scale_1 (r : rvec) : scale 1 r = r. Proof. dq r; unfold scale; cbn [qx qy qz qw]; apply (@Qeq R); ring. Qed.
Lemma norm_sign b e r : unit_sign e -> dot3 r r = 1 -> XMVector3Normalize (L:=RL) b (scale e r) = scale e r.
Proof.
  intros S N. assert (e <> 0) by (destruct S; lra). rewrite normalize_scaled by assumption.
  f_equal. destruct S as [-> | ->]; unfold sg; [rewrite (proj2 (Rltb_false 1 0)) by lra|rewrite (proj2 (Rltb_true (-1) 0)) by lra]; reflexivity.
Qed.
Lemma X10 : cross r1 r0 = scale (-1) r2. Proof. rewrite <- X01. clear. dq r0; dq r1; ms; apply (@Qeq R); ring. Qed.
Lemma X21 : cross r2 r1 = scale (-1) r0. Proof. rewrite <- X12. clear. dq r1; dq r2; ms; apply (@Qeq R); ring. Qed.
Lemma X02 : cross r0 r2 = scale (-1) r1. Proof. rewrite <- X20. clear. dq r0; dq r2; ms; apply (@Qeq R); ring. Qed.
Lemma scale_scale k l (r : rvec) : scale k (scale l r) = scale (k * l) r.
Proof. dq r; unfold scale; cbn [qx qy qz qw]; apply (@Qeq R); ring. Qed.
Lemma sign_mul x y : unit_sign x -> unit_sign y -> unit_sign (x * y).
Proof. intros [-> | ->] [-> | ->]; unfold unit_sign; lra. Qed.
Lemma sign_m1 : unit_sign (-1). Proof. right; reflexivity. Qed.
Lemma eps_pos : 0 < epsR. Proof. unfold epsR; lra. Qed.
Lemma decomp_one_zero b s t : one_zero s ->
  good s t (XMMatrixDecompose (L:=RL) b (srt s (Q r0 r1 r2 (Q 0 0 0 1)) t)).
Proof.
  intros O. rewrite srt_rows, decompose_steps. cbn [qx qy qz qw]. rewrite !norm3_scaled by assumption.
  cbv zeta. destruct (rank_perm (Rabs (qx s)) (Rabs (qy s)) (Rabs (qz s))) as (a & bb & c & -> & O1 & O2 & PM).
  pose proof eps_pos as EP. unfold one_zero in O. destruct s as [s0 s1 s2 s3]. cbn [qx qy qz qw] in *.
  assert (Z : Rabs 0 < epsR) by (rewrite Rabs_R0; exact EP).
  destruct O as [(-> & A & B)|[(-> & A & B)|(-> & A & B)]]; pose proof (nz _ A) as A'; pose proof (nz _ B) as B';
  repeat destruct PM as [PM|PM]; destruct PM as (-> & -> & ->); cbn [lane qx qy qz] in O1, O2; try (exfalso; lra);
  rewrite decompose_a_ok, decompose_b_ok by assumption; rewrite decompose_c_small by assumption;
  cbn [lane setlane qx qy qz qw]; rewrite !normalize_scaled by assumption;
  rewrite cross_ss, ?X01, ?X12, ?X20, ?X10, ?X21, ?X02, ?scale_scale;
  rewrite norm_sign by (first [assumption|repeat apply sign_mul; first [apply sign_sg|apply sign_m1]]);
  (match goal with |- good _ _ (decompose_d b ?sc ?i (Q (scale ?g0 r0) (scale ?g1 r1) (scale ?g2 r2) _) _) => refine (final b _ t sc g0 g1 g2 i _ _ _ _ _ eq_refl _ _ _) end;
    [discriminate|first [assumption|repeat apply sign_mul; first [apply sign_sg|apply sign_m1]]..| | |]; cbn [qx qy qz]; rewrite ?Rabs_R0, ?Rmult_0_l; try reflexivity; rewrite Rmult_comm; apply sg_abs).
Qed.
End Main.
Lemma decompose_srt b s M t : rotation M -> (epsR <= Rabs (qx s) /\ epsR <= Rabs (qy s) /\ epsR <= Rabs (qz s)) \/ one_zero s ->
  exists sc q, XMMatrixDecompose (L:=RL) b (srt s M t) = Some (sc, q, point t) /\ unitq q /\ srt sc (qmat q) t = srt s M t.
Proof.
  intros RM O. destruct (rotation_rows M RM) as (r0 & r1 & r2 & -> & W0 & W1 & W2 & N0 & N1 & N2 & P01 & P02 & P12 & X01 & X12 & X20).
  destruct O as [(A & B & C)|O]; [apply decomp_nondeg|apply decomp_one_zero]; assumption.
Qed.
(** a non-zero scale below the threshold: its sign is lost *)
Lemma decompose_small b : let s := Q 1 1 (- / 16384) 1 in
  exists sc q t, XMMatrixDecompose (L:=RL) b (srt s ident (Q 0 0 0 0)) = Some (sc, q, t) /\ srt sc (qmat q) t <> srt s ident (Q 0 0 0 0).
Proof.
  cbv zeta. set (r0 := Q 1 0 0 0). set (r1 := Q 0 1 0 0). set (r2 := Q 0 0 1 0).
  assert (E : srt (Q 1 1 (- / 16384) 1) ident (Q 0 0 0 0) = Q (scale 1 r0) (scale 1 r1) (scale (- / 16384) r2) (Q 0 0 0 1))
    by (subst r0 r1 r2; unfold srt; ms; meq; ring).
  assert (N0 : dot3 r0 r0 = 1) by (subst r0; ms; ring). assert (N1 : dot3 r1 r1 = 1) by (subst r1; ms; ring). assert (N2 : dot3 r2 r2 = 1) by (subst r2; ms; ring).
  assert (A1 : Rabs 1 = 1) by (apply Rabs_R1). assert (A2 : Rabs (- / 16384) = / 16384) by (rewrite Rabs_left; lra).
  rewrite E, decompose_steps. cbn [qx qy qz qw]. rewrite !norm3_scaled, A1, A2 by assumption. cbv zeta.
  replace (rank (L:=RL) 1 1 (/ 16384)) with (I0, I1, I2) by (unfold rank; change (@tlt RL) with Rltb; rewrite !lt_false by lra; reflexivity).
  rewrite decompose_a_ok, decompose_b_ok by (cbn [lane qx qy]; unfold epsR; lra). rewrite decompose_c_small by (cbn [lane qz]; unfold epsR; lra).
  cbn [lane setlane qx qy qz qw]. rewrite !normalize_scaled by (try assumption; lra).
  replace (sg 1) with 1 by (unfold sg; rewrite lt_false by lra; reflexivity). rewrite cross_ss.
  replace (cross r0 r1) with r2 by (subst r0 r1 r2; ms; apply (@Qeq R); ring).
  replace (1 * 1) with 1 by ring. rewrite normalize_scaled by (try assumption; lra).
  replace (sg 1) with 1 by (unfold sg; rewrite lt_false by lra; reflexivity).
  assert (G : good r0 r1 r2 (Q 1 1 (/ 16384) 0) (Q 0 0 0 0) (decompose_d (L:=RL) b (Q 1 1 (/ 16384) 0) I0 (rows r0 r1 r2 1 1 1) (point (Q 0 0 0 0)))).
  { apply (final r0 r1 r2) with (g0 := 1) (g1 := 1) (g2 := 1); try reflexivity; try (left; reflexivity); try discriminate; try (cbn [qx qy qz]; ring);
    subst r0 r1 r2; ms; try ring; apply (@Qeq R); ring. }
  destruct G as (sc & q & G1 & _ & G3). exists sc, q, (point (Q 0 0 0 0)). split; [exact G1|].
  change (srt sc (qmat q) (point (Q 0 0 0 0))) with (srt sc (qmat q) (Q 0 0 0 0)). rewrite G3. subst r0 r1 r2. unfold srt. ms. intros X.
  apply (f_equal (fun M => qz (qz M))) in X. cbn [qz] in X. lra.
Qed.
(** two vanishing scales: the function reports failure *)
Lemma decompose_two_zero b : XMMatrixDecompose (L:=RL) b (srt (Q 1 0 0 1) ident (Q 0 0 0 0)) = None.
Proof.
  assert (E : srt (Q 1 0 0 1) ident (Q 0 0 0 0) = Q (Q 1 0 0 0) (Q 0 0 0 0) (Q 0 0 0 0) (Q 0 0 0 1)) by (unfold srt; ms; meq; ring).
  rewrite E, decompose_steps. cbn [qx qy qz qw].
  assert (N1 : norm3 (Q 1 0 0 0) = 1) by (unfold norm3; ms; replace (1*1+0*0+0*0) with 1 by ring; apply sqrt_1).
  assert (N0 : norm3 (Q 0 0 0 0) = 0) by (unfold norm3; ms; replace (0*0+0*0+0*0) with 0 by ring; apply sqrt_0).
  rewrite N1, N0. cbv zeta.
  assert (RK : rank (L:=RL) 1 0 0 = (I0, I1, I2)) by (unfold rank; change (@tlt RL) with Rltb; rewrite !lt_false by lra; reflexivity).
  rewrite RK. rewrite decompose_a_ok by (cbn [lane qx]; unfold epsR; lra). cbn [lane setlane qx qy qz qw].
  assert (Z : zero3 (Q 0 0 0 0)) by (unfold zero3; auto).
  replace (XMVector3Normalize (L:=RL) b (Q 1 0 0 0)) with (Q 1 0 0 0).
  2: { symmetry. rewrite Normalize3_R by (unfold zero3; cbn; lra). rewrite N1. ms. apply (@Qeq R); field. }
  unfold decompose_b. rewrite decomp_eps_R. change (@tlt RL) with Rltb. cbn [lane qx qy qz qw setlane]. rewrite (lt_true 0 epsR) by (unfold epsR; lra).
  change (@tabs RL) with Rabs. rewrite Rabs_R1, Rabs_R0, RK. cbn [canonical]. rewrite Cross3_R. rt.
  replace (cross (Q 1 0 0 0) (IdR3 (L:=RL))) with (Q 0 0 0 0) by (rewrite IdR3_R; ms; apply (@Qeq R); ring).
  cbn [lane qx qy qz qw setlane]. rewrite (Normalize3_0 b _ Z). rewrite decompose_c_small by (cbn [lane qz]; unfold epsR; lra).
  cbn [lane qx qy qz qw setlane]. replace (cross (Q 1 0 0 0) (qrep 0)) with (Q 0 0 0 0) by (ms; cbn; apply (@Qeq R); ring).
  rewrite (Normalize3_0 b _ Z). unfold decompose_d. rewrite decomp_eps_R, Det_R. change (@tlt RL) with Rltb. change (zero (L:=RL)) with 0. change (one (L:=RL)) with 1.
  change (@tneg RL) with Ropp. change (@tsub RL) with Rminus. change (@tmul RL) with Rmult.
  replace (detM _) with 0 by (symmetry; rewrite det_rows; cbn [qrep]; ms; ring). cbn [qrep qx]. rewrite lt_false by lra. cbv zeta.
  rewrite lt_true by (unfold epsR; lra). reflexivity.
Qed.
