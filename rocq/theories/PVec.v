(** Proofs about the vector geometry in exact arithmetic. *)
From Coq Require Import Reals Lra Psatz.
From Verif Require Import Base F32 Intrin Lane MVec SpecGeom PReal.
Open Scope R_scope.

(** ** Closed forms, every backend *)
Lemma Dot2_R b u v : XMVector2Dot b u v = qrep (dot2 u v).
Proof. bk b; dq u; dq v; rcbv; qring. Qed.
Lemma Dot3_R b u v : XMVector3Dot b u v = qrep (dot3 u v).
Proof. bk b; dq u; dq v; rcbv; qring. Qed.
Lemma Dot4_R b u v : XMVector4Dot b u v = qrep (dot4 u v).
Proof. bk b; dq u; dq v; rcbv; qring. Qed.
Lemma dp2_R u : dp_ps (L:=RL) u u mask2 = qrep (dot2 u u).
Proof. dq u; rcbv; qring. Qed.
Lemma dp3_R u : dp_ps (L:=RL) u u mask3 = qrep (dot3 u u).
Proof. dq u; rcbv; qring. Qed.
Lemma dp4_R u : dp_ps (L:=RL) u u mask4 = qrep (dot4 u u).
Proof. dq u; rcbv; qring. Qed.
Lemma lensq3_sse3_R u : lensq3_sse3 (L:=RL) u = qrep (dot3 u u).
Proof. dq u; rcbv; qring. Qed.
Lemma lensq3_xzy_R u : lensq3_sse2_xzy (L:=RL) u = qrep (dot3 u u).
Proof. dq u; rcbv; qring. Qed.
Lemma dot3_sse2_R u : dot3_sse2 (L:=RL) u u = qrep (dot3 u u).
Proof. dq u; rcbv; qring. Qed.
Lemma dot4_sse3_R u : dot4_sse3 (L:=RL) u u = qrep (dot4 u u).
Proof. dq u; rcbv; qring. Qed.
Lemma lensq4_sse2_R u : lensq4_sse2 (L:=RL) u = qrep (dot4 u u).
Proof. dq u; rcbv; qring. Qed.
Lemma dot2_sse2_R u : dot2_sse2 (L:=RL) u u = qrep (dot2 u u).
Proof. dq u; rcbv; qring. Qed.
Lemma moveldup_R u : (let l := vmul (L:=RL) u u in moveldup (hadd l l)) = qrep (dot2 u u).
Proof. dq u; rcbv; qring. Qed.

Lemma LengthSq2_R b u : XMVector2LengthSq b u = qrep (dot2 u u). Proof. apply Dot2_R. Qed.
Lemma LengthSq3_R b u : XMVector3LengthSq b u = qrep (dot3 u u). Proof. apply Dot3_R. Qed.
Lemma LengthSq4_R b u : XMVector4LengthSq b u = qrep (dot4 u u). Proof. apply Dot4_R. Qed.

Lemma Length2_R b u : XMVector2Length b u = qrep (norm2 u).
Proof.
  destruct b as [|[|] [|] f a]; cbn [XMVector2Length]; rewrite ?dp2_R, ?dot2_sse2_R, ?LengthSq2_R; try reflexivity.
Qed.
Lemma Length3_R b u : XMVector3Length b u = qrep (norm3 u).
Proof.
  destruct b as [|[|] [|] f a]; cbn [XMVector3Length]; rewrite ?dp3_R, ?lensq3_sse3_R, ?lensq3_xzy_R, ?LengthSq3_R; reflexivity.
Qed.
Lemma Length4_R b u : XMVector4Length b u = qrep (norm4 u).
Proof.
  destruct b as [|[|] [|] f a]; cbn [XMVector4Length]; rewrite ?dp4_R, ?dot4_sse3_R, ?lensq4_sse2_R, ?LengthSq4_R; reflexivity.
Qed.
Lemma RLength2_R b u : XMVector2ReciprocalLength b u = qrep (1 / norm2 u).
Proof.
  destruct b as [|[|] [|] f a]; cbn [XMVector2ReciprocalLength]; rewrite ?dp2_R, ?LengthSq2_R; reflexivity.
Qed.
Lemma RLength3_R b u : XMVector3ReciprocalLength b u = qrep (1 / norm3 u).
Proof.
  destruct b as [|[|] [|] f a]; cbn [XMVector3ReciprocalLength]; rewrite ?dp3_R, ?lensq3_sse3_R, ?dot3_sse2_R, ?LengthSq3_R; reflexivity.
Qed.
Lemma RLength4_R b u : XMVector4ReciprocalLength b u = qrep (1 / norm4 u).
Proof.
  destruct b as [|[|] [|] f a]; cbn [XMVector4ReciprocalLength]; rewrite ?dp4_R, ?dot4_sse3_R, ?lensq4_sse2_R, ?LengthSq4_R; reflexivity.
Qed.
Lemma Cross2_R b u v : XMVector2Cross b u v = qrep (det2 (qx u) (qy u) (qx v) (qy v)).
Proof. bk b; dq u; dq v; rcbv; qring. Qed.
Lemma Cross3_R b u v : XMVector3Cross b u v = cross u v.
Proof. bk b; dq u; dq v; rcbv; qring. Qed.

(** ** C19 *)
Lemma c19_cs2 u v : Rabs (dot2 u v) <= norm2 u * norm2 v.
Proof. apply abs_le_sqrt; try apply dot2_nonneg. unfold dot2. apply cs2. Qed.
Lemma c19_cs3 u v : Rabs (dot3 u v) <= norm3 u * norm3 v.
Proof.
  apply abs_le_sqrt; try apply dot3_nonneg. unfold dot3.
  pose proof (cs4 (qx u) (qy u) (qz u) 0 (qx v) (qy v) (qz v) 0). lra.
Qed.
Lemma c19_cs4 u v : Rabs (dot4 u v) <= norm4 u * norm4 v.
Proof. apply abs_le_sqrt; try apply dot4_nonneg. unfold dot4. apply cs4. Qed.
Lemma c19_tri2 u v : norm2 (plus u v) <= norm2 u + norm2 v.
Proof.
  unfold norm2. replace (dot2 (plus u v) (plus u v)) with (dot2 u u + 2 * dot2 u v + dot2 v v)
    by (unfold dot2, plus; cbn; ring).
  apply sqrt_triangle'; try apply dot2_nonneg.
  eapply Rle_trans; [apply Rle_abs | apply c19_cs2].
Qed.
Lemma c19_tri3 u v : norm3 (plus u v) <= norm3 u + norm3 v.
Proof.
  unfold norm3. replace (dot3 (plus u v) (plus u v)) with (dot3 u u + 2 * dot3 u v + dot3 v v)
    by (unfold dot3, plus; cbn; ring).
  apply sqrt_triangle'; try apply dot3_nonneg.
  eapply Rle_trans; [apply Rle_abs | apply c19_cs3].
Qed.
Lemma c19_tri4 u v : norm4 (plus u v) <= norm4 u + norm4 v.
Proof.
  unfold norm4. replace (dot4 (plus u v) (plus u v)) with (dot4 u u + 2 * dot4 u v + dot4 v v)
    by (unfold dot4, plus; cbn; ring).
  apply sqrt_triangle'; try apply dot4_nonneg.
  eapply Rle_trans; [apply Rle_abs | apply c19_cs4].
Qed.
Lemma c19_dot b u v :
  XMVector2Dot b u v = qrep (dot2 u v) /\ XMVector3Dot b u v = qrep (dot3 u v) /\ XMVector4Dot b u v = qrep (dot4 u v).
Proof. rewrite Dot2_R, Dot3_R, Dot4_R; auto. Qed.
Lemma c19_length b u :
  (XMVector2LengthSq b u = qrep (dot2 u u) /\ XMVector2Length b u = qrep (norm2 u))
  /\ (XMVector3LengthSq b u = qrep (dot3 u u) /\ XMVector3Length b u = qrep (norm3 u))
  /\ (XMVector4LengthSq b u = qrep (dot4 u u) /\ XMVector4Length b u = qrep (norm4 u)).
Proof. rewrite LengthSq2_R, LengthSq3_R, LengthSq4_R, Length2_R, Length3_R, Length4_R; auto. Qed.
Lemma sqrt_ne0 d : 0 <= d -> d <> 0 -> sqrt d <> 0.
Proof. intros H N E. apply N. apply sqrt_eq_0; assumption. Qed.
Lemma c19_recip b u :
  (~ zero2 u -> vmul (XMVector2ReciprocalLength b u) (XMVector2Length b u) = qrep 1)
  /\ (~ zero3 u -> vmul (XMVector3ReciprocalLength b u) (XMVector3Length b u) = qrep 1)
  /\ (~ zero4 u -> vmul (XMVector4ReciprocalLength b u) (XMVector4Length b u) = qrep 1).
Proof.
  rewrite RLength2_R, RLength3_R, RLength4_R, Length2_R, Length3_R, Length4_R.
  repeat apply conj; intros N; cbn; qeq; field; apply sqrt_ne0;
    try apply dot2_nonneg; try apply dot3_nonneg; try apply dot4_nonneg; rewrite ?dot2_0, ?dot3_0, ?dot4_0; exact N.
Qed.
Lemma c19_ineq b u v :
  (Rabs (qx (XMVector2Dot b u v)) <= qx (XMVector2Length b u) * qx (XMVector2Length b v)
   /\ qx (XMVector2Length b (XMVectorAdd b u v)) <= qx (XMVector2Length b u) + qx (XMVector2Length b v))
  /\ (Rabs (qx (XMVector3Dot b u v)) <= qx (XMVector3Length b u) * qx (XMVector3Length b v)
   /\ qx (XMVector3Length b (XMVectorAdd b u v)) <= qx (XMVector3Length b u) + qx (XMVector3Length b v))
  /\ (Rabs (qx (XMVector4Dot b u v)) <= qx (XMVector4Length b u) * qx (XMVector4Length b v)
   /\ qx (XMVector4Length b (XMVectorAdd b u v)) <= qx (XMVector4Length b u) + qx (XMVector4Length b v)).
Proof.
  rewrite Dot2_R, Dot3_R, Dot4_R, !Length2_R, !Length3_R, !Length4_R, Add_R. cbn [qrep qx].
  refine (conj (conj _ _) (conj (conj _ _) (conj _ _))).
  - apply c19_cs2. - apply c19_tri2. - apply c19_cs3. - apply c19_tri3. - apply c19_cs4. - apply c19_tri4.
Qed.

(** ** C20 *)
Lemma c20_cross2 b u v : XMVector2Cross b u v = qrep (det2 (qx u) (qy u) (qx v) (qy v)).
Proof. apply Cross2_R. Qed.
Lemma c20_cross3 b u v : XMVector3Cross b u v = cross u v.
Proof. apply Cross3_R. Qed.
Lemma c20_cross3_laws b u v :
  XMVector3Dot b (XMVector3Cross b u v) u = qrep 0
  /\ XMVector3Dot b (XMVector3Cross b u v) v = qrep 0
  /\ XMVector3Cross b v u = XMVectorNegate b (XMVector3Cross b u v)
  /\ qx (XMVector3LengthSq b (XMVector3Cross b u v)) + Rsqr (qx (XMVector3Dot b u v))
     = qx (XMVector3LengthSq b u) * qx (XMVector3LengthSq b v).
Proof.
  rewrite !LengthSq3_R, !Dot3_R, !Cross3_R, Neg_R. unfold dot3, cross, Rsqr; cbn.
  repeat apply conj; try (qeq; ring); ring.
Qed.
Lemma Cross4_R b u v w : XMVector4Cross b u v w =
  Q (det3 (qy u) (qz u) (qw u) (qy v) (qz v) (qw v) (qy w) (qz w) (qw w))
    (- det3 (qx u) (qz u) (qw u) (qx v) (qz v) (qw v) (qx w) (qz w) (qw w))
    (det3 (qx u) (qy u) (qw u) (qx v) (qy v) (qw v) (qx w) (qy w) (qw w))
    (- det3 (qx u) (qy u) (qz u) (qx v) (qy v) (qz v) (qx w) (qy w) (qz w)).
Proof. bk b; dq u; dq v; dq w; rcbv; qring. Qed.
Lemma c20_cross4 b u v w x :
  XMVector4Dot b x (XMVector4Cross b u v w) = qrep (det4 x u v w)
  /\ XMVector4Dot b u (XMVector4Cross b u v w) = qrep 0
  /\ XMVector4Dot b v (XMVector4Cross b u v w) = qrep 0
  /\ XMVector4Dot b w (XMVector4Cross b u v w) = qrep 0.
Proof.
  rewrite !Dot4_R, !Cross4_R. unfold dot4, det4, det3, det2; cbn.
  repeat apply conj; qeq; ring.
Qed.

(** ** C21 *)
Lemma vneq0 x : negb (Reqb 0 x) = true <-> x <> 0.
Proof. destruct (Reqb_spec 0 x); cbn; split; try easy; intros; congruence. Qed.
Lemma ntail_R V d : 0 <= d -> d <> 0 -> normalize_tail (L:=RL) V (qrep d) = scale (/ sqrt d) V.
Proof.
  intros H N. pose proof (sqrt_ne0 d H N) as S. dq V. rcbv.
  destruct (Reqb_spec 0 (sqrt d)); [congruence|]. qeq; field; exact S.
Qed.
Lemma ntail_0 V : normalize_tail (L:=RL) V (qrep 0) = qrep 0.
Proof. dq V. rcbv. rewrite sqrt_0. destruct (Reqb_spec 0 0); [reflexivity|congruence]. Qed.
Lemma nscal_R V d : 0 <= d -> d <> 0 -> normalize_scalar (L:=RL) V (qrep (sqrt d)) = scale (/ sqrt d) V.
Proof.
  intros H N. pose proof (sqrt_ne0 d H N) as S. pose proof (sqrt_pos d). dq V. rcbv.
  destruct (Rltb_spec 0 (sqrt d)); [|lra]. qeq; field; exact S.
Qed.
Lemma nscal_0 V : normalize_scalar (L:=RL) V (qrep (sqrt 0)) = qrep 0.
Proof.
  dq V. rcbv. rewrite sqrt_0. destruct (Rltb_spec 0 0); [lra|]. qeq; ring.
Qed.
Lemma Normalize2_R b V : ~ zero2 V -> XMVector2Normalize b V = scale (/ norm2 V) V.
Proof.
  rewrite <- dot2_0. intros N. pose proof (dot2_nonneg V). unfold norm2.
  destruct b as [|[|] [|] f a]; cbn [XMVector2Normalize]; rewrite ?Length2_R, ?dp2_R, ?moveldup_R, ?dot2_sse2_R.
  all: try (apply ntail_R; assumption). apply nscal_R; assumption.
Qed.
Lemma Normalize3_R b V : ~ zero3 V -> XMVector3Normalize b V = scale (/ norm3 V) V.
Proof.
  rewrite <- dot3_0. intros N. pose proof (dot3_nonneg V). unfold norm3.
  destruct b as [|[|] [|] f a]; cbn [XMVector3Normalize]; rewrite ?Length3_R, ?dp3_R, ?lensq3_sse3_R, ?dot3_sse2_R.
  all: try (apply ntail_R; assumption). apply nscal_R; assumption.
Qed.
Lemma Normalize4_R b V : ~ zero4 V -> XMVector4Normalize b V = scale (/ norm4 V) V.
Proof.
  rewrite <- dot4_0. intros N. pose proof (dot4_nonneg V). unfold norm4.
  destruct b as [|[|] [|] f a]; cbn [XMVector4Normalize]; rewrite ?Length4_R, ?dp4_R, ?dot4_sse3_R, ?lensq4_sse2_R.
  all: try (apply ntail_R; assumption). apply nscal_R; assumption.
Qed.
Lemma Normalize2_0 b V : zero2 V -> XMVector2Normalize b V = qrep 0.
Proof.
  rewrite <- dot2_0. intros N.
  destruct b as [|[|] [|] f a]; cbn [XMVector2Normalize]; rewrite ?Length2_R, ?dp2_R, ?moveldup_R, ?dot2_sse2_R;
    unfold norm2; rewrite N; try apply ntail_0. apply nscal_0.
Qed.
Lemma Normalize3_0 b V : zero3 V -> XMVector3Normalize b V = qrep 0.
Proof.
  rewrite <- dot3_0. intros N.
  destruct b as [|[|] [|] f a]; cbn [XMVector3Normalize]; rewrite ?Length3_R, ?dp3_R, ?lensq3_sse3_R, ?dot3_sse2_R;
    unfold norm3; rewrite N; try apply ntail_0. apply nscal_0.
Qed.
Lemma Normalize4_0 b V : zero4 V -> XMVector4Normalize b V = qrep 0.
Proof.
  rewrite <- dot4_0. intros N.
  destruct b as [|[|] [|] f a]; cbn [XMVector4Normalize]; rewrite ?Length4_R, ?dp4_R, ?dot4_sse3_R, ?lensq4_sse2_R;
    unfold norm4; rewrite N; try apply ntail_0. apply nscal_0.
Qed.
Lemma norm2_pos V : ~ zero2 V -> 0 < norm2 V.
Proof. rewrite <- dot2_0. intros. apply sqrt_lt_R0. pose proof (dot2_nonneg V). lra. Qed.
Lemma norm3_pos V : ~ zero3 V -> 0 < norm3 V.
Proof. rewrite <- dot3_0. intros. apply sqrt_lt_R0. pose proof (dot3_nonneg V). lra. Qed.
Lemma norm4_pos V : ~ zero4 V -> 0 < norm4 V.
Proof. rewrite <- dot4_0. intros. apply sqrt_lt_R0. pose proof (dot4_nonneg V). lra. Qed.
Lemma norm2_scale k V : 0 <= k -> norm2 (scale k V) = k * norm2 V.
Proof.
  intros. unfold norm2. replace (dot2 (scale k V) (scale k V)) with (k * k * dot2 V V) by (unfold dot2; cbn; ring).
  apply sqrt_sq_scale; auto using dot2_nonneg.
Qed.
Lemma norm3_scale k V : 0 <= k -> norm3 (scale k V) = k * norm3 V.
Proof.
  intros. unfold norm3. replace (dot3 (scale k V) (scale k V)) with (k * k * dot3 V V) by (unfold dot3; cbn; ring).
  apply sqrt_sq_scale; auto using dot3_nonneg.
Qed.
Lemma norm4_scale k V : 0 <= k -> norm4 (scale k V) = k * norm4 V.
Proof.
  intros. unfold norm4. replace (dot4 (scale k V) (scale k V)) with (k * k * dot4 V V) by (unfold dot4; cbn; ring).
  apply sqrt_sq_scale; auto using dot4_nonneg.
Qed.
Lemma c21_unit b V :
  (~ zero2 V -> norm2 (XMVector2Normalize b V) = 1 /\ exists k, 0 < k /\ XMVector2Normalize b V = scale k V)
  /\ (~ zero3 V -> norm3 (XMVector3Normalize b V) = 1 /\ exists k, 0 < k /\ XMVector3Normalize b V = scale k V)
  /\ (~ zero4 V -> norm4 (XMVector4Normalize b V) = 1 /\ exists k, 0 < k /\ XMVector4Normalize b V = scale k V).
Proof.
  refine (conj _ (conj _ _)); intros N.
  - rewrite Normalize2_R by exact N. pose proof (norm2_pos V N) as P. pose proof (Rinv_0_lt_compat _ P).
    split; [rewrite norm2_scale by lra; field; lra | exists (/ norm2 V); auto].
  - rewrite Normalize3_R by exact N. pose proof (norm3_pos V N) as P. pose proof (Rinv_0_lt_compat _ P).
    split; [rewrite norm3_scale by lra; field; lra | exists (/ norm3 V); auto].
  - rewrite Normalize4_R by exact N. pose proof (norm4_pos V N) as P. pose proof (Rinv_0_lt_compat _ P).
    split; [rewrite norm4_scale by lra; field; lra | exists (/ norm4 V); auto].
Qed.
Lemma c21_zero b V :
  (zero2 V -> XMVector2Normalize b V = qrep 0) /\ (zero3 V -> XMVector3Normalize b V = qrep 0)
  /\ (zero4 V -> XMVector4Normalize b V = qrep 0).
Proof. auto using Normalize2_0, Normalize3_0, Normalize4_0. Qed.

(** ** C22 *)
Lemma clamp_R b V lo hi d : 0 < d -> 0 <= lo <= hi ->
  clamp_length (L:=RL) b V (qrep lo) (qrep hi) (qrep d) = scale (clampR lo hi (sqrt d) / sqrt d) V.
Proof.
  intros D H. assert (S : 0 < sqrt d) by (apply sqrt_lt_R0; lra).
  assert (E : d * (1 / sqrt d) = sqrt d).
  { transitivity (sqrt d * sqrt d * (1 / sqrt d)); [rewrite sqrt_sqrt by lra; reflexivity | field; lra]. }
  unfold clamp_length. rewrite RSqrt_R, !Mul_R. dq V. cbv zeta. rcbv.
  destruct (Reqb_spec d 0); [lra|]. rewrite E.
  destruct (Rltb_spec hi (sqrt d)); destruct (Rltb_spec (sqrt d) lo); try lra.
  - unfold clampR. rewrite (Rmax_right lo (sqrt d)), Rmin_left by lra. qeq; field; lra.
  - unfold clampR. rewrite (Rmax_left lo (sqrt d)), Rmin_right by lra. qeq; field; lra.
  - unfold clampR. rewrite (Rmax_right lo (sqrt d)), Rmin_right by lra. qeq; field; lra.
Qed.
Lemma clamp_R0 b V lo hi : 0 <= lo <= hi ->
  clamp_length (L:=RL) b V (qrep lo) (qrep hi) (qrep 0) = if Rltb 0 lo then qrep 0 else V.
Proof.
  intros H. unfold clamp_length. rewrite RSqrt_R, !Mul_R. dq V. cbv zeta. rcbv.
  destruct (Reqb_spec 0 0); [|congruence]. destruct (Rltb_spec hi 0); [lra|]. destruct (Rltb_spec 0 lo); [|reflexivity].
  qeq; ring.
Qed.
Lemma ge_true a b : tge (L:=RL) a b = true <-> b <= a. Proof. apply Rleb_true. Qed.
Lemma assert2 lo hi : 0 <= lo <= hi ->
  (teq (L:=RL) lo lo && teq (L:=RL) hi hi && (tge (L:=RL) lo zero && tge (L:=RL) lo zero)
   && (tge (L:=RL) hi zero && tge (L:=RL) hi zero) && (tge (L:=RL) hi lo && tge (L:=RL) hi lo))%bool = true.
Proof.
  intros H. repeat rewrite andb_true_iff. rl. rewrite !Rleb_true, !Reqb_true. lra.
Qed.
Lemma Clamp2_some b V lo hi : 0 <= lo <= hi ->
  XMVector2ClampLength b V lo hi = Some (clamp_length (L:=RL) b V (qrep lo) (qrep hi) (qrep (dot2 V V))).
Proof.
  intros H. unfold XMVector2ClampLength, XMVector2ClampLengthV. cbn [qrep qx qy].
  rewrite (assert2 lo hi H), LengthSq2_R. reflexivity.
Qed.
Lemma Clamp4_some b V lo hi : 0 <= lo <= hi ->
  XMVector4ClampLength b V lo hi = Some (clamp_length (L:=RL) b V (qrep lo) (qrep hi) (qrep (dot4 V V))).
Proof.
  intros H. unfold XMVector4ClampLength, XMVector4ClampLengthV.
  match goal with |- (if ?c then _ else _) = _ => assert (E : c = true) end.
  { unfold mask_all, qall. rl. rewrite !andb_true_iff, !Rleb_true, !Reqb_true. lra. }
  rewrite E, LengthSq4_R. reflexivity.
Qed.
Lemma clampR_nonneg lo hi x : 0 <= lo <= hi -> 0 <= clampR lo hi x.
Proof. intros. unfold clampR, Rmin, Rmax. destruct (Rle_dec lo x), (Rle_dec hi _); lra. Qed.
Lemma c22_clamp b V lo hi : 0 <= lo <= hi ->
  (~ zero2 V -> exists k W, XMVector2ClampLength b V lo hi = Some W /\ 0 <= k /\ W = scale k V
                          /\ norm2 W = clampR lo hi (norm2 V))
  /\ (~ zero3 V -> exists k, 0 <= k /\ XMVector3ClampLength b V lo hi = scale k V
                          /\ norm3 (XMVector3ClampLength b V lo hi) = clampR lo hi (norm3 V))
  /\ (~ zero4 V -> exists k W, XMVector4ClampLength b V lo hi = Some W /\ 0 <= k /\ W = scale k V
                          /\ norm4 W = clampR lo hi (norm4 V)).
Proof.
  intros H. refine (conj _ (conj _ _)); intros N.
  - pose proof (norm2_pos V N) as P. rewrite Clamp2_some by exact H.
    assert (D : 0 < dot2 V V) by (pose proof (dot2_nonneg V); rewrite <- dot2_0 in N; lra).
    rewrite clamp_R by assumption. fold (norm2 V).
    pose proof (clampR_nonneg lo hi (norm2 V) H). pose proof (Rinv_0_lt_compat _ P).
    assert (0 <= clampR lo hi (norm2 V) / norm2 V) by (unfold Rdiv; nra).
    exists (clampR lo hi (norm2 V) / norm2 V), (scale (clampR lo hi (norm2 V) / norm2 V) V).
    refine (conj eq_refl (conj _ (conj eq_refl _))); [assumption|].
    rewrite norm2_scale by assumption. field; lra.
  - pose proof (norm3_pos V N) as P. unfold XMVector3ClampLength, XMVector3ClampLengthV. rewrite LengthSq3_R.
    assert (D : 0 < dot3 V V) by (pose proof (dot3_nonneg V); rewrite <- dot3_0 in N; lra).
    rewrite clamp_R by assumption. fold (norm3 V).
    pose proof (clampR_nonneg lo hi (norm3 V) H). pose proof (Rinv_0_lt_compat _ P).
    assert (0 <= clampR lo hi (norm3 V) / norm3 V) by (unfold Rdiv; nra).
    exists (clampR lo hi (norm3 V) / norm3 V).
    refine (conj _ (conj eq_refl _)); [assumption|].
    rewrite norm3_scale by assumption. field; lra.
  - pose proof (norm4_pos V N) as P. rewrite Clamp4_some by exact H.
    assert (D : 0 < dot4 V V) by (pose proof (dot4_nonneg V); rewrite <- dot4_0 in N; lra).
    rewrite clamp_R by assumption. fold (norm4 V).
    pose proof (clampR_nonneg lo hi (norm4 V) H). pose proof (Rinv_0_lt_compat _ P).
    assert (0 <= clampR lo hi (norm4 V) / norm4 V) by (unfold Rdiv; nra).
    exists (clampR lo hi (norm4 V) / norm4 V), (scale (clampR lo hi (norm4 V) / norm4 V) V).
    refine (conj eq_refl (conj _ (conj eq_refl _))); [assumption|].
    rewrite norm4_scale by assumption. field; lra.
Qed.
Lemma c22_zero b V lo hi : 0 <= lo <= hi ->
  (zero2 V -> exists W, XMVector2ClampLength b V lo hi = Some W /\ zero2 W)
  /\ (zero3 V -> zero3 (XMVector3ClampLength b V lo hi))
  /\ (zero4 V -> exists W, XMVector4ClampLength b V lo hi = Some W /\ zero4 W).
Proof.
  intros H. refine (conj _ (conj _ _)); intros N.
  - rewrite Clamp2_some by exact H. rewrite (proj2 (dot2_0 V) N), clamp_R0 by exact H.
    destruct (Rltb 0 lo); eexists; split; try reflexivity; auto. repeat split.
  - unfold XMVector3ClampLength, XMVector3ClampLengthV. rewrite LengthSq3_R.
    rewrite (proj2 (dot3_0 V) N), clamp_R0 by exact H. destruct (Rltb 0 lo); auto. repeat split.
  - rewrite Clamp4_some by exact H. rewrite (proj2 (dot4_0 V) N), clamp_R0 by exact H.
    destruct (Rltb 0 lo); eexists; split; try reflexivity; auto. repeat split.
Qed.

(** ** C23 *)
Lemma Reflect2_R b i n : XMVector2Reflect b i n = minus i (scale (2 * dot2 i n) n).
Proof. unfold XMVector2Reflect. rewrite Dot2_R, Add_R, NMulSub_R. dq i; dq n; rcbv; qring. Qed.
Lemma Reflect3_R b i n : XMVector3Reflect b i n = minus i (scale (2 * dot3 i n) n).
Proof. unfold XMVector3Reflect. rewrite Dot3_R, Add_R, NMulSub_R. dq i; dq n; rcbv; qring. Qed.
Lemma Reflect4_R b i n : XMVector4Reflect b i n = minus i (scale (2 * dot4 i n) n).
Proof. unfold XMVector4Reflect. rewrite Dot4_R, Add_R, NMulSub_R. dq i; dq n; rcbv; qring. Qed.

Ltac refl_nsatz n x y := unfold n in *; nra.
Lemma c23_reflect2 b i n : dot2 n n = 1 ->
  XMVector2Reflect b (XMVector2Reflect b i n) n = i
  /\ norm2 (XMVector2Reflect b i n) = norm2 i
  /\ dot2 (XMVector2Reflect b i n) n = - dot2 i n
  /\ (forall t, dot2 t n = 0 -> dot2 (XMVector2Reflect b i n) t = dot2 i t).
Proof.
  intros U. rewrite !Reflect2_R.
  assert (D : dot2 (minus i (scale (2 * dot2 i n) n)) n = - dot2 i n).
  { replace (dot2 (minus i (scale (2 * dot2 i n) n)) n) with (dot2 i n - 2 * dot2 i n * dot2 n n)
      by (unfold dot2; cbn; ring). rewrite U; ring. }
  refine (conj _ (conj _ (conj D _))).
  - rewrite D. unfold minus, scale. dq i; dq n; qring.
  - unfold norm2. f_equal.
    replace (dot2 _ _) with (dot2 i i - 4 * (dot2 i n * dot2 i n) + 4 * (dot2 i n * dot2 i n) * dot2 n n)
      by (unfold dot2; cbn; ring). rewrite U; ring.
  - intros t T. replace (dot2 _ t) with (dot2 i t - 2 * dot2 i n * dot2 t n) by (unfold dot2; cbn; ring).
    rewrite T; ring.
Qed.
Lemma c23_reflect3 b i n : dot3 n n = 1 ->
  XMVector3Reflect b (XMVector3Reflect b i n) n = i
  /\ norm3 (XMVector3Reflect b i n) = norm3 i
  /\ dot3 (XMVector3Reflect b i n) n = - dot3 i n
  /\ (forall t, dot3 t n = 0 -> dot3 (XMVector3Reflect b i n) t = dot3 i t).
Proof.
  intros U. rewrite !Reflect3_R.
  assert (D : dot3 (minus i (scale (2 * dot3 i n) n)) n = - dot3 i n).
  { replace (dot3 (minus i (scale (2 * dot3 i n) n)) n) with (dot3 i n - 2 * dot3 i n * dot3 n n)
      by (unfold dot3; cbn; ring). rewrite U; ring. }
  refine (conj _ (conj _ (conj D _))).
  - rewrite D. unfold minus, scale. dq i; dq n; qring.
  - unfold norm3. f_equal.
    replace (dot3 _ _) with (dot3 i i - 4 * (dot3 i n * dot3 i n) + 4 * (dot3 i n * dot3 i n) * dot3 n n)
      by (unfold dot3; cbn; ring). rewrite U; ring.
  - intros t T. replace (dot3 _ t) with (dot3 i t - 2 * dot3 i n * dot3 t n) by (unfold dot3; cbn; ring).
    rewrite T; ring.
Qed.
Lemma c23_reflect4 b i n : dot4 n n = 1 ->
  XMVector4Reflect b (XMVector4Reflect b i n) n = i
  /\ norm4 (XMVector4Reflect b i n) = norm4 i
  /\ dot4 (XMVector4Reflect b i n) n = - dot4 i n
  /\ (forall t, dot4 t n = 0 -> dot4 (XMVector4Reflect b i n) t = dot4 i t).
Proof.
  intros U. rewrite !Reflect4_R.
  assert (D : dot4 (minus i (scale (2 * dot4 i n) n)) n = - dot4 i n).
  { replace (dot4 (minus i (scale (2 * dot4 i n) n)) n) with (dot4 i n - 2 * dot4 i n * dot4 n n)
      by (unfold dot4; cbn; ring). rewrite U; ring. }
  refine (conj _ (conj _ (conj D _))).
  - rewrite D. unfold minus, scale. dq i; dq n; qring.
  - unfold norm4. f_equal.
    replace (dot4 _ _) with (dot4 i i - 4 * (dot4 i n * dot4 i n) + 4 * (dot4 i n * dot4 i n) * dot4 n n)
      by (unfold dot4; cbn; ring). rewrite U; ring.
  - intros t T. replace (dot4 _ t) with (dot4 i t - 2 * dot4 i n * dot4 t n) by (unfold dot4; cbn; ring).
    rewrite T; ring.
Qed.

Lemma refract_body_pos b i n m d : 0 < snell d m ->
  refract_body (L:=RL) b i n (qrep m) (qrep d) = minus (scale m i) (scale (m * d + sqrt (snell d m)) n).
Proof.
  intros K. unfold refract_body.
  assert (E1 : XMVectorNegativeMultiplySubtract (L:=RL) b
     (XMVectorMultiply b (XMVectorNegativeMultiplySubtract b (qrep d) (qrep d) vone) (qrep m)) (qrep m) vone
     = qrep (snell d m)) by (rewrite !NMulSub_R, Mul_R; unfold snell; rcbv; qring).
  assert (E2 : FNMADD (L:=RL) b (FNMADD b (qrep d) (qrep d) vone) (vmul (qrep m) (qrep m)) vone = qrep (snell d m))
    by (rewrite !FNMADD_R; unfold snell; rcbv; qring).
  assert (M : mask_all (vle (L:=RL) (qrep (snell d m)) vzero) = false).
  { unfold mask_all, qall; rl. destruct (Rleb_spec (snell d m) 0) as [H|H]; [lra|reflexivity]. }
  destruct b as [|s3 s4 f a]; cbv zeta; rewrite ?E1, ?E2, M.
  - rewrite Sqrt_R, MulAdd_R, Mul_R, NMulSub_R. dq i; dq n. unfold minus, scale. qeq; ring.
  - rewrite FMADD_R, FNMADD_R. dq i; dq n. unfold minus, scale. qeq; ring.
Qed.
Lemma refract_body_neg b i n m d : snell d m <= 0 ->
  refract_body (L:=RL) b i n (qrep m) (qrep d) = qrep 0.
Proof.
  intros K. unfold refract_body.
  assert (E1 : XMVectorNegativeMultiplySubtract (L:=RL) b
     (XMVectorMultiply b (XMVectorNegativeMultiplySubtract b (qrep d) (qrep d) vone) (qrep m)) (qrep m) vone
     = qrep (snell d m)) by (rewrite !NMulSub_R, Mul_R; unfold snell; rcbv; qring).
  assert (E2 : FNMADD (L:=RL) b (FNMADD b (qrep d) (qrep d) vone) (vmul (qrep m) (qrep m)) vone = qrep (snell d m))
    by (rewrite !FNMADD_R; unfold snell; rcbv; qring).
  assert (M : mask_all (vle (L:=RL) (qrep (snell d m)) vzero) = true).
  { unfold mask_all, qall; rl. destruct (Rleb_spec (snell d m) 0) as [H|H]; [reflexivity|lra]. }
  destruct b as [|s3 s4 f a]; cbv zeta; rewrite ?E1, ?E2, M; reflexivity.
Qed.
Lemma Refract2_pos b i n m : 0 < snell (dot2 i n) m ->
  eq2 (XMVector2Refract b i n m) (minus (scale m i) (scale (m * dot2 i n + sqrt (snell (dot2 i n) m)) n)).
Proof.
  intros K. unfold XMVector2Refract, XMVector2RefractV. destruct b as [|s3 s4 f a].
  - cbv zeta. dq i; dq n. cbn in *. unfold snell, dot2 in *; cbn in *.
    set (dd := ix * nx + iy * ny) in *.
    replace (1 - (1 - dd * dd) * m * m) with (1 - m * m * (1 - dd * dd)) by ring.
    unfold tge; cbn. destruct (Rleb_spec 0 (1 - m * m * (1 - dd * dd))); [|lra]. split; cbn; ring.
  - rewrite Dot2_R, !FMADD_R, !FNMADD_R. dq i; dq n.
    set (dd := dot2 _ _) in *. unfold snell in *.
    cbv - [Rplus Rmult Ropp Rminus Rdiv Rinv IZR Rltb Rleb Reqb sqrt dd].
    replace (1 - (1 - dd * dd) * m * m) with (1 - m * m * (1 - dd * dd)) by ring.
    destruct (Rltb_spec 0 (1 - m * m * (1 - dd * dd))); [|lra]. split; ring.
Qed.
Lemma Refract2_neg b i n m : snell (dot2 i n) m < 0 -> eq2 (XMVector2Refract b i n m) (qrep 0).
Proof.
  intros K. unfold XMVector2Refract, XMVector2RefractV. destruct b as [|s3 s4 f a].
  - cbv zeta. dq i; dq n. cbn in *. unfold snell, dot2 in *; cbn in *.
    set (dd := ix * nx + iy * ny) in *.
    replace (1 - (1 - dd * dd) * m * m) with (1 - m * m * (1 - dd * dd)) by ring.
    unfold tge; cbn. destruct (Rleb_spec 0 (1 - m * m * (1 - dd * dd))); [lra|]. split; reflexivity.
  - rewrite Dot2_R, !FMADD_R, !FNMADD_R. dq i; dq n.
    set (dd := dot2 _ _) in *. unfold snell in *.
    cbv - [Rplus Rmult Ropp Rminus Rdiv Rinv IZR Rltb Rleb Reqb sqrt dd].
    replace (1 - (1 - dd * dd) * m * m) with (1 - m * m * (1 - dd * dd)) by ring.
    destruct (Rltb_spec 0 (1 - m * m * (1 - dd * dd))); [lra|]. split; reflexivity.
Qed.

(** what refraction means: given unit vectors, the refracted ray is a unit vector on the far side of the surface whose
    tangential part is [m] times the incident tangential part *)
Lemma refr_alg dii din dnn m s :
  dii = 1 -> dnn = 1 -> s * s = snell din m ->
  m * m * dii - 2 * m * (m * din + s) * din + (m * din + s) * (m * din + s) * dnn = 1.
Proof. intros -> -> S. unfold snell in S. nra. Qed.
Lemma c23_refract2 b i n m : dot2 i i = 1 -> dot2 n n = 1 ->
  (0 < snell (dot2 i n) m ->
     norm2 (XMVector2Refract b i n m) = 1
     /\ (forall t, dot2 t n = 0 -> dot2 (XMVector2Refract b i n m) t = m * dot2 i t)
     /\ dot2 (XMVector2Refract b i n m) n < 0)
  /\ (snell (dot2 i n) m < 0 -> zero2 (XMVector2Refract b i n m)).
Proof.
  intros I N. split; intros K.
  - destruct (Refract2_pos b i n m K) as [EX EY]. set (r := XMVector2Refract b i n m) in *.
    set (s := sqrt (snell (dot2 i n) m)) in *.
    assert (S : s * s = snell (dot2 i n) m) by (apply sqrt_sqrt; lra).
    assert (SP : 0 < s) by (apply sqrt_lt_R0; exact K).
    assert (RT : forall t, dot2 r t = m * dot2 i t - (m * dot2 i n + s) * dot2 n t).
    { intros t. unfold dot2 at 1. rewrite EX, EY. unfold dot2; cbn; ring. }
    refine (conj _ (conj _ _)).
    + unfold norm2. rewrite <- sqrt_1. f_equal.
      assert (RR : dot2 r r = m * m * dot2 i i - 2 * m * (m * dot2 i n + s) * dot2 i n + (m * dot2 i n + s) * (m * dot2 i n + s) * dot2 n n).
      { unfold dot2 at 1. rewrite EX, EY. unfold dot2; cbn; ring. }
      rewrite RR. apply refr_alg; assumption.
    + intros t T. rewrite RT. replace (dot2 n t) with (dot2 t n) by (unfold dot2; ring). rewrite T; ring.
    + rewrite RT, N. lra.
  - destruct (Refract2_neg b i n m K) as [EX EY]. split; [exact EX|exact EY].
Qed.
Lemma Refract3_pos b i n m : 0 < snell (dot3 i n) m ->
  XMVector3Refract b i n m = minus (scale m i) (scale (m * dot3 i n + sqrt (snell (dot3 i n) m)) n).
Proof. intros K. unfold XMVector3Refract, XMVector3RefractV. rewrite Dot3_R. apply refract_body_pos; exact K. Qed.
Lemma Refract4_pos b i n m : 0 < snell (dot4 i n) m ->
  XMVector4Refract b i n m = minus (scale m i) (scale (m * dot4 i n + sqrt (snell (dot4 i n) m)) n).
Proof. intros K. unfold XMVector4Refract, XMVector4RefractV. rewrite Dot4_R. apply refract_body_pos; exact K. Qed.
Lemma c23_refract3 b i n m : dot3 i i = 1 -> dot3 n n = 1 ->
  (0 < snell (dot3 i n) m ->
     norm3 (XMVector3Refract b i n m) = 1
     /\ (forall t, dot3 t n = 0 -> dot3 (XMVector3Refract b i n m) t = m * dot3 i t)
     /\ dot3 (XMVector3Refract b i n m) n < 0)
  /\ (snell (dot3 i n) m <= 0 -> XMVector3Refract b i n m = qrep 0).
Proof.
  intros I N. split; intros K.
  - rewrite (Refract3_pos b i n m K). set (s := sqrt (snell (dot3 i n) m)) in *.
    assert (S : s * s = snell (dot3 i n) m) by (apply sqrt_sqrt; lra).
    assert (SP : 0 < s) by (apply sqrt_lt_R0; exact K).
    set (r := minus _ _).
    assert (RT : forall t, dot3 r t = m * dot3 i t - (m * dot3 i n + s) * dot3 n t) by (intros t; unfold r, dot3; cbn; ring).
    refine (conj _ (conj _ _)).
    + unfold norm3. rewrite <- sqrt_1. f_equal.
      assert (RR : dot3 r r = m * m * dot3 i i - 2 * m * (m * dot3 i n + s) * dot3 i n + (m * dot3 i n + s) * (m * dot3 i n + s) * dot3 n n)
       by (unfold r, dot3; cbn; ring).
      rewrite RR. apply refr_alg; assumption.
    + intros t T. rewrite RT. replace (dot3 n t) with (dot3 t n) by (unfold dot3; ring). rewrite T; ring.
    + rewrite RT, N. lra.
  - unfold XMVector3Refract, XMVector3RefractV. rewrite Dot3_R. apply refract_body_neg; exact K.
Qed.
Lemma c23_refract4 b i n m : dot4 i i = 1 -> dot4 n n = 1 ->
  (0 < snell (dot4 i n) m ->
     norm4 (XMVector4Refract b i n m) = 1
     /\ (forall t, dot4 t n = 0 -> dot4 (XMVector4Refract b i n m) t = m * dot4 i t)
     /\ dot4 (XMVector4Refract b i n m) n < 0)
  /\ (snell (dot4 i n) m <= 0 -> XMVector4Refract b i n m = qrep 0).
Proof.
  intros I N. split; intros K.
  - rewrite (Refract4_pos b i n m K). set (s := sqrt (snell (dot4 i n) m)) in *.
    assert (S : s * s = snell (dot4 i n) m) by (apply sqrt_sqrt; lra).
    assert (SP : 0 < s) by (apply sqrt_lt_R0; exact K).
    set (r := minus _ _).
    assert (RT : forall t, dot4 r t = m * dot4 i t - (m * dot4 i n + s) * dot4 n t) by (intros t; unfold r, dot4; cbn; ring).
    refine (conj _ (conj _ _)).
    + unfold norm4. rewrite <- sqrt_1. f_equal.
      assert (RR : dot4 r r = m * m * dot4 i i - 2 * m * (m * dot4 i n + s) * dot4 i n + (m * dot4 i n + s) * (m * dot4 i n + s) * dot4 n n)
       by (unfold r, dot4; cbn; ring).
      rewrite RR. apply refr_alg; assumption.
    + intros t T. rewrite RT. replace (dot4 n t) with (dot4 t n) by (unfold dot4; ring). rewrite T; ring.
    + rewrite RT, N. lra.
  - unfold XMVector4Refract, XMVector4RefractV. rewrite Dot4_R. apply refract_body_neg; exact K.
Qed.

(** ** C24 *)
Lemma c24_2 b V : dot2 V (XMVector2Orthogonal b V) = 0 /\ norm2 (XMVector2Orthogonal b V) = norm2 V.
Proof.
  dq V. destruct b; unfold norm2, dot2; cbn; split; try ring; f_equal; ring.
Qed.
Lemma c24_4 b V : dot4 V (XMVector4Orthogonal b V) = 0 /\ norm4 (XMVector4Orthogonal b V) = norm4 V.
Proof.
  dq V. destruct b; unfold norm4, dot4; cbn; split; try ring; f_equal; ring.
Qed.
Lemma c24_3 b V : dot3 V (XMVector3Orthogonal b V) = 0 /\ (~ zero3 V -> ~ zero3 (XMVector3Orthogonal b V)).
Proof.
  unfold XMVector3Orthogonal. rewrite Add_R, !Sub_R. dq V. unfold dot3, zero3. rcbv.
  destruct (Rltb_spec Vz 0), (Rltb_spec Vy 0); cbn; (split; [ring | intros N Z; apply N; lra]).
Qed.

(** ** C25 *)
Lemma LPD2_R b P1 P2 P : XMVector2LinePointDistance b P1 P2 P =
  qrep (norm2 (minus P (along P1 P2 (dot2 (minus P P1) (minus P2 P1) / dot2 (minus P2 P1) (minus P2 P1))))).
Proof.
  unfold XMVector2LinePointDistance. rewrite !Sub_R, LengthSq2_R, Dot2_R, Div_R, Mul_R, Length2_R.
  f_equal. unfold norm2. f_equal. unfold along, dot2. cbn. ring.
Qed.
Lemma LPD3_R b P1 P2 P : XMVector3LinePointDistance b P1 P2 P =
  qrep (norm3 (minus P (along P1 P2 (dot3 (minus P P1) (minus P2 P1) / dot3 (minus P2 P1) (minus P2 P1))))).
Proof.
  unfold XMVector3LinePointDistance. rewrite !Sub_R, LengthSq3_R, Dot3_R, Div_R, Mul_R, Length3_R.
  f_equal. unfold norm3. f_equal. unfold along, dot3. cbn. ring.
Qed.
Lemma proj_min a c dd t : 0 < dd -> a - 2 * (c / dd) * c + (c / dd) * (c / dd) * dd <= a - 2 * t * c + t * t * dd.
Proof.
  intros D. assert (E : c = c / dd * dd) by (field; lra). set (q := c / dd) in *. rewrite E.
  pose proof (Rle_0_sqr (t - q)) as S. unfold Rsqr in S.
  pose proof (Rmult_le_pos _ _ (Rlt_le _ _ D) S). lra.
Qed.
Lemma c25_dist2 b P1 P2 P : ~ eq2 P1 P2 -> exists d,
  XMVector2LinePointDistance b P1 P2 P = qrep d
  /\ (exists t, d = norm2 (minus P (along P1 P2 t))) /\ (forall t, d <= norm2 (minus P (along P1 P2 t))).
Proof.
  intros N. rewrite LPD2_R. set (t0 := dot2 (minus P P1) _ / _).
  exists (norm2 (minus P (along P1 P2 t0))). refine (conj eq_refl (conj (ex_intro _ t0 eq_refl) _)).
  intros t. unfold norm2. apply sqrt_le_1_alt.
  assert (D : 0 < dot2 (minus P2 P1) (minus P2 P1)).
  { pose proof (dot2_nonneg (minus P2 P1)) as [H|H]; [exact H|]. symmetry in H. apply dot2_0 in H.
    destruct N. unfold zero2 in H; cbn in H. split; lra. }
  assert (X : forall t, dot2 (minus P (along P1 P2 t)) (minus P (along P1 P2 t)) =
     dot2 (minus P P1) (minus P P1) - 2 * t * dot2 (minus P P1) (minus P2 P1) + t * t * dot2 (minus P2 P1) (minus P2 P1)).
  { intros. unfold dot2, along; cbn; ring. }
  rewrite !X. apply proj_min. exact D.
Qed.
Lemma c25_dist3 b P1 P2 P : ~ eq3 P1 P2 -> exists d,
  XMVector3LinePointDistance b P1 P2 P = qrep d
  /\ (exists t, d = norm3 (minus P (along P1 P2 t))) /\ (forall t, d <= norm3 (minus P (along P1 P2 t))).
Proof.
  intros N. rewrite LPD3_R. set (t0 := dot3 (minus P P1) _ / _).
  exists (norm3 (minus P (along P1 P2 t0))). refine (conj eq_refl (conj (ex_intro _ t0 eq_refl) _)).
  intros t. unfold norm3. apply sqrt_le_1_alt.
  assert (D : 0 < dot3 (minus P2 P1) (minus P2 P1)).
  { pose proof (dot3_nonneg (minus P2 P1)) as [H|H]; [exact H|]. symmetry in H. apply dot3_0 in H.
    destruct N. unfold zero3 in H; cbn in H. repeat split; lra. }
  assert (X : forall t, dot3 (minus P (along P1 P2 t)) (minus P (along P1 P2 t)) =
     dot3 (minus P P1) (minus P P1) - 2 * t * dot3 (minus P P1) (minus P2 P1) + t * t * dot3 (minus P2 P1) (minus P2 P1)).
  { intros. unfold dot3, along; cbn; ring. }
  rewrite !X. apply proj_min. exact D.
Qed.
Lemma c25_components b V N : dot3 N N = 1 ->
  let (par, perp) := XMVector3ComponentsFromNormal b V N in
  (exists k, par = scale k N) /\ plus par perp = V /\ dot3 perp N = 0.
Proof.
  intros U. unfold XMVector3ComponentsFromNormal. rewrite Dot3_R, Mul_R, Sub_R.
  refine (conj _ (conj _ _)).
  - exists (dot3 V N). dq N. unfold scale. qring.
  - dq V; dq N. unfold plus, minus. qring.
  - replace (dot3 _ N) with (dot3 V N - dot3 V N * dot3 N N) by (unfold dot3; cbn; ring). rewrite U; ring.
Qed.
Lemma c25_intersect b A1 A2 B1 B2 :
  / 8388608 < Rabs (det2 (qx A2 - qx A1) (qy A2 - qy A1) (qx B2 - qx B1) (qy B2 - qy B1)) ->
  exists s t, eq2 (XMVector2IntersectLine b A1 A2 B1 B2) (along A1 A2 s)
    /\ eq2 (XMVector2IntersectLine b A1 A2 B1 B2) (along B1 B2 t).
Proof.
  intros H. unfold XMVector2IntersectLine. rewrite !Sub_R, !Cross2_R.
  rt.
  set (c1 := det2 (qx (minus A2 A1)) (qy (minus A2 A1)) (qx (minus B2 B1)) (qy (minus B2 B1))) in *.
  set (c2 := det2 (qx (minus B2 B1)) (qy (minus B2 B1)) (qx (minus A1 B1)) (qy (minus A1 B1))) in *.
  change (/ 8388608 < Rabs c1) in H.
  assert (N : c1 <> 0). { intros E. rewrite E, Rabs_R0 in H. pose proof (Rinv_0_lt_compat 8388608). lra. }
  match goal with |- exists s t, eq2 ?X _ /\ _ => assert (E : X = along A1 A2 (c2 / c1)) end.
  { clearbody c1 c2. assert (E1 : Rleb (Rabs c1) (1 / 8388608) = false) by (apply Rleb_false; lra).
    destruct b as [|s3 s4 f a].
    - cbv zeta. rewrite Recip_R, Mul_R, MulAdd_R.
      unfold epsilon, along, plus, scale, minus. dq A1; dq A2. rl. rewrite Rminus_0_r, E1. cbn [andb]. qeq; field; exact N.
    - rewrite FMADD_R. unfold along. dq A1; dq A2. cbv -[Rplus Rmult Ropp Rminus Rdiv Rinv IZR Rltb Rleb Rabs].
      rewrite !Rabs_max.
      assert (E2 : Rltb (1 / 8388608) (Rabs c1) = true) by (apply Rltb_true; lra). rewrite E2.
      qeq; field; exact N. }
  rewrite E. exists (c2 / c1).
  exists (det2 (qx A2 - qx A1) (qy A2 - qy A1) (qx A1 - qx B1) (qy A1 - qy B1) / c1).
  split; [split; reflexivity|].
  unfold eq2, along, c1, c2, det2 in *; cbn in *. split; field; exact N.
Qed.

(** ** C35 *)
Lemma Transform2_R b V M : XMVector2Transform b V M = vecmat (point2 V) M.
Proof. bk b; dq V; dq M; dq Mx; dq My; dq Mz; dq Mw; rcbv; qring. Qed.
Lemma Transform3_R b V M : XMVector3Transform b V M = vecmat (point V) M.
Proof. bk b; dq V; dq M; dq Mx; dq My; dq Mz; dq Mw; rcbv; qring. Qed.
Lemma Transform4_R b V M : XMVector4Transform b V M = vecmat V M.
Proof. bk b; dq V; dq M; dq Mx; dq My; dq Mz; dq Mw; rcbv; qring. Qed.
Lemma TransformNormal2_R b V M : XMVector2TransformNormal b V M = vecmat (direction2 V) M.
Proof. bk b; dq V; dq M; dq Mx; dq My; dq Mz; dq Mw; rcbv; qring. Qed.
Lemma TransformNormal3_R b V M : XMVector3TransformNormal b V M = vecmat (direction V) M.
Proof. bk b; dq V; dq M; dq Mx; dq My; dq Mz; dq Mw; rcbv; qring. Qed.
Lemma TransformCoord2_R b V M : XMVector2TransformCoord b V M = dehom (vecmat (point2 V) M).
Proof.
  unfold XMVector2TransformCoord. rewrite !MulAdd_R, Div_R.
  match goal with |- qmap2 Rdiv ?r (splat I3 ?r) = _ => replace r with (vecmat (point2 V) M)
    by (dq V; dq M; dq Mx; dq My; dq Mz; dq Mw; rcbv; qring) end.
  unfold dehom. destruct (vecmat (point2 V) M) as [x y z w]. cbn. unfold Rdiv. qring.
Qed.
Lemma TransformCoord3_R b V M : XMVector3TransformCoord b V M = dehom (vecmat (point V) M).
Proof.
  unfold XMVector3TransformCoord. rewrite !MulAdd_R, Div_R.
  match goal with |- qmap2 Rdiv ?r (splat I3 ?r) = _ => replace r with (vecmat (point V) M)
    by (dq V; dq M; dq Mx; dq My; dq Mz; dq Mw; rcbv; qring) end.
  unfold dehom. destruct (vecmat (point V) M) as [x y z w]. cbn. unfold Rdiv. qring.
Qed.

(** ** C14 *)
Lemma wrap_R b r : (forall i, -3 * pi32 <= lane r i < 3 * pi32) ->
  forall i, - pi32 <= lane (wrap_angles (L:=RL) b r) i < pi32
    /\ exists k : Z, lane (wrap_angles (L:=RL) b r) i = lane r i + IZR k * (2 * pi32).
Proof.
  intros H i. pose proof (H i) as B. clear H.
  assert (E : lane (wrap_angles (L:=RL) b r) i =
     if Rltb (lane r i) (- pi32) then lane r i + 2 * pi32 else if Rleb pi32 (lane r i) then lane r i - 2 * pi32 else lane r i).
  { assert (P1 : Rlit 13176795 (-22) = pi32) by (unfold Rlit, pi32; cbn; reflexivity).
    assert (P2 : Rlit 13176795 (-21) = 2 * pi32) by (unfold Rlit, pi32; cbn; lra).
    assert (P : 0 < pi32) by (unfold pi32; lra).
    dq r. destruct i; cbn [lane qx qy qz qw] in *;
    (destruct b as [|s3 s4 f a]; cbv -[Rplus Rmult Ropp Rminus Rdiv Rinv IZR Rltb Rleb Rlit pi32];
     rewrite P1, P2; change (Rlit 0 0) with 0;
     repeat (rcase; try lra)). }
  rewrite E. assert (P : 0 < pi32) by (unfold pi32; lra). repeat rcase.
  - split; [lra|]. exists 1%Z. lra.
  - split; [lra|]. exists (-1)%Z. lra.
  - split; [lra|]. exists 0%Z. lra.
Qed.
Lemma c14_add b u v :
  (forall i, - pi32 <= lane u i < pi32) -> (forall i, - 2 * pi32 <= lane v i < 2 * pi32) ->
  forall i, - pi32 <= lane (XMVectorAddAngles b u v) i < pi32
    /\ exists k : Z, lane (XMVectorAddAngles b u v) i = lane u i + lane v i + IZR k * (2 * pi32).
Proof.
  intros U V i. unfold XMVectorAddAngles. rewrite Add_R.
  replace (lane u i + lane v i) with (lane (plus u v) i) by (destruct i; reflexivity).
  apply wrap_R. intros j. pose proof (U j). pose proof (V j).
  replace (lane (plus u v) j) with (lane u j + lane v j) by (destruct j; reflexivity). lra.
Qed.
Lemma c14_sub b u v :
  (forall i, - pi32 <= lane u i < pi32) -> (forall i, - 2 * pi32 <= lane v i < 2 * pi32) ->
  forall i, - pi32 <= lane (XMVectorSubtractAngles b u v) i < pi32
    /\ exists k : Z, lane (XMVectorSubtractAngles b u v) i = lane u i - lane v i + IZR k * (2 * pi32).
Proof.
  intros U V i. unfold XMVectorSubtractAngles. rewrite Sub_R.
  replace (lane u i - lane v i) with (lane (minus u v) i) by (destruct i; reflexivity).
  apply wrap_R. intros j. pose proof (U j). pose proof (V j).
  replace (lane (minus u v) j) with (lane u j - lane v j) by (destruct j; reflexivity). lra.
Qed.
