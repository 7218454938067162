(** Oriented boxes under transforms, boxes against planes and rays. *)
From Coq Require Import Reals Lra Psatz List Bool Nsatz.
From Verif Require Import Base F32 Intrin Lane MVec MTrig MQuat MInterp MPlane MMatrix Shapes MCollide.
From Verif Require Import SpecGeom SpecQuat SpecMat SpecShape PReal PVec PQuat PRot PMatrix PTransf PDecomp PShape PSphere PSide PHull PBox POBox PSat.
Open Scope R_scope.

(** ** Transforms of oriented boxes *)
Lemma within_scale e k l : 0 <= k -> within e l -> within (F3 (fx e * k) (fy e * k) (fz e * k)) (scale k l).
Proof.
  intros Hk (h1 & h2 & h3). unfold within, scale; cbn [fx fy fz qx qy qz]. rewrite !Rabs_mult, (Rabs_right k) by lra. repeat split; nra.
Qed.
Lemma qrot_scale q k v : qrot q (scale k v) = scale k (qrot q v).
Proof. dn q. dq v. qr. Qed.
Lemma similar_obb k q t c e o p : 0 <= k -> obb (MkOBox c e o) p ->
  forall c', eq3 (pos c') (similar k q t (pos c)) ->
  obb (MkOBox c' (F3 (fx e * k) (fy e * k) (fz e * k)) (ham q o)) (similar k q t p).
Proof.
  intros Hk (l & Hl & He) c' Hc. cbn [ob_Center ob_Extents ob_Orientation] in *. exists (scale k l). cbn [ob_Center ob_Extents ob_Orientation].
  split; [apply within_scale; assumption|]. rewrite qrot_ham, !qrot_scale. unfold similar in *. rewrite !qrot_scale in *.
  rewrite (qrot_eq3 q p _ He).
  destruct (qrot_plus q (pos c) (qrot o l)) as (h1 & h2 & h3). destruct Hc as (g1 & g2 & g3).
  unfold eq3, plus, scale in *; cbn [qx qy qz] in *. rewrite g1, g2, g3, h1, h2, h3. repeat split; ring.
Qed.
Lemma obox_decomposed b o k q t : ok_obox o -> 0 <= k -> unitq q ->
  exists m, OBox_TransformDecomposed (L:=RL) b o k q t = Some m /\ ok_obox m /\ covers (obb o) (similar k q t) (obb m).
Proof.
  intros (He & Ho) Hk Hq. unfold OBox_TransformDecomposed. rewrite !isunitq by assumption. unfold asserting. cbv zeta. l3.
  rewrite QMul_R, !Mul_R, Rotate_R, Add_R. eexists. split; [reflexivity|]. split.
  - split; [|apply unit_ham; assumption]. cbn [ob_Extents]. destruct He as (h1 & h2 & h3). unfold store3, nonneg3, pos, qmap2, qrep; cbn [fx fy fz qx qy qz].
    repeat split; apply Rmult_le_pos; assumption.
  - intros p Hp. destruct o as [c e o]. cbn [ob_Center ob_Extents ob_Orientation] in *.
    apply (similar_obb k q t c e o p Hk Hp). eapply eq3_trans; [apply pos_store3|]. unfold similar.
    rewrite (qrot_eq3 q (qmap2 Rmult (pos c) (qrep k)) (scale k (pos c))); [apply eq3_refl|].
    unfold eq3, qmap2, qrep, scale; cbn [qx qy qz]. repeat split; ring.
Qed.
(** a matrix that scales by [k], rotates and translates *)
Lemma obox_matrix b o k Rm t M : ok_obox o -> 0 < k -> rotation Rm ->
  qx M = scale k (qx Rm) -> qy M = scale k (qy Rm) -> qz M = scale k (qz Rm) -> qw M = t ->
  exists m, OBox_TransformMatrix (L:=RL) b o M = Some m /\ ok_obox m /\ covers (obb o) (xform M) (obb m).
Proof.
  intros (He & Ho) Hk HR Mx My Mz Mw. unfold OBox_TransformMatrix. rewrite !isunitq by assumption. unfold asserting. cbv zeta. l3.
  assert (D : dot3 (qx Rm) (qx Rm) = 1 /\ dot3 (qy Rm) (qy Rm) = 1 /\ dot3 (qz Rm) (qz Rm) = 1 /\ qw Rm = Q 0 0 0 1).
  { destruct (mat_of_rotation Rm HR) as (m & n & p & r & s & u & v & w & x & -> & E). destruct E as [re1 re2 re3 _ _ _]. unfold dot3; cbn [qx qy qz qw].
    repeat split; assumption. }
  destruct D as (d1 & d2 & d3 & d4).
  assert (Esg : sg k = 1). { unfold sg. rewrite (proj2 (Rltb_false k 0)) by lra. reflexivity. }
  assert (ES : forall v, scale 1 v = v) by (intros v; dq v; unfold scale; cbn [qx qy qz qw]; f_equal; ring).
  rewrite Mx, My, Mz, !Length3_R. rewrite !normalize_scaled, Esg, !ES by (assumption || lra).
  rewrite !norm3_scaled, (Rabs_right k) by (assumption || lra).
  change (IdR3 (L:=RL)) with (Q 0 0 0 1 : rvec). rewrite <- d4.
  replace (Q (qx Rm) (qy Rm) (qz Rm) (qw Rm)) with Rm by (destruct Rm; reflexivity).
  destruct (mat_quat_mat b Rm HR) as (EQ & UQ). rewrite RotQuat_R in EQ. set (rq := XMQuaternionRotationMatrix (L:=RL) b Rm) in *. rt.
  rewrite Transform3_R, Mul_R, QMul_R.
  eexists; split; [reflexivity|].
  assert (EX : eq3 (qmap2 Rmult (pos (ob_Extents o)) (vsel (L:=RL) (qrep k) (vsel (L:=RL) (qrep k) (qrep k) mask_x) mask2)) (Q (fx (ob_Extents o) * k) (fy (ob_Extents o) * k) (fz (ob_Extents o) * k) 0)).
  { destruct (ob_Extents o) as [e1 e2 e3]. repeat split. }
  split.
  - split; [|apply unit_ham; assumption]. cbn [ob_Extents]. destruct EX as (x1 & x2 & x3). unfold store3, nonneg3; cbn [fx fy fz]. rt. rewrite x1, x2, x3. cbn [qx qy qz].
    destruct He as (h1 & h2 & h3). repeat split; apply Rmult_le_pos; lra.
  - intros p Hp.
    assert (XS : forall v, eq3 (xform M v) (similar k rq t v)).
    { intros v. unfold xform, similar. rewrite qrot_scale, <- (qmat_rot rq v UQ), EQ. unfold vecmat. rewrite Mx, My, Mz, Mw. unfold direction, point, eq3, plus, scale; cbn [qx qy qz qw].
      rewrite !d4. cbn [qx qy qz qw]. repeat split; ring. }
    destruct o as [c e o]. cbn [ob_Center ob_Extents ob_Orientation] in *.
    pose proof (similar_obb k rq t c e o p ltac:(lra) Hp (store3 (L:=RL) (vecmat (point (pos c)) M))) as HS.
    assert (HC : eq3 (pos (store3 (L:=RL) (vecmat (point (pos c)) M))) (similar k rq t (pos c))) by (eapply eq3_trans; [apply pos_store3|apply XS]).
    specialize (HS HC). unfold store3 at 2. destruct EX as (x1 & x2 & x3). rt. rewrite x1, x2, x3. cbn [qx qy qz].
    destruct HS as (l & Hl & Hs). exists l. split; [exact Hl|]. eapply eq3_trans; [apply XS|exact Hs].
Qed.

(** ** Planes *)
Definition reach (e : float3 R) (n : rvec) : R := fx e * Rabs (qx n) + fy e * Rabs (qy n) + fz e * Rabs (qz n).
Definition sgn (x : R) : R := if Rltb x 0 then -1 else 1.
Lemma sgn_mul x : x * sgn x = Rabs x.
Proof. unfold sgn, Rabs. destruct (Rltb_spec x 0), (Rcase_abs x); try ring; lra. Qed.
Lemma sgn_abs x e : 0 <= e -> Rabs (e * sgn x) <= e.
Proof. intros H. unfold sgn. destruct (Rltb x 0); rewrite Rabs_mult, (Rabs_right e) by lra; [rewrite (Rabs_left (-1)) by lra|rewrite Rabs_R1]; lra. Qed.
Lemma within_neg e l : within e l -> within e (scale (-1) l).
Proof. intros (h1 & h2 & h3). unfold within, scale; cbn [qx qy qz]. rewrite !Rabs_mult, (Rabs_left (-1)) by lra. repeat split; lra. Qed.
Lemma within_reach e n : nonneg3 e -> (forall l, within e l -> - reach e n <= dot3 n l <= reach e n) /\ exists l, within e l /\ dot3 n l = reach e n.
Proof.
  intros (h1 & h2 & h3). split.
  - intros l (w1 & w2 & w3). apply abs_le_iff. unfold dot3, reach.
    replace (qx n * qx l + qy n * qy l + qz n * qz l) with (qx l * qx n + qy l * qy n + qz l * qz n) by ring. apply abs3; assumption.
  - exists (Q (fx e * sgn (qx n)) (fy e * sgn (qy n)) (fz e * sgn (qz n)) 0). split.
    + unfold within; cbn [qx qy qz]. repeat split; apply sgn_abs; assumption.
    + unfold dot3, reach; cbn [qx qy qz]. rewrite <- !sgn_mul. ring.
Qed.
(** a region whose points are the images of a box, the plane equation being affine in the box's coordinates *)
Lemma spans_box P (A : region) e n d g : nonneg3 e -> (forall p, A p <-> exists l, within e l /\ eq3 p (g l)) ->
  (forall l, plane_at P (g l) = d + dot3 n l) -> spans P A (d - reach e n) (d + reach e n).
Proof.
  intros He HA HP. destruct (within_reach e n He) as (HB & l0 & W0 & E0).
  assert (PE : forall p q, eq3 p q -> plane_at P p = plane_at P q) by (intros p q (h1 & h2 & h3); unfold plane_at, dot3; rewrite h1, h2, h3; reflexivity).
  split; [|split].
  - intros p Hp. apply HA in Hp. destruct Hp as (l & Hl & El). rewrite (PE _ _ El), HP. specialize (HB l Hl). lra.
  - exists (g (scale (-1) l0)). split; [apply HA; exists (scale (-1) l0); split; [apply within_neg, W0|apply eq3_refl]|].
    rewrite HP. unfold dot3, scale in *; cbn [qx qy qz]. lra.
  - exists (g l0). split; [apply HA; exists l0; split; [exact W0|apply eq3_refl]|]. rewrite HP, E0. reflexivity.
Qed.
Lemma box_spans bx P : ok_box bx -> spans P (aabb bx) (plane_at P (pos (bx_Center bx)) - reach (bx_Extents bx) P) (plane_at P (pos (bx_Center bx)) + reach (bx_Extents bx) P).
Proof.
  intros Hb. apply (spans_box P (aabb bx) (bx_Extents bx) P _ (fun l => plus (pos (bx_Center bx)) l)); [assumption| |].
  - intros p. unfold aabb. split.
    + intros H. eexists; split; [exact H|]. e3. repeat split; ring.
    + intros (l & Hl & (h1 & h2 & h3)). revert Hl. apply within_eq3. unfold eq3, minus, plus in *; cbn [qx qy qz] in *. rewrite h1, h2, h3. repeat split; ring.
  - intros l. unfold plane_at, dot3, plus; cbn [qx qy qz]. ring.
Qed.
Lemma FastBox_R b bx P : FastIntersectAxisAlignedBoxPlane (L:=RL) b (insert_lane I3 (load3 (bx_Center bx)) vone) (load3 (bx_Extents bx)) P =
  (qrep (Rltb 0 (plane_at P (pos (bx_Center bx)) - reach (bx_Extents bx) P)), qrep (Rltb (plane_at P (pos (bx_Center bx)) + reach (bx_Extents bx) P) 0)).
Proof. unfold FastIntersectAxisAlignedBoxPlane. cbv zeta. l3. rewrite vone_R, Dot4_R, point_plane, Abs_R, Dot3_R. apply side_pair. Qed.
Lemma box_plane b bx P : ok_box bx -> unit3 P -> exists v, Box_IntersectsPlane (L:=RL) b bx P = Some v /\ side_ok P (aabb bx) v.
Proof.
  intros Hs Hu. unfold Box_IntersectsPlane, XMPlaneIsUnit. rewrite isunit3 by assumption. unfold asserting. cbv zeta.
  rewrite FastBox_R. eexists; split; [reflexivity|]. apply verdict_ok, box_spans; assumption.
Qed.
Lemma box_six b bx P0 P1 P2 P3 P4 P5 : ok_box bx ->
  six_ok (aabb bx) (P0 :: P1 :: P2 :: P3 :: P4 :: P5 :: nil)%list (Box_ContainedBy (L:=RL) b bx P0 P1 P2 P3 P4 P5).
Proof.
  intros Hs. unfold Box_ContainedBy. cbv zeta.
  apply (contained_ok (aabb bx) _ (fun P => plane_at P (pos (bx_Center bx)) - reach (bx_Extents bx) P) (fun P => plane_at P (pos (bx_Center bx)) + reach (bx_Extents bx) P)).
  intros P HP. split; [apply box_spans; assumption|apply FastBox_R].
Qed.
Lemma qrot_adjoint q u v : dot3 u (qrot q v) = dot3 (qrot (conj q) u) v.
Proof. dn q. dq u; dq v. qs. ring. Qed.
Lemma obox_spans o P : ok_obox o -> let n := qrot (conj (ob_Orientation o)) P in
  spans P (obb o) (plane_at P (pos (ob_Center o)) - reach (ob_Extents o) n) (plane_at P (pos (ob_Center o)) + reach (ob_Extents o) n).
Proof.
  intros (He & Hq) n. apply (spans_box P (obb o) (ob_Extents o) n _ (fun l => plus (pos (ob_Center o)) (qrot (ob_Orientation o) l))); [assumption| |].
  - intros p. reflexivity.
  - intros l. unfold n. rewrite <- qrot_adjoint. unfold plane_at, dot3, plus; cbn [qx qy qz]. ring.
Qed.
Lemma dot3_comm u v : dot3 u v = dot3 v u.
Proof. unfold dot3. ring. Qed.
Lemma FastOBox_R b o P : unitq (ob_Orientation o) -> let M := qmat (ob_Orientation o) in let n := qrot (conj (ob_Orientation o)) P in
  FastIntersectOrientedBoxPlane (L:=RL) b (insert_lane I3 (load3 (ob_Center o)) vone) (load3 (ob_Extents o)) (qx M) (qy M) (qz M) P =
  (qrep (Rltb 0 (plane_at P (pos (ob_Center o)) - reach (ob_Extents o) n)), qrep (Rltb (plane_at P (pos (ob_Center o)) + reach (ob_Extents o) n) 0)).
Proof.
  intros Hq M n. unfold FastIntersectOrientedBoxPlane. cbv zeta. l3. rewrite vone_R, Dot4_R, point_plane, !Dot3_R, Abs_R.
  assert (E : dot3 (pos (ob_Extents o)) (qmap Rabs (insert_lane (L:=RL) I2 (insert_lane (L:=RL) I1 (qrep (dot3 P (qx M))) (qrep (dot3 P (qy M)))) (qrep (dot3 P (qz M))))) = reach (ob_Extents o) n).
  { destruct (qmat_rows (ob_Orientation o) P Hq) as (h1 & h2 & h3). fold n in h1, h2, h3. fold M in h1, h2, h3. unfold reach. rewrite h1, h2, h3.
    cbn [qx qy qz]. rewrite !(dot3_comm P). reflexivity. }
  rt. rewrite E. apply side_pair.
Qed.
Lemma obox_plane b o P : ok_obox o -> unit3 P -> exists v, OBox_IntersectsPlane (L:=RL) b o P = Some v /\ side_ok P (obb o) v.
Proof.
  intros Hs Hu. unfold OBox_IntersectsPlane, XMPlaneIsUnit. rewrite isunit3, isunitq by (assumption || apply Hs). unfold asserting. cbv zeta.
  rewrite RotQuat_R. eexists; split; [apply f_equal, (f_equal plane_verdict); exact (FastOBox_R b o P (proj2 Hs))|]. apply verdict_ok, obox_spans; assumption.
Qed.
Lemma obox_six b o P0 P1 P2 P3 P4 P5 : ok_obox o ->
  exists v, OBox_ContainedBy (L:=RL) b o P0 P1 P2 P3 P4 P5 = Some v /\ six_ok (obb o) (P0 :: P1 :: P2 :: P3 :: P4 :: P5 :: nil)%list v.
Proof.
  intros Hs. unfold OBox_ContainedBy. rewrite isunitq by apply Hs. unfold asserting. cbv zeta. eexists; split; [reflexivity|]. rewrite RotQuat_R.
  set (n := fun P => qrot (conj (ob_Orientation o)) P).
  apply (contained_ok (obb o) _ (fun P => plane_at P (pos (ob_Center o)) - reach (ob_Extents o) (n P)) (fun P => plane_at P (pos (ob_Center o)) + reach (ob_Extents o) (n P))).
  intros P HP. split; [apply obox_spans; assumption|apply (FastOBox_R b o P (proj2 Hs))].
Qed.
