(** Proofs about composite transforms, reflection and shadow matrices, view and projection matrices in exact arithmetic. *)
From Coq Require Import Reals Lra Psatz Nsatz Bool.
From Verif Require Import Base F32 Intrin Lane MVec MTrig MQuat MPlane MMatrix SpecGeom SpecQuat SpecMat PReal PVec PQuat PMatrix PRot PTransf PPlane.
Open Scope R_scope.

(** ** Composite transforms *)
Definition affine (M : rmat) : Prop := qw (qx M) = 0 /\ qw (qy M) = 0 /\ qw (qz M) = 0 /\ qw (qw M) = 1.
Lemma affine_mul A B : affine A -> affine B -> affine (matmul A B).
Proof. unfold affine. dm A; dm B. ms. intros (->&->&->&->) (->&->&->&->). repeat split; ring. Qed.
Lemma affine_trans t : affine (mtrans t). Proof. unfold affine; dq t; ms; repeat split; reflexivity. Qed.
Lemma affine_scaling t : affine (mscaling t). Proof. unfold affine; dq t; ms; repeat split; reflexivity. Qed.
Lemma affine_rotz s c : affine (mrotz s c). Proof. unfold affine; ms; repeat split; reflexivity. Qed.
Lemma affine_qmat q : affine (qmat q). Proof. unfold affine; dn q; ms; repeat split; reflexivity. Qed.
Lemma affine_transp_qmat q : affine (transp (qmat q)). Proof. unfold affine; dn q; ms; repeat split; reflexivity. Qed.
Lemma affine_transp_rotz s c : affine (transp (mrotz s c)). Proof. unfold affine; ms; repeat split; reflexivity. Qed.
#[export] Hint Resolve affine_mul affine_trans affine_scaling affine_rotz affine_qmat affine_transp_qmat affine_transp_rotz : aff.
Lemma add_r3 b M t : affine M -> qw t = 0 -> with_r3 (L:=RL) M (XMVectorAdd (L:=RL) b (qw M) t) = matmul M (mtrans t).
Proof. unfold affine. dm M; dq t. intros A E. destruct b; rcbv; rt; ms; destruct A as (->&->&->&->); rewrite E; meq; ring. Qed.
Lemma sub_r3 b M t : affine M -> qw t = 0 -> with_r3 (L:=RL) M (XMVectorSubtract (L:=RL) b (qw M) t) = matmul M (mtrans (opp t)).
Proof. unfold affine. dm M; dq t. intros A E. destruct b; rcbv; rt; ms; destruct A as (->&->&->&->); rewrite E; meq; ring. Qed.
Lemma affine_add b M t : affine M -> qw t = 0 -> affine (with_r3 (L:=RL) M (XMVectorAdd (L:=RL) b (qw M) t)).
Proof. intros. rewrite add_r3 by assumption. auto with aff. Qed.
Lemma affine_sub b M t : affine M -> qw t = 0 -> affine (with_r3 (L:=RL) M (XMVectorSubtract (L:=RL) b (qw M) t)).
Proof. intros. rewrite sub_r3 by assumption. auto with aff. Qed.
#[export] Hint Resolve affine_add affine_sub : aff.
(** transformation_body with affine matrices and flat vectors *)
Lemma body_R b A O S Rm so ro t : affine A -> affine (transp O) -> affine O -> affine S -> affine Rm -> qw so = 0 -> qw ro = 0 -> qw t = 0 ->
  transformation_body (L:=RL) b A O S Rm so ro t =
  matmul (matmul (matmul (matmul (matmul (matmul (matmul (matmul A (transp O)) S) O) (mtrans so)) (mtrans (opp ro))) Rm) (mtrans ro)) (mtrans t).
Proof.
  intros. unfold transformation_body. cbv zeta. repeat rewrite MMul_R. rewrite Transpose_R. rt.
  repeat (first [rewrite add_r3 by auto 20 with aff | rewrite sub_r3 by auto 20 with aff | rewrite MMul_R]; rt). reflexivity.
Qed.
Lemma affine_body_R b S Rm ro t : affine S -> affine Rm -> qw ro = 0 -> qw t = 0 ->
  affine_body (L:=RL) b S Rm ro t = matmul (matmul (matmul (matmul S (mtrans (opp ro))) Rm) (mtrans ro)) (mtrans t).
Proof.
  intros. unfold affine_body. cbv zeta.
  repeat (first [rewrite add_r3 by auto 20 with aff | rewrite sub_r3 by auto 20 with aff | rewrite MMul_R]; rt). reflexivity.
Qed.
Lemma vsel3 (v : rvec) : vsel (L:=RL) vzero v mask3 = direction v. Proof. reflexivity. Qed.
Lemma vsel2z (v : rvec) : vsel (L:=RL) vzero v mask2 = flat v. Proof. reflexivity. Qed.
Lemma vsel2o (v : rvec) : vsel (L:=RL) vone v mask2 = flat_scale v. Proof. reflexivity. Qed.
Lemma Neg_R b v : XMVectorNegate (L:=RL) b v = opp v.
Proof. bk b; dq v; rcbv; apply (@Qeq R); ring. Qed.
Lemma mtrans_dir v : mtrans (direction v) = mtrans v. Proof. reflexivity. Qed.
Lemma mtrans_opp_dir v : mtrans (opp (direction v)) = mtrans (opp v). Proof. reflexivity. Qed.
Lemma Transformation_R b so oq s ro rq t : XMMatrixTransformation (L:=RL) b so oq s ro rq t =
  matmul (matmul (matmul (matmul (matmul (matmul (matmul (matmul (mtrans (opp so)) (transp (qmat oq))) (mscaling s)) (qmat oq)) (mtrans so)) (mtrans (opp ro))) (qmat rq)) (mtrans ro)) (mtrans t).
Proof.
  unfold XMMatrixTransformation. cbv zeta. rewrite !vsel3, Neg_R, TranslationV_R, !RotQuat_R, ScalingV_R. rt.
  rewrite body_R by auto with aff. rewrite !mtrans_dir, mtrans_opp_dir. reflexivity.
Qed.
Lemma Transformation2D_R b so sn cs s ro sr cr t : transformation2d_sc (L:=RL) b so sn cs s ro sr cr t =
  matmul (matmul (matmul (matmul (matmul (matmul (matmul (matmul (mtrans (opp (flat so))) (transp (mrotz sn cs))) (mscaling (flat_scale s))) (mrotz sn cs)) (mtrans (flat so))) (mtrans (opp (flat ro)))) (mrotz sr cr)) (mtrans (flat ro))) (mtrans (flat t)).
Proof.
  unfold transformation2d_sc. cbv zeta. rewrite !vsel2z, !vsel2o, Neg_R, TranslationV_R, !RotZ_R, ScalingV_R. rt.
  rewrite body_R by auto with aff. reflexivity.
Qed.
Lemma Affine_R b s ro rq t : XMMatrixAffineTransformation (L:=RL) b s ro rq t =
  matmul (matmul (matmul (matmul (mscaling s) (mtrans (opp ro))) (qmat rq)) (mtrans ro)) (mtrans t).
Proof.
  unfold XMMatrixAffineTransformation. cbv zeta. rewrite !vsel3, RotQuat_R, ScalingV_R. rt.
  rewrite affine_body_R by auto with aff. rewrite !mtrans_dir, mtrans_opp_dir. reflexivity.
Qed.
Lemma Affine2D_R b s ro sr cr t : affine2d_sc (L:=RL) b s ro sr cr t =
  matmul (matmul (matmul (matmul (mscaling (flat_scale s)) (mtrans (opp (flat ro)))) (mrotz sr cr)) (mtrans (flat ro))) (mtrans (flat t)).
Proof.
  unfold affine2d_sc. cbv zeta. rewrite !vsel2z, !vsel2o, RotZ_R, ScalingV_R. rt.
  rewrite affine_body_R by auto with aff. reflexivity.
Qed.
Lemma Tensor_R b u v : XMMatrixVectorTensorProduct (L:=RL) b u v = outer u v.
Proof. destruct b; reflexivity. Qed.
Lemma vecmat_mtrans x t : vecmat (point x) (mtrans t) = point (plus x t).
Proof. dq x; dq t; ms; apply (@Qeq R); ring. Qed.
Lemma vecmat_mtrans_dir x t : vecmat (direction x) (mtrans t) = direction x.
Proof. dq x; dq t; ms; apply (@Qeq R); ring. Qed.
Lemma vecmat_mscaling x s : vecmat x (mscaling s) = Q (qx x * qx s) (qy x * qy s) (qz x * qz s) (qw x).
Proof. dq x; dq s; ms; apply (@Qeq R); ring. Qed.
Lemma vecmat_outer x u v : vecmat x (outer u v) = scale (dot4 x u) v.
Proof. dq x; dq u; dq v; ms; apply (@Qeq R); ring. Qed.

(** ** Reflection *)
Lemma not_inf4 v : is_inf4 (L:=RL) v = false. Proof. reflexivity. Qed.
Lemma is_zero3_R v : is_zero3 (L:=RL) v = true <-> zero3 v.
Proof.
  unfold is_zero3, zero3. cbn -[Reqb]. rewrite !andb_true_iff.
  rewrite !Reqb_true. tauto.
Qed.
Lemma is_zero3_not v : ~ zero3 v -> is_zero3 (L:=RL) v = false.
Proof. intros H. destruct (is_zero3 v) eqn:E; [apply is_zero3_R in E; contradiction|reflexivity]. Qed.
Lemma not_inf3 v : is_inf3 (L:=RL) v = false. Proof. reflexivity. Qed.
Definition reflm (p : rvec) : rmat :=
  let n := Q (-2 * qx p) (-2 * qy p) (-2 * qz p) 0 in
  Q (plus (scale (qx p) n) (Q 1 0 0 0)) (plus (scale (qy p) n) (Q 0 1 0 0)) (plus (scale (qz p) n) (Q 0 0 1 0)) (plus (scale (qw p) n) (Q 0 0 0 1)).
Lemma Reflect_R b P : ~ zero3 P -> XMMatrixReflect (L:=RL) b P = Some (reflm (scale (/ norm3 P) P)).
Proof.
  intros H. unfold XMMatrixReflect. rewrite is_zero3_not, not_inf4 by assumption. cbn [orb]. f_equal.
  rewrite (PNorm_R b P H). rt. set (p := scale (/ norm3 P) P). dq p. unfold reflm. bk b; rcbv; rt; ms; meq; ring.
Qed.
Lemma norm_on_plane P x : ~ zero3 P -> on_plane (scale (/ norm3 P) P) x <-> on_plane P x.
Proof.
  intros H. pose proof (norm3_pos P H) as N. unfold on_plane.
  replace (plane_at (scale (/ norm3 P) P) x) with (/ norm3 P * plane_at P x) by (dq P; dq x; unfold plane_at, dot3, scale; cbn [qx qy qz qw]; ring).
  split; intros E; [apply Rmult_eq_reg_l with (/ norm3 P); [lra|]; apply Rinv_neq_0_compat; lra|rewrite E; ring].
Qed.
Lemma reflect_mirror b P x : ~ zero3 P -> exists M, XMMatrixReflect (L:=RL) b P = Some M /\
  let y := vecmat (point x) M in
  qw y = 1 /\ on_plane P (scale (/ 2) (plus x y)) /\ (exists k, minus y (point x) = scale k (direction P))
  /\ vecmat (point y) M = point x /\ (on_plane P x -> y = point x) /\ matmul M M = ident.
Proof.
  intros H. eexists; split; [apply (Reflect_R b P H)|]. pose proof (norm_on_plane P) as NP.
  pose proof (scale_norm3 P H) as U. pose proof (norm3_pos P H) as N.
  assert (HP : P = scale (norm3 P) (scale (/ norm3 P) P)) by (dq P; unfold scale; cbn [qx qy qz qw]; apply (@Qeq R); field; lra).
  set (p := scale (/ norm3 P) P) in *.
  assert (MM : matmul (reflm p) (reflm p) = ident).
  { clear - U. clearbody p. dq p. unfold reflm. ms. meq; nsatz. }
  cbv zeta. split; [dq p; dq x; unfold reflm; ms; ring|].
  split. { rewrite <- NP by assumption. clear - U. clearbody p. unfold on_plane. transitivity ((1 - dot3 p p) * plane_at p x); [|rewrite U; ring].
    dq p; dq x; unfold reflm; ms. field. }
  split. { replace (direction P) with (direction (scale (norm3 P) p)) by (rewrite <- HP; reflexivity).
    exists (-2 * plane_at p x / norm3 P). clear - N. set (k := norm3 P) in *. clearbody k p. dq p; dq x; unfold reflm; ms. apply (@Qeq R); field; lra. }
  assert (Y : vecmat (point (vecmat (point x) (reflm p))) (reflm p) = point x).
  { replace (point (vecmat (point x) (reflm p))) with (vecmat (point x) (reflm p)) by (dq p; dq x; unfold reflm; ms; apply (@Qeq R); ring).
    rewrite vecmat_matmul, MM, vecmat_ident. reflexivity. }
  split; [exact Y|]. split; [|exact MM].
  rewrite <- NP by assumption. unfold on_plane. intros O. clear - O. clearbody p. dq p; dq x; unfold reflm; ms. apply (@Qeq R); nsatz.
Qed.
Definition shadm (p l : rvec) : rmat :=
  let d := dot4 p l in
  Q (plus (scale (- qx p) l) (Q d 0 0 0)) (plus (scale (- qy p) l) (Q 0 d 0 0)) (plus (scale (- qz p) l) (Q 0 0 d 0)) (plus (scale (- qw p) l) (Q 0 0 0 d)).
Lemma Shadow_R b P l : ~ zero3 P -> XMMatrixShadow (L:=RL) b P l = Some (shadm (scale (/ norm3 P) P) l).
Proof.
  intros H. unfold XMMatrixShadow. rewrite is_zero3_not, not_inf4 by assumption. cbn [orb]. cbv zeta. f_equal.
  rewrite (PNorm_R b P H). rt. set (p := scale (/ norm3 P) P). rewrite PDot_R. dq p. dq l. unfold shadm. 
  set (d := dot4 (Q px py pz pw) (Q lx ly lz lw)). bk b; rcbv; rt; ms; meq; ring.
Qed.
Lemma shadm_v p l x : vecmat x (shadm p l) = minus (scale (dot4 p l) x) (scale (dot4 p x) l).
Proof. dq p; dq l; dq x; unfold shadm; ms; apply (@Qeq R); ring. Qed.
(** the image of a point is on the plane, and on the line through the point and the light *)
Lemma shadow_proj b P l : ~ zero3 P -> exists M, XMMatrixShadow (L:=RL) b P l = Some M /\ forall x,
  let y := vecmat (point x) M in
  dot4 P y = 0 /\ (on_plane P x -> exists k, y = scale k (point x)) /\
  (qw y <> 0 -> on_plane P (dehom y)) /\
  (qw l = 0 -> dot4 P l <> 0 -> qw y <> 0 /\ exists t, dehom y = plus (point x) (scale t l)) /\
  (qw l = 1 -> qw y <> 0 -> exists t, dehom y = plus (point x) (scale t (minus l (point x)))).
Proof.
  intros H. eexists; split; [apply (Shadow_R b P l H)|]. intros x. cbv zeta.
  pose proof (norm3_pos P H) as N.
  assert (D4 : forall v, dot4 (scale (/ norm3 P) P) v = / norm3 P * dot4 P v) by (intros v; dq P; dq v; unfold dot4, scale; cbn [qx qy qz qw]; ring).
  rewrite shadm_v, !D4. set (k := / norm3 P). assert (K : 0 < k) by (apply Rinv_0_lt_compat; exact N).
  assert (Z : dot4 P (minus (scale (k * dot4 P l) (point x)) (scale (k * dot4 P (point x)) l)) = 0).
  { generalize (point x). intros w. dq P; dq l; dq w. ms. ring. }
  assert (W : qw (minus (scale (k * dot4 P l) (point x)) (scale (k * dot4 P (point x)) l)) = k * dot4 P l - k * dot4 P (point x) * qw l).
  { dq l; dq x. cbn [qw minus scale point]. ring. }
  split; [exact Z|].
  split.
  { intros O. exists (k * dot4 P l). replace (dot4 P (point x)) with 0.
    - generalize (dot4 P l). intros d. dq l; dq x. ms. apply (@Qeq R); ring.
    - unfold on_plane, plane_at in O. rewrite <- O. dq P; dq x. unfold dot3, dot4; cbn [qx qy qz qw point]. ring. }
  split.
  { intros Y. unfold on_plane. set (y := minus _ _) in *.
    replace (plane_at P (dehom y)) with (/ qw y * dot4 P y). { rewrite Z; ring. }
    clearbody y. clear - Y. dq P; dq y. unfold plane_at, dot3, dot4, dehom, scale in *; cbn [qx qy qz qw] in *. field. exact Y. }
  split.
  { intros L0 PL. rewrite W, L0. split.
    - rewrite Rmult_0_r, Rminus_0_r. apply Rmult_integral_contrapositive_currified; lra.
    - exists (- (dot4 P (point x)) / dot4 P l). unfold dehom. rewrite W, L0. revert PL. generalize (dot4 P l), (dot4 P (point x)). intros d e PL.
      dq l; dq x. cbn [qw] in L0. subst lw. ms. apply (@Qeq R); field; lra. }
  { intros L1 Y. unfold dehom. rewrite W in *. rewrite L1 in *. set (dl := dot4 P l) in *. set (dx := dot4 P (point x)) in *.
    assert (dl - dx <> 0). { intros E. apply Y. replace (k * dl - k * dx * 1) with (k * (dl - dx)) by ring. rewrite E; ring. }
    exists (- dx / (dl - dx)). clearbody dl dx k. clear - K H0 L1 Y. dq l; dq x. cbn [qw] in L1. subst lw. ms.
    assert (k * dl - k * dx <> 0) by lra.
    apply (@Qeq R); field; repeat split; lra. }
Qed.

(** ** View matrices *)
Definition viewm (r u f e : rvec) : rmat :=
  Q (Q (qx r) (qx u) (qx f) 0) (Q (qy r) (qy u) (qy f) 0) (Q (qz r) (qz u) (qz f) 0) (Q (- dot3 r e) (- dot3 u e) (- dot3 f e) 1).
Lemma LookTo_R b e d u : ~ zero3 d -> ~ zero3 (cross u d) ->
  let f := scale (/ norm3 d) d in let r := scale (/ norm3 (cross u f)) (cross u f) in
  XMMatrixLookToLH (L:=RL) b e d u = Some (viewm r (cross f r) f e) /\ dot3 f f = 1 /\ dot3 r r = 1 /\ dot3 r f = 0 /\ dot3 r u = 0 /\ 0 < dot3 u (cross f r).
Proof.
  intros D C f r.
  assert (Zu : ~ zero3 u). { intros (A & B & E). apply C. unfold zero3. dq u; dq d. cbn [qx qy qz cross] in *. subst. repeat split; ring. }
  pose proof (norm3_pos d D) as N.
  assert (Cf : ~ zero3 (cross u f)).
  { intros Z. clear r. apply C. destruct Z as (A & B & E). unfold zero3. subst f. dq u; dq d. unfold cross, scale in *. cbn [qx qy qz] in *.
    set (k := / norm3 (Q dx dy dz dw)) in *. assert (K : k <> 0) by (apply Rinv_neq_0_compat; lra). repeat split; apply Rmult_eq_reg_l with k; try exact K; lra. }
  pose proof (norm3_pos _ Cf) as Nc.
  split.
  - unfold XMMatrixLookToLH. rewrite !is_zero3_not, !not_inf3 by assumption. cbn [orb]. cbv zeta. f_equal.
    rewrite (Normalize3_R b d D). rt. change (scale (/ norm3 d) d) with f. rewrite Cross3_R. rt. rewrite (Normalize3_R b _ Cf). rt.
    change (scale (/ norm3 (cross u f)) (cross u f)) with r. rewrite Cross3_R, Neg_R, !Dot3_R, Transpose_R. rt.
    clearbody r. clearbody f. dq f; dq r; dq e. rcbv. ms. meq; try reflexivity; ring.
  - assert (F : dot3 f f = 1) by (apply scale_norm3; exact D).
    assert (R1 : dot3 r r = 1) by (apply scale_norm3; exact Cf).
    split; [exact F|]. split; [exact R1|]. 
    assert (E1 : dot3 (cross u f) f = 0) by (dq u; dq f; ms; ring).
    assert (E2 : dot3 (cross u f) u = 0) by (dq u; dq f; ms; ring).
    assert (SC : forall k a c, dot3 (scale k a) c = k * dot3 a c) by (intros k a c; dq a; dq c; unfold dot3, scale; cbn [qx qy qz]; ring).
    unfold r. rewrite !SC, E1, E2. split; [ring|]. split; [ring|].
    replace (dot3 u (cross f (scale (/ norm3 (cross u f)) (cross u f)))) with (/ norm3 (cross u f) * dot3 (cross u f) (cross u f)).
    + apply Rmult_lt_0_compat; [apply Rinv_0_lt_compat; exact Nc|]. unfold norm3 in Nc.
      destruct (Rle_or_lt (dot3 (cross u f) (cross u f)) 0) as [Q|Q]; [rewrite (sqrt_neg_0 _ Q) in Nc; lra|exact Q].
    + set (k := / norm3 _). clear. dq u; dq f. ms. ring.
Qed.
Lemma viewm_rigid r f e : dot3 f f = 1 -> dot3 r r = 1 -> dot3 r f = 0 -> rigid (viewm r (cross f r) f e).
Proof.
  intros F R1 RF. dq f; dq r; dq e. unfold rigid, rotation, viewm. ms. split; [split|reflexivity].
  - meq; nsatz.
  - repeat (split; [reflexivity|]). nsatz.
Qed.
