(** Where the collision code departs from the geometry: witnesses, and the oriented box from points. *)
From Coq Require Import Reals Lra Psatz List Bool ZArith.
From Verif Require Import Base F32 Intrin Lane MVec MTrig MQuat MInterp MPlane MMatrix Shapes MCollide.
From Verif Require Import SpecGeom SpecQuat SpecMat SpecShape PReal PVec PQuat PRot PMatrix PTransf PDecomp PShape PSphere PSide PHull PBox POBox PSat PSolid PRay.
Open Scope R_scope.

(** ** Box and sphere of size zero *)
Lemma zero_box_sphere b : exists bx s, ok_box bx /\ ok_sphere s /\ subset (ball s) (aabb bx) /\ Box_ContainsSphere (L:=RL) b bx s <> CONTAINS.
Proof.
  exists (MkBox (F3 0 0 0) (F3 0 0 0)), (MkSphere (F3 0 0 0) 0).
  split; [unfold ok_box, nonneg3; cbn; lra|]. split; [unfold ok_sphere; cbn; lra|]. split.
  - intros p Hp. unfold ball in Hp; cbn [sp_Center sp_Radius] in Hp. unfold aabb, within; cbn [bx_Center bx_Extents fx fy fz].
    apply dist_le in Hp; [|lra]. unfold dot3 in Hp. set (u := minus p (pos (F3 0 0 0))) in *. clearbody u.
    assert (qx u = 0 /\ qy u = 0 /\ qz u = 0) as (-> & -> & ->) by (repeat split; nra). rewrite Rabs_R0. lra.
  - unfold Box_ContainsSphere. cbv zeta. l3. cbn [bx_Center bx_Extents sp_Center sp_Radius]. rewrite !Sub_R, !Add_R.
    destruct (all3 (vgt _ _)); [discriminate|].
    assert (E : forall m : quad bool, all3 (mand m (vgt (L:=RL) (minus (plus (pos (F3 0 0 0)) (pos (F3 0 0 0))) (minus (pos (F3 0 0 0)) (pos (F3 0 0 0)))) (qrep 0))) = false).
    { intros m. unfold all3, mand, vgt, tgt, qmap2, minus, plus, pos, qrep; cbn [qx qy qz fx fy fz]. change (@tlt RL) with Rltb.
      replace (0 + 0 - (0 - 0)) with 0 by ring. rewrite (proj2 (Rltb_false 0 0)) by lra. rewrite !andb_false_r. reflexivity. }
    rt. rewrite E. discriminate.
Qed.

(** ** A sheared sphere *)
Lemma sheared_sphere b : exists s M, ok_sphere s /\ ~ covers (ball s) (xform M) (ball (Sphere_TransformMatrix (L:=RL) b s M)).
Proof.
  exists (MkSphere (F3 0 0 0) 1), (Q (Q 1 0 0 0) (Q 1 1 0 0) (Q 0 0 1 0) (Q 0 0 0 1)). split; [unfold ok_sphere; cbn; lra|].
  intros H. specialize (H (Q (4/5) (3/5) 0 0)).
  assert (H0 : ball (MkSphere (F3 0 0 0) 1) (Q (4/5) (3/5) 0 0)).
  { unfold ball; cbn [sp_Center sp_Radius]. apply dist_le; [lra|]. unfold dot3, minus, pos; cbn [fx fy fz qx qy qz]. lra. }
  specialize (H H0). revert H. unfold Sphere_TransformMatrix. cbv zeta. l3. rewrite !Dot3_R, !Max_R, !rep_max, qx_rep, Transform3_R. ro.
  unfold ball; cbn [sp_Center sp_Radius]. rewrite (dist_eq3_r _ _ _ (pos_store3 _)).
  unfold dot3; cbn [qx qy qz].
  assert (EM : Rmax (1 * 1 + 0 * 0 + 0 * 0) (Rmax (1 * 1 + 1 * 1 + 0 * 0) (0 * 0 + 0 * 0 + 1 * 1)) = 2).
  { rewrite (Rmax_left (1 * 1 + 1 * 1 + 0 * 0)) by lra. rewrite Rmax_right by lra. ring. }
  rt. rewrite EM. intros H. apply dist_le in H; [|rewrite Rmult_1_l; apply sqrt_pos].
  rewrite Rmult_1_l, sqrt_sqrt in H by lra. revert H.
  unfold xform, vecmat, point, dot3, minus, plus, scale, pos; cbn [fx fy fz qx qy qz qw]. lra.
Qed.

(** ** An oriented box under a scale that is not uniform *)
Lemma ident_rotation : rotation ident.
Proof. unfold rotation, ident. ms. split; [repeat apply (@Qeq (quad R)); apply (@Qeq R); ring|]. repeat (split; [reflexivity|]). ring. Qed.
Definition thin : OBox R := MkOBox (F3 0 0 0) (F3 1 0 0) (Q 0 0 (3/5) (4/5)).
Definition stretch : rmat := Q (Q 1 0 0 0) (Q 0 2 0 0) (Q 0 0 1 0) (Q 0 0 0 1).
Lemma thin_ok : ok_obox thin.
Proof. split; [unfold nonneg3, thin; cbn; lra|unfold unitq, dot4, thin; cbn [ob_Orientation qx qy qz qw]; lra]. Qed.
Lemma stretched_box b : exists o M, ok_obox o /\ ortho_rows M /\ exists m, OBox_TransformMatrix (L:=RL) b o M = Some m /\ ~ covers (obb o) (xform M) (obb m).
Proof.
  exists thin, stretch. split; [exact thin_ok|]. split; [unfold ortho_rows, stretch, dot3; cbn [qx qy qz]; lra|].
  unfold OBox_TransformMatrix. rewrite isunitq by apply thin_ok. unfold asserting. cbv zeta. l3.
  assert (S : forall k i, dot3 i i = 1 -> 0 < k -> XMVector3Normalize (L:=RL) b (scale k i) = i).
  { intros k i Hi Hk. rewrite normalize_scaled by (assumption || lra). unfold sg. rewrite (proj2 (Rltb_false k 0)) by lra. dq i; unfold scale; cbn [qx qy qz qw]. f_equal; ring. }
  assert (E1 : qx stretch = scale 1 (Q 1 0 0 0)) by (unfold stretch, scale; cbn [qx qy qz qw]; f_equal; ring).
  assert (E2 : qy stretch = scale 2 (Q 0 1 0 0)) by (unfold stretch, scale; cbn [qx qy qz qw]; f_equal; ring).
  assert (E3 : qz stretch = scale 1 (Q 0 0 1 0)) by (unfold stretch, scale; cbn [qx qy qz qw]; f_equal; ring).
  rewrite E1, E2, E3, !Length3_R, !S by (unfold dot3; cbn [qx qy qz]; lra).
  rewrite !norm3_scaled by (unfold dot3; cbn [qx qy qz]; lra). rewrite Rabs_R1, (Rabs_right 2) by lra.
  change (IdR3 (L:=RL)) with (Q 0 0 0 1 : rvec). fold ident. destruct (mat_quat_mat b ident ident_rotation) as (_ & UQ).
  set (rq := XMQuaternionRotationMatrix (L:=RL) b ident) in *. change (XMQuaternionRotationMatrix (L:=RL) b (Q (Q 1 0 0 0) (Q 0 1 0 0) (Q 0 0 1 0) (Q 0 0 0 1))) with rq. clearbody rq.
  rewrite QMul_R, Mul_R, Transform3_R. eexists; split; [reflexivity|]. intros H.
  specialize (H (Q (7/25) (24/25) 0 0)).
  assert (H0 : obb thin (Q (7/25) (24/25) 0 0)).
  { exists (Q 1 0 0 0). split; [unfold within, thin; cbn [ob_Extents fx fy fz qx qy qz]; rewrite Rabs_R0, Rabs_R1; lra|].
    unfold eq3, thin; cbn [ob_Center ob_Orientation]. qs. unfold pos; cbn [fx fy fz qx qy qz]. repeat split; lra. }
  specialize (H H0). apply obb_iff in H; [|apply unit_ham; [exact UQ|apply thin_ok]]. cbn [ob_Center ob_Extents ob_Orientation] in H.
  assert (N := qrot_norm (conj (ham rq (ob_Orientation thin))) (minus (xform stretch (Q (7/25) (24/25) 0 0)) (pos (store3 (L:=RL) (vecmat (point (pos (ob_Center thin))) stretch))))
     (unit_conj _ (unit_ham _ _ UQ (proj2 thin_ok)))).
  assert (ED : eq3 (minus (xform stretch (Q (7/25) (24/25) 0 0)) (pos (store3 (L:=RL) (vecmat (point (pos (ob_Center thin))) stretch)))) (Q (7/25) (48/25) 0 0)).
  { cbv [eq3 thin stretch store3 pos xform vecmat point minus plus scale ob_Center fx fy fz qx qy qz qw]. rt. repeat split; field. }
  rewrite (dot3_eq3 _ _ _ _ ED ED) in N. unfold local in H. set (l := qrot _ _) in *. rt. clearbody l. clear ED. destruct H as (h1 & h2 & h3).
  apply abs_le_iff in h1. apply abs_le_iff in h2. apply abs_le_iff in h3. revert h1 h2 h3 N.
  cbv [thin store3 pos qmap2 qmap3 vsel mask_x mask2 qrep ob_Extents fx fy fz qx qy qz qw dot3]. rt. destruct l as [l1 l2 l3 l4]. intros. assert (l2 = 0) by lra. assert (l3 = 0) by lra. subst. nra.
Qed.

(** ** Rays *)
Lemma inside_sphere_ray b : exists s o d r, ok_sphere s /\ unit3 d /\ Sphere_IntersectsRay (L:=RL) b s o d = Some r /\ fst r = true /\ ~ first_hit o d (ball s) (snd r).
Proof.
  set (s := MkSphere (F3 0 0 0) 1). set (o := Q 0 0 0 0 : rvec). set (d := Q 1 0 0 0 : rvec).
  assert (Hs : ok_sphere s) by (unfold ok_sphere, s; cbn; lra). assert (Hd : unit3 d) by (unfold unit3, d, dot3; cbn [qx qy qz]; lra).
  destruct (sphere_ray b s o d Hs Hd) as (r & E & h1 & _ & h3). exists s, o, d, r. split; [exact Hs|split; [exact Hd|split; [exact E|]]].
  assert (B : forall t, -1 <= t <= 1 -> ball s (ray_at o d t)).
  { intros t Ht. unfold ball, s; cbn [sp_Center sp_Radius]. apply dist_le; [lra|]. unfold ray_at, o, d, dot3, minus, plus, scale, pos; cbn [fx fy fz qx qy qz]. nra. }
  assert (B0 : ball s o). { apply (ray_at_0 o d (ball s)); [apply ball_convex|]. apply B. lra. }
  split; [apply h1; exists 0; split; [lra|apply B; lra]|]. intros (_ & F). destruct (h3 B0) as (_ & M).
  assert (1 <= snd r) by (apply M; split; [lra|apply B; lra]). assert (snd r <= 0) by (apply F; split; [lra|apply B; lra]). lra.
Qed.
Lemma eps_lt_1 : eps < 1.
Proof. unfold eps, Rlit. apply (Rmult_lt_reg_r (IZR (Z.pow_pos 2 87))); [apply IZR_lt; reflexivity|]. unfold Rdiv. rewrite Rmult_assoc, Rinv_l by (apply IZR_neq; discriminate).
  rewrite Rmult_1_r, Rmult_1_l. apply IZR_lt. reflexivity. Qed.
Lemma fmax_gt_1 : 1 < fmax.
Proof. unfold fmax, Rlit. apply IZR_lt. reflexivity. Qed.
Lemma inside_box_ray b : exists bx o d r, ok_box bx /\ unit3 d /\ clear_dir d /\ Box_IntersectsRay (L:=RL) b bx o d = Some r /\ fst r = true /\ snd r < 0.
Proof.
  exists (MkBox (F3 0 0 0) (F3 1 1 1)), (Q 0 0 0 0 : rvec), (Q 1 0 0 0 : rvec), (true, -1).
  assert (Hd : unit3 (Q 1 0 0 0)) by (unfold unit3, dot3; cbn [qx qy qz]; lra).
  split; [unfold ok_box, nonneg3; cbn; lra|]. split; [exact Hd|].
  split; [unfold clear_dir, clear_of; cbn [qx qy qz]; rewrite Rabs_R1; repeat split; [right; exact eps_lt_1|left; reflexivity|left; reflexivity]|].
  split; [|cbn [fst snd]; split; [reflexivity|lra]].
  unfold Box_IntersectsRay. rewrite isunit3 by exact Hd. unfold asserting. cbv zeta. l3. rewrite Sub_R. f_equal. etransitivity; [apply slab_R|]. cbv zeta.
  pose proof eps_lt_1. pose proof eps_pos. pose proof fmax_gt_1.
  assert (L1 : lo 0 1 1 = -1). { unfold lo. rewrite Rabs_R1, (proj2 (Rleb_false 1 eps)) by assumption. rewrite Rmin_left by lra. lra. }
  assert (L2 : lo 0 0 1 = - fmax). { unfold lo. rewrite Rabs_R0, (proj2 (Rleb_true 0 eps)) by lra. reflexivity. }
  assert (H1' : hi 0 1 1 = 1). { unfold hi. rewrite Rabs_R1, (proj2 (Rleb_false 1 eps)) by assumption. rewrite Rmax_right by lra. lra. }
  assert (H2' : hi 0 0 1 = fmax). { unfold hi. rewrite Rabs_R0, (proj2 (Rleb_true 0 eps)) by lra. reflexivity. }
  assert (O1 : off 0 1 1 = false). { unfold off. rewrite Rabs_R1, (proj2 (Rleb_false 1 eps)) by assumption. reflexivity. }
  assert (O2 : off 0 0 1 = false). { unfold off. rewrite (proj2 (Rleb_true 0 1)), (proj2 (Rleb_true (-(1)) 0)) by lra. apply andb_false_r. }
  unfold minus, pos; cbn [bx_Center bx_Extents fx fy fz qx qy qz]. rewrite !Rminus_0_r, L1, L2, H1', H2', O1, O2.
  assert (M : max3 (-1) (- fmax) (- fmax) = -1). { unfold max3. rewrite (Rmax_left (-1)) by lra. rewrite (Rmax_left (- fmax)) by lra. rewrite Rmax_left by lra. reflexivity. }
  assert (N : min3' 1 fmax fmax = 1). { unfold min3'. rewrite (Rmin_left 1) by lra. rewrite (Rmin_left fmax) by lra. rewrite Rmin_left by lra. reflexivity. }
  rewrite M, N, (proj2 (Rltb_false 1 (-1))), (proj2 (Rltb_false 1 0)) by lra. reflexivity.
Qed.
(** a ray that is nearly parallel to a slab, but does enter the box far away *)
Lemma shallow_ray b : exists bx o d r t, ok_box bx /\ unit3 d /\ Box_IntersectsRay (L:=RL) b bx o d = Some r /\ fst r = false /\ hits o d (aabb bx) t /\ t <= IZR (2 ^ 70).
Proof.
  set (k := / IZR (2 ^ 68)).
  assert (P68 : 0 < IZR (2 ^ 68)) by (apply IZR_lt; reflexivity).
  assert (K0 : 0 < k) by (apply Rinv_0_lt_compat; exact P68).
  assert (K1 : k < 1). { unfold k. rewrite <- Rinv_1. apply Rinv_lt_contravar; [rewrite Rmult_1_l; exact P68|apply IZR_lt; reflexivity]. }
  assert (EK : k * IZR (2 ^ 68) = 1) by (apply Rinv_l; lra).
  assert (KE : 2 * k <= eps).
  { unfold eps, Rlit. change (IZR (Z.pow_pos 2 87)) with (IZR (2 ^ 68 * 2 ^ 19)). rewrite mult_IZR. unfold Rdiv. rewrite Rinv_mult. fold k.
    assert (0 < / IZR (2 ^ 19)) by (apply Rinv_0_lt_compat, IZR_lt; reflexivity).
    assert (2 <= 1547425 * / IZR (2 ^ 19)). { apply (Rmult_le_reg_r (IZR (2 ^ 19))); [apply IZR_lt; reflexivity|]. rewrite Rmult_assoc, Rinv_l by (apply IZR_neq; discriminate). rewrite Rmult_1_r, <- mult_IZR. apply IZR_le. discriminate. }
    nra. }
  set (dx := - (2 * k / (1 + k * k))). set (dy := (1 - k * k) / (1 + k * k)).
  assert (DX : Rabs dx <= eps).
  { unfold dx. rewrite Rabs_Ropp, Rabs_right by (apply Rle_ge, Rmult_le_pos; [lra|apply Rlt_le, Rinv_0_lt_compat; nra]).
    apply Rle_trans with (2 * k); [|exact KE]. apply (Rmult_le_reg_r (1 + k * k)); [nra|]. unfold Rdiv. rewrite Rmult_assoc, Rinv_l by nra. nra. }
  assert (U : unit3 (Q dx dy 0 0)) by (unfold unit3, dot3, dx, dy; cbn [qx qy qz]; field; nra).
  exists (MkBox (F3 0 (IZR (2 ^ 68)) 0) (F3 1 1 1)), (Q 2 0 0 0 : rvec), (Q dx dy 0 0), (false, 0), ((1 + k * k) * IZR (2 ^ 68)).
  split; [unfold ok_box, nonneg3; cbn; lra|]. split; [exact U|]. split; [|split; [reflexivity|]].
  - unfold Box_IntersectsRay. rewrite isunit3 by exact U. unfold asserting. cbv zeta. l3. rewrite Sub_R. f_equal. etransitivity; [apply slab_R|]. cbv zeta.
    unfold minus, pos; cbn [bx_Center bx_Extents fx fy fz qx qy qz].
    assert (O : off (0 - 2) dx 1 = true). { unfold off. rewrite (proj2 (Rleb_true (Rabs dx) eps) DX), (proj2 (Rleb_false (- (1)) (0 - 2))) by lra. rewrite andb_false_r. reflexivity. }
    rewrite O, !orb_true_r. reflexivity.
  - assert (E : eq3 (minus (ray_at (Q 2 0 0 0) (Q dx dy 0 0) ((1 + k * k) * IZR (2 ^ 68))) (pos (F3 0 (IZR (2 ^ 68)) 0))) (Q 0 (- k) 0 0)).
    { unfold eq3, ray_at, minus, plus, scale, pos, dx, dy; cbn [fx fy fz qx qy qz].
      assert (EI : IZR (2 ^ 68) = / k) by (unfold k; rewrite Rinv_inv; reflexivity). rewrite EI. repeat split; [field|field|ring]; split; nra. }
    split; [split; [apply Rmult_le_pos; nra|]|].
    + unfold aabb; cbn [bx_Center bx_Extents]. apply (within_eq3 _ _ _ (eq3_sym _ _ E)). unfold within; cbn [fx fy fz qx qy qz]. rewrite Rabs_R0, Rabs_Ropp, Rabs_right by lra. lra.
    + change (2 ^ 70)%Z with (4 * 2 ^ 68)%Z. rewrite mult_IZR. apply Rmult_le_compat_r; nra.
Qed.

(** ** Oriented box from points *)
Lemma obox_around_id b pts : Forall (fun p => obb (OBox_around (L:=RL) b (Q 0 0 0 1) pts) (pos p)) pts.
Proof.
  destruct pts as [|p0 ps]; [constructor|].
  assert (E0 : XMVector3TransformNormal (L:=RL) b (pos p0) (XMMatrixTranspose b (XMMatrixRotationQuaternion b (Q 0 0 0 1))) = pos p0).
  { rewrite RotQuat_R, Transpose_R, TransformNormal3_R. destruct p0 as [x y z]. cbv [qmat transp vecmat direction pos plus scale qx qy qz qw fx fy fz]. rt. apply (@Qeq R); ring. }
  assert (EC : forall v, eq3 (XMVector3TransformNormal (L:=RL) b v (XMMatrixRotationQuaternion b (Q 0 0 0 1))) v).
  { intros v. rewrite RotQuat_R, TransformNormal3_R. destruct v as [x y z w]. cbv [eq3 qmat vecmat direction plus scale qx qy qz qw]. repeat split; ring. }
  destruct (min_max_covers b (pos p0) (map pos ps)) as (H & _).
  assert (K : forall p, aabb (box_of_min_max (L:=RL) b (min_max b (pos p0) (map pos ps))) p -> obb (OBox_around (L:=RL) b (Q 0 0 0 1) (p0 :: ps)) p).
  { intros p Hp. unfold OBox_around. cbv zeta. l3. rt. rewrite E0.
    assert (UQ : unitq (Q 0 0 0 1)) by (unfold unitq, dot4; cbn [qx qy qz qw]; ring).
    destruct (min_max b (pos p0) (map pos ps)) as [mn mx]. apply obb_iff; [exact UQ|]. cbn [ob_Center ob_Extents ob_Orientation].
    unfold box_of_min_max, aabb in Hp. cbn [bx_Center bx_Extents fst snd] in Hp. revert Hp. apply within_eq3. apply eq3_sym.
    eapply eq3_trans; [apply (box_own (MkBox (store3 (L:=RL) (XMVector3TransformNormal (L:=RL) b (XMVectorScale (L:=RL) b (XMVectorAdd (L:=RL) b mn mx) half) (XMMatrixRotationQuaternion (L:=RL) b (Q 0 0 0 1)))) (F3 0 0 0)) p)|].
    cbn [bx_Center]. destruct (EC (XMVectorScale (L:=RL) b (XMVectorAdd (L:=RL) b mn mx) half)) as (g1 & g2 & g3).
    unfold eq3, minus, pos, store3; cbn [fx fy fz qx qy qz]. rt. rewrite g1, g2, g3. repeat split. }
  inversion H as [|? ? H0 H1]; subst. constructor; [apply K, H0|]. rewrite Forall_map in H1. eapply Forall_impl; [|exact H1]. intros p Hp. apply K, Hp.
Qed.
(** the cube root of the rounding of 64/27 is the rounding of 4/3 *)
Definition cbrt_sample (d : Z) : Z := if (d =? 0x4017B426)%Z then 0x3FAAAAAB%Z else d.
Definition diagonal_points : list (float3 Z) := (F3 0x3F800000 0x3F800000 0 :: F3 0xBF800000 0xBF800000 0 :: nil)%Z.
Definition empty_obox : OBox Z := (MkOBox (F3 0 0 0) (F3 0 0 0) (Q 0 0 0 0))%Z.
Lemma obox_points_float b : b = Scalar \/ b = SSE false false false NoAVX \/ b = SSE true true true AVX2 ->
  exists p, In p diagonal_points /\
  OBox_ContainsPoint (L:=FL) b (OBox_CreateFromPoints (L:=FL) cbrt_sample b empty_obox (f_lit 2 0) diagonal_points) (load3 (L:=FL) p) = DISJOINT.
Proof.
  intros H. exists (F3 0xBF800000 0xBF800000 0)%Z. split; [right; left; reflexivity|]. destruct H as [-> | [-> | ->]]; vm_compute; reflexivity.
Qed.

Lemma box_meets_comm b A B : ok_box A -> ok_box B -> Box_IntersectsBox (L:=RL) b A B = Box_IntersectsBox (L:=RL) b B A.
Proof.
  intros HA HB. apply Bool.eq_iff_eq_true. rewrite !box_meets by assumption. apply meets_sym.
Qed.
Lemma box_meets_sphere2 b bx s : ok_box bx -> ok_sphere s ->
  (Box_IntersectsSphere (L:=RL) b bx s = true <-> meets (aabb bx) (ball s)) /\ (Sphere_IntersectsBox (L:=RL) b s bx = true <-> meets (aabb bx) (ball s)).
Proof. intros Hb Hs. pose proof (box_meets_sphere b bx s Hb Hs) as H. split; exact H. Qed.
Lemma eps_small : eps < 1 / 2.
Proof.
  unfold eps, Rlit. apply (Rmult_lt_reg_r (IZR (Z.pow_pos 2 87))); [apply IZR_lt; reflexivity|]. unfold Rdiv. rewrite Rmult_assoc, Rinv_l by (apply IZR_neq; discriminate).
  change (Z.pow_pos 2 87) with (2 * Z.pow_pos 2 86)%Z. rewrite mult_IZR, Rmult_1_r, Rmult_1_l, <- Rmult_assoc, Rinv_l, Rmult_1_l by lra. apply IZR_lt. reflexivity.
Qed.
Lemma clear_34 : clear_dir (Q (3/5) (4/5) 0 0).
Proof. pose proof eps_small as E. change eps with ray_epsilon in E. unfold clear_dir, clear_of; cbn [qx qy qz]. rewrite !Rabs_right by lra. repeat split; [right; lra|right; lra|left; reflexivity]. Qed.
