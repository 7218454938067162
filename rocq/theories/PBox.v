(** Axis-aligned boxes: containment, intersection with boxes and spheres, construction, corners. *)
From Coq Require Import Reals Lra Psatz List Bool.
From Verif Require Import Base F32 Intrin Lane MVec MTrig MQuat MInterp MPlane MMatrix Shapes MCollide.
From Verif Require Import SpecGeom SpecQuat SpecMat SpecShape PReal PVec PQuat PRot PMatrix PShape PSphere PSide PHull.
Open Scope R_scope.

Lemma abs_le_iff a e : Rabs a <= e <-> - e <= a <= e.
Proof. unfold Rabs; destruct (Rcase_abs a); split; intros; lra. Qed.
(** the box as three intervals *)
Definition ivl (c e x : R) : Prop := c - e <= x <= c + e.
Lemma aabb_iff bx p : aabb bx p <->
  ivl (fx (bx_Center bx)) (fx (bx_Extents bx)) (qx p) /\ ivl (fy (bx_Center bx)) (fy (bx_Extents bx)) (qy p) /\ ivl (fz (bx_Center bx)) (fz (bx_Extents bx)) (qz p).
Proof. unfold aabb, within, ivl, minus, pos; cbn [qx qy qz]. rewrite !abs_le_iff. split; intros (? & ? & ?); repeat split; lra. Qed.
Lemma InBounds_R b (v e : rvec) : XMVectorInBounds (L:=RL) b v e = qmap2 (fun x y => Rleb x y && Rleb (- y) x)%bool v e.
Proof. reflexivity. Qed.
Lemma inb3 b v e : XMVector3InBounds (L:=RL) b v (pos e) = true <-> within e v.
Proof.
  unfold XMVector3InBounds. rewrite InBounds_R. unfold all3, qmap2, pos, within; cbn [qx qy qz]. rewrite !andb_true_iff, !Rleb_true, !abs_le_iff. tauto.
Qed.
Lemma box_point b bx p : (Box_ContainsPoint (L:=RL) b bx p = CONTAINS <-> aabb bx p) /\ (Box_ContainsPoint (L:=RL) b bx p = DISJOINT <-> ~ aabb bx p).
Proof.
  unfold Box_ContainsPoint, aabb. cbv zeta. l3. rewrite Sub_R. pose proof (inb3 b (minus p (pos (bx_Center bx))) (bx_Extents bx)) as H.
  destruct (XMVector3InBounds _ _ _); split; split; intros; try reflexivity; try discriminate.
  - apply H; reflexivity.
  - exfalso. apply H0, H. reflexivity.
  - apply H in H0. discriminate.
  - intro h. apply H in h. discriminate.
Qed.

(** ** Boxes against boxes *)
Lemma ivl_meet c e c' e' : 0 <= e -> 0 <= e' -> (exists x, ivl c e x /\ ivl c' e' x) <-> ~ (c' + e' < c - e) /\ ~ (c + e < c' - e').
Proof.
  intros He He'. unfold ivl. split.
  - intros (x & ? & ?). lra.
  - intros (H1 & H2). exists (Rmax (c - e) (c' - e')). unfold Rmax. destruct (Rle_dec _ _); lra.
Qed.
Lemma ivl_sub c e c' e' : 0 <= e' -> (forall x, ivl c' e' x -> ivl c e x) <-> c - e <= c' - e' /\ c' + e' <= c + e.
Proof.
  intros He'. unfold ivl. split.
  - intros H. pose proof (H (c' - e')). pose proof (H (c' + e')). lra.
  - intros H x Hx. lra.
Qed.
Lemma box_meets_iff A B : ok_box A -> ok_box B -> meets (aabb A) (aabb B) <->
  any3 (Box_disjoint_mask (L:=RL) Scalar A B) = false.
Proof.
  intros (a1 & a2 & a3) (b1 & b2 & b3). destruct A as [[ca1 ca2 ca3] [ea1 ea2 ea3]], B as [[cb1 cb2 cb3] [eb1 eb2 eb3]].
  cbn [bx_Extents fx fy fz] in *.
  assert (E : meets (aabb (MkBox (F3 ca1 ca2 ca3) (F3 ea1 ea2 ea3))) (aabb (MkBox (F3 cb1 cb2 cb3) (F3 eb1 eb2 eb3))) <->
    (exists x, ivl ca1 ea1 x /\ ivl cb1 eb1 x) /\ (exists x, ivl ca2 ea2 x /\ ivl cb2 eb2 x) /\ (exists x, ivl ca3 ea3 x /\ ivl cb3 eb3 x)).
  { unfold meets. split.
    - intros (p & Ha & Hb). apply aabb_iff in Ha, Hb. cbn [bx_Center bx_Extents fx fy fz] in *. destruct Ha as (? & ? & ?), Hb as (? & ? & ?).
      split; [exists (qx p)|split; [exists (qy p)|exists (qz p)]]; split; assumption.
    - intros ((x & ? & ?) & (y & ? & ?) & (z & ? & ?)). exists (Q x y z 0). rewrite !aabb_iff. cbn [bx_Center bx_Extents fx fy fz qx qy qz].
      repeat (split; try assumption). }
  rewrite E, !ivl_meet by assumption. 
  change (any3 _) with (((Rltb (cb1 + eb1) (ca1 - ea1) || Rltb (ca1 + ea1) (cb1 - eb1)) || (Rltb (cb2 + eb2) (ca2 - ea2) || Rltb (ca2 + ea2) (cb2 - eb2)))
    || (Rltb (cb3 + eb3) (ca3 - ea3) || Rltb (ca3 + ea3) (cb3 - eb3)))%bool.
  rewrite !orb_false_iff, !Rltb_false. split; intros; intuition lra.
Qed.
Lemma disjoint_mask_b b A B : Box_disjoint_mask (L:=RL) b A B = Box_disjoint_mask (L:=RL) Scalar A B.
Proof. unfold Box_disjoint_mask. cbv zeta. rewrite !Sub_R, !Add_R. reflexivity. Qed.
Lemma inside_mask_b b A B : Box_inside_mask (L:=RL) b A B = Box_inside_mask (L:=RL) Scalar A B.
Proof. unfold Box_inside_mask. cbv zeta. rewrite !Sub_R, !Add_R. reflexivity. Qed.
Lemma box_subset_iff A B : ok_box B -> subset (aabb B) (aabb A) <-> all3 (Box_inside_mask (L:=RL) Scalar A B) = true.
Proof.
  intros (b1 & b2 & b3). destruct A as [[ca1 ca2 ca3] [ea1 ea2 ea3]], B as [[cb1 cb2 cb3] [eb1 eb2 eb3]].
  cbn [bx_Extents fx fy fz] in *.
  assert (E : subset (aabb (MkBox (F3 cb1 cb2 cb3) (F3 eb1 eb2 eb3))) (aabb (MkBox (F3 ca1 ca2 ca3) (F3 ea1 ea2 ea3))) <->
    (forall x, ivl cb1 eb1 x -> ivl ca1 ea1 x) /\ (forall x, ivl cb2 eb2 x -> ivl ca2 ea2 x) /\ (forall x, ivl cb3 eb3 x -> ivl ca3 ea3 x)).
  { unfold subset. split.
    - intros H. split; [|split]; intros x Hx.
      + specialize (H (Q x cb2 cb3 0)). rewrite !aabb_iff in H. cbn [bx_Center bx_Extents fx fy fz qx qy qz] in H. apply H. unfold ivl in *. lra.
      + specialize (H (Q cb1 x cb3 0)). rewrite !aabb_iff in H. cbn [bx_Center bx_Extents fx fy fz qx qy qz] in H. apply H. unfold ivl in *. lra.
      + specialize (H (Q cb1 cb2 x 0)). rewrite !aabb_iff in H. cbn [bx_Center bx_Extents fx fy fz qx qy qz] in H. apply H. unfold ivl in *. lra.
    - intros (h1 & h2 & h3) p. rewrite !aabb_iff. cbn [bx_Center bx_Extents fx fy fz]. intros (? & ? & ?). auto. }
  rewrite E, !ivl_sub by assumption. 
  change (all3 _) with ((Rleb (ca1 - ea1) (cb1 - eb1) && Rleb (cb1 + eb1) (ca1 + ea1)) && (Rleb (ca2 - ea2) (cb2 - eb2) && Rleb (cb2 + eb2) (ca2 + ea2))
    && (Rleb (ca3 - ea3) (cb3 - eb3) && Rleb (cb3 + eb3) (ca3 + ea3)))%bool.
  rewrite !andb_true_iff, !Rleb_true. tauto.
Qed.
Lemma box_nonempty A : ok_box A -> aabb A (pos (bx_Center A)).
Proof. intros (h1 & h2 & h3). rewrite aabb_iff. unfold ivl, pos; cbn [qx qy qz]. lra. Qed.
Lemma box_box b A B : ok_box A -> ok_box B ->
  (Box_ContainsBox (L:=RL) b A B = CONTAINS <-> subset (aabb B) (aabb A)) /\
  (Box_ContainsBox (L:=RL) b A B = DISJOINT <-> ~ meets (aabb A) (aabb B)).
Proof.
  intros HA HB. unfold Box_ContainsBox. rewrite disjoint_mask_b, inside_mask_b.
  pose proof (box_meets_iff A B HA HB) as HM. rewrite (box_subset_iff A B HB).
  destruct (any3 _) eqn:E1.
  - split; split; intros H; try discriminate; try reflexivity.
    + exfalso. assert (M : meets (aabb A) (aabb B)).
      { exists (pos (bx_Center B)). split; [apply (proj2 (box_subset_iff A B HB) H)|]; apply box_nonempty; assumption. }
      apply HM in M. discriminate.
    + rewrite HM. discriminate.
  - destruct (all3 _); split; split; intros H; try discriminate; try reflexivity.
    + exfalso. apply H, HM. reflexivity.
    + exfalso. apply H, HM. reflexivity.
Qed.
Lemma box_meets b A B : ok_box A -> ok_box B -> Box_IntersectsBox (L:=RL) b A B = true <-> meets (aabb A) (aabb B).
Proof.
  intros HA HB. unfold Box_IntersectsBox. rewrite disjoint_mask_b, (box_meets_iff A B HA HB). destruct (any3 _); split; intros; try discriminate; reflexivity.
Qed.

(** ** Boxes against spheres *)
(** by how much [x] lies outside [lo, hi] *)
Definition excess (x lo hi : R) : R := if Rltb hi x then x - hi else if Rltb x lo then x - lo else 0.
Lemma excess_in x lo hi : lo <= hi -> lo <= x - excess x lo hi <= hi.
Proof. intros. unfold excess. repeat rcase; lra. Qed.
Lemma excess_best x lo hi y : lo <= y <= hi -> excess x lo hi * excess x lo hi <= (x - y) * (x - y).
Proof.
  intros. unfold excess. pose proof (Rle_0_sqr (x - y)) as S. unfold Rsqr in S. repeat rcase; nra.
Qed.
Definition d2 (c lo hi : rvec) : R :=
  excess (qx c) (qx lo) (qx hi) * excess (qx c) (qx lo) (qx hi) + excess (qy c) (qy lo) (qy hi) * excess (qy c) (qy lo) (qy hi)
  + excess (qz c) (qz lo) (qz hi) * excess (qz c) (qz lo) (qz hi).
Lemma d2_R b c lo hi : box_sphere_d2 (L:=RL) b c lo hi = qrep (d2 c lo hi).
Proof.
  unfold box_sphere_d2. cbv zeta. rewrite !Sub_R, Dot3_R. reflexivity.
Qed.
Lemma d2_meets c e s : nonneg3 e -> ok_sphere s ->
  d2 (pos (sp_Center s)) (minus (pos c) (pos e)) (plus (pos c) (pos e)) <= sp_Radius s * sp_Radius s <-> meets (aabb (MkBox c e)) (ball s).
Proof.
  intros (h1 & h2 & h3) Hs. unfold ok_sphere in Hs. destruct c as [c1 c2 c3], e as [e1 e2 e3], s as [[x y z] r].
  cbn [fx fy fz sp_Radius sp_Center] in *. unfold d2, minus, plus, pos; cbn [fx fy fz qx qy qz]. split.
  - intros H. exists (Q (x - excess x (c1 - e1) (c1 + e1)) (y - excess y (c2 - e2) (c2 + e2)) (z - excess z (c3 - e3) (c3 + e3)) 0).
    split.
    + rewrite aabb_iff. cbn [bx_Center bx_Extents fx fy fz qx qy qz]. unfold ivl. split; [|split]; apply excess_in; lra.
    + unfold ball; cbn [sp_Center sp_Radius]. apply dist_le; [assumption|]. unfold dot3, minus, pos; cbn [fx fy fz qx qy qz]. nra.
  - intros (p & Ha & Hb). rewrite aabb_iff in Ha. cbn [bx_Center bx_Extents fx fy fz qx qy qz] in Ha. unfold ivl in Ha.
    unfold ball in Hb; cbn [sp_Center sp_Radius] in Hb. apply dist_le in Hb; [|assumption].
    unfold dot3, minus, pos in Hb; cbn [fx fy fz qx qy qz] in Hb. destruct Ha as (a1 & a2 & a3).
    pose proof (excess_best x _ _ _ a1). pose proof (excess_best y _ _ _ a2). pose proof (excess_best z _ _ _ a3). lra.
Qed.
Lemma box_meets_sphere b bx s : ok_box bx -> ok_sphere s -> Box_IntersectsSphere (L:=RL) b bx s = true <-> meets (aabb bx) (ball s).
Proof.
  intros Hb Hs. unfold Box_IntersectsSphere. cbv zeta. l3. rewrite Sub_R, Add_R, Mul_R, rep_mul, d2_R, all3_le, Rleb_true.
  destruct bx as [c e]. apply d2_meets; assumption.
Qed.
(** a ball inside an interval product *)
Lemma ball_in_box s c e : ok_sphere s -> subset (ball s) (aabb (MkBox c e)) <->
  let m := pos (sp_Center s) in let r := sp_Radius s in
  (fx c - fx e + r <= qx m <= fx c + fx e - r) /\ (fy c - fy e + r <= qy m <= fy c + fy e - r) /\ (fz c - fz e + r <= qz m <= fz c + fz e - r).
Proof.
  intros Hs. cbv zeta. unfold ok_sphere in Hs. set (m := pos (sp_Center s)). set (r := sp_Radius s) in *. split.
  - intros H.
    assert (G : forall n k, unit3 n -> Rabs k <= r -> aabb (MkBox c e) (plus m (scale k n))).
    { intros n k Hn Hk. apply H. unfold ball. fold m r. rewrite dist_along; assumption. }
    assert (ux : unit3 (Q 1 0 0 0)) by (unfold unit3, dot3; cbn; ring). assert (uy : unit3 (Q 0 1 0 0)) by (unfold unit3, dot3; cbn; ring).
    assert (uz : unit3 (Q 0 0 1 0)) by (unfold unit3, dot3; cbn; ring).
    assert (k1 : Rabs r <= r) by (rewrite Rabs_right; lra). assert (k2 : Rabs (- r) <= r) by (rewrite Rabs_Ropp; assumption).
    pose proof (G _ _ ux k1) as gx. pose proof (G _ _ ux k2) as gx'. pose proof (G _ _ uy k1) as gy. pose proof (G _ _ uy k2) as gy'.
    pose proof (G _ _ uz k1) as gz. pose proof (G _ _ uz k2) as gz'. rewrite aabb_iff in *. unfold ivl in *. e3.
    cbn [bx_Center bx_Extents] in *. lra.
  - intros (hx & hy & hz) p Hp. rewrite aabb_iff. cbn [bx_Center bx_Extents]. unfold ivl. unfold ball in Hp. fold m r in Hp.
    apply dist_le in Hp; [|assumption]. unfold dot3, minus in Hp; cbn [qx qy qz] in Hp.
    assert (B : forall a, a * a <= r * r -> - r <= a <= r).
    { intros a Ha. split; apply Rnot_lt_le; intro; nra. }
    assert (bx := B (qx p - qx m)). assert (by_ := B (qy p - qy m)). assert (bz := B (qz p - qz m)).
    pose proof (Rle_0_sqr (qx p - qx m)). pose proof (Rle_0_sqr (qy p - qy m)). pose proof (Rle_0_sqr (qz p - qz m)). unfold Rsqr in *. lra.
Qed.
Lemma box_sphere b bx s : ok_box bx -> ok_sphere s ->
  (Box_ContainsSphere (L:=RL) b bx s = DISJOINT <-> ~ meets (aabb bx) (ball s)) /\
  (Box_ContainsSphere (L:=RL) b bx s = CONTAINS -> subset (ball s) (aabb bx)) /\
  (pos3 (bx_Extents bx) \/ 0 < sp_Radius s -> subset (ball s) (aabb bx) -> Box_ContainsSphere (L:=RL) b bx s = CONTAINS).
Proof.
  intros Hb Hs. unfold Box_ContainsSphere. cbv zeta. l3. rewrite !Sub_R, !Add_R, Mul_R, rep_mul, d2_R, all3_gt.
  destruct bx as [c e]. cbn [bx_Center bx_Extents].
  pose proof (d2_meets c e s Hb Hs) as HM. set (D := d2 _ _ _) in *. rewrite (ball_in_box s c e Hs). cbv zeta.
  set (I := all3 _).
  assert (HI : I = true <-> ((fx c - fx e + sp_Radius s <= fx (sp_Center s) /\ fx (sp_Center s) <= fx c + fx e - sp_Radius s /\ sp_Radius s < 2 * fx e) /\
     (fy c - fy e + sp_Radius s <= fy (sp_Center s) /\ fy (sp_Center s) <= fy c + fy e - sp_Radius s /\ sp_Radius s < 2 * fy e) /\
     (fz c - fz e + sp_Radius s <= fz (sp_Center s) /\ fz (sp_Center s) <= fz c + fz e - sp_Radius s /\ sp_Radius s < 2 * fz e))).
  { unfold I. change (all3 _) with (
      (Rleb (fx c - fx e + sp_Radius s) (fx (sp_Center s)) && Rleb (fx (sp_Center s)) (fx c + fx e - sp_Radius s) && Rltb (sp_Radius s) (fx c + fx e - (fx c - fx e)))
   && (Rleb (fy c - fy e + sp_Radius s) (fy (sp_Center s)) && Rleb (fy (sp_Center s)) (fy c + fy e - sp_Radius s) && Rltb (sp_Radius s) (fy c + fy e - (fy c - fy e)))
   && (Rleb (fz c - fz e + sp_Radius s) (fz (sp_Center s)) && Rleb (fz (sp_Center s)) (fz c + fz e - sp_Radius s) && Rltb (sp_Radius s) (fz c + fz e - (fz c - fz e))))%bool.
    rewrite !andb_true_iff, !Rleb_true, !Rltb_true. split; intros; intuition lra. }
  clearbody I. unfold pos; cbn [qx qy qz]. unfold ok_sphere in Hs. destruct Hb as (b1 & b2 & b3); cbn [bx_Extents] in *. rt.
  split; [|split].
  - destruct (Rltb_spec (sp_Radius s * sp_Radius s) D).
    + split; intros; [|reflexivity]. rewrite <- HM. lra.
    + split; [destruct I; discriminate|]. intros H. exfalso. apply H, HM. lra.
  - destruct (Rltb _ _); [discriminate|]. destruct I; [|discriminate]. intros _. pose proof (proj1 HI eq_refl). intuition lra.
  - intros Hp H. destruct (Rltb_spec (sp_Radius s * sp_Radius s) D) as [l|l].
    + exfalso. assert (M : meets (aabb (MkBox c e)) (ball s)).
      { exists (pos (sp_Center s)). split.
        - rewrite aabb_iff. unfold ivl, pos; cbn [bx_Center bx_Extents qx qy qz]. lra.
        - unfold ball. rewrite dist_self. exact Hs. }
      apply HM in M. lra.
    + assert (HT : I = true); [|rewrite HT; reflexivity]. apply HI. unfold pos3 in Hp. destruct Hp as [(p1 & p2 & p3)|Hp]; intuition lra.
Qed.

(** ** Corners *)
Definition signs : list (R * R * R) :=
  ((-1, -1, 1) :: (1, -1, 1) :: (1, 1, 1) :: (-1, 1, 1) :: (-1, -1, -1) :: (1, -1, -1) :: (1, 1, -1) :: (-1, 1, -1) :: nil)%list.
Definition corner (c e : float3 R) (o : R * R * R) : rvec :=
  let '(a, d, f) := o in Q (fx c + a * fx e) (fy c + d * fy e) (fz c + f * fz e) 0.
Lemma box_offsets : g_BoxOffset (L:=RL) = map (fun o => let '(a, d, f) := o in Q a d f 0) signs. Proof. reflexivity. Qed.
Lemma box_corners_R b bx : map pos (Box_GetCorners (L:=RL) b bx) = map (corner (bx_Center bx) (bx_Extents bx)) signs.
Proof.
  unfold Box_GetCorners. cbv zeta. rewrite box_offsets, !map_map. apply map_ext_in. intros [[a d] f] _. l3. rewrite MulAdd_R.
  unfold pos, store3, corner, qmap3; cbn [fx fy fz qx qy qz qw]. f_equal; ring.
Qed.
(** the share of a coordinate [l] in [-e, e] at the upper end *)
Definition share (e l : R) : R := if Reqb e 0 then 0 else l / e.
Lemma share_bound e l : 0 <= e -> Rabs l <= e -> -1 <= share e l <= 1.
Proof.
  intros He Hl. unfold share. rcase; [lra|]. apply abs_le_iff in Hl. assert (0 < e) by lra.
  split; apply Rmult_le_reg_r with e; try assumption; unfold Rdiv; rewrite ?Rmult_assoc, ?Rinv_l by assumption; lra.
Qed.
Lemma share_mul e l : 0 <= e -> Rabs l <= e -> share e l * e = l.
Proof. intros He Hl. unfold share. rcase; [apply abs_le_iff in Hl; nra|field; assumption]. Qed.
(** every coordinate vector within the extents is a convex combination of the eight sign patterns *)
Definition weight (u v w : R) (o : R * R * R) : R := let '(a, d, f) := o in (1 + a * u) / 2 * ((1 + d * v) / 2) * ((1 + f * w) / 2).
Lemma weight_nonneg u v w o : In o signs -> -1 <= u <= 1 -> -1 <= v <= 1 -> -1 <= w <= 1 -> 0 <= weight u v w o.
Proof.
  intros Ho Hu Hv Hw. unfold signs in Ho; cbn [In] in Ho. decompose [or] Ho; try contradiction; subst o; unfold weight;
  (apply Rmult_le_pos; [apply Rmult_le_pos|]); lra.
Qed.
Lemma qx_plus a c : qx (plus a c) = qx a + qx c. Proof. reflexivity. Qed.
Lemma qy_plus a c : qy (plus a c) = qy a + qy c. Proof. reflexivity. Qed.
Lemma qz_plus a c : qz (plus a c) = qz a + qz c. Proof. reflexivity. Qed.
Lemma qx_scale k c : qx (scale k c) = k * qx c. Proof. reflexivity. Qed.
Lemma qy_scale k c : qy (scale k c) = k * qy c. Proof. reflexivity. Qed.
Lemma qz_scale k c : qz (scale k c) = k * qz c. Proof. reflexivity. Qed.
Lemma hull_of_corners c e l : nonneg3 e -> within e l -> hull (map (corner c e) signs) (plus (pos c) l).
Proof.
  intros (e1 & e2 & e3) (l1 & l2 & l3).
  pose proof (share_bound _ _ e1 l1) as s1. pose proof (share_bound _ _ e2 l2) as s2. pose proof (share_bound _ _ e3 l3) as s3.
  pose proof (share_mul _ _ e1 l1) as m1. pose proof (share_mul _ _ e2 l2) as m2. pose proof (share_mul _ _ e3 l3) as m3.
  set (u := share (fx e) (qx l)) in *. set (v := share (fy e) (qy l)) in *. set (w := share (fz e) (qz l)) in *.
  exists (map (weight u v w) signs). split; [rewrite !map_length; reflexivity|]. split.
  - rewrite Forall_map, Forall_forall. intros o Ho. apply weight_nonneg; assumption.
  - split; [unfold total, signs, weight; cbn [map fold_right]; field|].
    unfold signs, weight, corner; cbn [map combo]. clearbody u v w.
    split; [|split]; [rewrite !qx_plus, !qx_scale|rewrite !qy_plus, !qy_scale|rewrite !qz_plus, !qz_scale]; unfold pos; cbn [qx qy qz];
    [rewrite <- m1|rewrite <- m2|rewrite <- m3]; field.
Qed.
Lemma corner_in c e o : nonneg3 e -> In o signs -> aabb (MkBox c e) (corner c e o).
Proof.
  intros (e1 & e2 & e3) Ho. rewrite aabb_iff. unfold signs in Ho; cbn [In] in Ho. unfold ivl; cbn [bx_Center bx_Extents].
  decompose [or] Ho; try contradiction; subst o; unfold corner; cbn [qx qy qz]; lra.
Qed.
Lemma box_is_hull b bx : ok_box bx -> forall p, aabb bx p <-> hull (map pos (Box_GetCorners (L:=RL) b bx)) p.
Proof.
  intros Hb p. rewrite box_corners_R. split.
  - intros H. unfold aabb in H. destruct (hull_of_corners (bx_Center bx) (bx_Extents bx) _ Hb H) as (ws & HL & HW & HT & He).
    exists ws. repeat (split; [assumption|]). eapply eq3_trans; [|exact He]. e3. repeat split; ring.
  - apply hull_in; [apply aabb_convex|]. rewrite Forall_map, Forall_forall. intros o Ho. destruct bx. apply corner_in; assumption.
Qed.

(** ** Spheres against boxes *)
Lemma fold_mand {A C} (g : C -> quad bool) (h : A -> C) (f : A -> bool) (l : list A) : (forall o, In o l -> g (h o) = qrep (f o)) ->
  forall a, fold_left (fun acc o => mand acc (g o)) (map h l) (qrep a) = qrep (a && forallb f l)%bool.
Proof.
  induction l as [|o l IH]; intros H a; cbn [map fold_left forallb]; [rewrite andb_true_r; reflexivity|].
  rewrite (H o (or_introl eq_refl)), mand_rep, IH, andb_assoc; [reflexivity|]. intros o' Ho. apply H. right. exact Ho.
Qed.
Lemma sphere_holds_box b s bx : ok_sphere s -> ok_box bx ->
  (Sphere_ContainsBox (L:=RL) b s bx = CONTAINS <-> subset (aabb bx) (ball s)) /\
  (Sphere_ContainsBox (L:=RL) b s bx = DISJOINT <-> ~ meets (aabb bx) (ball s)).
Proof.
  intros Hs Hb. unfold Sphere_ContainsBox. pose proof (box_meets_sphere b bx s Hb Hs) as HM.
  cbv zeta. l3. rewrite Sub_R, Mul_R, rep_mul.
  set (f := fun o : R * R * R => Rleb (dot3 (minus (corner (bx_Center bx) (bx_Extents bx) o) (pos (sp_Center s))) (minus (corner (bx_Center bx) (bx_Extents bx) o) (pos (sp_Center s)))) (sp_Radius s * sp_Radius s)).
  assert (E : fold_left (fun acc o => mand acc (vle (L:=RL) (XMVector3LengthSq b (XMVectorMultiplyAdd b (pos (bx_Extents bx)) o (minus (pos (bx_Center bx)) (pos (sp_Center s))))) (qrep (sp_Radius s * sp_Radius s)))) g_BoxOffset mtrue
     = qrep (forallb f signs)).
  { rewrite box_offsets. change mtrue with (qrep true). refine (fold_mand (fun o => vle (L:=RL) (XMVector3LengthSq b (XMVectorMultiplyAdd b (pos (bx_Extents bx)) o (minus (pos (bx_Center bx)) (pos (sp_Center s))))) (qrep (sp_Radius s * sp_Radius s))) _ f signs _ true).
    intros [[x y] z] _. rewrite MulAdd_R, LengthSq3_R, vle_rep. unfold f. f_equal. f_equal. unfold dot3, corner, minus, pos, qmap3; cbn [qx qy qz]. ring. }
  rt. rewrite E, all3_rep. clear E.
  assert (HF : forallb f signs = true <-> subset (aabb bx) (ball s)).
  { rewrite forallb_forall. split.
    - intros H p Hp. apply (box_is_hull b bx Hb) in Hp. rewrite box_corners_R in Hp. revert p Hp. apply hull_in; [apply ball_convex|].
      rewrite Forall_map, Forall_forall. intros o Ho. apply dist_le; [exact Hs|]. apply Rleb_true. exact (H o Ho).
    - intros H o Ho. unfold f. apply Rleb_true, dist_le; [exact Hs|]. apply H. destruct bx. apply corner_in; assumption. }
  destruct (Box_IntersectsSphere b bx s).
  - cbn [negb]. destruct (forallb f signs); split; split; intros H; try discriminate; try reflexivity.
    + apply HF. reflexivity.
    + exfalso. apply H, HM. reflexivity.
    + apply HF in H. discriminate.
    + exfalso. apply H, HM. reflexivity.
  - cbn [negb]. split; split; intros H; try discriminate; try reflexivity.
    + exfalso. assert (M : meets (aabb bx) (ball s)); [|apply HM in M; discriminate].
      exists (pos (bx_Center bx)). split; [|apply H]; apply box_nonempty; assumption.
    + intro M. apply HM in M. discriminate.
Qed.

(** ** Construction *)
Definition le3 (u v : rvec) : Prop := qx u <= qx v /\ qy u <= qy v /\ qz u <= qz v.
Lemma box_of_mm b lo hi p : aabb (box_of_min_max (L:=RL) b (lo, hi)) p <-> le3 lo p /\ le3 p hi.
Proof.
  unfold box_of_min_max; cbn [fst snd]. rewrite half_R, Add_R, Sub_R, !Scale_R, aabb_iff. unfold ivl, le3, store3; cbn [bx_Center bx_Extents fx fy fz]. e3.
  split; intros; intuition lra.
Qed.
Lemma box_of_mm_ok b lo hi : le3 lo hi -> ok_box (box_of_min_max (L:=RL) b (lo, hi)).
Proof.
  intros (h1 & h2 & h3). unfold box_of_min_max; cbn [fst snd]. rewrite half_R, Add_R, Sub_R, !Scale_R. unfold ok_box, nonneg3, store3; cbn [bx_Extents fx fy fz]. e3. lra.
Qed.
Lemma le3_trans u v w : le3 u v -> le3 v w -> le3 u w. Proof. unfold le3; intuition lra. Qed.
Lemma le3_refl u : le3 u u. Proof. unfold le3; lra. Qed.
Lemma min3 b u v : le3 (XMVectorMin (L:=RL) b u v) u /\ le3 (XMVectorMin (L:=RL) b u v) v.
Proof. rewrite Min_R. unfold le3, qmap2; cbn [qx qy qz]. repeat split; try apply Rmin_l; apply Rmin_r. Qed.
Lemma max3 b u v : le3 u (XMVectorMax (L:=RL) b u v) /\ le3 v (XMVectorMax (L:=RL) b u v).
Proof. rewrite Max_R. unfold le3, qmap2; cbn [qx qy qz]. repeat split; try apply Rmax_l; apply Rmax_r. Qed.
Lemma min_max_step b ps : forall lo hi, let '(mn, mx) := fold_left (fun '(Min, Max) P => (XMVectorMin (L:=RL) b Min P, XMVectorMax b Max P)) ps (lo, hi) in
  le3 mn lo /\ le3 hi mx /\ Forall (fun p => le3 mn p /\ le3 p mx) ps.
Proof.
  induction ps as [|p ps IH]; intros lo hi; cbn [fold_left]; [split; [apply le3_refl|split; [apply le3_refl|constructor]]|].
  specialize (IH (XMVectorMin (L:=RL) b lo p) (XMVectorMax (L:=RL) b hi p)). destruct (fold_left _ ps _) as [mn mx]. destruct IH as (h1 & h2 & h3).
  destruct (min3 b lo p) as (m1 & m2), (max3 b hi p) as (x1 & x2).
  split; [exact (le3_trans _ _ _ h1 m1)|]. split; [exact (le3_trans _ _ _ x1 h2)|]. constructor; [|exact h3].
  split; [exact (le3_trans _ _ _ h1 m2)|exact (le3_trans _ _ _ x2 h2)].
Qed.
Lemma min_max_covers b P0 Ps : Forall (aabb (box_of_min_max (L:=RL) b (min_max b P0 Ps))) (P0 :: Ps) /\ ok_box (box_of_min_max (L:=RL) b (min_max b P0 Ps)).
Proof.
  unfold min_max. pose proof (min_max_step b Ps P0 P0) as H. destruct (fold_left _ Ps _) as [mn mx]. destruct H as (h1 & h2 & h3).
  split; [|apply box_of_mm_ok, (le3_trans _ _ _ h1 h2)]. constructor.
  - apply box_of_mm. split; assumption.
  - eapply Forall_impl; [|exact h3]. intros p Hp. apply box_of_mm, Hp.
Qed.
Lemma box_points b pts : Forall (fun p => aabb (Box_CreateFromPoints (L:=RL) b pts) (pos p)) pts.
Proof.
  unfold Box_CreateFromPoints. destruct pts as [|p0 ps]; [constructor|].
  destruct (min_max_covers b (pos p0) (map pos ps)) as (H & _). inversion H as [|? ? H0 H1]; subst. l3.
  constructor; [exact H0|]. rewrite Forall_map in H1. exact H1.
Qed.
Lemma box_merged b b1 b2 : ok_box b1 -> ok_box b2 -> exists m, Box_CreateMerged (L:=RL) b b1 b2 = Some m /\
  subset (aabb b1) (aabb m) /\ subset (aabb b2) (aabb m) /\ ok_box m.
Proof.
  intros (h1 & h2 & h3) (k1 & k2 & k3). unfold Box_CreateMerged. cbv zeta. l3. rewrite !Sub_R, !Add_R.
  set (lo := XMVectorMin _ _ _). set (hi := XMVectorMax _ _ _).
  destruct (min3 b (minus (pos (bx_Center b1)) (pos (bx_Extents b1))) (minus (pos (bx_Center b2)) (pos (bx_Extents b2)))) as (m1 & m2).
  destruct (max3 b (plus (pos (bx_Center b1)) (pos (bx_Extents b1))) (plus (pos (bx_Center b2)) (pos (bx_Extents b2)))) as (x1 & x2).
  fold lo in m1, m2. fold hi in x1, x2. clearbody lo hi.
  assert (HL : le3 lo hi) by (unfold le3 in *; unfold minus, plus, pos in *; cbn [qx qy qz] in *; lra).
  assert (EA : all3 (vle (L:=RL) lo hi) = true).
  { destruct HL as (l1 & l2 & l3'). change (all3 _) with (Rleb (qx lo) (qx hi) && Rleb (qy lo) (qy hi) && Rleb (qz lo) (qz hi))%bool.
    rewrite !andb_true_iff, !Rleb_true. repeat split; assumption. }
  rewrite EA. eexists; split; [reflexivity|]. split; [|split; [|apply box_of_mm_ok, HL]]; intros p Hp; apply box_of_mm; rewrite aabb_iff in Hp;
  unfold le3, ivl, minus, plus, pos in *; cbn [qx qy qz] in *; intuition lra.
Qed.
Lemma box_of_sphere b s : ok_sphere s -> exists m, Box_CreateFromSphere (L:=RL) b s = Some m /\ subset (ball s) (aabb m) /\ ok_box m.
Proof.
  intros Hs. unfold Box_CreateFromSphere. cbv zeta. l3. rewrite Sub_R, Add_R. unfold ok_sphere in Hs.
  set (lo := minus _ _). set (hi := plus _ _).
  assert (HL : le3 lo hi) by (unfold le3, lo, hi, minus, plus, pos, qrep; cbn [qx qy qz]; lra).
  assert (EA : all3 (vle (L:=RL) lo hi) = true).
  { destruct HL as (l1 & l2 & l3'). change (all3 _) with (Rleb (qx lo) (qx hi) && Rleb (qy lo) (qy hi) && Rleb (qz lo) (qz hi))%bool.
    rewrite !andb_true_iff, !Rleb_true. repeat split; assumption. }
  rewrite EA. eexists; split; [reflexivity|]. split; [|apply box_of_mm_ok, HL]. intros p Hp. apply box_of_mm.
  assert (HB := proj2 (ball_in_box s (sp_Center s) (F3 (sp_Radius s) (sp_Radius s) (sp_Radius s)) Hs)). cbv zeta in HB. cbn [fx fy fz] in HB.
  specialize (HB ltac:(unfold pos; cbn [qx qy qz]; lra) p Hp). rewrite aabb_iff in HB.
  unfold le3, ivl, lo, hi, minus, plus, pos, qrep in *; cbn [qx qy qz bx_Center bx_Extents fx fy fz] in *. lra.
Qed.

(** ** Transformed boxes *)
Definition affine (f : rvec -> rvec) : Prop := (forall p q, eq3 p q -> eq3 (f p) (f q)) /\
  forall p q t, eq3 (f (plus (scale t p) (scale (1 - t) q))) (plus (scale t (f p)) (scale (1 - t) (f q))).
Lemma affine_convex f A : affine f -> convex A -> convex (fun p => A (f p)).
Proof.
  intros (f1 & f2) (a1 & a2). split.
  - intros p q H. apply a1, f1, H.
  - intros p q t Ht Hp Hq. apply (a1 _ _ (eq3_sym _ _ (f2 p q t))). apply a2; assumption.
Qed.
Lemma xform_affine M : affine (xform M).
Proof.
  split.
  - intros p q (h1 & h2 & h3). unfold eq3, xform, vecmat, point; cbn [qx qy qz qw]. rewrite h1, h2, h3. repeat split; reflexivity.
  - intros p q t. unfold eq3, xform, vecmat, point; e3. repeat split; ring.
Qed.
Lemma similar_affine k q t : affine (similar k q t).
Proof.
  split.
  - intros u v H. unfold similar. rewrite (qrot_eq3 q (scale k u) (scale k v)); [repeat split; reflexivity|].
    destruct H as (h1 & h2 & h3). e3. rewrite h1, h2, h3. repeat split; reflexivity.
  - intros u v a. unfold similar. replace (scale k (plus (scale a u) (scale (1 - a) v))) with (plus (scale a (scale k u)) (scale (1 - a) (scale k v))).
    + rewrite qrot_combo. generalize (qrot q (scale k u)) (qrot q (scale k v)). intros. e3. repeat split; ring.
    + unfold plus, scale; cbn [qx qy qz qw]. f_equal; ring.
Qed.
Lemma corners_cover bx f B : ok_box bx -> affine f -> convex B -> Forall (fun o => B (f (corner (bx_Center bx) (bx_Extents bx) o))) signs ->
  covers (aabb bx) f B.
Proof.
  intros Hb Hf HB HF p Hp. apply (box_is_hull Scalar bx Hb) in Hp. rewrite box_corners_R in Hp. revert p Hp.
  apply (hull_in (fun p => B (f p))); [apply affine_convex; assumption|]. rewrite Forall_map. exact HF.
Qed.
Lemma offsets_cover b (g : rvec -> rvec) : Forall (fun o => aabb (box_of_min_max (L:=RL) b (min_max_offsets b g)) (g (let '(x, y, z) := o in Q x y z 0))) signs /\
  ok_box (box_of_min_max (L:=RL) b (min_max_offsets b g)).
Proof.
  cbv [min_max_offsets g_BoxOffset map].
  match goal with |- context [min_max b ?a ?l] => destruct (min_max_covers b a l) as (H & H') end. split; [|exact H'].
  unfold signs. inversion H as [|? ? H0 HH]; subst. 
  repeat match goal with H : Forall _ (_ :: _) |- _ => inversion H; clear H; subst end. repeat (apply Forall_cons; [assumption|]). apply Forall_nil.
Qed.
Lemma box_matrix b bx M : ok_box bx -> covers (aabb bx) (xform M) (aabb (Box_TransformMatrix (L:=RL) b bx M)).
Proof.
  intros Hb. apply corners_cover; [assumption|apply xform_affine|apply aabb_convex|]. unfold Box_TransformMatrix. cbv zeta. l3.
  destruct (offsets_cover b (fun o => XMVector3Transform (L:=RL) b (XMVectorMultiplyAdd b (pos (bx_Extents bx)) o (pos (bx_Center bx))) M)) as (H & _).
  eapply Forall_impl; [|exact H]. intros [[x y] z]. apply (proj1 (aabb_convex _)). rewrite MulAdd_R, Transform3_R.
  unfold eq3, xform, vecmat, point, qmap3, corner, pos; cbn [qx qy qz qw]. repeat split; unfold plus, scale; cbn [qx qy qz]; ring.
Qed.
Lemma box_decomposed b bx k q t : ok_box bx -> unitq q -> exists m, Box_TransformDecomposed (L:=RL) b bx k q t = Some m /\ covers (aabb bx) (similar k q t) (aabb m).
Proof.
  intros Hb Hq. unfold Box_TransformDecomposed. rewrite isunitq by assumption. unfold asserting. cbv zeta. eexists; split; [reflexivity|].
  apply corners_cover; [assumption|apply similar_affine|apply aabb_convex|]. l3.
  match goal with |- context [min_max_offsets b ?g] => destruct (offsets_cover b g) as (H & _) end.
  eapply Forall_impl; [|exact H]. intros [[x y] z]. apply (proj1 (aabb_convex _)). rewrite MulAdd_R, Mul_R, Rotate_R, Add_R. unfold similar.
  match goal with |- eq3 (plus (qrot q ?u) t) (plus (qrot q ?v) t) => rewrite (qrot_eq3 q u v); [repeat split; reflexivity|] end.
  unfold eq3, qmap3, qmap2, qrep, scale, corner, pos; cbn [qx qy qz qw]. repeat split; ring.
Qed.
