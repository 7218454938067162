(** Bounding spheres: containment, intersection, merging, growing. *)
From Coq Require Import Reals Lra Psatz List.
From Verif Require Import Base F32 Intrin Lane MVec MTrig MQuat MInterp MPlane MMatrix Shapes MCollide.
From Verif Require Import SpecGeom SpecQuat SpecMat SpecShape PReal PVec PQuat PRot PMatrix PShape.
Open Scope R_scope.

(** ** Geometry of balls *)
Lemma toward (a c : rvec) : dist c a <> 0 -> exists n, unit3 n /\ eq3 c (plus a (scale (dist c a) n)).
Proof.
  intros H. exists (scale (/ dist c a) (minus c a)). split; [apply unit_of; assumption|].
  unfold eq3, plus, scale, minus; cbn [qx qy qz]. repeat split; field; assumption.
Qed.
Lemma some_dir (a c : rvec) : exists n, unit3 n /\ eq3 c (plus a (scale (dist c a) n)).
Proof.
  destruct (Req_dec (dist c a) 0) as [H|H]; [|apply toward, H].
  exists (Q 1 0 0 0). split; [unfold unit3, dot3; cbn; ring|].
  assert (Hz : dot3 (minus c a) (minus c a) = 0) by (rewrite <- dist_sq, H; ring).
  apply dot3_0 in Hz. destruct Hz as (h1 & h2 & h3). rewrite H.
  revert h1 h2 h3. unfold eq3, plus, scale, minus; cbn [qx qy qz]. intros. repeat split; lra.
Qed.
Lemma dist_line a n j k : unit3 n -> dist (plus a (scale j n)) (plus a (scale k n)) = Rabs (j - k).
Proof.
  intros H. unfold dist. replace (norm3 _) with (norm3 (scale (j - k) n)).
  - rewrite norm3_scale_abs. unfold norm3. rewrite H, sqrt_1. ring.
  - unfold norm3. f_equal. unfold dot3, minus, plus, scale; cbn [qx qy qz]; ring.
Qed.
Lemma dist_eq3_r p q q' : eq3 q q' -> dist p q = dist p q'.
Proof. intros. rewrite !(dist_sym p). apply dist_eq3; assumption. Qed.
Lemma ball_subset_iff a c ra rc : 0 <= ra -> 0 <= rc ->
  (forall p, dist p c <= rc -> dist p a <= ra) <-> dist c a + rc <= ra.
Proof.
  intros Ha Hc. split.
  - intros H. destruct (some_dir a c) as (n & Hn & He).
    pose proof (dist_nonneg c a).
    specialize (H (plus a (scale (dist c a + rc) n))).
    rewrite dist_along in H by assumption. rewrite (dist_eq3_r _ _ _ He) in H.
    rewrite dist_line in H by assumption.
    rewrite !Rabs_right in H by lra. apply H. lra.
  - intros H p Hp. pose proof (dist_tri p c a). lra.
Qed.
Lemma ball_meets_iff a c ra rc : 0 <= ra -> 0 <= rc ->
  (exists p, dist p a <= ra /\ dist p c <= rc) <-> dist c a <= ra + rc.
Proof.
  intros Ha Hc. split.
  - intros (p & H1 & H2). pose proof (dist_tri c p a). rewrite (dist_sym c p) in H. lra.
  - intros H. destruct (some_dir a c) as (n & Hn & He). pose proof (dist_nonneg c a).
    exists (plus a (scale (Rmin ra (dist c a)) n)). rewrite dist_along by assumption.
    rewrite (dist_eq3_r _ _ _ He), dist_line by assumption.
    unfold Rmin. destruct (Rle_dec ra (dist c a)).
    + rewrite Rabs_right by lra. rewrite Rabs_left1 by lra. lra.
    + rewrite (Rabs_right (dist c a)) by lra. rewrite Rminus_eq_0, Rabs_R0. lra.
Qed.

(** ** C46 *)
Lemma sphere_point b s p : ok_sphere s ->
  (Sphere_ContainsPoint (L:=RL) b s p = CONTAINS <-> ball s p) /\ (Sphere_ContainsPoint (L:=RL) b s p = DISJOINT <-> ~ ball s p).
Proof.
  intros Hs. unfold Sphere_ContainsPoint, ball. cbv zeta.
  l3. rewrite Sub_R, LengthSq3_R, Mul_R, rep_mul, all3_le, dist_le by assumption.
  rt. rcase; split; split; intros; try assumption; try reflexivity; try discriminate; try contradiction.
Qed.
Lemma sphere_sphere b s1 s2 : ok_sphere s1 -> ok_sphere s2 ->
  (Sphere_ContainsSphere (L:=RL) b s1 s2 = CONTAINS <-> subset (ball s2) (ball s1)) /\
  (Sphere_ContainsSphere (L:=RL) b s1 s2 = DISJOINT <-> ~ meets (ball s1) (ball s2)).
Proof.
  intros H1 H2. unfold Sphere_ContainsSphere, subset, meets, ball. cbv zeta.
  rewrite (ball_subset_iff _ _ _ _ H1 H2), (ball_meets_iff _ _ _ _ H1 H2).
  l3. rewrite Sub_R, Length3_R, qx_rep.
  unfold tge. rl. unfold ok_sphere, dist in *. rt.
  repeat rcase; split; split; intros; try reflexivity; try discriminate; try lra.
Qed.
Lemma sphere_meets b s1 s2 : ok_sphere s1 -> ok_sphere s2 ->
  Sphere_IntersectsSphere (L:=RL) b s1 s2 = true <-> meets (ball s1) (ball s2).
Proof.
  intros H1 H2. unfold Sphere_IntersectsSphere, meets, ball. cbv zeta.
  rewrite (ball_meets_iff _ _ _ _ H1 H2).
  l3. rewrite Sub_R, LengthSq3_R, Add_R, Mul_R, rep_plus, rep_mul, all3_le. unfold ok_sphere in *.
  rewrite dist_le by lra. rt. apply Rleb_true.
Qed.

(** ** C47, spheres *)
Lemma ball_sub s1 s2 : ok_sphere s1 -> ok_sphere s2 ->
  dist (pos (sp_Center s2)) (pos (sp_Center s1)) + sp_Radius s2 <= sp_Radius s1 -> subset (ball s2) (ball s1).
Proof. intros H1 H2 H. exact (proj2 (ball_subset_iff _ _ _ _ H1 H2) H). Qed.
Lemma pos_store3 v : eq3 (pos (store3 (L:=RL) v)) v. Proof. repeat split. Qed.
Lemma XMMin_R (a c : R) : XMMin (L:=RL) a c = Rmin a c.
Proof. unfold XMMin, Rmin. rl. rcase; destruct (Rle_dec a c); lra. Qed.
Lemma XMMax_R (a c : R) : XMMax (L:=RL) a c = Rmax a c.
Proof. unfold XMMax, Rmax, tgt. rl. rcase; destruct (Rle_dec a c); lra. Qed.
Definition merged_general (s1 s2 : Sphere R) : Sphere R :=
  let c1 := pos (sp_Center s1) in let c2 := pos (sp_Center s2) in
  let d := dist c2 c1 in let r1 := sp_Radius s1 in let r2 := sp_Radius s2 in
  let t1 := Rmin (- r1) (d - r2) in let t2 := Rmax r1 (d + r2) in
  MkSphere (store3 (L:=RL) (plus c1 (scale ((t2 + t1) / 2) (scale (/ d) (minus c2 c1))))) ((t2 - t1) / 2).
Definition merged (s1 s2 : Sphere R) : Sphere R :=
  let d := dist (pos (sp_Center s2)) (pos (sp_Center s1)) in
  if Rleb d (sp_Radius s1 + sp_Radius s2) then
    if Rleb d (sp_Radius s1 - sp_Radius s2) then s1
    else if Rleb d (sp_Radius s2 - sp_Radius s1) then s2 else merged_general s1 s2
  else merged_general s1 s2.
Lemma Merged_R b s1 s2 : Sphere_CreateMerged (L:=RL) b s1 s2 = merged s1 s2.
Proof.
  unfold Sphere_CreateMerged, merged, merged_general. cbv zeta. l3.
  rewrite Sub_R, Length3_R, qx_rep, XMMin_R, XMMax_R, half_R, Div_R, Mul_R, Add_R. unfold tge. fold (dist (pos (sp_Center s2)) (pos (sp_Center s1))).
  rl. change (norm3 (minus (pos (sp_Center s2)) (pos (sp_Center s1)))) with (dist (pos (sp_Center s2)) (pos (sp_Center s1))).
  match goal with |- context [Rmin ?a ?b] => set (t1 := Rmin a b) end.
  match goal with |- context [Rmax ?a ?b] => set (t2 := Rmax a b) end.
  rt. destruct (Rleb _ _); [destruct (Rleb _ _); [reflexivity|destruct (Rleb _ _); [reflexivity|]]|]; f_equal;
  unfold store3, plus, scale, qmap2, minus, qrep, Rdiv; cbn [qx qy qz qw]; rt; f_equal; lra.
Qed.
Lemma merged_covers b s1 s2 : ok_sphere s1 -> ok_sphere s2 ->
  subset (ball s1) (ball (Sphere_CreateMerged (L:=RL) b s1 s2)) /\
  subset (ball s2) (ball (Sphere_CreateMerged (L:=RL) b s1 s2)) /\
  ok_sphere (Sphere_CreateMerged (L:=RL) b s1 s2).
Proof.
  intros H1 H2. rewrite Merged_R. unfold merged. cbv zeta.
  set (d := dist (pos (sp_Center s2)) (pos (sp_Center s1))).
  assert (Hd : 0 <= d) by apply dist_nonneg.
  assert (G : ~ d <= sp_Radius s1 - sp_Radius s2 -> ~ d <= sp_Radius s2 - sp_Radius s1 ->
     subset (ball s1) (ball (merged_general s1 s2)) /\ subset (ball s2) (ball (merged_general s1 s2)) /\ ok_sphere (merged_general s1 s2)).
  { intros N1 N2. unfold merged_general. fold d. cbv zeta.
    set (c1 := pos (sp_Center s1)) in *. set (c2 := pos (sp_Center s2)) in *.
    pose proof H1 as K1. pose proof H2 as K2. unfold ok_sphere in K1, K2.
    set (r1 := sp_Radius s1) in *. set (r2 := sp_Radius s2) in *.
    assert (Hd0 : d <> 0) by (intro h; rewrite h in N1, N2; lra).
    rewrite (Rmin_left (- r1)), (Rmax_right r1) by lra.
    assert (Hn : unit3 (scale (/ d) (minus c2 c1))) by (apply unit_of; exact Hd0).
    assert (He : eq3 c2 (plus c1 (scale d (scale (/ d) (minus c2 c1))))).
    { unfold eq3, plus, scale, minus; cbn [qx qy qz]; repeat split; field; assumption. }
    assert (Hok : ok_sphere (MkSphere (store3 (L:=RL) (plus c1 (scale ((d + r2 + - r1) / 2) (scale (/ d) (minus c2 c1))))) ((d + r2 - - r1) / 2))).
    { unfold ok_sphere; cbn [sp_Radius]; lra. }
    split; [|split; [|exact Hok]]; apply ball_sub; try assumption; cbn [sp_Center sp_Radius].
    - fold c1 r1. rewrite (dist_eq3_r _ _ _ (pos_store3 _)), dist_sym, dist_along by assumption. rewrite Rabs_right by lra. lra.
    - fold c2 r2. rewrite (dist_eq3_r _ _ _ (pos_store3 _)), (dist_eq3 _ _ _ He), dist_line by assumption. rewrite Rabs_right by lra. lra. }
  destruct (Rleb_spec d (sp_Radius s1 + sp_Radius s2)); [destruct (Rleb_spec d (sp_Radius s1 - sp_Radius s2)); [|destruct (Rleb_spec d (sp_Radius s2 - sp_Radius s1))]|].
  - split; [|split]; [intros p Hp; exact Hp|apply ball_sub; try assumption; fold d; lra|assumption].
  - split; [|split]; [apply ball_sub; try assumption; rewrite dist_sym; fold d; lra|intros p Hp; exact Hp|assumption].
  - apply G; assumption.
  - apply G; unfold ok_sphere in *; lra.
Qed.
(** growing over a list of points *)
Definition grown_ok (c : rvec) (r : R) (c' : rvec) (r' : R) : Prop := 0 <= r' /\ dist c c' + r <= r'.
Lemma grow_step_R b (c : rvec) (r : R) (p : float3 R) : 0 <= r -> exists c' r', grow_step (L:=RL) b (c, qrep r) p = (c', qrep r') /\
  grown_ok c r c' r' /\ dist (pos p) c' <= r'.
Proof.
  intros Hr. unfold grow_step. cbv zeta. l3. rewrite Sub_R, Length3_R, all3_gt.
  change (norm3 (minus (pos p) c)) with (dist (pos p) c). set (D := dist (pos p) c).
  destruct (Rltb_spec r D) as [Hlt|Hge].
  - rewrite half_R, !Add_R, rep_plus, Scale_R, rep_scale, Div_R, rep_div, Sub_R, rep_minus, Mul_R.
    rewrite one_R. set (r' := / 2 * (r + D)). set (k := 1 - r' / D).
    assert (HD : D <> 0) by (apply Rgt_not_eq; lra).
    exists (plus c (qmap2 Rmult (qrep k) (minus (pos p) c))), r'. split; [reflexivity|].
    assert (Ec : eq3 (plus c (qmap2 Rmult (qrep k) (minus (pos p) c))) (plus c (scale (D - r') (scale (/ D) (minus (pos p) c))))).
    { unfold eq3, plus, qmap2, qrep, scale, k; cbn [qx qy qz]. repeat split; field; assumption. }
    assert (Hn : unit3 (scale (/ D) (minus (pos p) c))) by (apply unit_of; exact HD).
    assert (He : eq3 (pos p) (plus c (scale D (scale (/ D) (minus (pos p) c))))).
    { unfold eq3, plus, scale, minus; cbn [qx qy qz]; repeat split; field; assumption. }
    rewrite !(dist_eq3_r _ _ _ Ec), (dist_eq3 _ _ _ He), dist_line by assumption.
    unfold grown_ok. rewrite (dist_eq3_r _ _ _ Ec), dist_sym, dist_along by assumption.
    unfold r'. rewrite !Rabs_right by lra. lra.
  - exists c, r. split; [reflexivity|]. split; [split; [assumption|rewrite dist_self; lra]|fold D; lra].
Qed.
Lemma grown_trans c r c' r' p : grown_ok c r c' r' -> dist p c <= r -> dist p c' <= r'.
Proof. intros (_ & H) Hp. pose proof (dist_tri p c c'). lra. Qed.
Lemma grow_all b pts : forall c r, 0 <= r -> exists c' r', fold_left (grow_step (L:=RL) b) pts (c, qrep r) = (c', qrep r') /\
  grown_ok c r c' r' /\ Forall (fun p => dist (pos p) c' <= r') pts.
Proof.
  induction pts as [|p pts IH]; intros c r Hr.
  - exists c, r. split; [reflexivity|]. split; [split; [assumption|rewrite dist_self; lra]|constructor].
  - cbn [fold_left]. destruct (grow_step_R b c r p Hr) as (c1 & r1 & E1 & G1 & D1).
    destruct (IH c1 r1 (proj1 G1)) as (c2 & r2 & E2 & G2 & D2). exists c2, r2. split; [etransitivity; [apply f_equal; exact E1|exact E2]|].
    split.
    + destruct G1 as (? & ?), G2 as (? & ?). split; [assumption|]. pose proof (dist_tri c c1 c2). lra.
    + constructor; [apply (grown_trans _ _ _ _ _ G2 D1)|exact D2].
Qed.
Lemma sphere_points b pts : Forall (fun p => ball (Sphere_CreateFromPoints (L:=RL) b pts) (pos p)) pts /\
  ok_sphere (Sphere_CreateFromPoints (L:=RL) b pts).
Proof.
  unfold Sphere_CreateFromPoints. destruct (extremes_of pts) as [[[[[MinX MaxX] MinY] MaxY] MinZ] MaxZ].
  cbv zeta. rewrite !Sub_R, !Length3_R, !Scale_R, !rep_scale, !all3_gt, half_R.
  set (dx := norm3 _). set (dy := norm3 _). set (dz := norm3 _).
  assert (G : forall c d, 0 <= d ->
     Forall (fun p => ball (let '(vCenter, vRadius) := fold_left (grow_step (L:=RL) b) pts (c, qrep (/ 2 * d)) in MkSphere (store3 (L:=RL) vCenter) (qx vRadius)) (pos p)) pts /\
     ok_sphere (let '(vCenter, vRadius) := fold_left (grow_step (L:=RL) b) pts (c, qrep (/ 2 * d)) in MkSphere (store3 (L:=RL) vCenter) (qx vRadius))).
  { intros c d Hd. destruct (grow_all b pts c (/ 2 * d)) as (c' & r' & E & G & F); [lra|]. rewrite E.
    split; [|exact (proj1 G)]. eapply Forall_impl; [|exact F]. intros p Hp. unfold ball; cbn [sp_Center sp_Radius].
    rewrite (dist_eq3_r _ _ _ (pos_store3 _)). exact Hp. }
  assert (0 <= dx) by apply norm3_nonneg. assert (0 <= dy) by apply norm3_nonneg. assert (0 <= dz) by apply norm3_nonneg.
  clearbody dx dy dz.
  repeat match goal with |- context [if ?c then _ else _] => destruct c end; apply G; assumption.
Qed.

(** ** from boxes *)
Lemma sq_le_abs a e : Rabs a <= e -> a * a <= e * e.
Proof. intros H. pose proof (Rabs_pos a). unfold Rabs in *; destruct (Rcase_abs a); nra. Qed.
Lemma within_norm e l : within e l -> dot3 l l <= dot3 (pos e) (pos e).
Proof. intros (h1 & h2 & h3). apply sq_le_abs in h1, h2, h3. unfold dot3, pos; cbn [qx qy qz]. lra. Qed.
Lemma sphere_of_box b bx : subset (aabb bx) (ball (Sphere_CreateFromBoundingBox (L:=RL) b bx)) /\ ok_sphere (Sphere_CreateFromBoundingBox (L:=RL) b bx).
Proof.
  unfold Sphere_CreateFromBoundingBox. l3. rewrite Length3_R, qx_rep. split; [|apply norm3_nonneg].
  intros p Hp. unfold ball, aabb in *; cbn [sp_Center sp_Radius]; rt. apply dist_le; [apply norm3_nonneg|].
  rewrite norm3_sq. apply within_norm, Hp.
Qed.
Lemma qrot_norm q v : unitq q -> dot3 (qrot q v) (qrot q v) = dot3 v v.
Proof. intros H. rewrite qrot_dot, H. ring. Qed.
Lemma dot3_eq3 u u' v v' : eq3 u u' -> eq3 v v' -> dot3 u v = dot3 u' v'.
Proof. intros (h1 & h2 & h3) (k1 & k2 & k3). unfold dot3. rewrite h1, h2, h3, k1, k2, k3. reflexivity. Qed.
Lemma eq3_minus_plus p c x : eq3 p (plus c x) -> eq3 (minus p c) x.
Proof. intros (h1 & h2 & h3). unfold eq3, minus, plus in *; cbn [qx qy qz] in *. rewrite h1, h2, h3. repeat split; ring. Qed.
Lemma sphere_of_obox b ob : ok_obox ob -> subset (obb ob) (ball (Sphere_CreateFromBoundingOrientedBox (L:=RL) b ob)) /\
  ok_sphere (Sphere_CreateFromBoundingOrientedBox (L:=RL) b ob).
Proof.
  intros (_ & Hu). unfold Sphere_CreateFromBoundingOrientedBox. l3. rewrite Length3_R, qx_rep. split; [|apply norm3_nonneg].
  intros p (l & Hl & Hp). unfold ball; cbn [sp_Center sp_Radius]; rt. apply dist_le; [apply norm3_nonneg|].
  rewrite norm3_sq. apply eq3_minus_plus in Hp. rewrite (dot3_eq3 _ _ _ _ Hp Hp), qrot_norm by assumption.
  apply within_norm, Hl.
Qed.

(** ** C49, spheres *)
Lemma Max_R b (u v : rvec) : XMVectorMax b u v = qmap2 Rmax u v.
Proof.
  assert (E : forall x y, (if Rltb y x then x else y) = Rmax x y) by (intros x y; unfold Rmax; rcase; destruct (Rle_dec x y); lra).
  bk b; dq u; dq v; rcbv; rewrite <- !E; reflexivity.
Qed.
Lemma Min_R b (u v : rvec) : XMVectorMin b u v = qmap2 Rmin u v.
Proof.
  assert (E : forall x y, (if Rltb x y then x else y) = Rmin x y) by (intros x y; unfold Rmin; rcase; destruct (Rle_dec x y); lra).
  bk b; dq u; dq v; rcbv; rewrite <- !E; reflexivity.
Qed.
Lemma rep_max a c : qmap2 Rmax (qrep a) (qrep c) = qrep (Rmax a c). Proof. reflexivity. Qed.
Lemma rep_min a c : qmap2 Rmin (qrep a) (qrep c) = qrep (Rmin a c). Proof. reflexivity. Qed.
(** the three rows of the linear part are mutually orthogonal: rotations with a scale per axis *)
Definition afterx (M : rmat) (d : rvec) : rvec := plus (plus (scale (qx d) (qx M)) (scale (qy d) (qy M))) (scale (qz d) (qz M)).
Lemma xform_diff M p c : eq3 (minus (xform M p) (xform M c)) (afterx M (minus p c)).
Proof. unfold eq3, xform, vecmat, point, afterx, minus, plus, scale; cbn [qx qy qz qw]. repeat split; ring. Qed.
Lemma afterx_norm M d : ortho_rows M -> dot3 (afterx M d) (afterx M d) =
  qx d * qx d * dot3 (qx M) (qx M) + qy d * qy d * dot3 (qy M) (qy M) + qz d * qz d * dot3 (qz M) (qz M).
Proof.
  intros (h1 & h2 & h3). unfold afterx.
  transitivity (qx d * qx d * dot3 (qx M) (qx M) + qy d * qy d * dot3 (qy M) (qy M) + qz d * qz d * dot3 (qz M) (qz M)
     + 2 * (qx d * qy d) * dot3 (qx M) (qy M) + 2 * (qx d * qz d) * dot3 (qx M) (qz M) + 2 * (qy d * qz d) * dot3 (qy M) (qz M)).
  - unfold dot3, plus, scale; cbn [qx qy qz]; ring.
  - rewrite h1, h2, h3; ring.
Qed.
Lemma sphere_matrix b s M : ok_sphere s -> ortho_rows M -> covers (ball s) (xform M) (ball (Sphere_TransformMatrix (L:=RL) b s M)).
Proof.
  intros Hs HM p Hp. unfold Sphere_TransformMatrix. cbv zeta. l3.
  rewrite !Dot3_R, !Max_R, !rep_max, qx_rep, Transform3_R.
  unfold ball; cbn [sp_Center sp_Radius]. rewrite (dist_eq3_r _ _ _ (pos_store3 _)). ro.
  fold (xform M (pos (sp_Center s))). set (m := Rmax _ _).
  assert (Hm : dot3 (qx M) (qx M) <= m /\ dot3 (qy M) (qy M) <= m /\ dot3 (qz M) (qz M) <= m).
  { unfold m. pose proof (Rmax_l (dot3 (qx M) (qx M)) (Rmax (dot3 (qy M) (qy M)) (dot3 (qz M) (qz M)))).
    pose proof (Rmax_r (dot3 (qx M) (qx M)) (Rmax (dot3 (qy M) (qy M)) (dot3 (qz M) (qz M)))).
    pose proof (Rmax_l (dot3 (qy M) (qy M)) (dot3 (qz M) (qz M))). pose proof (Rmax_r (dot3 (qy M) (qy M)) (dot3 (qz M) (qz M))). lra. }
  clearbody m. unfold ok_sphere in Hs. assert (0 <= m) by (pose proof (dot3_nonneg (qx M)); lra).
  pose proof (sqrt_pos m). apply dist_le; [nra|].
  rewrite (dot3_eq3 _ _ _ _ (xform_diff _ _ _) (xform_diff _ _ _)), afterx_norm by assumption.
  unfold ball in Hp. apply dist_le in Hp; [|assumption]. set (d := minus _ _) in *.
  replace (sp_Radius s * sqrt m * (sp_Radius s * sqrt m)) with (sp_Radius s * sp_Radius s * (sqrt m * sqrt m)) by ring.
  rewrite sqrt_sqrt by assumption. apply Rle_trans with (m * dot3 d d).
  - destruct Hm as (m1 & m2 & m3). unfold dot3 at 4. pose proof (Rle_0_sqr (qx d)). pose proof (Rle_0_sqr (qy d)). pose proof (Rle_0_sqr (qz d)).
    unfold Rsqr in *. set (a := qx d * qx d) in *. set (e := qy d * qy d) in *. set (f := qz d * qz d) in *. nra.
  - nra.
Qed.
Lemma qrot_minus q k u v : eq3 (minus (qrot q (scale k u)) (qrot q (scale k v))) (qrot q (scale k (minus u v))).
Proof. dn q. dq u. dq v. unfold eq3. qs. repeat split; ring. Qed.
Lemma sphere_decomposed b s k q t : ok_sphere s -> 0 <= k -> unitq q ->
  covers (ball s) (similar k q t) (ball (Sphere_TransformDecomposed (L:=RL) b s k q t)).
Proof.
  intros Hs Hk Hq p Hp. unfold Sphere_TransformDecomposed. cbv zeta. l3. rewrite Scale_R, Rotate_R, Add_R.
  unfold ball in *; cbn [sp_Center sp_Radius]. rewrite (dist_eq3_r _ _ _ (pos_store3 _)). ro. unfold ok_sphere in Hs.
  apply dist_le; [nra|]. apply dist_le in Hp; [|assumption].
  set (c := pos (sp_Center s)) in *.
  assert (E : eq3 (minus (similar k q t p) (plus (qrot q (scale k c)) t)) (qrot q (scale k (minus p c)))).
  { pose proof (qrot_minus q k p c) as (h1 & h2 & h3). unfold similar. revert h1 h2 h3. unfold eq3.
    generalize (qrot q (scale k p)) (qrot q (scale k c)) (qrot q (scale k (minus p c))). intros A B C.
    unfold plus, minus; cbn [qx qy qz]. intros. repeat split; lra. }
  rewrite (dot3_eq3 _ _ _ _ E E), qrot_norm by assumption.
  replace (dot3 (scale k (minus p c)) (scale k (minus p c))) with (k * k * dot3 (minus p c) (minus p c))
    by (unfold dot3, scale; cbn [qx qy qz]; ring). nra.
Qed.

(** ** C51, spheres *)
Lemma qsel_rep {A} (x y : A) (c : bool) : qmap3 (fun a b (m : bool) => if m then b else a) (qrep x) (qrep y) (qrep c) = qrep (if c then y else x).
Proof. destruct c; reflexivity. Qed.
Lemma vlt_rep (a c : R) : vlt (L:=RL) (qrep a) (qrep c) = qrep (Rltb a c). Proof. reflexivity. Qed.
Lemma vgt_rep (a c : R) : vgt (L:=RL) (qrep a) (qrep c) = qrep (Rltb c a). Proof. reflexivity. Qed.
Lemma vle_rep (a c : R) : vle (L:=RL) (qrep a) (qrep c) = qrep (Rleb a c). Proof. reflexivity. Qed.
Lemma vge_rep (a c : R) : vge (L:=RL) (qrep a) (qrep c) = qrep (Rleb c a). Proof. reflexivity. Qed.
Lemma mor_rep a c : mor (qrep a) (qrep c) = qrep (a || c)%bool. Proof. reflexivity. Qed.
Lemma mand_rep a c : mand (qrep a) (qrep c) = qrep (a && c)%bool. Proof. reflexivity. Qed.
Lemma mandc_rep a c : mandc (qrep a) (qrep c) = qrep (a && negb c)%bool. Proof. reflexivity. Qed.
Lemma mnot_rep a : mnot (qrep a) = qrep (negb a). Proof. reflexivity. Qed.
Lemma qall_rep a : qall (qrep a) = a. Proof. destruct a; reflexivity. Qed.
Lemma all3_rep a : all3 (qrep a) = a. Proof. destruct a; reflexivity. Qed.
Lemma any3_rep a : any3 (qrep a) = a. Proof. destruct a; reflexivity. Qed.
Lemma vsel_rep (x y : R) c : vsel (L:=RL) (qrep x) (qrep y) (qrep c) = qrep (if c then y else x). Proof. destruct c; reflexivity. Qed.
Lemma nms_rep (x y z : R) : qmap3 (fun x y z => z - x * y) (qrep x) (qrep y) (qrep z) = qrep (z - x * y). Proof. reflexivity. Qed.
Lemma ma_rep (x y z : R) : qmap3 (fun x y z => x * y + z) (qrep x) (qrep y) (qrep z) = qrep (x * y + z). Proof. reflexivity. Qed.
Lemma ray_ball s o d t : ok_sphere s -> unit3 d -> let l := minus (pos (sp_Center s)) o in
  ball s (ray_at o d t) <-> (t - dot3 l d) * (t - dot3 l d) <= sp_Radius s * sp_Radius s - (dot3 l l - dot3 l d * dot3 l d).
Proof.
  intros Hs Hd l. unfold ball. rewrite dist_le by assumption.
  replace (dot3 (minus (ray_at o d t) (pos (sp_Center s))) (minus (ray_at o d t) (pos (sp_Center s))))
    with (t * t * dot3 d d - 2 * t * dot3 l d + dot3 l l).
  - rewrite Hd. split; intros; nra.
  - unfold l, dot3, ray_at, minus, plus, scale; cbn [qx qy qz]; ring.
Qed.
Definition sphere_ray_spec (s : Sphere R) (o d : rvec) (r : bool * R) : Prop :=
  (fst r = true <-> exists t, hits o d (ball s) t) /\
  (fst r = true -> ~ ball s o -> first_hit o d (ball s) (snd r)) /\
  (ball s o -> hits o d (ball s) (snd r) /\ forall t, hits o d (ball s) t -> t <= snd r).
Lemma sphere_ray b s o d : ok_sphere s -> unit3 d ->
  exists r, Sphere_IntersectsRay (L:=RL) b s o d = Some r /\ sphere_ray_spec s o d r.
Proof.
  intros Hs Hd. unfold Sphere_IntersectsRay. rewrite isunit3 by assumption. unfold asserting. cbv zeta. l3.
  rewrite Sub_R, !Dot3_R, Mul_R, rep_mul, NMulSub_R, nms_rep, !Sub_R, Add_R, Sqrt_R, rep_minus, rep_sqrt, rep_plus, rep_minus, vzero_R.
  rewrite !vlt_rep, !vgt_rep, !vle_rep, mand_rep, mor_rep, qall_rep, vsel_rep, qx_rep.
  eexists. split; [reflexivity|].
  set (l := minus (pos (sp_Center s)) o). set (sd := dot3 l d). set (l2 := dot3 l l). set (r := sp_Radius s) in *.
  pose proof (fun t => ray_ball s o d t Hs Hd) as HB. cbv zeta in HB. fold l sd l2 r in HB.
  assert (HB0 : ball s o <-> l2 <= r * r).
  { pose proof (HB 0) as H. replace (r * r - (l2 - sd * sd)) with (r * r - l2 + sd * sd) in H by ring.
    assert (E : ball s (ray_at o d 0) <-> ball s o).
    { unfold ball. rewrite (dist_eq3 (ray_at o d 0) o); [reflexivity|]. unfold eq3, ray_at, plus, scale; cbn [qx qy qz]. repeat split; ring. }
    rewrite <- E, H. split; intros; nra. }
  clearbody l2 sd. unfold ok_sphere in Hs. fold r in Hs. clearbody r.
  set (Q := r * r - (l2 - sd * sd)) in *.
  assert (Hroot : forall Qp : 0 <= Q, sqrt Q * sqrt Q = Q) by (intros; apply sqrt_sqrt; assumption).
  pose proof (sqrt_pos Q) as Hsq.
  assert (Hhit : (exists t, hits o d (ball s) t) <-> ((0 <= sd \/ l2 <= r * r) /\ 0 <= Q)).
  { split.
    - intros (t & Ht & Hb). apply HB in Hb. split; [|pose proof (Rle_0_sqr (t - sd)); unfold Rsqr in *; lra].
      destruct (Rle_dec 0 sd); [left; assumption|right]. unfold Q in Hb. nra.
    - intros (H1 & H2). specialize (Hroot H2). destruct H1 as [H1|H1].
      + exists sd. split; [assumption|]. apply HB. replace ((sd - sd) * (sd - sd)) with 0 by ring. assumption.
      + exists 0. split; [lra|]. apply HB. unfold Q. nra. }
  assert (Hb : (if Rltb sd 0 && Rltb (r * r) l2 || Rltb (r * r) (l2 - sd * sd) then false else true)%bool = true <-> ((0 <= sd \/ l2 <= r * r) /\ 0 <= Q)).
  { unfold Q. repeat rcase; cbn; split; intros H; try discriminate; try reflexivity;
    first [exfalso; destruct H as ([?|?] & ?); lra | split; [first [left; lra | right; lra]|lra]]. }
  unfold sphere_ray_spec.
  assert (Eif : forall c : bool, fst (if negb c then (true, if Rleb l2 (r * r) then sd + sqrt Q else sd - sqrt Q) else (false, 0)) = (if c then false else true)) by (intros [|]; reflexivity).
  split; [|split].
  - change (@zero RL) with 0. rewrite Eif, Hhit. exact Hb.
  - change (@zero RL) with 0. rewrite Eif. intros H Ho. pose proof (proj1 Hb H) as (H1 & H2). specialize (Hroot H2).
    destruct (_ || _)%bool in *; [discriminate|]. cbn [negb snd]. rewrite HB0 in Ho.
    assert (El : Rleb l2 (r * r) = false) by (apply Rleb_false; lra). rewrite El.
    assert (Hsd : 0 <= sd) by (destruct H1; lra).
    assert (Hlt : sqrt Q <= sd). { apply Rnot_lt_le. intro. unfold Q in *. nra. }
    split; [split; [lra|]|].
    + apply HB. nra.
    + intros t' (Ht & Hbt). apply HB in Hbt. apply Rnot_lt_le; intro. nra.
  - intros Ho. pose proof (proj1 HB0 Ho) as Ho'. assert (H2 : 0 <= Q) by (unfold Q; nra). specialize (Hroot H2).
    assert (E1 : (Rltb sd 0 && Rltb (r * r) l2 || Rltb (r * r) (l2 - sd * sd))%bool = false).
    { apply Bool.orb_false_intro; [apply Bool.andb_false_intro2|]; apply Rltb_false; unfold Q in *; lra. }
    change (@zero RL) with 0. rt. rewrite E1. cbn [negb snd]. assert (El : Rleb l2 (r * r) = true) by (apply Rleb_true; lra). rewrite El.
    assert (Hge : - sd <= sqrt Q). { apply Rnot_lt_le; intro. unfold Q in *; nra. }
    split; [split; [lra|apply HB; nra]|].
    intros t' (Ht & Hbt). apply HB in Hbt. apply Rnot_lt_le; intro. nra.
Qed.
