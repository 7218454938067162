(** Triangles against boxes and oriented boxes (C55), containment of triangles, and rays against triangles (C51). *)
From Coq Require Import Reals Lra Psatz List Bool.
From Verif Require Import Base F32 Intrin Lane MVec MTrig MQuat MInterp MPlane MMatrix Shapes MCollide MFrustum.
From Verif Require Import SpecGeom SpecQuat SpecMat SpecShape PReal PVec PQuat PRot PMatrix PShape PSphere PSide PHull PBox POBox PSat PSolid PRay PTri.
Open Scope R_scope.

(** ** Separating axes *)
Lemma edge_no b e A TVa TVb l : nonneg3 e -> within e l ->
  Rmin (dot3 TVa A) (dot3 TVb A) <= dot3 l A <= Rmax (dot3 TVa A) (dot3 TVb A) ->
  edge_test (L:=RL) b (pos e) A TVa TVb = qrep false.
Proof.
  intros He Hl Hb. unfold edge_test. cbv zeta. rewrite !Dot3_R, Min_R, Max_R, Abs_R, Neg_R, rep_min, rep_max, rep_opp, vgt_rep, vlt_rep, mor_rep.
  assert (E : dot3 (pos e) (qmap Rabs A) = reach e A) by (unfold dot3, pos, reach, qmap; cbn [qx qy qz]; ring). rewrite E.
  destruct (within_reach e A He) as (W & _). specialize (W l Hl). rewrite dot3_sym in W.
  rewrite (proj2 (Rltb_false _ _)) by (eapply Rle_trans; [apply Hb|apply W]). rewrite (proj2 (Rltb_false _ _)) by (eapply Rle_trans; [apply W|apply Hb]). reflexivity.
Qed.
Lemma between (w x y v : R) : 0 <= w <= 1 -> v = w * x + (1 - w) * y -> Rmin x y <= v <= Rmax x y.
Proof. intros Hw ->. unfold Rmin, Rmax. destruct (Rle_dec x y); nra. Qed.
Lemma vgt_no (a c : rvec) : (qx a <= qx c /\ qy a <= qy c /\ qz a <= qz c) -> forall a' c' : rvec, (qx a' <= qx c' /\ qy a' <= qy c' /\ qz a' <= qz c') ->
  any3 (mor (vgt (L:=RL) a c) (vgt (L:=RL) a' c')) = false.
Proof.
  intros (h1 & h2 & h3) a' c' (k1 & k2 & k3). unfold any3, mor, vgt, qmap2; cbn [qx qy qz]. unfold tgt. change (@tlt RL) with Rltb.
  rewrite !(proj2 (Rltb_false _ _)) by assumption. reflexivity.
Qed.
(** three numbers and a weighted mean of them *)
Lemma mean3 a c d x y z : 0 <= a -> 0 <= c -> 0 <= d -> a + c + d = 1 ->
  Rmin (Rmin x y) z <= a * x + c * y + d * z <= Rmax (Rmax x y) z.
Proof.
  intros. destruct (min3_le x y z) as (n1 & n2 & n3), (max3_le x y z) as (m1 & m2 & m3). set (lo := Rmin _ _) in *. set (hi := Rmax _ _) in *. clearbody lo hi. nra.
Qed.
Lemma pick_min (k n x e c : R) : c - e <= x <= c + e -> n * (if Rltb 0 n then c - e else c + e) <= n * x <= n * (if Rltb 0 n then c + e else c - e).
Proof. intros. destruct (Rltb_spec 0 n); nra. Qed.
Definition nonflat (V0 V1 V2 : rvec) : Prop := ~ zero3 (cross (minus V1 V0) (minus V2 V0)).
Lemma not_all3_zero (n : rvec) : ~ zero3 n -> all3 (veq (L:=RL) n (qrep 0)) = false.
Proof.
  intros H. destruct (all3 _) eqn:E; [|reflexivity]. exfalso. unfold all3, veq, qmap2 in E. cbn [qx qy qz qrep] in E. change (@teq RL) with Reqb in E.
  apply andb_true_iff in E as (E & E3). apply andb_true_iff in E as (E1 & E2). apply Reqb_true in E1, E2, E3. apply H. repeat split; assumption.
Qed.
Lemma box_tri b bx V0 V1 V2 : ok_box bx -> nonflat V0 V1 V2 -> meets (aabb bx) (tri V0 V1 V2) ->
  Box_IntersectsTriangle (L:=RL) b bx V0 V1 V2 = Some true.
Proof.
  intros Hok HN (p & Hb & (a & c & d & Ha & Hc & Hd & Hsum & Hp)). unfold Box_IntersectsTriangle. cbv zeta. l3. unfold ok_box in Hok.
  set (e := bx_Extents bx) in *. set (C := pos (bx_Center bx)) in *. unfold aabb in Hb. fold e C in Hb. pose proof Hb as (w1 & w2 & w3).
  apply abs_le_iff in w1, w2, w3. unfold minus in w1, w2, w3; cbn [qx qy qz] in w1, w2, w3. pose proof Hp as (p1 & p2 & p3). e3.
  rewrite !Min_R, !Max_R, !Sub_R, !Add_R.
  rewrite vgt_no;
    [|unfold qmap2, plus, pos; cbn [qx qy qz];
      pose proof (mean3 a c d (qx V0) (qx V1) (qx V2) Ha Hc Hd Hsum); pose proof (mean3 a c d (qy V0) (qy V1) (qy V2) Ha Hc Hd Hsum); pose proof (mean3 a c d (qz V0) (qz V1) (qz V2) Ha Hc Hd Hsum);
      rt; fold C; cbn [qx qy qz] in *; repeat split; lra
     |unfold qmap2, minus, pos; cbn [qx qy qz];
      pose proof (mean3 a c d (qx V0) (qx V1) (qx V2) Ha Hc Hd Hsum); pose proof (mean3 a c d (qy V0) (qy V1) (qy V2) Ha Hc Hd Hsum); pose proof (mean3 a c d (qz V0) (qz V1) (qz V2) Ha Hc Hd Hsum);
      rt; fold C; cbn [qx qy qz] in *; repeat split; lra].
  rewrite Cross3_R, !Dot3_R, vzero_R, (not_all3_zero _ HN). cbn [negb asserting].
  fold (normal V0 V1 V2). set (N := normal V0 V1 V2). set (l := minus p C).
  assert (HD : dot3 p N = dot3 N V0).
  { assert (HT : tri V0 V1 V2 p) by (exists a, c, d; auto). pose proof (tri_plane_zero _ _ _ _ HT) as Z. fold N in Z. unfold dot3, minus in *; cbn [qx qy qz] in *. lra. }
  assert (HS : mor (vgt (L:=RL) (qrep (dot3 (vsel (L:=RL) (plus C (pos e)) (minus C (pos e)) (vgt (L:=RL) N (qrep 0))) N)) (qrep (dot3 N V0)))
                (vlt (L:=RL) (qrep (dot3 (vsel (L:=RL) (minus C (pos e)) (plus C (pos e)) (vgt (L:=RL) N (qrep 0))) N)) (qrep (dot3 N V0))) = qrep false).
  { rewrite vgt_rep, vlt_rep, mor_rep.
    assert (B : dot3 (vsel (L:=RL) (plus C (pos e)) (minus C (pos e)) (vgt (L:=RL) N (qrep 0))) N <= dot3 N V0 <= dot3 (vsel (L:=RL) (minus C (pos e)) (plus C (pos e)) (vgt (L:=RL) N (qrep 0))) N).
    { rewrite <- HD. unfold dot3, vsel, vgt, qmap3, qmap2, plus, minus, pos; cbn [qx qy qz qrep]. unfold tgt. change (@tlt RL) with Rltb. rt.
      pose proof (pick_min 0 (qx N) (qx p) (fx e) (qx C)). pose proof (pick_min 0 (qy N) (qy p) (fy e) (qy C)). pose proof (pick_min 0 (qz N) (qz p) (fz e) (qz C)). lra. }
    rewrite !(proj2 (Rltb_false _ _)) by apply B. reflexivity. }
  rewrite HS. clear HS.
  assert (L0 : forall A : rvec, dot3 l A = a * dot3 (minus V0 C) A + c * dot3 (minus V1 C) A + d * dot3 (minus V2 C) A).
  { intros A. unfold l, dot3, minus; cbn [qx qy qz]. rewrite p1, p2, p3. replace a with (1 - c - d) by lra. ring. }
  assert (K0 : forall A, dot3 (minus V0 C) A = dot3 (minus V1 C) A -> edge_test (L:=RL) b (pos e) A (minus V0 C) (minus V2 C) = qrep false).
  { intros A E. apply (edge_no b e A _ _ l); [assumption|exact Hb|]. apply (between (a + c)); [lra|]. rewrite L0, <- E. replace (1 - (a + c)) with d by lra. ring. }
  assert (K1 : forall A, dot3 (minus V1 C) A = dot3 (minus V2 C) A -> edge_test (L:=RL) b (pos e) A (minus V0 C) (minus V1 C) = qrep false).
  { intros A E. apply (edge_no b e A _ _ l); [assumption|exact Hb|]. apply (between a); [lra|]. rewrite L0, <- E. replace (1 - a) with (c + d) by lra. ring. }
  assert (K2 : forall A, dot3 (minus V2 C) A = dot3 (minus V0 C) A -> edge_test (L:=RL) b (pos e) A (minus V0 C) (minus V1 C) = qrep false).
  { intros A E. apply (edge_no b e A _ _ l); [assumption|exact Hb|]. apply (between (a + d)); [lra|]. rewrite L0, E. replace (1 - (a + d)) with c by lra. ring. }
  unfold axis_x, axis_y, axis_z. rewrite !Neg_R.
  assert (AX : forall u v : rvec, let f := insert_lane (L:=RL) I3 (minus u v) (qrep 0) in forall w : rvec,
     dot3 (minus u w) (perm f (qmap Ropp f) P0W P1Z P0Y P0X) = dot3 (minus v w) (perm f (qmap Ropp f) P0W P1Z P0Y P0X) /\
     dot3 (minus u w) (perm f (qmap Ropp f) P0Z P0W P1X P0Y) = dot3 (minus v w) (perm f (qmap Ropp f) P0Z P0W P1X P0Y) /\
     dot3 (minus u w) (perm f (qmap Ropp f) P1Y P0X P0W P0Z) = dot3 (minus v w) (perm f (qmap Ropp f) P1Y P0X P0W P0Z)).
  { intros u v f w. unfold f, dot3, minus, perm, insert_lane; cbn. repeat split; ring. }
  assert (ES : forall u v : rvec, minus (minus u C) (minus v C) = minus u v) by (intros; unfold minus; cbn [qx qy qz qw]; f_equal; ring).
  rt. rewrite !ES.
  rewrite !K0 by (symmetry; apply AX). 
  repeat match goal with |- context [edge_test b (pos e) ?A (minus V0 C) (minus V1 C)] => first [rewrite (K1 A) by (symmetry; apply AX) | rewrite (K2 A) by (symmetry; apply AX)] end.
  reflexivity.
Qed.

(** ** Containment of triangles *)
Lemma tri_subset A V0 V1 V2 : convex A -> subset (tri V0 V1 V2) A <-> A V0 /\ A V1 /\ A V2.
Proof.
  intros HA. split.
  - intros H. split; [apply H, tri_v0|]. split; [apply H, tri_v1|apply H, tri_v2].
  - intros (h0 & h1 & h2) p Hp. apply tri_hull in Hp. apply (hull_in A _ HA) in Hp; [exact Hp|]. repeat (apply Forall_cons; [assumption|]). apply Forall_nil.
Qed.
Lemma subset_meets A V0 V1 V2 : subset (tri V0 V1 V2) A -> meets A (tri V0 V1 V2).
Proof. intros H. exists V0. split; [apply H, tri_v0|apply tri_v0]. Qed.
Lemma all3_rep (x : bool) : all3 (qrep x) = x.
Proof. destruct x; reflexivity. Qed.
Lemma sphere_has_tri b s V0 V1 V2 : ok_sphere s -> nonflat V0 V1 V2 ->
  exists r, Sphere_ContainsTriangle (L:=RL) b s V0 V1 V2 = Some r /\
    (r = CONTAINS <-> subset (tri V0 V1 V2) (ball s)) /\ (r = DISJOINT <-> ~ meets (ball s) (tri V0 V1 V2)).
Proof.
  intros Hs HN. destruct (sphere_tri b s V0 V1 V2 Hs HN) as (r & E & Hr). unfold Sphere_ContainsTriangle. rewrite E. cbn [obind].
  assert (HI : forall V, ball s V <-> Rleb (dot3 (minus V (pos (sp_Center s))) (minus V (pos (sp_Center s)))) (sp_Radius s * sp_Radius s) = true).
  { intros V. unfold ball. rewrite (dist_le _ _ _ Hs), Rleb_true. reflexivity. }
  destruct r; cbn [negb].
  - cbv zeta. l3. rewrite !Sub_R, !LengthSq3_R, Mul_R, rep_mul, !vle_rep, !mand_rep, all3_rep.
    eexists; split; [reflexivity|]. rewrite tri_subset by apply ball_convex. rewrite !HI.
    assert (HM : meets (ball s) (tri V0 V1 V2)) by (apply Hr; reflexivity).
    rt. destruct (Rleb _ _), (Rleb _ _), (Rleb _ _); cbn [andb]; (split; [split; [intros; try discriminate; auto|intros (a & c & d); try discriminate; reflexivity]|split; [discriminate|contradiction]]).
  - eexists; split; [reflexivity|]. assert (HM : ~ meets (ball s) (tri V0 V1 V2)) by (rewrite <- Hr; discriminate).
    split; [|split; [intros _; exact HM|reflexivity]]. split; [discriminate|]. intros H. elim HM. apply subset_meets, H.
Qed.
Lemma box_tri_total b bx V0 V1 V2 : nonflat V0 V1 V2 -> exists r, Box_IntersectsTriangle (L:=RL) b bx V0 V1 V2 = Some r.
Proof.
  intros HN. unfold Box_IntersectsTriangle. cbv zeta. l3. rewrite !Sub_R, Cross3_R, !Dot3_R, vzero_R. rt. rewrite (not_all3_zero _ HN). cbn [negb asserting].
  match goal with |- context [if ?c then _ else _] => destruct c end; eexists; reflexivity.
Qed.
Lemma inside_box b bx V : all3 (vle (L:=RL) (XMVectorAbs b (XMVectorSubtract b V (pos (bx_Center bx)))) (pos (bx_Extents bx))) = true <-> aabb bx V.
Proof.
  rewrite Sub_R, Abs_R. unfold all3, vle, qmap2, qmap, aabb, within, pos, minus; cbn [qx qy qz]. change (@tle RL) with Rleb.
  rewrite !andb_true_iff, !Rleb_true. tauto.
Qed.
Lemma all3_mand m n : all3 (mand m n) = (all3 m && all3 n)%bool.
Proof. destruct m as [[] [] [] mw], n as [[] [] [] nw]; reflexivity. Qed.
Lemma box_has_tri b bx V0 V1 V2 : ok_box bx -> nonflat V0 V1 V2 ->
  exists r, Box_ContainsTriangle (L:=RL) b bx V0 V1 V2 = Some r /\
    (r = CONTAINS <-> subset (tri V0 V1 V2) (aabb bx)) /\ (r = DISJOINT -> ~ meets (aabb bx) (tri V0 V1 V2)).
Proof.
  intros Hb HN. destruct (box_tri_total b bx V0 V1 V2 HN) as (r & E). unfold Box_ContainsTriangle. rewrite E. cbn [obind].
  assert (HM : meets (aabb bx) (tri V0 V1 V2) -> r = true) by (intros M; rewrite (box_tri b bx V0 V1 V2 Hb HN M) in E; congruence).
  destruct r; cbn [negb].
  - cbv zeta. l3. rewrite !all3_mand. eexists; split; [reflexivity|]. rewrite tri_subset by apply aabb_convex. rewrite <- !(inside_box b).
    destruct (all3 _), (all3 _), (all3 _); cbn [andb]; (split; [split; [intros; try discriminate; auto|intros (a & c & d); try discriminate; reflexivity]|discriminate]).
  - eexists; split; [reflexivity|]. split.
    + split; [discriminate|]. intros H. discriminate (HM (subset_meets _ _ _ _ H)).
    + intros _ M. discriminate (HM M).
Qed.

(** ** Oriented boxes: the same tests in the frame of the box *)
Lemma local_diff c q u v : eq3 (minus (local c q u) (local c q v)) (qrot (conj q) (minus u v)).
Proof. unfold local. dn q. dq u; dq v; dq c. unfold eq3. qs. repeat split; ring. Qed.
Lemma cross_eq3 u v u' v' : eq3 u u' -> eq3 v v' -> eq3 (cross u v) (cross u' v').
Proof. intros (h1 & h2 & h3) (k1 & k2 & k3). unfold cross, eq3; cbn [qx qy qz]. rewrite h1, h2, h3, k1, k2, k3. repeat split. Qed.
Lemma zero3_dot u : zero3 u <-> dot3 u u = 0.
Proof.
  unfold zero3, dot3. split; [intros (h1 & h2 & h3); rewrite h1, h2, h3; ring|]. intros H. assert (h1 := Rle_0_sqr (qx u)). assert (h2 := Rle_0_sqr (qy u)). assert (h3 := Rle_0_sqr (qz u)). unfold Rsqr in *.
  repeat split; nra.
Qed.
Lemma nonflat_local c q V0 V1 V2 : unitq q -> nonflat V0 V1 V2 -> nonflat (local c q V0) (local c q V1) (local c q V2).
Proof.
  intros Hq H Z. apply H. pose proof (cross_eq3 _ _ _ _ (local_diff c q V1 V0) (local_diff c q V2 V0)) as E. rewrite qrot_cross in E by (apply unit_conj; exact Hq).
  set (n := cross (minus V1 V0) (minus V2 V0)) in *. set (m := cross (minus (local c q V1) _) _) in *. clearbody n m.
  apply zero3_dot. pose proof (qrot_dot (conj q) n n) as D. assert (U : dot4 (conj q) (conj q) = 1) by (apply unit_conj; exact Hq). rewrite U in D.
  destruct E as (h1 & h2 & h3), Z as (z1 & z2 & z3). unfold dot3 in D at 1. rewrite <- h1, <- h2, <- h3, z1, z2, z3 in D. lra.
Qed.
Lemma tri_local c q V0 V1 V2 p : tri V0 V1 V2 p -> tri (local c q V0) (local c q V1) (local c q V2) (local c q p).
Proof.
  intros (a & d & f & Ha & Hd & Hf & Hs & Hp). exists a, d, f. repeat (split; [assumption|]). pose proof (local_eq3 c q _ _ Hp) as E. eapply eq3_trans; [exact E|].
  clear E Hp. replace a with (1 - d - f) by lra. clear. unfold local. dn q. dq V0; dq V1; dq V2; dq c. unfold eq3. qs. repeat split; ring.
Qed.
Lemma tri_unlocal c q V0 V1 V2 l : unitq q -> tri (local c q V0) (local c q V1) (local c q V2) l -> tri V0 V1 V2 (global c q l).
Proof.
  intros Hq (a & d & f & Ha & Hd & Hf & Hs & Hp). exists a, d, f. repeat (split; [assumption|]). eapply eq3_trans; [apply (global_eq3 c q _ _ Hp)|].
  assert (G : forall u, eq3 (global c q (local c q u)) u) by (intros; apply global_local; assumption).
  pose proof (G V0) as (x0 & y0 & z0). pose proof (G V1) as (x1 & y1 & z1). pose proof (G V2) as (x2 & y2 & z2).
  set (L0 := local c q V0) in *. set (L1 := local c q V1) in *. set (L2 := local c q V2) in *. clearbody L0 L1 L2.
  assert (E : eq3 (global c q (plus (plus (scale a L0) (scale d L1)) (scale f L2))) (plus (plus (scale a (global c q L0)) (scale d (global c q L1))) (scale f (global c q L2)))).
  { clear - Hs. replace a with (1 - d - f) by lra. clear. unfold global. dn q. dq L0; dq L1; dq L2; dq c. unfold eq3. qs. repeat split; ring. }
  eapply eq3_trans; [exact E|]. clear E. e3. rewrite <- x0, <- x1, <- x2, <- y0, <- y1, <- y2, <- z0, <- z1, <- z2. repeat split; ring.
Qed.
Definition unit_box (e : float3 R) : Box R := MkBox (F3 0 0 0) e.
Lemma obb_box o p : unitq (ob_Orientation o) -> obb o p <-> aabb (unit_box (ob_Extents o)) (local (pos (ob_Center o)) (ob_Orientation o) p).
Proof.
  intros H. rewrite obb_iff by assumption. unfold aabb, unit_box; cbn [bx_Center bx_Extents].
  assert (E : eq3 (local (pos (ob_Center o)) (ob_Orientation o) p) (minus (local (pos (ob_Center o)) (ob_Orientation o) p) (pos (F3 0 0 0)))) by (set (g := local _ _ p); unfold eq3, minus, pos; cbn [qx qy qz fx fy fz]; repeat split; ring).
  split; apply within_eq3; [exact E|apply eq3_sym, E].
Qed.
Lemma meets_local o V0 V1 V2 : unitq (ob_Orientation o) -> meets (obb o) (tri V0 V1 V2) <->
  let g := local (pos (ob_Center o)) (ob_Orientation o) in meets (aabb (unit_box (ob_Extents o))) (tri (g V0) (g V1) (g V2)).
Proof.
  intros Hq. cbv zeta. set (g := local (pos (ob_Center o)) (ob_Orientation o)). split.
  - intros (p & Hp & Ht). exists (g p). split; [apply obb_box; assumption|apply tri_local, Ht].
  - intros (l & Hl & Ht). exists (global (pos (ob_Center o)) (ob_Orientation o) l). split; [|apply tri_unlocal; assumption].
    apply obb_box; [assumption|]. apply (proj1 (aabb_convex _) l); [|exact Hl]. apply eq3_sym, local_global, Hq.
Qed.
Lemma obox_tri_eq b o V0 V1 V2 : let g := local (pos (ob_Center o)) (ob_Orientation o) in
  OBox_IntersectsTriangle (L:=RL) b o V0 V1 V2 = Box_IntersectsTriangle (L:=RL) b (unit_box (ob_Extents o)) (g V0) (g V1) (g V2) /\
  OBox_ContainsTriangle (L:=RL) b o V0 V1 V2 = Box_ContainsTriangle (L:=RL) b (unit_box (ob_Extents o)) (g V0) (g V1) (g V2).
Proof.
  intros g. unfold OBox_IntersectsTriangle, OBox_ContainsTriangle. cbv zeta. l3. rewrite !Sub_R, !InvRotate_R. split; reflexivity.
Qed.
Lemma obox_tri b o V0 V1 V2 : ok_obox o -> nonflat V0 V1 V2 -> meets (obb o) (tri V0 V1 V2) -> OBox_IntersectsTriangle (L:=RL) b o V0 V1 V2 = Some true.
Proof.
  intros (He & Hq) HN HM. destruct (obox_tri_eq b o V0 V1 V2) as (E & _). rewrite E. apply box_tri; [exact He|apply nonflat_local; assumption|]. apply (meets_local o _ _ _ Hq), HM.
Qed.
Lemma obox_has_tri b o V0 V1 V2 : ok_obox o -> nonflat V0 V1 V2 ->
  exists r, OBox_ContainsTriangle (L:=RL) b o V0 V1 V2 = Some r /\
    (r = CONTAINS <-> subset (tri V0 V1 V2) (obb o)) /\ (r = DISJOINT -> ~ meets (obb o) (tri V0 V1 V2)).
Proof.
  intros (He & Hq) HN. destruct (obox_tri_eq b o V0 V1 V2) as (_ & E). rewrite E.
  destruct (box_has_tri b (unit_box (ob_Extents o)) _ _ _ He (nonflat_local (pos (ob_Center o)) _ _ _ _ Hq HN)) as (r & Er & HC & HD).
  exists r. split; [exact Er|]. split.
  - rewrite HC, !tri_subset by (apply aabb_convex || apply obb_convex). rewrite !obb_box by assumption. reflexivity.
  - intros D M. apply (HD D). apply (meets_local o _ _ _ Hq), M.
Qed.

(** ** Rays against triangles *)
Definition volume (d e f : rvec) : R := dot3 e (cross d f).
(** Cramer's rule for s = x e + y f - t d *)
Lemma cramer d e f s x y t : volume d e f <> 0 ->
  (eq3 s (minus (plus (scale x e) (scale y f)) (scale t d)) <->
   volume d s f = volume d e f * x /\ dot3 d (cross s e) = volume d e f * y /\ dot3 f (cross s e) = volume d e f * t).
Proof.
  intros HD. split.
  - intros (h1 & h2 & h3). unfold volume, dot3, cross, minus, plus, scale in *; cbn [qx qy qz] in *. rewrite h1, h2, h3. repeat split; ring.
  - intros (h1 & h2 & h3).
    assert (C : eq3 (scale (volume d e f) s) (minus (plus (scale (volume d s f) e) (scale (dot3 d (cross s e)) f)) (scale (dot3 f (cross s e)) d))).
    { unfold eq3, volume, dot3, cross, minus, plus, scale; cbn [qx qy qz]. repeat split; ring. }
    rewrite h1, h2, h3 in C. destruct C as (c1 & c2 & c3). unfold eq3, minus, plus, scale in *; cbn [qx qy qz] in *. clear h1 h2 h3. set (D := volume d e f) in *. clearbody D.
    repeat split; apply (Rmult_eq_reg_l D); try assumption; [rewrite c1|rewrite c2|rewrite c3]; ring.
Qed.
Lemma tri_ray_iff V0 V1 V2 o d t : tri V0 V1 V2 (ray_at o d t) <->
  exists x y, 0 <= x /\ 0 <= y /\ x + y <= 1 /\ eq3 (minus o V0) (minus (plus (scale x (minus V1 V0)) (scale y (minus V2 V0))) (scale t d)).
Proof.
  unfold tri, ray_at, eq3, minus, plus, scale; cbn [qx qy qz]. split.
  - intros (a & x & y & Ha & Hx & Hy & Hs & h1 & h2 & h3). exists x, y. replace a with (1 - x - y) in h1, h2, h3 by lra. repeat split; try lra.
  - intros (x & y & Hx & Hy & Hs & h1 & h2 & h3). exists (1 - x - y), x, y. repeat split; try lra.
Qed.
Lemma quot D x y : D <> 0 -> (x = D * y <-> y = x / D).
Proof. intros H. split; [intros ->; field; exact H|intros ->; field; exact H]. Qed.
Lemma tri_ray_solve V0 V1 V2 o d : let D := volume d (minus V1 V0) (minus V2 V0) in D <> 0 ->
  let s := minus o V0 in let x := volume d s (minus V2 V0) / D in let y := dot3 d (cross s (minus V1 V0)) / D in let t := dot3 (minus V2 V0) (cross s (minus V1 V0)) / D in
  forall t', hits o d (tri V0 V1 V2) t' <-> t' = t /\ 0 <= t /\ 0 <= x /\ 0 <= y /\ x + y <= 1.
Proof.
  intros D HD s x y t t'. unfold hits. rewrite tri_ray_iff. split.
  - intros (Ht & x' & y' & Hx & Hy & Hs & E). apply (cramer d _ _ _ _ _ _ HD) in E as (E1 & E2 & E3). fold D s in E1, E2, E3. apply (quot D) in E1, E2, E3; [|assumption..].
    unfold x, y, t. rewrite <- E1, <- E2, <- E3. repeat split; assumption.
  - intros (-> & Ht & Hx & Hy & Hs). split; [exact Ht|]. exists x, y. repeat (split; [assumption|]). apply (cramer d _ _ _ _ _ _ HD). fold D s. repeat split; apply (quot D); auto.
Qed.
Lemma sign_pos D x : 0 < D -> (Rltb x 0 = false <-> 0 <= x / D).
Proof.
  intros H. rewrite Rltb_false. pose proof (Rinv_0_lt_compat D H). unfold Rdiv. split; intros; [nra|]. apply Rnot_lt_le. intros C. nra.
Qed.
Lemma sign_neg D x : D < 0 -> (Rltb 0 x = false <-> 0 <= x / D).
Proof.
  intros H. rewrite Rltb_false. pose proof (Rinv_lt_0_compat D H). unfold Rdiv. split; intros; [nra|]. apply Rnot_lt_le. intros C. nra.
Qed.
Lemma one_pos D x : 0 < D -> (Rltb D x = false <-> x / D <= 1).
Proof.
  intros H. rewrite Rltb_false. pose proof (Rinv_0_lt_compat D H). unfold Rdiv. pose proof (Rinv_r D). split; intros; [|apply Rnot_lt_le; intros C]; nra.
Qed.
Lemma one_neg D x : D < 0 -> (Rltb x D = false <-> x / D <= 1).
Proof.
  intros H. rewrite Rltb_false. pose proof (Rinv_lt_0_compat D H). unfold Rdiv. pose proof (Rinv_r D). split; intros; [|apply Rnot_lt_le; intros C]; nra.
Qed.
Lemma plus_div x y D : x / D + y / D = (x + y) / D.
Proof. unfold Rdiv. ring. Qed.
Lemma eps_pos : 0 < ray_epsilon.
Proof. unfold ray_epsilon. apply Rmult_lt_0_compat; [apply IZR_lt; reflexivity|apply Rinv_0_lt_compat, IZR_lt; reflexivity]. Qed.
Lemma neg_eps : Rlit (-1547425) (-87) = - ray_epsilon.
Proof. unfold Rlit, ray_epsilon. change (IZR (Z.pow_pos 2 87)) with (IZR (2 ^ 87)). change (-1547425)%Z with (- (1547425))%Z. rewrite opp_IZR. unfold Rdiv. ring. Qed.
Lemma tri_ray b V0 V1 V2 o d : unit3 d -> ray_epsilon <= Rabs (volume d (minus V1 V0) (minus V2 V0)) ->
  exists r, Triangle_IntersectsRay (L:=RL) b o d V0 V1 V2 = Some r /\
    (fst r = true <-> exists t, hits o d (tri V0 V1 V2) t) /\ (fst r = true -> first_hit o d (tri V0 V1 V2) (snd r)).
Proof.
  intros Hd HD. unfold Triangle_IntersectsRay. rewrite (isunit3 b d Hd). cbn [asserting]. cbv zeta. l3. rewrite !Sub_R, !Cross3_R, !Dot3_R, vzero_R, Add_R, Div_R.
  unfold g_RayEpsilon, g_RayNegEpsilon. change (@tlit RL 1547425 (-87)) with ray_epsilon. change (@tlit RL (-1547425) (-87)) with (Rlit (-1547425) (-87)). rewrite neg_eps.
  rt. rewrite vge_rep, vle_rep, !vgt_rep, !vlt_rep, rep_plus, !vlt_rep, !vgt_rep, !mor_rep, !all3_rep, !qall_rep, rep_div.
  pose proof eps_pos as EP. pose proof (tri_ray_solve V0 V1 V2 o d) as S. cbv zeta in S.
  change (dot3 (minus V1 V0) (cross d (minus V2 V0))) with (volume d (minus V1 V0) (minus V2 V0)).
  change (dot3 (minus o V0) (cross d (minus V2 V0))) with (volume d (minus o V0) (minus V2 V0)).
  set (D := volume d (minus V1 V0) (minus V2 V0)) in *. set (x := volume d (minus o V0) (minus V2 V0)) in *.
  set (y := dot3 d (cross (minus o V0) (minus V1 V0))) in *. set (t := dot3 (minus V2 V0) (cross (minus o V0) (minus V1 V0))) in *. clearbody D x y t.
  assert (D0 : D <> 0) by (intros ->; rewrite Rabs_R0 in HD; lra). specialize (S D0).
  assert (FIN : forall c : bool, (c = false <-> 0 <= t / D /\ 0 <= x / D /\ 0 <= y / D /\ x / D + y / D <= 1) ->
    exists r, Some (if c then (false, 0) else (true, qx (qrep (t / D)))) = Some r /\ (fst r = true <-> exists t, hits o d (tri V0 V1 V2) t) /\
      (fst r = true -> first_hit o d (tri V0 V1 V2) (snd r))).
  { intros c Hc. eexists; split; [reflexivity|]. destruct c; cbn [fst snd qx qrep].
    - split; [|discriminate]. split; [discriminate|]. intros (t' & H). apply S in H as (_ & H). apply Hc in H. discriminate H.
    - split; [|intros _]. + split; [intros _|reflexivity]. exists (t / D). apply S. split; [reflexivity|]. apply Hc; reflexivity.
      + split. * apply S. split; [reflexivity|]. apply Hc; reflexivity. * intros t' H. apply S in H as (-> & _). lra. }
  rewrite plus_div in FIN.
  destruct (Rle_lt_dec 0 D) as [DP|DN].
  - rewrite Rabs_right in HD by lra. rewrite (proj2 (Rleb_true ray_epsilon D) HD). apply FIN. rewrite !orb_false_iff, !(sign_pos D), !(one_pos D) by lra.
    split; [tauto|]. intros (h1 & h2 & h3 & h4). repeat split; try assumption. rewrite <- plus_div in h4. lra.
  - rewrite Rabs_left in HD by lra. rewrite (proj2 (Rleb_false ray_epsilon D)) by lra. rewrite (proj2 (Rleb_true D (- ray_epsilon))) by lra.
    apply FIN. rewrite !orb_false_iff, !(sign_neg D), !(one_neg D) by lra.
    split; [tauto|]. intros (h1 & h2 & h3 & h4). repeat split; try assumption. rewrite <- plus_div in h4. lra.
Qed.
(** a triangle with edges of length 2^-34 is missed by every ray *)
Lemma tiny_tri b : exists V0 V1 V2 o d t, nonflat V0 V1 V2 /\ unit3 d /\ Triangle_IntersectsRay (L:=RL) b o d V0 V1 V2 = Some (false, 0) /\ hits o d (tri V0 V1 V2) t.
Proof.
  set (k := / IZR (2 ^ 34)). assert (K0 : 0 < k) by (apply Rinv_0_lt_compat, IZR_lt; reflexivity).
  assert (KE : k * k < ray_epsilon).
  { unfold k, ray_epsilon. rewrite <- Rinv_mult, <- mult_IZR. apply (Rmult_lt_reg_r (IZR (2 ^ 87))); [apply IZR_lt; reflexivity|]. unfold Rdiv. rewrite (Rmult_assoc (IZR 1547425)), Rinv_l, Rmult_1_r by (apply IZR_neq; discriminate).
    change (2 ^ 87)%Z with (2 ^ 19 * (2 ^ 34 * 2 ^ 34))%Z. rewrite (mult_IZR (2 ^ 19)). rewrite <- Rmult_assoc, (Rmult_comm (/ _)), Rmult_assoc, Rinv_l, Rmult_1_r by (apply IZR_neq; discriminate). apply IZR_lt. reflexivity. }
  exists (Q 0 0 0 0), (Q k 0 0 0), (Q 0 k 0 0), (Q 0 0 (-1) 0), (Q 0 0 1 0), 1.
  assert (Hd : unit3 (Q 0 0 1 0)) by (unfold unit3, dot3; cbn [qx qy qz]; ring).
  split; [|split; [exact Hd|split]].
  - unfold nonflat, zero3, cross, minus; cbn [qx qy qz]. intros (_ & _ & H). nra.
  - unfold Triangle_IntersectsRay. rewrite (isunit3 b _ Hd). cbn [asserting]. cbv zeta. l3. rewrite !Sub_R, !Cross3_R, !Dot3_R.
    unfold g_RayEpsilon, g_RayNegEpsilon. change (@tlit RL 1547425 (-87)) with ray_epsilon. change (@tlit RL (-1547425) (-87)) with (Rlit (-1547425) (-87)). rewrite neg_eps.
    rt. rewrite vge_rep, vle_rep, !all3_rep.
    assert (E : dot3 (minus (Q k 0 0 0) (Q 0 0 0 0)) (cross (Q 0 0 1 0) (minus (Q 0 k 0 0) (Q 0 0 0 0))) = - (k * k)) by (unfold dot3, cross, minus; cbn [qx qy qz]; ring).
    rewrite E. rewrite (proj2 (Rleb_false ray_epsilon _)) by nra. rewrite (proj2 (Rleb_false _ (- ray_epsilon))) by lra. reflexivity.
  - split; [lra|]. exists 1, 0, 0. unfold eq3, ray_at, plus, scale; cbn [qx qy qz]. repeat split; lra.
Qed.
