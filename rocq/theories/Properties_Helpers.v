(** C74: the public helper functions of collision.rs on their own, in exact arithmetic. *)
From Coq Require Import Reals Lra Psatz List Bool.
From Verif Require Import Base F32 Intrin Lane MVec MTrig MQuat MInterp MPlane MMatrix Shapes MCollide MFrustum.
From Verif Require Import SpecGeom SpecQuat SpecMat SpecShape PReal PVec PQuat PRot PMatrix PShape PSphere PSide PHull PBox POBox PSolid PTri PFrust.
Open Scope R_scope.

(** the closed segment from [A] to [B] *)
Definition segment (A B : rvec) : region := fun p => exists t, 0 <= t <= 1 /\ eq3 p (SpecGeom.along A B t).
(** all four lanes of both masks carry the answers [outside] and [inside] *)
Definition answers (r : quad bool * quad bool) (outside inside : Prop) : Prop :=
  (fst r = qrep true <-> outside) /\ (snd r = qrep true <-> inside) /\ (fst r = qrep true \/ fst r = qrep false) /\ (snd r = qrep true \/ snd r = qrep false).
Lemma rep_inj (a c : bool) : qrep a = qrep c <-> a = c. Proof. split; [intros [=]; assumption|intros ->; reflexivity]. Qed.
Lemma answers_rep a c A B : (a = true <-> A) -> (c = true <-> B) -> answers (qrep a, qrep c) A B.
Proof. intros HA HB. unfold answers; cbn [fst snd]. rewrite !rep_inj. split; [exact HA|split; [exact HB|]]. destruct a, c; auto. Qed.
Lemma answers_of P A lo hi : spans P A lo hi -> answers (qrep (Rltb 0 lo), qrep (Rltb hi 0)) (strictly_front P A) (strictly_back P A).
Proof.
  intros (S & (p & Hp & Ep) & (q & Hq & Eq)). apply answers_rep; rewrite Rltb_true; split.
  - intros H x Hx. pose proof (S x Hx). lra.
  - intros H. rewrite <- Ep. exact (H p Hp).
  - intros H x Hx. pose proof (S x Hx). lra.
  - intros H. rewrite <- Eq. exact (H q Hq).
Qed.

Lemma half_way (P x n m : rvec) : dot3 (minus P x) (minus P x) = dot3 (minus P n) (minus P n) ->
  dot3 (minus P n) (minus P n) <= dot3 (minus P m) (minus P m) -> eq3 m (scale (/ 2) (plus x n)) -> eq3 x n.
Proof.
  intros D K (E1 & E2 & E3). unfold plus, scale in E1, E2, E3; cbn [qx qy qz] in E1, E2, E3.
  unfold dot3, minus, eq3 in *; cbn [qx qy qz] in *. rewrite E1, E2, E3 in K. clear E1 E2 E3.
  generalize dependent (qx x). generalize dependent (qy x). generalize dependent (qz x). generalize dependent (qx n). generalize dependent (qy n). generalize dependent (qz n). intros d' c' a' d c a D K.
  assert (Z : (a - a') * (a - a') + (c - c') * (c - c') + (d - d') * (d - d') <= 0) by lra.
  pose proof (Rle_0_sqr (a - a')). pose proof (Rle_0_sqr (c - c')). pose proof (Rle_0_sqr (d - d')). unfold Rsqr in *.
  assert (A0 : (a - a') * (a - a') = 0) by lra. assert (C0 : (c - c') * (c - c') = 0) by lra. assert (D0 : (d - d') * (d - d') = 0) by lra.
  apply Rmult_integral in A0. apply Rmult_integral in C0. apply Rmult_integral in D0. repeat split; lra.
Qed.
(** the returned point is on the segment and nearer than any other of its points; a segment of length zero included *)
Theorem C74_nearest b S1 S2 P : let n := PointOnLineSegmentNearestPoint (L:=RL) b S1 S2 P in
  segment S1 S2 n /\ (forall x, segment S1 S2 x -> dist P n <= dist P x) /\
  (forall x, segment S1 S2 x -> dist P x = dist P n -> eq3 x n).
Proof.
  intros n. destruct (nearest b S1 S2 P) as [I M]. fold n in I, M. split; [exact I|].
  assert (N : forall x, segment S1 S2 x -> dist P n <= dist P x) by (intros x Hx; unfold dist, norm3; apply sqrt_le_1_alt, M, Hx).
  split; [exact N|]. intros x Hx E.
  assert (D : dot3 (minus P x) (minus P x) = dot3 (minus P n) (minus P n)) by (unfold dist, norm3 in E; apply sqrt_inj in E; [exact E|apply dot3_nonneg|apply dot3_nonneg]).
  destruct Hx as (t & Ht & X), I as (s & Hs & Y). set (m := SpecGeom.along S1 S2 ((t + s) / 2)).
  assert (Hm : seg S1 S2 m) by (exists ((t + s) / 2); split; [lra|repeat split]).
  pose proof (M m Hm) as K.
  assert (Em : eq3 m (scale (/ 2) (plus x n))).
  { destruct X as (X1 & X2 & X3), Y as (Y1 & Y2 & Y3). unfold m, SpecGeom.along, plus, minus, scale, eq3 in *; cbn [qx qy qz] in *. repeat split; lra. }
  exact (half_way P x n m D K Em).
Qed.
(** for a point of the plane of a proper triangle the mask says whether it lies in the triangle, edges included *)
Theorem C74_in_triangle b P V0 V1 V2 : let N := cross (minus V1 V0) (minus V2 V0) in ~ zero3 N -> dot3 (minus P V0) N = 0 ->
  exists r, PointOnPlaneInsideTriangle (L:=RL) b P V0 V1 V2 = qrep r /\ (r = true <-> tri V0 V1 V2 P).
Proof.
  intros N HN HP. eexists. split; [apply inside_test|]. fold (normal V0 V1 V2) in N. pose proof (not_zero3_pos N HN) as NP. rewrite !andb_true_iff, !Rleb_true. split.
  - intros ((A & B) & C). apply areas_tri; fold N; assumption.
  - intros T. destruct (tri_areas V0 V1 V2 P T) as (A & B & C). repeat split; assumption.
Qed.
(** off the plane it answers for the projection: adding a multiple of the normal changes nothing *)
Theorem C74_in_triangle_prism b P V0 V1 V2 t : let N := cross (minus V1 V0) (minus V2 V0) in
  PointOnPlaneInsideTriangle (L:=RL) b (plus P (scale t N)) V0 V1 V2 = PointOnPlaneInsideTriangle (L:=RL) b P V0 V1 V2.
Proof.
  intros N. rewrite !inside_test. f_equal. fold (normal V0 V1 V2) in N. fold N.
  assert (E : forall A B, area N A B (plus P (scale t N)) = area N A B P) by (intros A B; unfold area, cross, minus, plus, scale, dot3; cbn [qx qy qz]; ring).
  rewrite !E. reflexivity.
Qed.
(** for three points on a line every point of space is reported inside *)
Theorem C74_in_triangle_degenerate b P V0 V1 V2 : zero3 (cross (minus V1 V0) (minus V2 V0)) -> PointOnPlaneInsideTriangle (L:=RL) b P V0 V1 V2 = qrep true.
Proof.
  intros Z. rewrite inside_test. fold (normal V0 V1 V2) in Z. assert (E : forall A B, area (normal V0 V1 V2) A B P = 0) by (intros A B; destruct Z as (z1 & z2 & z3); unfold area, dot3; rewrite z1, z2, z3; ring).
  rewrite !E. destruct (Rleb_spec 0 0); [reflexivity|lra].
Qed.
(** the unit checks accept exactly the lengths closer to 1 than the binary32 constant 1e-4 *)
Definition unit_eps : R := 13743895 / 137438953472.
Theorem C74_is_unit b V :
  (XMVector3IsUnit (L:=RL) b V = true <-> Rabs (norm3 V - 1) < unit_eps) /\ (XMPlaneIsUnit (L:=RL) b V = true <-> Rabs (norm3 V - 1) < unit_eps) /\
  (XMQuaternionIsUnit (L:=RL) b V = true <-> Rabs (norm4 V - 1) < unit_eps).
Proof.
  assert (U : forall a, qall (vlt (L:=RL) (XMVectorAbs b (minus (qrep a) (qrep 1))) g_UnitEpsilon) = true <-> Rabs (a - 1) < unit_eps).
  { intros a. rewrite rep_minus, Abs_R, rep_abs. unfold g_UnitEpsilon. rewrite qall_lt, Rltb_true. unfold unit_eps. cbn. unfold Rlit. cbn. split; intros H; lra. }
  unfold XMPlaneIsUnit, XMVector3IsUnit, XMQuaternionIsUnit. rewrite Length3_R, Length4_R, vone_R, !Sub_R. rewrite !U. repeat split; auto.
Qed.
(** plane_transform moves the plane with the rotation and translation of space *)
Theorem C74_plane_transform b P q t x : unitq q ->
  plane_at (MCollide.plane_transform (L:=RL) b P q t) (plus t (qrot q x)) = plane_at P x /\
  norm3 (MCollide.plane_transform (L:=RL) b P q t) = norm3 P.
Proof.
  intros U. rewrite plane_transform_R. split.
  - rewrite moved_at. apply plane_at_eq3. exact (local_global t q x U).
  - unfold norm3. f_equal. pose proof (qrot_dot q P P) as D. rewrite U in D. unfold moved, dot3 in *; cbn [qx qy qz] in *. lra.
Qed.
(** the fast tests against a plane; no unit normal is needed except for the sphere *)
Theorem C74_fast_triangle b V0 V1 V2 P : answers (FastIntersectTrianglePlane (L:=RL) b (point V0) (point V1) (point V2) P) (strictly_front P (tri V0 V1 V2)) (strictly_back P (tri V0 V1 V2)).
Proof. refine (eq_ind_r (fun r => answers r _ _) _ (FastTri_R b V0 V1 V2 P)). apply answers_of, tri_spans. Qed.
Theorem C74_fast_sphere b s P : ok_sphere s -> unit3 P ->
  answers (FastIntersectSpherePlane (L:=RL) b (point (pos (sp_Center s))) (qrep (sp_Radius s)) P) (strictly_front P (ball s)) (strictly_back P (ball s)).
Proof. intros O U. refine (eq_ind_r (fun r => answers r _ _) _ (FastSphere_R b s P)). apply answers_of, ball_spans; assumption. Qed.
Theorem C74_fast_box b s P : ok_box s ->
  answers (FastIntersectAxisAlignedBoxPlane (L:=RL) b (point (pos (bx_Center s))) (pos (bx_Extents s)) P) (strictly_front P (aabb s)) (strictly_back P (aabb s)).
Proof. intros O. refine (eq_ind_r (fun r => answers r _ _) _ (FastBox_R b s P)). apply answers_of, box_spans; assumption. Qed.
(** any three axes, not only orthonormal ones: the parallelepiped they span *)
Definition parallelepiped (c : rvec) (e : float3 R) (A0 A1 A2 : rvec) : region := fun p => exists l, within e l /\
  eq3 p (plus c (plus (plus (scale (qx l) A0) (scale (qy l) A1)) (scale (qz l) A2))).
Theorem C74_fast_oriented_box b c e A0 A1 A2 P : nonneg3 e ->
  answers (FastIntersectOrientedBoxPlane (L:=RL) b (point c) (pos e) A0 A1 A2 P) (strictly_front P (parallelepiped c e A0 A1 A2)) (strictly_back P (parallelepiped c e A0 A1 A2)).
Proof.
  intros He. set (n := Q (dot3 P A0) (dot3 P A1) (dot3 P A2) 0).
  assert (H : FastIntersectOrientedBoxPlane (L:=RL) b (point c) (pos e) A0 A1 A2 P = (qrep (Rltb 0 (plane_at P c - reach e n)), qrep (Rltb (plane_at P c + reach e n) 0))).
  { unfold FastIntersectOrientedBoxPlane. cbv zeta. rewrite Dot4_R, !Dot3_R, Abs_R. replace (dot4 (point c) P) with (plane_at P c) by (unfold dot4, plane_at, dot3, point; cbn [qx qy qz qw]; ring). apply side_pair. }
  rewrite H. apply answers_of.
  apply (spans_box P _ e n (plane_at P c) (fun l => plus c (plus (plus (scale (qx l) A0) (scale (qy l) A1)) (scale (qz l) A2)))); [exact He|intros p; reflexivity|].
  intros l. unfold n, plane_at, dot3, plus, scale; cbn [qx qy qz qw]. ring.
Qed.
(** any list of corners *)
Theorem C74_fast_frustum b C0 Cs P : answers (FastIntersectFrustumPlane (L:=RL) b C0 Cs P)
  (forall c, In c (C0 :: Cs) -> 0 < plane_at P c) (forall c, In c (C0 :: Cs) -> plane_at P c < 0).
Proof.
  rewrite FastFrustum_R. assert (NN : (C0 :: Cs)%list <> nil) by discriminate. set (L := (C0 :: Cs)%list) in *. apply answers_rep; rewrite Rltb_true; split.
  - intros H c Hc. pose proof (mn_le (plane_at P) L c Hc). lra.
  - intros H. destruct (mn_in (plane_at P) L NN) as (c & Hc & E). rewrite E. exact (H c Hc).
  - intros H c Hc. pose proof (mx_ge (plane_at P) L c Hc). lra.
  - intros H. destruct (mx_in (plane_at P) L NN) as (c & Hc & E). rewrite E. exact (H c Hc).
Qed.
Example C74_ex : let V0 := Q 0 0 0 0 in let V1 := Q 4 0 0 0 in let V2 := Q 0 4 0 0 in let P := Q 1 1 0 0 in
  ~ zero3 (cross (minus V1 V0) (minus V2 V0)) /\ dot3 (minus P V0) (cross (minus V1 V0) (minus V2 V0)) = 0 /\ tri V0 V1 V2 P /\ ~ tri V0 V1 V2 (Q 3 3 0 0) /\ unit3 (Q 0 (3/5) (4/5) 7) /\ unitq (Q 0 (3/5) 0 (4/5)) /\ nonneg3 (F3 1 2 0).
Proof.
  intros V0 V1 V2 P. unfold V0, V1, V2, P, zero3, cross, minus, dot3, unit3, unitq, dot4, dot3, nonneg3; cbn.
  split; [lra|]. split; [ring|]. split; [|split; [|repeat split; lra]].
  - exists (1/2), (1/4), (1/4). repeat (split; [lra|]). unfold eq3, plus, scale; cbn. repeat split; lra.
  - intros (a & c & d & A & C & D & S & (E1 & E2 & _)). unfold plus, scale in *; cbn in *. lra.
Qed.
(** the six extreme points that start the bounding sphere: points of the list, least and greatest in their coordinate *)
Definition least_in (f : rvec -> R) (pts : list (float3 R)) (m : rvec) : Prop := (exists p, In p pts /\ m = pos p) /\ forall p, In p pts -> f m <= f (pos p).
Lemma Rltb_opp x y : Rltb (- x) (- y) = Rltb y x.
Proof. destruct (Rltb y x) eqn:A; [apply Rltb_true in A; apply Rltb_true; lra|]. destruct (Rltb (- x) (- y)) eqn:B; [|reflexivity]. apply Rltb_true in B. rewrite <- A. symmetry. apply Rltb_true. lra. Qed.
Definition good (all seen : list (float3 R)) (f : rvec -> R) (m : rvec) : Prop := (exists p, In p all /\ m = pos p) /\ forall p, In p seen -> f m <= f (pos p).
Theorem C74_extremes (pts : list (float3 R)) MinX MaxX MinY MaxY MinZ MaxZ : pts <> nil -> extremes_of (L:=RL) pts = (MinX, MaxX, MinY, MaxY, MinZ, MaxZ) ->
  least_in qx pts MinX /\ least_in (fun v => - qx v) pts MaxX /\ least_in qy pts MinY /\ least_in (fun v => - qy v) pts MaxY
  /\ least_in qz pts MinZ /\ least_in (fun v => - qz v) pts MaxZ.
Proof.
  intros NE. destruct pts as [|p0 pts]; [contradiction|]. unfold extremes_of. change (@load3 RL) with pos.
  set (all := (p0 :: pts)%list). intros E.
  assert (UP : forall f seen m p, In p all -> good all seen f m -> good all (p :: seen) f (if Rltb (f (pos p)) (f m) then pos p else m)).
  { intros f seen m p Hp (I & G). destruct (Rltb (f (pos p)) (f m)) eqn:C.
    - apply Rltb_true in C. split; [exists p; auto|]. intros q [<-|Hq]; [lra|]. specialize (G q Hq). lra.
    - split; [exact I|]. intros q [<-|Hq]; [|exact (G q Hq)]. destruct (Rle_or_lt (f m) (f (pos p))) as [H|H]; [exact H|]. apply Rltb_true in H. congruence. }
  assert (FO : forall l seen a1 a2 a3 a4 a5 a6, incl l all ->
    good all seen qx a1 -> good all seen (fun v => - qx v) a2 -> good all seen qy a3 -> good all seen (fun v => - qy v) a4 -> good all seen qz a5 -> good all seen (fun v => - qz v) a6 ->
    forall b1 b2 b3 b4 b5 b6, fold_left (fun st p => extremes_step (L:=RL) st (pos p)) l (a1, a2, a3, a4, a5, a6) = (b1, b2, b3, b4, b5, b6) ->
    let s := (rev l ++ seen)%list in
    good all s qx b1 /\ good all s (fun v => - qx v) b2 /\ good all s qy b3 /\ good all s (fun v => - qy v) b4 /\ good all s qz b5 /\ good all s (fun v => - qz v) b6).
  { induction l as [|p l IH]; intros seen a1 a2 a3 a4 a5 a6 IN G1 G2 G3 G4 G5 G6 b1 b2 b3 b4 b5 b6; cbn [fold_left rev].
    - intros [= <- <- <- <- <- <-]. cbn. auto 10.
    - intros F. cbv zeta. rewrite <- app_assoc. cbn [app]. revert F. unfold extremes_step at 2. cbv beta iota zeta. intros F.
      assert (Hp : In p all) by (apply IN; left; reflexivity).
      refine (IH (p :: seen)%list _ _ _ _ _ _ (fun q Hq => IN q (or_intror Hq)) _ _ _ _ _ _ _ _ _ _ _ _ F).
      all: match goal with |- good _ _ ?f (if _ then _ else ?m) => pose proof (UP f seen m p Hp ltac:(assumption)) as U; cbv beta in U; revert U end.
      all: match goal with |- good _ _ _ (if Rltb ?a ?b then _ else _) -> good _ _ _ (if ?t then _ else _) => replace t with (Rltb a b); [exact (fun H => H)|] end.
      all: first [reflexivity | apply Rltb_opp]. }
  assert (G0 : forall f, good all nil f (pos p0)) by (intros f; split; [exists p0; split; [left; reflexivity|reflexivity]|intros q []]).
  destruct (FO all nil _ _ _ _ _ _ (incl_refl _) (G0 _) (G0 _) (G0 _) (G0 _) (G0 _) (G0 _) _ _ _ _ _ _ E) as (R1 & R2 & R3 & R4 & R5 & R6).
  assert (K : forall f m, good all (rev all ++ nil) f m -> least_in f all m).
  { intros f m (I & G). split; [exact I|]. intros p Hp. apply G. rewrite app_nil_r. apply -> in_rev. exact Hp. }
  auto 10.
Qed.
(** the axes of the separating-axis tests: every edge of the frustum, between corners at depths s and t, is parallel to one *)
Definition corner (f : Frustum R) (right top : bool) (d : R) : rvec :=
  Q ((if right then fr_RightSlope f else fr_LeftSlope f) * d) ((if top then fr_TopSlope f else fr_BottomSlope f) * d) d 0.
Theorem C74_edge_axes b (f : Frustum R) : let axes := edge_axes (L:=RL) b (RightTop (L:=RL) f) (RightBottom (L:=RL) f) (LeftTop (L:=RL) f) (LeftBottom (L:=RL) f) in
  (forall right top s t, exists a k, In a axes /\ eq3 (minus (corner f right top s) (corner f right top t)) (scale k a))
  /\ (forall top d, exists a k, In a axes /\ eq3 (minus (corner f true top d) (corner f false top d)) (scale k a))
  /\ (forall right d, exists a k, In a axes /\ eq3 (minus (corner f right true d) (corner f right false d)) (scale k a))
  /\ length axes = 6%nat.
Proof.
  cbv zeta. destruct f as [o q r0 l0 t0 b0 n0 f0]. unfold edge_axes. rewrite !Sub_R. unfold RightTop, RightBottom, LeftTop, LeftBottom, corner, eq3, minus, scale. change (@one RL) with 1. change (@zero RL) with 0.
  cbn [fr_RightSlope fr_LeftSlope fr_TopSlope fr_BottomSlope].
  split; [|split; [|split; [|reflexivity]]].
  - intros r u s t. destruct r, u; [exists (Q r0 t0 1 0)|exists (Q r0 b0 1 0)|exists (Q l0 t0 1 0)|exists (Q l0 b0 1 0)];
    exists (s - t); (split; [cbn [In]; auto 8|]); cbn [qx qy qz qw]; repeat split; ring.
  - intros u d. eexists _, d. split; [cbn [In]; do 4 right; left; reflexivity|]. cbn [qx qy qz qw]. repeat split; ring.
  - intros r d. eexists _, (- d). split; [cbn [In]; do 5 right; left; reflexivity|]. cbn [qx qy qz qw]. repeat split; ring.
Qed.
Example C74_ex_extremes : extremes_of (L:=RL) (F3 1 2 3 :: nil) = (Q 1 2 3 0, Q 1 2 3 0, Q 1 2 3 0, Q 1 2 3 0, Q 1 2 3 0, Q 1 2 3 0).
Proof. unfold extremes_of. cbn [fold_left]. unfold extremes_step, load3. cbn. repeat match goal with |- context [if ?c then _ else _] => destruct c end; reflexivity. Qed.
