(** C46 to C52 for spheres, boxes and oriented boxes, over the reals and on every backend [b]; witnesses on bit patterns
    where marked. *)
From Coq Require Import Reals Lra List ZArith.
From Verif Require Import Base F32 Intrin Lane MVec MTrig MQuat MInterp MPlane MMatrix Shapes MCollide.
From Verif Require Import SpecGeom SpecQuat SpecMat SpecShape PReal PVec PQuat PShape PSphere PSide PHull PBox POBox PSat PSolid PRay PColl.
Open Scope R_scope.

(** ** C46 *)
Theorem C46_contains_point : forall b s p, ok_sphere s ->
  (Sphere_ContainsPoint (L:=RL) b s p = CONTAINS <-> ball s p) /\ (Sphere_ContainsPoint (L:=RL) b s p = DISJOINT <-> ~ ball s p).
Proof. exact sphere_point. Qed.
Theorem C46_contains_sphere : forall b s1 s2, ok_sphere s1 -> ok_sphere s2 ->
  (Sphere_ContainsSphere (L:=RL) b s1 s2 = CONTAINS <-> subset (ball s2) (ball s1)) /\
  (Sphere_ContainsSphere (L:=RL) b s1 s2 = DISJOINT <-> ~ meets (ball s1) (ball s2)).
Proof. exact sphere_sphere. Qed.
Theorem C46_intersects_sphere : forall b s1 s2, ok_sphere s1 -> ok_sphere s2 ->
  Sphere_IntersectsSphere (L:=RL) b s1 s2 = true <-> meets (ball s1) (ball s2).
Proof. exact sphere_meets. Qed.
(** a sphere against the two kinds of boxes *)
Theorem C46_contains_box : forall b s bx, ok_sphere s -> ok_box bx ->
  (Sphere_ContainsBox (L:=RL) b s bx = CONTAINS <-> subset (aabb bx) (ball s)) /\
  (Sphere_ContainsBox (L:=RL) b s bx = DISJOINT <-> ~ meets (aabb bx) (ball s)).
Proof. exact sphere_holds_box. Qed.
Theorem C46_contains_oriented_box : forall b s o, ok_sphere s -> ok_obox o ->
  exists v, Sphere_ContainsOrientedBox (L:=RL) b s o = Some v /\ (v = CONTAINS <-> subset (obb o) (ball s)) /\ (v = DISJOINT <-> ~ meets (obb o) (ball s)).
Proof. exact sphere_holds_obox. Qed.
Example C46_ex : let s := MkSphere (F3 1 2 3) 2 in ok_sphere s /\ ball s (Q 2 3 3 7) /\ ~ ball s (Q 4 3 3 0)
  /\ ok_obox (MkOBox (F3 1 1 1) (F3 1 2 0) (Q 0 0 (3/5) (4/5))).
Proof.
  cbv zeta. split; [unfold ok_sphere; cbn; lra|]. unfold ball; cbn [sp_Center sp_Radius].
  split; [apply dist_le; [lra|]; unfold dot3, minus, pos; cbn [fx fy fz qx qy qz]; lra|].
  split; [intros H; apply dist_le in H; [|lra]; revert H; unfold dot3, minus, pos; cbn [fx fy fz qx qy qz]; lra|].
  split; [unfold nonneg3; cbn; lra|unfold unitq, dot4; cbn [ob_Orientation qx qy qz qw]; lra].
Qed.

(** ** C47 *)
Theorem C47_merged_spheres : forall b s1 s2, ok_sphere s1 -> ok_sphere s2 ->
  subset (ball s1) (ball (Sphere_CreateMerged (L:=RL) b s1 s2)) /\
  subset (ball s2) (ball (Sphere_CreateMerged (L:=RL) b s1 s2)) /\
  ok_sphere (Sphere_CreateMerged (L:=RL) b s1 s2).
Proof. exact merged_covers. Qed.
(** for every finite list of points *)
Theorem C47_sphere_from_points : forall b pts, Forall (fun p => ball (Sphere_CreateFromPoints (L:=RL) b pts) (pos p)) pts /\
  ok_sphere (Sphere_CreateFromPoints (L:=RL) b pts).
Proof. exact sphere_points. Qed.
Theorem C47_sphere_from_box : forall b bx, subset (aabb bx) (ball (Sphere_CreateFromBoundingBox (L:=RL) b bx)) /\
  ok_sphere (Sphere_CreateFromBoundingBox (L:=RL) b bx).
Proof. exact sphere_of_box. Qed.
Theorem C47_sphere_from_oriented_box : forall b ob, ok_obox ob ->
  subset (obb ob) (ball (Sphere_CreateFromBoundingOrientedBox (L:=RL) b ob)) /\ ok_sphere (Sphere_CreateFromBoundingOrientedBox (L:=RL) b ob).
Proof. exact sphere_of_obox. Qed.
Theorem C47_merged_boxes : forall b b1 b2, ok_box b1 -> ok_box b2 -> exists m, Box_CreateMerged (L:=RL) b b1 b2 = Some m /\
  subset (aabb b1) (aabb m) /\ subset (aabb b2) (aabb m) /\ ok_box m.
Proof. exact box_merged. Qed.
Theorem C47_box_from_points : forall b pts, Forall (fun p => aabb (Box_CreateFromPoints (L:=RL) b pts) (pos p)) pts.
Proof. exact box_points. Qed.
Theorem C47_box_from_sphere : forall b s, ok_sphere s -> exists m, Box_CreateFromSphere (L:=RL) b s = Some m /\ subset (ball s) (aabb m) /\ ok_box m.
Proof. exact box_of_sphere. Qed.
Theorem C47_oriented_box_from_box : forall bx p, obb (OBox_CreateFromBoundingBox (L:=RL) bx) p <-> aabb bx p.
Proof. exact obox_of_box. Qed.
(** Missing from the full claim: every orientation but the identity. The code takes only the first point to the frame of
    the box (lines 3274-3285), so the claim fails as soon as the axes found are not those of the world: see below. *)
Theorem C47_oriented_box_from_points_partial : forall b pts, Forall (fun p => obb (OBox_around (L:=RL) b (Q 0 0 0 1) pts) (pos p)) pts.
Proof. exact obox_around_id. Qed.
(** On bit patterns, for the points (1,1,0) and (-1,-1,0): the box built from them does not contain the second one. The
    cube root is only evaluated at the rounding of 64/27, where [cbrt_sample] is correctly rounded. *)
Theorem C47_oriented_box_from_points_refuted : forall b, b = Scalar \/ b = SSE false false false NoAVX \/ b = SSE true true true AVX2 ->
  exists p, In p diagonal_points /\
  OBox_ContainsPoint (L:=FL) b (OBox_CreateFromPoints (L:=FL) cbrt_sample b empty_obox (f_lit 2 0) diagonal_points) (load3 (L:=FL) p) = DISJOINT.
Proof. exact obox_points_float. Qed.
Example C47_ex : ok_sphere (MkSphere (F3 0 0 0) 1) /\ ok_sphere (MkSphere (F3 5 0 0) 2) /\ ok_box (MkBox (F3 0 1 2) (F3 3 4 5)) /\ ok_obox thin.
Proof. split; [unfold ok_sphere; cbn; lra|]. split; [unfold ok_sphere; cbn; lra|]. split; [unfold ok_box, nonneg3; cbn; lra|exact thin_ok]. Qed.

(** ** C48 *)
Theorem C48_contains_point : forall b bx p, (Box_ContainsPoint (L:=RL) b bx p = CONTAINS <-> aabb bx p) /\ (Box_ContainsPoint (L:=RL) b bx p = DISJOINT <-> ~ aabb bx p).
Proof. exact box_point. Qed.
Theorem C48_contains_box : forall b A B, ok_box A -> ok_box B ->
  (Box_ContainsBox (L:=RL) b A B = CONTAINS <-> subset (aabb B) (aabb A)) /\
  (Box_ContainsBox (L:=RL) b A B = DISJOINT <-> ~ meets (aabb A) (aabb B)).
Proof. exact box_box. Qed.
Theorem C48_intersects_box : forall b A B, ok_box A -> ok_box B -> Box_IntersectsBox (L:=RL) b A B = true <-> meets (aabb A) (aabb B).
Proof. exact box_meets. Qed.
Theorem C48_intersects_box_symmetric : forall b A B, ok_box A -> ok_box B -> Box_IntersectsBox (L:=RL) b A B = Box_IntersectsBox (L:=RL) b B A.
Proof. exact box_meets_comm. Qed.
Theorem C48_intersects_sphere : forall b bx s, ok_box bx -> ok_sphere s ->
  (Box_IntersectsSphere (L:=RL) b bx s = true <-> meets (aabb bx) (ball s)) /\ (Sphere_IntersectsBox (L:=RL) b s bx = true <-> meets (aabb bx) (ball s)).
Proof. exact box_meets_sphere2. Qed.
(** Exact but for a box with an extent of zero and a sphere of radius zero, see below. *)
Theorem C48_contains_sphere_partial : forall b bx s, ok_box bx -> ok_sphere s ->
  (Box_ContainsSphere (L:=RL) b bx s = DISJOINT <-> ~ meets (aabb bx) (ball s)) /\
  (Box_ContainsSphere (L:=RL) b bx s = CONTAINS -> subset (ball s) (aabb bx)) /\
  (pos3 (bx_Extents bx) \/ 0 < sp_Radius s -> subset (ball s) (aabb bx) -> Box_ContainsSphere (L:=RL) b bx s = CONTAINS).
Proof. exact box_sphere. Qed.
Theorem C48_contains_sphere_refuted : forall b, exists bx s, ok_box bx /\ ok_sphere s /\ subset (ball s) (aabb bx) /\ Box_ContainsSphere (L:=RL) b bx s <> CONTAINS.
Proof. exact zero_box_sphere. Qed.
(** the eight corners lie in the box and span it *)
Theorem C48_corners_span : forall b bx, ok_box bx -> forall p, aabb bx p <-> hull (map pos (Box_GetCorners (L:=RL) b bx)) p.
Proof. exact box_is_hull. Qed.
Theorem C48_contains_oriented_box : forall b bx o, ok_box bx -> ok_obox o ->
  exists v, Box_ContainsOrientedBox (L:=RL) b bx o = Some v /\ (v = CONTAINS <-> subset (obb o) (aabb bx)) /\ (v = DISJOINT -> ~ meets (aabb bx) (obb o)).
Proof. exact box_obox. Qed.
Example C48_ex : let A := MkBox (F3 0 0 0) (F3 1 2 3) in let B := MkBox (F3 1 1 1) (F3 1 1 1) in
  ok_box A /\ ok_box B /\ pos3 (bx_Extents A) /\ meets (aabb A) (aabb B) /\ ~ subset (aabb B) (aabb A).
Proof.
  cbv zeta. unfold ok_box, nonneg3, pos3; cbn. split; [lra|]. split; [lra|]. split; [lra|]. split.
  - exists (Q 1 1 1 0). unfold aabb, within, minus, pos; cbn. split; repeat split; apply abs_le_iff; lra.
  - intros H. specialize (H (Q 2 1 1 0)). unfold aabb, within, minus, pos in H; cbn in H. rewrite !abs_le_iff in H. lra.
Qed.

(** ** C49 *)
(** a matrix whose three rows are orthogonal: rotations with a scale per axis, and translations *)
Theorem C49_sphere_matrix_partial : forall b s M, ok_sphere s -> ortho_rows M -> covers (ball s) (xform M) (ball (Sphere_TransformMatrix (L:=RL) b s M)).
Proof. exact sphere_matrix. Qed.
(** for general affine maps the claim is false: the radius is scaled by the longest row *)
Theorem C49_sphere_matrix_refuted : forall b, exists s M, ok_sphere s /\ ~ covers (ball s) (xform M) (ball (Sphere_TransformMatrix (L:=RL) b s M)).
Proof. exact sheared_sphere. Qed.
Theorem C49_sphere_decomposed : forall b s k q t, ok_sphere s -> 0 <= k -> unitq q ->
  covers (ball s) (similar k q t) (ball (Sphere_TransformDecomposed (L:=RL) b s k q t)).
Proof. exact sphere_decomposed. Qed.
(** boxes: every matrix *)
Theorem C49_box_matrix : forall b bx M, ok_box bx -> covers (aabb bx) (xform M) (aabb (Box_TransformMatrix (L:=RL) b bx M)).
Proof. exact box_matrix. Qed.
Theorem C49_box_decomposed : forall b bx k q t, ok_box bx -> unitq q ->
  exists m, Box_TransformDecomposed (L:=RL) b bx k q t = Some m /\ covers (aabb bx) (similar k q t) (aabb m).
Proof. exact box_decomposed. Qed.
Theorem C49_oriented_box_decomposed : forall b o k q t, ok_obox o -> 0 <= k -> unitq q ->
  exists m, OBox_TransformDecomposed (L:=RL) b o k q t = Some m /\ ok_obox m /\ covers (obb o) (similar k q t) (obb m).
Proof. exact obox_decomposed. Qed.
(** rotation, uniform scale [k] and translation *)
Theorem C49_oriented_box_matrix_partial : forall b o k Rm t M, ok_obox o -> 0 < k -> rotation Rm ->
  qx M = scale k (qx Rm) -> qy M = scale k (qy Rm) -> qz M = scale k (qz Rm) -> qw M = t ->
  exists m, OBox_TransformMatrix (L:=RL) b o M = Some m /\ ok_obox m /\ covers (obb o) (xform M) (obb m).
Proof. exact obox_matrix. Qed.
(** a scale per axis is applied to the extents in the box's own frame: false in general *)
Theorem C49_oriented_box_matrix_refuted : forall b, exists o M, ok_obox o /\ ortho_rows M /\
  exists m, OBox_TransformMatrix (L:=RL) b o M = Some m /\ ~ covers (obb o) (xform M) (obb m).
Proof. exact stretched_box. Qed.
Example C49_ex : ortho_rows stretch /\ ok_obox thin /\ rotation ident /\ unitq (Q 0 (3/5) 0 (4/5)).
Proof.
  split; [unfold ortho_rows, stretch, dot3; cbn [qx qy qz]; lra|]. split; [exact thin_ok|]. split; [exact ident_rotation|].
  unfold unitq, dot4; cbn [qx qy qz qw]; lra.
Qed.

(** ** C50 *)
Theorem C50_contains_point : forall b o p, ok_obox o ->
  (OBox_ContainsPoint (L:=RL) b o p = CONTAINS <-> obb o p) /\ (OBox_ContainsPoint (L:=RL) b o p = DISJOINT <-> ~ obb o p).
Proof. exact obox_point. Qed.
Theorem C50_intersects_sphere : forall b o s, ok_obox o -> ok_sphere s ->
  exists r, OBox_IntersectsSphere (L:=RL) b o s = Some r /\ (r = true <-> meets (obb o) (ball s)).
Proof. exact obox_meets_sphere. Qed.
Theorem C50_contains_sphere : forall b o s, ok_obox o -> ok_sphere s ->
  exists v, OBox_ContainsSphere (L:=RL) b o s = Some v /\ (v = CONTAINS <-> subset (ball s) (obb o)) /\ (v = DISJOINT <-> ~ meets (obb o) (ball s)).
Proof. exact obox_sphere. Qed.
Theorem C50_sharing_boxes_intersect : forall b A B, ok_obox A -> ok_obox B -> meets (obb A) (obb B) -> OBox_IntersectsOrientedBox (L:=RL) b A B = Some true.
Proof. exact obox_hit. Qed.
Theorem C50_sharing_box_intersects : forall b o bx, ok_obox o -> ok_box bx -> meets (obb o) (aabb bx) ->
  OBox_IntersectsBox (L:=RL) b o bx = Some true /\ Box_IntersectsOrientedBox (L:=RL) b bx o = Some true.
Proof. exact obox_hit_box. Qed.
Theorem C50_contains_oriented_box : forall b A B, ok_obox A -> ok_obox B ->
  exists v, OBox_ContainsOrientedBox (L:=RL) b A B = Some v /\ (v = CONTAINS <-> subset (obb B) (obb A)) /\ (v = DISJOINT -> ~ meets (obb A) (obb B)).
Proof. exact obox_obox. Qed.
Theorem C50_contains_box : forall b o bx, ok_obox o -> ok_box bx ->
  exists v, OBox_ContainsBox (L:=RL) b o bx = Some v /\ (v = CONTAINS <-> subset (aabb bx) (obb o)) /\ (v = DISJOINT -> ~ meets (obb o) (aabb bx)).
Proof. exact obox_box. Qed.
Theorem C50_corners_span : forall b o, ok_obox o -> exists l, OBox_GetCorners (L:=RL) b o = Some l /\ forall p, obb o p <-> hull (map pos l) p.
Proof. exact obox_is_hull. Qed.
Example C50_ex : ok_obox thin /\ ok_obox (MkOBox (F3 0 1 0) (F3 1 1 1) (Q (3/5) 0 0 (4/5))) /\ ok_sphere (MkSphere (F3 1 1 1) 1)
  /\ meets (obb thin) (obb thin).
Proof.
  split; [exact thin_ok|]. split; [split; [unfold nonneg3; cbn; lra|unfold unitq, dot4; cbn [ob_Orientation qx qy qz qw]; lra]|].
  split; [unfold ok_sphere; cbn; lra|]. exists (pos (ob_Center thin)). split; apply obox_nonempty, thin_ok.
Qed.

(** ** C51 *)
(** from outside the reported distance is that of the first hit; from inside it is that of the exit *)
Theorem C51_sphere_partial : forall b s o d, ok_sphere s -> unit3 d ->
  exists r, Sphere_IntersectsRay (L:=RL) b s o d = Some r /\
  (fst r = true <-> exists t, hits o d (ball s) t) /\
  (fst r = true -> ~ ball s o -> first_hit o d (ball s) (snd r)) /\
  (ball s o -> hits o d (ball s) (snd r) /\ forall t, hits o d (ball s) t -> t <= snd r).
Proof. exact sphere_ray. Qed.
Theorem C51_sphere_from_inside_refuted : forall b, exists s o d r, ok_sphere s /\ unit3 d /\ Sphere_IntersectsRay (L:=RL) b s o d = Some r /\
  fst r = true /\ ~ first_hit o d (ball s) (snd r).
Proof. exact inside_sphere_ray. Qed.
(** a direction has no component below the code's parallelism threshold other than zero *)
Theorem C51_box_partial : forall b bx o d, ok_box bx -> unit3 d -> clear_dir d ->
  exists r, Box_IntersectsRay (L:=RL) b bx o d = Some r /\ ray_ok (aabb bx) o d r.
Proof. exact box_ray. Qed.
Theorem C51_oriented_box_partial : forall b ob o d, ok_obox ob -> unit3 d -> clear_dir (qrot (conj (ob_Orientation ob)) d) ->
  exists r, OBox_IntersectsRay (L:=RL) b ob o d = Some r /\ ray_ok (obb ob) o d r.
Proof. exact obox_ray. Qed.
(** from inside a box the distance reported is negative *)
Theorem C51_box_from_inside_refuted : forall b, exists bx o d r, ok_box bx /\ unit3 d /\ clear_dir d /\ Box_IntersectsRay (L:=RL) b bx o d = Some r /\
  fst r = true /\ snd r < 0.
Proof. exact inside_box_ray. Qed.
(** a ray with a tiny component misses a box it enters, at a distance far below the largest binary32 number *)
Theorem C51_box_shallow_refuted : forall b, exists bx o d r t, ok_box bx /\ unit3 d /\ Box_IntersectsRay (L:=RL) b bx o d = Some r /\
  fst r = false /\ hits o d (aabb bx) t /\ t <= IZR (2 ^ 70).
Proof. exact shallow_ray. Qed.
Example C51_ex : unit3 (Q (3/5) (4/5) 0 0) /\ clear_dir (Q (3/5) (4/5) 0 0) /\ ok_box (MkBox (F3 5 5 0) (F3 1 1 1))
  /\ hits (Q 2 1 0 0) (Q (3/5) (4/5) 0 0) (aabb (MkBox (F3 5 5 0) (F3 1 1 1))) 5.
Proof.
  split; [unfold unit3, dot3; cbn [qx qy qz]; lra|]. split; [exact clear_34|]. split; [unfold ok_box, nonneg3; cbn; lra|].
  split; [lra|]. unfold aabb, within, ray_at, minus, plus, scale, pos; cbn. repeat split; apply abs_le_iff; lra.
Qed.

(** ** C52 *)
Theorem C52_sphere_plane : forall b s P, ok_sphere s -> unit3 P -> exists v, Sphere_IntersectsPlane (L:=RL) b s P = Some v /\ side_ok P (ball s) v.
Proof. exact sphere_plane. Qed.
Theorem C52_box_plane : forall b bx P, ok_box bx -> unit3 P -> exists v, Box_IntersectsPlane (L:=RL) b bx P = Some v /\ side_ok P (aabb bx) v.
Proof. exact box_plane. Qed.
Theorem C52_oriented_box_plane : forall b o P, ok_obox o -> unit3 P -> exists v, OBox_IntersectsPlane (L:=RL) b o P = Some v /\ side_ok P (obb o) v.
Proof. exact obox_plane. Qed.
Theorem C52_sphere_six : forall b s P0 P1 P2 P3 P4 P5, ok_sphere s -> Forall unit3 (P0 :: P1 :: P2 :: P3 :: P4 :: P5 :: nil)%list ->
  six_ok (ball s) (P0 :: P1 :: P2 :: P3 :: P4 :: P5 :: nil)%list (Sphere_ContainedBy (L:=RL) b s P0 P1 P2 P3 P4 P5).
Proof. exact sphere_six. Qed.
Theorem C52_box_six : forall b bx P0 P1 P2 P3 P4 P5, ok_box bx ->
  six_ok (aabb bx) (P0 :: P1 :: P2 :: P3 :: P4 :: P5 :: nil)%list (Box_ContainedBy (L:=RL) b bx P0 P1 P2 P3 P4 P5).
Proof. exact box_six. Qed.
Theorem C52_oriented_box_six : forall b o P0 P1 P2 P3 P4 P5, ok_obox o ->
  exists v, OBox_ContainedBy (L:=RL) b o P0 P1 P2 P3 P4 P5 = Some v /\ six_ok (obb o) (P0 :: P1 :: P2 :: P3 :: P4 :: P5 :: nil)%list v.
Proof. exact obox_six. Qed.
Example C52_ex : unit3 (Q (3/5) 0 (4/5) 2) /\ strictly_front (Q 1 0 0 (-1)) (aabb (MkBox (F3 5 0 0) (F3 3 1 1)))
  /\ Forall unit3 (Q 1 0 0 0 :: Q 0 1 0 0 :: Q 0 0 1 0 :: Q (-1) 0 0 0 :: Q 0 (-1) 0 0 :: Q 0 0 (-1) 0 :: nil)%list.
Proof.
  split; [unfold unit3, dot3; cbn [qx qy qz]; lra|]. split.
  - intros p (h & _). unfold minus, pos in h; cbn in h. apply abs_le_iff in h. unfold plane_at, dot3; cbn [qx qy qz qw]. lra.
  - repeat (apply Forall_cons; [unfold unit3, dot3; cbn [qx qy qz]; lra|]). apply Forall_nil.
Qed.
