(** C51 to C55 for triangles and frusta, over the reals and on every backend [b]. *)
From Coq Require Import Reals Lra List ZArith.
From Verif Require Import Base F32 Intrin Lane MVec MTrig MQuat MInterp MPlane MMatrix Shapes MCollide MFrustum.
From Verif Require Import SpecGeom SpecQuat SpecMat SpecShape PReal PVec PQuat PShape PSphere PSide PHull PBox POBox PSat PSolid PRay PColl.
From Verif Require Import PTri PTriBox PTriTri PFrust PFrustSat PView PFrustSph PFrustMake PFrustRay.
Open Scope R_scope.

(** ** C47 and C49, frusta *)
Theorem C47_sphere_from_frustum : forall b f, ok_frustum f -> exists s, Sphere_CreateFromFrustum (L:=RL) b f = Some s /\ subset (frust f) (ball s) /\ ok_sphere s.
Proof. exact sphere_of_frust. Qed.
Theorem C49_frustum_decomposed : forall b f k q t, ok_frustum f -> 0 <= k -> unitq q ->
  exists m, Frustum_TransformDecomposed (L:=RL) b f k q t = Some m /\ ok_frustum m /\ covers (frust f) (similar k q t) (frust m).
Proof. exact frust_decomposed. Qed.
(** Missing from the full claim: matrices that scale the axes differently. The code applies the largest of the three scales
    to the depths only. *)
Theorem C49_frustum_matrix_partial : forall b f k Rm t M, ok_frustum f -> 0 < k -> rotation Rm ->
  qx M = scale k (qx Rm) -> qy M = scale k (qy Rm) -> qz M = scale k (qz Rm) -> qw M = t ->
  exists m, Frustum_TransformMatrix (L:=RL) b f M = Some m /\ ok_frustum m /\ covers (frust f) (xform M) (frust m).
Proof. exact frust_matrix. Qed.

(** ** C51, triangles *)
(** Missing from the full claim: triangles and rays whose determinant is below the code's threshold 1e-20. The claim fails
    for them, see below. *)
Theorem C51_triangle_partial : forall b V0 V1 V2 o d, unit3 d -> ray_epsilon <= Rabs (volume d (minus V1 V0) (minus V2 V0)) ->
  exists r, Triangle_IntersectsRay (L:=RL) b o d V0 V1 V2 = Some r /\
    (fst r = true <-> exists t, hits o d (tri V0 V1 V2) t) /\ (fst r = true -> first_hit o d (tri V0 V1 V2) (snd r)).
Proof. exact tri_ray. Qed.
(** a triangle with edges of length 2^-34 is missed by a ray through it *)
Theorem C51_tiny_triangle_refuted : forall b, exists V0 V1 V2 o d t, nonflat V0 V1 V2 /\ unit3 d /\
  Triangle_IntersectsRay (L:=RL) b o d V0 V1 V2 = Some (false, 0) /\ hits o d (tri V0 V1 V2) t.
Proof. exact tiny_tri. Qed.
Example C51_ex_triangle : unit3 (Q 0 0 1 0) /\ ray_epsilon <= Rabs (volume (Q 0 0 1 0) (minus (Q 1 0 5 0) (Q 0 0 5 0)) (minus (Q 0 1 5 0) (Q 0 0 5 0)))
  /\ hits (Q (1/4) (1/4) 0 0) (Q 0 0 1 0) (tri (Q 0 0 5 0) (Q 1 0 5 0) (Q 0 1 5 0)) 5.
Proof.
  split; [unfold unit3, dot3; cbn [qx qy qz]; lra|]. split.
  - replace (volume _ _ _) with (-1) by (unfold volume, dot3, cross, minus; cbn [qx qy qz]; ring). rewrite Rabs_left by lra. pose proof eps_small. lra.
  - split; [lra|]. exists (1/2), (1/4), (1/4). unfold eq3, ray_at, plus, scale; cbn [qx qy qz]. repeat split; lra.
Qed.

(** a ray and a frustum; the hypothesis asks that the ray be parallel to a face or not nearly so. From inside the distance
    is 0. Missing from the full claim: the nearly parallel rays, see C51_box_shallow_refuted for what goes wrong there. *)
Theorem C51_frustum_partial : forall b f o d, unitq (fr_Orientation f) -> Forall (fun P => clear_of (dot3 P d)) (Frustum_GetPlanes (L:=RL) b f) ->
  exists r, Frustum_IntersectsRay (L:=RL) b f o d = Some r /\ ray_ok (frust f) o d r /\ (frust f o -> r = (true, 0)).
Proof. exact frust_ray. Qed.
Example C51_ex_frustum : ok_frustum squint /\ Forall (fun P => clear_of (dot3 P (Q 0 0 1 0))) (Frustum_GetPlanes (L:=RL) Scalar squint)
  /\ first_hit (Q 0 0 0 0) (Q 0 0 1 0) (frust squint) 1.
Proof.
  split; [unfold ok_frustum, squint, unitq, dot4; cbn; repeat split; lra|]. split; [apply squint_clear|].
  assert (E : forall t, frust squint (ray_at (Q 0 0 0 0) (Q 0 0 1 0) t) <-> in_slopes squint (ray_at (Q 0 0 0 0) (Q 0 0 1 0) t)) by (intros; apply home_frust; reflexivity).
  split; [split; [lra|]|intros t' (_ & H)]; [apply E|apply E in H]; unfold in_slopes, ray_at, plus, scale, squint in *; cbn in *; lra.
Qed.

(** ** C52, triangles and frusta *)
Theorem C52_triangle_plane : forall b V0 V1 V2 P, unit3 P -> exists v, Triangle_IntersectsPlane (L:=RL) b V0 V1 V2 P = Some v /\ side_ok P (tri V0 V1 V2) v.
Proof. exact tri_plane. Qed.
Theorem C52_triangle_six : forall b V0 V1 V2 P0 P1 P2 P3 P4 P5,
  six_ok (tri V0 V1 V2) (P0 :: P1 :: P2 :: P3 :: P4 :: P5 :: nil)%list (Triangle_ContainedBy (L:=RL) b V0 V1 V2 P0 P1 P2 P3 P4 P5).
Proof. exact tri_six. Qed.
Theorem C52_frustum_plane : forall b f P, ok_frustum f -> unit3 P -> exists v, Frustum_IntersectsPlane (L:=RL) b f P = Some v /\ side_ok P (frust f) v.
Proof. exact frust_plane. Qed.
Theorem C52_frustum_six : forall b f P0 P1 P2 P3 P4 P5, ok_frustum f -> exists v, Frustum_ContainedBy (L:=RL) b f P0 P1 P2 P3 P4 P5 = Some v /\
  six_ok (frust f) (P0 :: P1 :: P2 :: P3 :: P4 :: P5 :: nil)%list v.
Proof. exact frust_six. Qed.
(** a frustum that is neither axis-aligned nor at the origin *)
Definition slanted : Frustum R := MkFrustum (F3 1 2 3) (Q 0 0 (3/5) (4/5)) 1 (-1/2) 1 (-1) 1 4.
Lemma slanted_ok : ok_frustum slanted.
Proof. split; [unfold unitq, dot4; cbn; lra|cbn; lra]. Qed.
Example C52_ex_frustum : ok_frustum slanted /\ unit3 (Q 0 0 1 (-4)) /\ ~ strictly_front (Q 0 0 1 (-5)) (frust slanted) /\ ~ strictly_back (Q 0 0 1 (-5)) (frust slanted).
Proof.
  split; [exact slanted_ok|]. split; [unfold unit3, dot3; cbn [qx qy qz]; lra|].
  assert (K : forall z, 1 <= z <= 4 -> frust slanted (Q 1 2 (3 + z) 0)).
  { intros z Hz. exists (Q 0 0 z 0). split; [unfold in_slopes; cbn; lra|]. unfold eq3. cbn [fr_Orientation fr_Origin slanted]. qs. unfold pos; cbn [fx fy fz]. qs. repeat split; lra. }
  split; intros H; [specialize (H _ (K 1 ltac:(lra)))|specialize (H _ (K 4 ltac:(lra)))]; unfold plane_at, dot3 in H; cbn [qx qy qz qw] in H; lra.
Qed.

(** ** C53 *)
Theorem C53_contains_point : forall b f p, unitq (fr_Orientation f) -> exists r, Frustum_ContainsPoint (L:=RL) b f p = Some r /\ (r = CONTAINS <-> frust f p) /\ (r = DISJOINT <-> ~ frust f p).
Proof. exact in_frust_q. Qed.
(** the eight corners are in the frustum, which is their convex hull *)
Theorem C53_corners : forall b f, ok_frustum f -> exists Cs, Frustum_GetCorners (L:=RL) b f = Some Cs /\
  (length Cs = 8)%nat /\ Forall (fun c => frust f (pos c)) Cs /\ (forall p, frust f p <-> hull (map pos Cs) p).
Proof. exact corners_R. Qed.
(** the six planes are normalized and the frustum is the intersection of the half-spaces behind them *)
Theorem C53_planes : forall b f, unitq (fr_Orientation f) -> Forall unit3 (Frustum_GetPlanes (L:=RL) b f) /\
  forall p, frust f p <-> Forall (fun P => plane_at P p <= 0) (Frustum_GetPlanes (L:=RL) b f).
Proof. exact planes_R. Qed.
Theorem C53_contains_sphere : forall b f s, ok_frustum f -> ok_sphere s -> let v := Frustum_ContainsSphere (L:=RL) b f s in
  (v = CONTAINS -> subset (ball s) (frust f)) /\ (v = DISJOINT -> ~ meets (frust f) (ball s)).
Proof. exact frust_has_sphere. Qed.
Theorem C53_contains_box : forall b f bx, ok_frustum f -> ok_box bx -> let v := Frustum_ContainsBox (L:=RL) b f bx in
  (v = CONTAINS -> subset (aabb bx) (frust f)) /\ (v = DISJOINT -> ~ meets (frust f) (aabb bx)).
Proof. exact frust_has_box. Qed.
Theorem C53_contains_triangle : forall b f V0 V1 V2, ok_frustum f -> let v := Frustum_ContainsTriangle (L:=RL) b f V0 V1 V2 in
  (v = CONTAINS -> subset (tri V0 V1 V2) (frust f)) /\ (v = DISJOINT -> ~ meets (frust f) (tri V0 V1 V2)).
Proof. exact frust_has_tri. Qed.
Theorem C53_contains_oriented_box : forall b f o, ok_frustum f -> ok_obox o -> exists v, Frustum_ContainsOrientedBox (L:=RL) b f o = Some v /\
  (v = CONTAINS -> subset (obb o) (frust f)) /\ (v = DISJOINT -> ~ meets (frust f) (obb o)).
Proof. exact frust_has_obox. Qed.
Theorem C53_contains_frustum : forall b f g, ok_frustum f -> ok_frustum g -> exists v, Frustum_ContainsFrustum (L:=RL) b f g = Some v /\
  (v = CONTAINS -> subset (frust g) (frust f)) /\ (v = DISJOINT -> ~ meets (frust f) (frust g)).
Proof. exact frust_has_frust. Qed.
(** the frustum read off a perspective matrix is the one that the matrix maps to normalised device coordinates *)
Theorem C53_from_perspective_off_center_lh : forall b l r bt t n f M, XMMatrixPerspectiveOffCenterLH (L:=RL) b l r bt t n f = Some M ->
  let F := Frustum_CreateFromMatrix (L:=RL) b M false in
  (forall p, frust F p <-> in_frustum l r bt t n f (qx p) (qy p) (qz p)) /\ (n <= f -> l <= r -> bt <= t -> ok_frustum F).
Proof. exact from_off_lh. Qed.
Theorem C53_from_perspective_off_center_rh : forall b l r bt t n f M, XMMatrixPerspectiveOffCenterRH (L:=RL) b l r bt t n f = Some M ->
  let F := Frustum_CreateFromMatrix (L:=RL) b M true in
  (forall p, frust F p <-> in_frustum l r bt t n f (qx p) (qy p) (- qz p)) /\ unitq (fr_Orientation F).
Proof. exact from_off_rh. Qed.
Theorem C53_from_perspective_lh : forall b w h n f M, XMMatrixPerspectiveLH (L:=RL) b w h n f = Some M ->
  let F := Frustum_CreateFromMatrix (L:=RL) b M false in
  (forall p, frust F p <-> in_frustum (- w / 2) (w / 2) (- h / 2) (h / 2) n f (qx p) (qy p) (qz p)) /\ (n <= f -> 0 <= w -> 0 <= h -> ok_frustum F).
Proof. exact from_persp_lh. Qed.
Theorem C53_from_perspective_rh : forall b w h n f M, XMMatrixPerspectiveRH (L:=RL) b w h n f = Some M ->
  let F := Frustum_CreateFromMatrix (L:=RL) b M true in
  (forall p, frust F p <-> in_frustum (- w / 2) (w / 2) (- h / 2) (h / 2) n f (qx p) (qy p) (- qz p)) /\ unitq (fr_Orientation F).
Proof. exact from_persp_rh. Qed.
Theorem C53_slopes_and_distances : forall b l r bt t n f M, XMMatrixPerspectiveOffCenterLH (L:=RL) b l r bt t n f = Some M ->
  Frustum_CreateFromMatrix (L:=RL) b M false = MkFrustum (F3 0 0 0) (Q 0 0 0 1) (r / n) (l / n) (t / n) (bt / n) n f.
Proof. intros b l r bt t n f M (W & ->)%off_lh. exact (make_lh b l r bt t n f W). Qed.
(** a frustum inside another volume *)
Theorem C53_sphere_contains_frustum : forall b s f, ok_sphere s -> ok_frustum f -> exists r, Sphere_ContainsFrustum (L:=RL) b s f = Some r /\
  (r = CONTAINS <-> subset (frust f) (ball s)) /\ (r = DISJOINT <-> ~ meets (ball s) (frust f)).
Proof. exact sphere_has_frust. Qed.
Theorem C53_box_contains_frustum : forall b bx f, ok_box bx -> ok_frustum f -> exists r, Box_ContainsFrustum (L:=RL) b bx f = Some r /\
  (r = CONTAINS <-> subset (frust f) (aabb bx)) /\ (r = DISJOINT -> ~ meets (aabb bx) (frust f)).
Proof. exact box_has_frust. Qed.
Theorem C53_oriented_box_contains_frustum : forall b o f, ok_obox o -> ok_frustum f -> exists r, OBox_ContainsFrustum (L:=RL) b o f = Some r /\
  (r = CONTAINS <-> subset (frust f) (obb o)) /\ (r = DISJOINT -> ~ meets (obb o) (frust f)).
Proof. exact obox_has_frust. Qed.
Example C53_ex_perspective : exists M, XMMatrixPerspectiveOffCenterLH (L:=RL) Scalar (-1) 2 (-1) 1 1 10 = Some M /\ in_frustum (-1) 2 (-1) 1 1 10 4 1 3.
Proof.
  eexists. split.
  - apply off_lh. split; [|reflexivity]. unfold window_ok, eps5R. rewrite !Rabs_pos_eq by lra. lra.
  - unfold in_frustum. lra.
Qed.
Example C53_ex : ok_frustum slanted /\ frust slanted (Q 1 2 5 0) /\ ~ frust slanted (Q 1 2 3 0).
Proof.
  split; [exact slanted_ok|]. split.
  - exists (Q 0 0 2 0). split; [unfold in_slopes; cbn; lra|]. unfold eq3. cbn [fr_Orientation fr_Origin slanted]. qs. unfold pos; cbn [fx fy fz]. qs. repeat split; lra.
  - intros (l & Hl & He). revert Hl He. dq l. unfold in_slopes, eq3. cbn [slanted fr_Orientation fr_Origin fr_Near fr_Far]. qs. unfold pos; cbn [fx fy fz]. qs. cbn. lra.
Qed.

(** ** C54 *)
(** the sphere test is exact *)
Theorem C54_sphere : forall b f s, ok_frustum f -> ok_sphere s ->
  exists r, Frustum_IntersectsSphere (L:=RL) b f s = Some r /\ (r = true <-> meets (frust f) (ball s)).
Proof. exact frust_sphere. Qed.
Theorem C54_oriented_box : forall b f o, ok_frustum f -> ok_obox o -> meets (frust f) (obb o) -> Frustum_IntersectsOrientedBox (L:=RL) b f o = Some true.
Proof. exact frust_obox. Qed.
Theorem C54_box : forall b f bx, ok_frustum f -> ok_box bx -> meets (frust f) (aabb bx) -> Frustum_IntersectsBox (L:=RL) b f bx = Some true.
Proof. exact frust_box. Qed.
Theorem C54_frustum : forall b f g, ok_frustum f -> ok_frustum g -> meets (frust f) (frust g) -> Frustum_IntersectsFrustum (L:=RL) b f g = Some true.
Proof. exact frust_frust. Qed.
(** Missing from the full claim: frusta that are moved or turned. The code compares the world vertices of the triangle with
    the local corners of the frustum (lines 4437-4485), and the claim fails: see below. *)
Theorem C54_triangle_partial : forall b f V0 V1 V2, ok_frustum f -> at_home f -> meets (frust f) (tri V0 V1 V2) -> Frustum_IntersectsTriangle (L:=RL) b f V0 V1 V2 = Some true.
Proof. exact frust_tri_home. Qed.
Theorem C54_triangle_refuted : forall b, exists f V0 V1 V2, ok_frustum f /\ nonflat V0 V1 V2 /\ meets (frust f) (tri V0 V1 V2) /\
  Frustum_IntersectsTriangle (L:=RL) b f V0 V1 V2 = Some false.
Proof. exact frust_tri_missed. Qed.
Example C54_ex : ok_frustum slanted /\ ok_obox (MkOBox (F3 1 2 5) (F3 1 2 0) (Q 0 0 (3/5) (4/5))) /\ meets (frust slanted) (obb (MkOBox (F3 1 2 5) (F3 1 2 0) (Q 0 0 (3/5) (4/5))))
  /\ meets (frust slanted) (aabb (MkBox (F3 2 2 6) (F3 1 1 1)))
  /\ (let f := MkFrustum (F3 0 0 0) (Q 0 0 0 1) 1 (-1) 1 (-1) 1 2 in ok_frustum f /\ at_home f /\ meets (frust f) (tri (Q 5 0 1 0) (Q (-5) 0 1 0) (Q 0 7 2 0))).
Proof.
  split; [exact slanted_ok|]. assert (HO : ok_obox (MkOBox (F3 1 2 5) (F3 1 2 0) (Q 0 0 (3/5) (4/5)))) by (split; [unfold nonneg3; cbn; lra|unfold unitq, dot4; cbn; lra]).
  split; [exact HO|]. pose proof (proj1 (proj2 C53_ex)) as HP. split; [|split].
  - exists (Q 1 2 5 0). split; [exact HP|]. exists (Q 0 0 0 0). split; [repeat split; cbn; rewrite Rabs_R0; lra|]. unfold eq3. cbn [ob_Orientation ob_Center]. qs. unfold pos; cbn [fx fy fz]. qs. repeat split; lra.
  - exists (Q 1 2 5 0). split; [exact HP|]. unfold aabb, within, minus, pos; cbn. repeat split; apply abs_le_iff; lra.
  - cbv zeta. split; [split; [unfold unitq, dot4; cbn; lra|cbn; lra]|]. split; [split; reflexivity|]. exists (Q 0 0 1 0). split.
    + exists (Q 0 0 1 0). split; [unfold in_slopes; cbn; lra|]. unfold eq3. cbn [fr_Orientation fr_Origin]. qs. unfold pos; cbn [fx fy fz]. qs. repeat split; lra.
    + exists (1/2), (1/2), 0. unfold eq3, plus, scale; cbn [qx qy qz]. repeat split; lra.
Qed.

(** ** C55 *)
Theorem C55_sphere_triangle : forall b s V0 V1 V2, ok_sphere s -> nonflat V0 V1 V2 ->
  exists r, Sphere_IntersectsTriangle (L:=RL) b s V0 V1 V2 = Some r /\ (r = true <-> meets (ball s) (tri V0 V1 V2)).
Proof. exact sphere_tri. Qed.
Theorem C55_sphere_contains_triangle : forall b s V0 V1 V2, ok_sphere s -> nonflat V0 V1 V2 ->
  exists r, Sphere_ContainsTriangle (L:=RL) b s V0 V1 V2 = Some r /\
    (r = CONTAINS <-> subset (tri V0 V1 V2) (ball s)) /\ (r = DISJOINT <-> ~ meets (ball s) (tri V0 V1 V2)).
Proof. exact sphere_has_tri. Qed.
Theorem C55_box_triangle : forall b bx V0 V1 V2, ok_box bx -> nonflat V0 V1 V2 -> meets (aabb bx) (tri V0 V1 V2) ->
  Box_IntersectsTriangle (L:=RL) b bx V0 V1 V2 = Some true.
Proof. exact box_tri. Qed.
Theorem C55_box_contains_triangle : forall b bx V0 V1 V2, ok_box bx -> nonflat V0 V1 V2 ->
  exists r, Box_ContainsTriangle (L:=RL) b bx V0 V1 V2 = Some r /\
    (r = CONTAINS <-> subset (tri V0 V1 V2) (aabb bx)) /\ (r = DISJOINT -> ~ meets (aabb bx) (tri V0 V1 V2)).
Proof. exact box_has_tri. Qed.
Theorem C55_oriented_box_triangle : forall b o V0 V1 V2, ok_obox o -> nonflat V0 V1 V2 -> meets (obb o) (tri V0 V1 V2) -> OBox_IntersectsTriangle (L:=RL) b o V0 V1 V2 = Some true.
Proof. exact obox_tri. Qed.
Theorem C55_oriented_box_contains_triangle : forall b o V0 V1 V2, ok_obox o -> nonflat V0 V1 V2 ->
  exists r, OBox_ContainsTriangle (L:=RL) b o V0 V1 V2 = Some r /\
    (r = CONTAINS <-> subset (tri V0 V1 V2) (obb o)) /\ (r = DISJOINT -> ~ meets (obb o) (tri V0 V1 V2)).
Proof. exact obox_has_tri. Qed.
(** Missing from the full claim: triangles with a vertex in the plane of the other one (up to the code's threshold 1e-20).
    The claim fails for them in four ways, see below. *)
Theorem C55_triangle_triangle_partial : forall b A0 A1 A2 B0 B1 B2, nonflat A0 A1 A2 -> nonflat B0 B1 B2 ->
  apart (normal A0 A1 A2) A0 B0 B1 B2 -> apart (normal B0 B1 B2) B0 A0 A1 A2 ->
  exists r, Triangle_IntersectsTriangle (L:=RL) b A0 A1 A2 B0 B1 B2 = Some r /\ (r = true <-> meets (tri A0 A1 A2) (tri B0 B1 B2)).
Proof. exact tri_tri. Qed.
(** every triangle is reported disjoint from itself *)
Theorem C55_triangle_self_refuted : forall b V0 V1 V2, nonflat V0 V1 V2 -> meets (tri V0 V1 V2) (tri V0 V1 V2) /\
  Triangle_IntersectsTriangle (L:=RL) b V0 V1 V2 V0 V1 V2 = Some false.
Proof. intros b V0 V1 V2 H. split; [exists V0; split; apply tri_v0|exact (tri_tri_self b V0 V1 V2 H)]. Qed.
(** the debug assertion of the reordering fails *)
Theorem C55_triangle_panic_refuted : forall b, exists A0 A1 A2 B0 B1 B2, nonflat A0 A1 A2 /\ nonflat B0 B1 B2 /\ meets (tri A0 A1 A2) (tri B0 B1 B2) /\
  Triangle_IntersectsTriangle (L:=RL) b A0 A1 A2 B0 B1 B2 = None.
Proof. exact tri_tri_panic. Qed.
(** triangles that are not coplanar and share a point are reported disjoint, because ADistIsZero is computed from BDist (line 5274) *)
Theorem C55_triangle_missed_refuted : forall b, exists A0 A1 A2 B0 B1 B2, nonflat A0 A1 A2 /\ nonflat B0 B1 B2 /\ meets (tri A0 A1 A2) (tri B0 B1 B2) /\
  Triangle_IntersectsTriangle (L:=RL) b A0 A1 A2 B0 B1 B2 = Some false /\ ~ zero3 (cross (normal A0 A1 A2) (normal B0 B1 B2)).
Proof. exact tri_tri_missed. Qed.
(** triangles that share no point are reported as intersecting *)
Theorem C55_triangle_wrong_refuted : forall b, exists A0 A1 A2 B0 B1 B2, nonflat A0 A1 A2 /\ nonflat B0 B1 B2 /\ ~ meets (tri A0 A1 A2) (tri B0 B1 B2) /\
  Triangle_IntersectsTriangle (L:=RL) b A0 A1 A2 B0 B1 B2 = Some true.
Proof. exact tri_tri_wrong. Qed.
Example C55_ex : let V0 := Q 0 0 0 0 in let V1 := Q 2 0 0 0 in let V2 := Q 0 2 0 0 in let W0 := Q (1/2) (1/2) 1 0 in let W1 := Q (1/2) (1/2) (-1) 0 in let W2 := Q 3 5 (-2) 0 in
  nonflat V0 V1 V2 /\ nonflat W0 W1 W2 /\ apart (normal V0 V1 V2) V0 W0 W1 W2 /\ apart (normal W0 W1 W2) W0 V0 V1 V2 /\ meets (tri V0 V1 V2) (tri W0 W1 W2)
  /\ meets (ball (MkSphere (F3 1 1 1) 1)) (tri V0 V1 V2) /\ meets (aabb (MkBox (F3 0 0 1) (F3 1 1 1))) (tri V0 V1 V2).
Proof.
  cbv zeta. pose proof eps_small as ES. assert (A1 : forall x, 1 <= x -> ray_epsilon <= Rabs x) by (intros; rewrite Rabs_right; lra). assert (A2 : forall x, x <= -1 -> ray_epsilon <= Rabs x) by (intros; rewrite Rabs_left; lra).
  split; [flats|]. split; [flats|].
  split; [unfold apart, off, normal, dot3, cross, minus; cbn [qx qy qz]; repeat split; (apply A1; lra) || (apply A2; lra)|].
  split; [unfold apart, off, normal, dot3, cross, minus; cbn [qx qy qz]; repeat split; (apply A1; lra) || (apply A2; lra)|].
  split; [exists (Q (1/2) (1/2) 0 0); split; [exists (1/2), (1/4), (1/4)|exists (1/2), (1/2), 0]; unfold eq3, plus, scale; cbn [qx qy qz]; repeat split; lra|].
  split; [exists (Q 1 1 0 0); split|exists (Q 0 0 0 0); split].
  - apply dist_le; [cbn; lra|]; unfold dot3, minus, pos; cbn; lra.
  - exists 0, (1/2), (1/2). unfold eq3, plus, scale; cbn [qx qy qz]; repeat split; lra.
  - unfold aabb, within, minus, pos; cbn. repeat split; apply abs_le_iff; lra.
  - apply tri_v0.
Qed.
