(** C71: the bounding-volume tests on bit patterns. [holdsBox], [holdsSphere], [holdsN] say which real volume or vector the binary32
    fields hold; [stretch], [padded], [swollen], [side_near], [six_near] are the volumes and the planes moved by the rounding error.
    Every statement is for every backend. *)
From Coq Require Import Reals ZArith Lra Lia List.
From Flocq Require Import Core.
From Verif Require Import Base F32 F32Facts Intrin Lane MVec MCollide Shapes SpecF32 SpecGeom SpecMat SpecShape SpecErr SpecTol PFloat PErr PFix PCollF PSphF PPlaneF.
Import ListNotations.
Open Scope R_scope.

(** a point of the box is always reported inside, and a point reported inside is in the box stretched by 2^-24 *)
Theorem C71_box_point : forall b B P bx p, holdsBox B bx -> holds3 P p -> ok_box bx ->
  (aabb bx p -> Box_ContainsPoint (L:=FL) b B P = CONTAINS) /\ (Box_ContainsPoint (L:=FL) b B P = CONTAINS -> aabb (stretch ulp_half bx) p).
Proof. exact box_point_f. Qed.
(** boxes that meet are always reported as meeting *)
Theorem C71_box_box : forall b A B a c, holdsBox A a -> holdsBox B c -> ok_box a -> ok_box c ->
  (meets (aabb a) (aabb c) -> Box_IntersectsBox (L:=FL) b A B = true) /\
  (Box_IntersectsBox (L:=FL) b A B = true -> meets (aabb (padded ulp_half 0 a)) (aabb (padded ulp_half 0 c))).
Proof. exact box_box_f. Qed.
Theorem C71_box_contains_box : forall b A B a c, holdsBox A a -> holdsBox B c -> ok_box a -> ok_box c ->
  (Box_ContainsBox (L:=FL) b A B = DISJOINT -> ~ meets (aabb a) (aabb c)) /\
  (subset (aabb c) (aabb a) -> Box_ContainsBox (L:=FL) b A B = CONTAINS) /\
  (safe_box c -> Box_ContainsBox (L:=FL) b A B = CONTAINS -> subset (aabb c) (aabb (padded (3 * ulp_half) 0 a))) /\
  (Box_ContainsBox (L:=FL) b A B = INTERSECTS -> meets (aabb (padded ulp_half 0 a)) (aabb (padded ulp_half 0 c)) /\ ~ subset (aabb c) (aabb a)).
Proof. exact box_contains_f. Qed.
(** spheres: right outside a shell of relative thickness 4 or 5 half-ulps around the surface *)
Theorem C71_sphere_point : forall b S P s p, holdsSphere S s -> holds3 P p -> pow2 (-48) <= sp_Radius s <= pow2 62 -> dist p (pos (sp_Center s)) <= pow2 62 ->
  (ball (swollen (- (4 * ulp_half)) s) p -> Sphere_ContainsPoint (L:=FL) b S P = CONTAINS) /\
  (Sphere_ContainsPoint (L:=FL) b S P = CONTAINS -> ball (swollen (4 * ulp_half) s) p).
Proof. exact sphere_point_f. Qed.
Theorem C71_sphere_sphere : forall b S S' s s', holdsSphere S s -> holdsSphere S' s' -> ok_sphere s -> ok_sphere s' ->
  pow2 (-48) <= sp_Radius s + sp_Radius s' <= pow2 62 -> dist (pos (sp_Center s')) (pos (sp_Center s)) <= pow2 62 ->
  (meets (ball (swollen (- (5 * ulp_half)) s)) (ball (swollen (- (5 * ulp_half)) s')) -> Sphere_IntersectsSphere (L:=FL) b S S' = true) /\
  (Sphere_IntersectsSphere (L:=FL) b S S' = true -> meets (ball (swollen (5 * ulp_half) s)) (ball (swollen (5 * ulp_half) s'))).
Proof. exact sphere_sphere_f. Qed.
(** plane tests: the assertion on the normal passes, and the side is right up to the rounding error of the plane equation *)
Theorem C71_sphere_plane : forall b S s Z P, holdsSphere S s -> ok_sphere s -> holds4 Z P -> near_unit P -> safe (plane_mag P (pos (sp_Center s))) ->
  exists v, Sphere_IntersectsPlane (L:=FL) b S Z = Some v /\ side_near (sphere_plane_err s P) P (ball s) v.
Proof. exact sphere_plane_f. Qed.
Theorem C71_box_plane : forall b S s Z P, holdsBox S s -> ok_box s -> holds4 Z P -> near_unit P ->
  safe (plane_mag P (pos (bx_Center s))) -> safe (dot3 (pos (bx_Extents s)) (vabs P)) ->
  exists v, Box_IntersectsPlane (L:=FL) b S Z = Some v /\ side_near (box_plane_err s P) P (aabb s) v.
Proof. exact box_plane_f. Qed.
Theorem C71_sphere_six_planes : forall b S s e Z0 Z1 Z2 Z3 Z4 Z5 P0 P1 P2 P3 P4 P5, holdsSphere S s -> ok_sphere s ->
  Forall2 (fun z P => holds4 z P /\ near_unit P /\ safe (plane_mag P (pos (sp_Center s))) /\ sphere_plane_err s P <= e) [Z0; Z1; Z2; Z3; Z4; Z5] [P0; P1; P2; P3; P4; P5] ->
  six_near e (ball s) [P0; P1; P2; P3; P4; P5] (Sphere_ContainedBy (L:=FL) b S Z0 Z1 Z2 Z3 Z4 Z5).
Proof. exact sphere_six_f. Qed.
Theorem C71_box_six_planes : forall b S s e Z0 Z1 Z2 Z3 Z4 Z5 P0 P1 P2 P3 P4 P5, holdsBox S s -> ok_box s ->
  Forall2 (fun z P => holds4 z P /\ safe (plane_mag P (pos (bx_Center s))) /\ safe (dot3 (pos (bx_Extents s)) (vabs P)) /\ box_plane_err s P <= e) [Z0; Z1; Z2; Z3; Z4; Z5] [P0; P1; P2; P3; P4; P5] ->
  six_near e (aabb s) [P0; P1; P2; P3; P4; P5] (Box_ContainedBy (L:=FL) b S Z0 Z1 Z2 Z3 Z4 Z5).
Proof. exact box_six_f. Qed.

(** the tolerance is needed: a point outside a ball, and a point outside a box, are reported inside *)
Lemma int32 n : (Z.abs n <= 2 ^ 24)%Z -> is32 (f_of_Z n) (IZR n).
Proof. intros H. split; [apply enc_word|apply of_Z_exact, H]. Qed.
Lemma lit32 m e : (Z.abs m <= 2 ^ 24)%Z -> (-149 <= e <= 60)%Z -> is32 (f_lit m e) (IZR m * bpow radix2 e).
Proof. intros H K. split; [apply enc_word|apply lit_exact; assumption]. Qed.
Ltac fields := repeat match goal with
  | |- is32 _ _ => first [apply int32; lia|apply lit32; lia]
  | |- holdsSphere _ _ => unfold holdsSphere | |- holdsBox _ _ => unfold holdsBox | |- holdsF3 _ _ => unfold holdsF3
  | |- holds3 _ _ => unfold holds3 | |- holds4 _ _ => unfold holds4 | |- _ /\ _ => split end.
Theorem C71_sphere_exact_refuted : exists S s P p, holdsSphere S s /\ holds3 P p /\ ok_sphere s /\ ~ ball s p /\
  forall b, Sphere_ContainsPoint (L:=FL) b S P = CONTAINS.
Proof.
  exists (MkSphere (F3 (f_of_Z 0) (f_of_Z 0) (f_of_Z 0)) (f_of_Z 1)), (MkSphere (F3 (IZR 0) (IZR 0) (IZR 0)) (IZR 1)),
    (Q (f_of_Z 1) (f_lit 1 (-13)) (f_of_Z 0) 0%Z), (Q (IZR 1) (IZR 1 * bpow radix2 (-13)) (IZR 0) 0).
  split; [|split; [|split; [|split]]].
  - fields.
  - fields.
  - unfold ok_sphere. cbn. lra.
  - unfold ball, dist, norm3, dot3, minus, pos. cbn [qx qy qz Shapes.fx fy fz sp_Center sp_Radius]. intros H. change (bpow radix2 (-13)) with (/ 8192) in H.
    assert (K : sqrt (1 * 1) < 1) by (eapply Rlt_le_trans; [|exact H]; apply sqrt_lt_1_alt; lra). rewrite sqrt_square in K by lra. lra.
  - intros [|[|] [|] [|] [| |]]; vm_compute; reflexivity.
Qed.
Theorem C71_box_exact_refuted : exists B bx P p, holdsBox B bx /\ holds3 P p /\ ok_box bx /\ ~ aabb bx p /\
  forall b, Box_ContainsPoint (L:=FL) b B P = CONTAINS.
Proof.
  exists (MkBox (F3 (f_lit 1 (-24)) (f_of_Z 0) (f_of_Z 0)) (F3 (f_of_Z 1) (f_of_Z 1) (f_of_Z 1))), (MkBox (F3 (IZR 1 * bpow radix2 (-24)) (IZR 0) (IZR 0)) (F3 (IZR 1) (IZR 1) (IZR 1))),
    (Q (f_lit 8388609 (-23)) (f_of_Z 0) (f_of_Z 0) 0%Z), (Q (IZR 8388609 * bpow radix2 (-23)) (IZR 0) (IZR 0) 0).
  split; [|split; [|split; [|split]]].
  - fields.
  - fields.
  - unfold ok_box, nonneg3. cbn. lra.
  - unfold aabb, SpecShape.within, minus, pos. cbn [qx qy qz Shapes.fx fy fz bx_Center bx_Extents]. intros (H & _).
    change (bpow radix2 (-24)) with (/ 16777216) in H. change (bpow radix2 (-23)) with (/ 8388608) in H. apply Rabs_le_inv in H. lra.
  - intros [|[|] [|] [|] [| |]]; vm_compute; reflexivity.
Qed.

(** ** the hypotheses hold of ordinary data *)
Definition ex_box : Box Z := MkBox (F3 (f_of_Z 3) (f_of_Z (-4)) (f_of_Z 12)) (F3 (f_of_Z 1) (f_of_Z 2) (f_of_Z 3)).
Definition ex_boxR : Box R := MkBox (F3 (IZR 3) (IZR (-4)) (IZR 12)) (F3 (IZR 1) (IZR 2) (IZR 3)).
Definition ex_sph : Sphere Z := MkSphere (F3 (f_of_Z 3) (f_of_Z (-4)) (f_of_Z 12)) (f_of_Z 5).
Definition ex_sphR : Sphere R := MkSphere (F3 (IZR 3) (IZR (-4)) (IZR 12)) (IZR 5).
(** the plane 0.6 x + 0.8 y - d = 0, its normal rounded to binary32 *)
Definition ex_plane (d : Z) : quad Z := Q (f_lit 5033165 (-23)) (f_lit 13421773 (-24)) (f_of_Z 0) (f_of_Z d).
Definition ex_planeR (d : Z) : rvec := Q (IZR 5033165 * bpow radix2 (-23)) (IZR 13421773 * bpow radix2 (-24)) (IZR 0) (IZR d).
Example C71_ex_box : holdsBox ex_box ex_boxR /\ ok_box ex_boxR /\ safe_box ex_boxR.
Proof.
  split; [fields|]. unfold ok_box, nonneg3, safe_box, safe, ex_boxR. cbn [Shapes.fx fy fz bx_Center bx_Extents].
  assert (100 <= pow2 126) by (unfold pow2; cbn; lra). rewrite (Rabs_pos_eq (IZR 3)), (Rabs_pos_eq (IZR 12)), (Rabs_left (IZR (-4))) by lra. lra.
Qed.
Example C71_ex_sphere : holdsSphere ex_sph ex_sphR /\ ok_sphere ex_sphR /\ pow2 (-48) <= sp_Radius ex_sphR <= pow2 62 /\ dist (Q 3 0 12 0) (pos (sp_Center ex_sphR)) <= pow2 62.
Proof.
  split; [fields|]. unfold ok_sphere, ex_sphR. cbn [Shapes.fx fy fz sp_Center sp_Radius].
  assert (L : pow2 (-48) <= 1) by (unfold pow2; cbn; lra). assert (U : 100 <= pow2 62) by (unfold pow2; cbn; lra). split; [lra|]. split; [lra|].
  unfold dist, norm3, dot3, minus, pos. cbn [qx qy qz Shapes.fx fy fz]. replace (_ + _) with (4 * 4) by ring. rewrite sqrt_square; lra.
Qed.
Example C71_ex_plane d : (Z.abs d <= 1000)%Z -> holds4 (ex_plane d) (ex_planeR d) /\ near_unit (ex_planeR d) /\
  safe (plane_mag (ex_planeR d) (pos (sp_Center ex_sphR))) /\ safe (dot3 (pos (bx_Extents ex_boxR)) (vabs (ex_planeR d))) /\ sphere_plane_err ex_sphR (ex_planeR d) <= / 1000 /\ box_plane_err ex_boxR (ex_planeR d) <= / 1000.
Proof.
  intros Hd. assert (Ad : Rabs (IZR d) <= 1000) by (rewrite <- abs_IZR; apply IZR_le, Hd).
  assert (U : 100000 <= pow2 126) by (unfold pow2; cbn; lra). assert (T : tiny <= / 1000000) by (unfold tiny, pow2; cbn; lra).
  assert (N : Rabs (norm3 (ex_planeR d) - 1) <= / 1000000).
  { unfold norm3, dot3, ex_planeR. cbn [qx qy qz]. change (bpow radix2 (-23)) with (/ 8388608). change (bpow radix2 (-24)) with (/ 16777216).
    assert (B : 1 - / 1000000 <= sqrt ((1 - / 1000000) * (1 - / 1000000)) /\ sqrt ((1 + / 1000000) * (1 + / 1000000)) <= 1 + / 1000000) by (rewrite !sqrt_square by lra; lra).
    destruct B as (B1 & B2). apply Rabs_le. split.
    - assert (sqrt ((1 - / 1000000) * (1 - / 1000000)) <= sqrt (IZR 5033165 * / 8388608 * (IZR 5033165 * / 8388608) + IZR 13421773 * / 16777216 * (IZR 13421773 * / 16777216) + IZR 0 * IZR 0)) by (apply sqrt_le_1_alt; lra). lra.
    - assert (sqrt (IZR 5033165 * / 8388608 * (IZR 5033165 * / 8388608) + IZR 13421773 * / 16777216 * (IZR 13421773 * / 16777216) + IZR 0 * IZR 0) <= sqrt ((1 + / 1000000) * (1 + / 1000000))) by (apply sqrt_le_1_alt; lra). lra. }
  assert (M : plane_mag (ex_planeR d) (pos (sp_Center ex_sphR)) <= 2000).
  { unfold plane_mag, dot4, vabs, point, pos, ex_planeR, ex_sphR. cbn [qx qy qz qw Shapes.fx fy fz sp_Center]. change (bpow radix2 (-23)) with (/ 8388608). change (bpow radix2 (-24)) with (/ 16777216).
    rewrite (Rabs_pos_eq (IZR 3)), (Rabs_left (IZR (-4))), (Rabs_pos_eq (IZR 12)), (Rabs_pos_eq (IZR 0)), (Rabs_pos_eq 1), (Rabs_pos_eq (IZR 5033165 * _)), (Rabs_pos_eq (IZR 13421773 * _)) by lra. lra. }
  assert (X : dot3 (pos (bx_Extents ex_boxR)) (vabs (ex_planeR d)) <= 10).
  { unfold dot3, vabs, pos, ex_planeR, ex_boxR. cbn [qx qy qz qw Shapes.fx fy fz bx_Extents]. change (bpow radix2 (-23)) with (/ 8388608). change (bpow radix2 (-24)) with (/ 16777216).
    rewrite (Rabs_pos_eq (IZR 0)), (Rabs_pos_eq (IZR 5033165 * _)), (Rabs_pos_eq (IZR 13421773 * _)) by lra. lra. }
  split; [fields|]. split; [unfold near_unit; lra|]. unfold safe. split; [lra|]. split; [lra|].
  unfold sphere_plane_err, box_plane_err. change (bx_Center ex_boxR) with (sp_Center ex_sphR). set (m := plane_mag _ _) in *. set (x := dot3 _ _) in *. change (sp_Radius ex_sphR) with 5. unfold ulp_half. split; lra.
Qed.
(** the sphere is in front of the plane at -100, behind the one at 100 and cut by the one at 0, on every backend *)
Example C71_ex_sides : forall b, Sphere_IntersectsPlane (L:=FL) b ex_sph (ex_plane 100) = Some FRONT /\ Sphere_IntersectsPlane (L:=FL) b ex_sph (ex_plane (-100)) = Some BACK /\
  Sphere_IntersectsPlane (L:=FL) b ex_sph (ex_plane 0) = Some INTERSECTING.
Proof. intros [|[|] [|] [|] [| |]]; vm_compute; auto. Qed.
Example C71_ex_six : six_near (/ 1000) (ball ex_sphR) (map ex_planeR [-100; -90; -80; -70; -60; -50]%Z)
  (Sphere_ContainedBy (L:=FL) Scalar ex_sph (ex_plane (-100)) (ex_plane (-90)) (ex_plane (-80)) (ex_plane (-70)) (ex_plane (-60)) (ex_plane (-50))).
Proof.
  destruct C71_ex_sphere as (H & O & _). apply C71_sphere_six_planes; [exact H|exact O|].
  assert (K : forall d, (Z.abs d <= 1000)%Z -> holds4 (ex_plane d) (ex_planeR d) /\ near_unit (ex_planeR d) /\ safe (plane_mag (ex_planeR d) (pos (sp_Center ex_sphR))) /\
    sphere_plane_err ex_sphR (ex_planeR d) <= / 1000) by (intros d Hd; pose proof (C71_ex_plane d Hd); tauto).
  repeat (apply Forall2_cons; [apply K; lia|]). apply Forall2_nil.
Qed.
