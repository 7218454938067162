(** A ray and a frustum (C51): clipping the ray by the six planes. *)
From Coq Require Import Reals Lra Psatz List Bool.
From Verif Require Import Base F32 Intrin Lane MVec MTrig MQuat MInterp MPlane MMatrix Shapes MCollide MFrustum.
From Verif Require Import SpecGeom SpecQuat SpecMat SpecShape PReal PVec PQuat PRot PMatrix PPlane PShape PSphere PSide PHull PBox POBox PSat PSolid PRay PTri PTriBox PTriTri PFrust PFrustSat PFrustSph.
Open Scope R_scope.

(** the ray is behind the plane at parameter t *)
Definition kept (Q0 o d : rvec) (t : R) : Prop := plane_at Q0 o + t * dot3 Q0 d <= 0.
Lemma kept_at P o d t : plane_at P (ray_at o d t) <= 0 <-> kept P o d t.
Proof. unfold kept, plane_at, ray_at, dot3, plus, scale; cbn [qx qy qz]. split; lra. Qed.
Definition clipped (o d : rvec) (Ps : list rvec) (st : unit + R * R) : Prop :=
  match st with
  | inl _ => forall t, - flt_max <= t <= flt_max -> ~ Forall (fun P => kept P o d t) Ps
  | inr (n, m) => - flt_max <= n /\ m <= flt_max /\ n <= m /\ forall t, - flt_max <= t <= flt_max -> (Forall (fun P => kept P o d t) Ps <-> n <= t <= m)
  end.
Lemma rayeps_R : g_RayEpsilon (L:=RL) = qrep ray_epsilon.
Proof. unfold g_RayEpsilon. change (@tlit RL 1547425 (-87)) with ray_epsilon. reflexivity. Qed.
Definition clip (vn vd : R) (n m : R) : unit + R * R :=
  if Rleb (Rabs vd) ray_epsilon then if Rltb 0 vn then inl tt else inr (n, m) else
  let t := - vn / vd in
  if Rltb vd 0 then if Rltb m t then inl tt else inr (if Rltb n t then t else n, m)
  else if Rltb t n then inl tt else inr (n, if Rltb t m then t else m).
Lemma ray_step_R b f o d P n m : ray_step (L:=RL) b f o d (inr (n, m)) P = clip (plane_at (world_plane (L:=RL) b f P) o) (dot3 (world_plane (L:=RL) b f P) d) n m.
Proof.
  unfold ray_step. cbv zeta. rewrite PDotCoord_R, Dot3_R, Abs_R, rayeps_R, rep_abs, vle_rep, all3_rep, vzero_R, vgt_rep, all3_rep. unfold clip. cbn [qx qrep]. reflexivity.
Qed.
Lemma clip_ok vn vd n m : clear_of vd -> - flt_max <= n -> m <= flt_max -> n <= m ->
  match clip vn vd n m with
  | inl _ => forall t, n <= t <= m -> ~ vn + t * vd <= 0
  | inr (n', m') => n <= n' /\ m' <= m /\ n' <= m' /\ forall t, (n <= t <= m /\ vn + t * vd <= 0) <-> n' <= t <= m'
  end.
Proof.
  intros Hc Hn Hm Hnm. unfold clip. pose proof eps_pos as EP. change eps with ray_epsilon in EP. destruct Hc as [->|Hc].
  - rewrite Rabs_R0, (proj2 (Rleb_true 0 ray_epsilon)) by lra. destruct (Rltb_spec 0 vn); [intros t Ht; lra|]. repeat split; lra.
  - rewrite (proj2 (Rleb_false (Rabs vd) ray_epsilon)) by lra. assert (Hd : vd <> 0) by (intros ->; rewrite Rabs_R0 in Hc; lra).
    cbv zeta. set (x := - vn / vd). assert (E : x * vd = - vn) by (unfold x; field; assumption). clearbody x.
    destruct (Rltb_spec vd 0) as [N|N].
    + destruct (Rltb_spec m x); [intros t Ht; nra|]. destruct (Rltb_spec n x); repeat split; intros; try lra; nra.
    + assert (0 < vd) by lra. destruct (Rltb_spec x n); [intros t Ht; nra|]. destruct (Rltb_spec x m); repeat split; intros; try lra; nra.
Qed.
Lemma clip_all b f o d : forall Ps done st, Forall (fun P => clear_of (dot3 P d)) (map (world_plane (L:=RL) b f) Ps) -> clipped o d done st ->
  clipped o d (done ++ map (world_plane (L:=RL) b f) Ps) (fold_left (ray_step (L:=RL) b f o d) Ps st).
Proof.
  induction Ps as [|P Ps IH]; intros done st HC Hst; cbn [map fold_left].
  - rewrite app_nil_r. exact Hst.
  - cbn [map] in HC. apply Forall_cons_iff in HC as (HC1 & HC2). change (world_plane (L:=RL) b f P :: map (world_plane (L:=RL) b f) Ps)%list with ((world_plane (L:=RL) b f P :: nil) ++ map (world_plane (L:=RL) b f) Ps)%list.
    rewrite app_assoc. apply IH; [exact HC2|]. destruct st as [u|(n & m)].
    + change (ray_step (L:=RL) b f o d (inl u) P) with (inl u : unit + R * R). intros t Ht H. apply (Hst t Ht). apply Forall_app in H. apply H.
    + rewrite ray_step_R. destruct Hst as (h1 & h2 & h3 & h4). pose proof (clip_ok (plane_at (world_plane (L:=RL) b f P) o) (dot3 (world_plane (L:=RL) b f P) d) n m HC1 h1 h2 h3) as K.
      destruct (clip _ _ _ _) as [u|(n' & m')].
      * intros t Ht H. apply Forall_app in H as (H1 & H2). apply Forall_cons_iff in H2 as (H2 & _). apply (K t); [apply h4; assumption|exact H2].
      * destruct K as (k1 & k2 & k3 & k4). split; [lra|]. split; [lra|]. split; [lra|]. intros t Ht. rewrite <- k4, Forall_app, Forall_cons_iff, h4 by exact Ht. unfold kept. split; [tauto|]. intros (a & c). repeat split; auto; tauto.
Qed.
Lemma fltmax_pos : 0 < flt_max. Proof. apply IZR_lt. reflexivity. Qed.
Lemma frust_ray b f o d : unitq (fq f) -> Forall (fun P => clear_of (dot3 P d)) (Frustum_GetPlanes (L:=RL) b f) ->
  exists r, Frustum_IntersectsRay (L:=RL) b f o d = Some r /\ ray_ok (frust f) o d r /\ (frust f o -> r = (true, 0)).
Proof.
  intros Hq HC. destruct (in_frust_q b f o Hq) as (c & Ec & HCo & HDi). unfold Frustum_IntersectsRay. rewrite Ec. cbn [obind].
  assert (Z : ray_at o d 0 = o) by (unfold ray_at, plus, scale; dq o; cbn [qx qy qz qw]; rt; qring).
  assert (In : frust f o -> ray_ok (frust f) o d (true, 0)).
  { intros H. unfold ray_ok. cbn [fst snd]. split; [intros _; exists 0; split; [lra|rewrite Z; exact H]|]. split; [reflexivity|]. split; [contradiction|]. intros; lra. }
  assert (Out : c <> CONTAINS -> ~ frust f o) by (rewrite HCo; tauto).
  pose proof fltmax_pos as FP.
  assert (K : clipped o d (nil ++ map (world_plane (L:=RL) b f) (local_planes (L:=RL) f)) (fold_left (ray_step (L:=RL) b f o d) (local_planes (L:=RL) f) (inr (tlit (L:=RL) (-16777215) 104, tlit (L:=RL) 16777215 104)))).
  { apply clip_all; [exact HC|]. change (tlit (L:=RL) (-16777215) 104) with (- flt_max). change (tlit (L:=RL) 16777215 104) with flt_max. split; [lra|]. split; [lra|]. split; [lra|]. intros t Ht. split; [tauto|]. intros; constructor. }
  change (nil ++ map (world_plane (L:=RL) b f) (local_planes (L:=RL) f))%list with (Frustum_GetPlanes (L:=RL) b f) in K.
  assert (Fr : forall t, Forall (fun P => kept P o d t) (Frustum_GetPlanes (L:=RL) b f) <-> frust f (ray_at o d t)).
  { intros t. rewrite (proj2 (planes_R b f Hq)). split; apply Forall_impl; intros P; apply kept_at. }
  set (st := fold_left _ _ _) in *.
  assert (G : ~ frust f o -> exists r, match st with
    | inl _ => Some (false, 0)
    | inr (tnear, tfar) => let distance := if Rleb 0 tnear then tnear else tfar in Some (if Rleb 0 distance then (true, distance) else (false, 0)) end = Some r /\ ray_ok (frust f) o d r).
  { intros HO. destruct st as [u|(n & m)].
    - eexists; split; [reflexivity|]. unfold ray_ok; cbn [fst snd]. split; [discriminate|]. split; [|split; [discriminate|contradiction]].
      intros (t & (Ht & HA) & Hm). elim (K t); [lra|]. apply Fr, HA.
    - destruct K as (h1 & h2 & h3 & h4). cbv zeta.
      assert (N0 : ~ (n <= 0 <= m)) by (rewrite <- h4 by lra; rewrite Fr, Z; exact HO).
      destruct (Rleb_spec 0 n) as [P|P].
      + rewrite (proj2 (Rleb_true 0 n)) by lra. eexists; split; [reflexivity|]. unfold ray_ok; cbn [fst snd].
        assert (HN : frust f (ray_at o d n)) by (apply Fr, h4; lra).
        split; [intros _; exists n; split; assumption|]. split; [reflexivity|]. split; [|contradiction]. intros _ _. split; [split; assumption|].
        intros t (Ht & HA). destruct (Rle_or_lt t flt_max); [|lra]. apply Fr, h4 in HA; lra.
      + rewrite (proj2 (Rleb_false 0 m)) by lra. eexists; split; [reflexivity|]. unfold ray_ok; cbn [fst snd]. split; [discriminate|]. split; [|split; [discriminate|contradiction]].
        intros (t & (Ht & HA) & Hm). apply Fr, h4 in HA; lra. }
  destruct c.
  - destruct (G (Out ltac:(discriminate))) as (r & E & HR). exists r. split; [exact E|]. split; [exact HR|]. intros H. elim (Out ltac:(discriminate) H).
  - destruct (G (Out ltac:(discriminate))) as (r & E & HR). exists r. split; [exact E|]. split; [exact HR|]. intros H. elim (Out ltac:(discriminate) H).
  - exists (true, 0). split; [reflexivity|]. split; [apply In, HCo; reflexivity|reflexivity].
Qed.

(** a ray down the middle of a frustum *)
Definition squint : Frustum R := MkFrustum (F3 0 0 0) (Q 0 0 0 1) (3/4) (-3/4) (3/4) (-3/4) 1 10.
Lemma squint_clear b : Forall (fun P => clear_of (dot3 P (Q 0 0 1 0))) (Frustum_GetPlanes (L:=RL) b squint).
Proof.
  assert (E : forall P m, 0 < m <= 2 -> dot3 P P = m * m -> 1/2 <= Rabs (qz P) -> clear_of (dot3 (world_plane (L:=RL) b squint P) (Q 0 0 1 0))).
  { intros P m Hm Hd Hz. unfold world_plane. l3. rewrite plane_transform_R.
    assert (EM : moved (fr_Orientation squint) (pos (fr_Origin squint)) P = P).
    { dq P. cbn [squint fr_Orientation fr_Origin]. unfold moved. qs. unfold pos; cbn [fx fy fz]. qs. qring. }
    rt. rewrite EM. assert (NZ : ~ zero3 P) by (intros Z; apply zero3_dot in Z; nra). rewrite PNorm_R by exact NZ.
    assert (EN : norm3 P = m) by (unfold norm3; rewrite Hd; apply sqrt_square; lra). rewrite EN. right.
    replace (dot3 (scale (/ m) P) (Q 0 0 1 0)) with (/ m * qz P) by (unfold dot3, scale; cbn [qx qy qz]; ring).
    rewrite Rabs_mult, Rabs_pos_eq by (apply Rlt_le, Rinv_0_lt_compat; lra).
    assert (1/2 <= / m) by (replace (1/2) with (/2) by lra; apply Rinv_le_contravar; lra). unfold ray_epsilon. assert (IZR 1547425 / IZR (2 ^ 87) < 1 / 4) by (cbv [Z.pow Z.pow_pos Pos.iter Z.mul Pos.mul]; lra). nra. }
  unfold Frustum_GetPlanes, local_planes, NearPlane, FarPlane, RightPlane, LeftPlane, TopPlane, BottomPlane. cbn [squint fr_Near fr_Far fr_RightSlope fr_LeftSlope fr_TopSlope fr_BottomSlope map]. ro.
  change (@mone RL) with (-1). change (@zero RL) with 0. change (@one RL) with 1.
  assert (A : forall x, 1/2 <= x \/ x <= -1/2 -> 1/2 <= Rabs x) by (intros x; unfold Rabs; destruct (Rcase_abs x); lra).
  repeat apply Forall_cons; try apply Forall_nil;
    (solve [apply (E _ 1); [lra|unfold dot3; cbn [qx qy qz]; lra|cbn [qz]; apply A; lra]] || solve [apply (E _ (5/4)); [lra|unfold dot3; cbn [qx qy qz]; lra|cbn [qz]; apply A; lra]]).
Qed.
