(** Frusta: transforms (C49), building from a projection (C53), the other volumes against them (C47, C53). *)
From Coq Require Import Reals Lra Psatz List Bool.
From Verif Require Import Base F32 Intrin Lane MVec MTrig MQuat MInterp MPlane MMatrix Shapes MCollide MFrustum.
From Verif Require Import SpecGeom SpecQuat SpecMat SpecShape PReal PVec PQuat PRot PMatrix PTransf PView PDecomp PPlane PShape PSphere PSide PHull PBox POBox PSat PSolid PTri PTriBox PFrust PFrustSat PFrustSph.
Open Scope R_scope.

(** ** Transforms *)
Lemma similar_frust k q t f f' : 0 <= k -> fq f' = ham q (fq f) -> eq3 (fo f') (similar k q t (fo f)) ->
  fr_Near f' = fr_Near f * k -> fr_Far f' = fr_Far f * k -> fr_RightSlope f' = fr_RightSlope f -> fr_LeftSlope f' = fr_LeftSlope f ->
  fr_TopSlope f' = fr_TopSlope f -> fr_BottomSlope f' = fr_BottomSlope f -> covers (frust f) (similar k q t) (frust f').
Proof.
  intros Hk Eq Eo En Ef Er El Et Eb p (l & Hl & He). exists (scale k l). split.
  - unfold in_slopes in *. rewrite En, Ef, Er, El, Et, Eb. unfold scale; cbn [qx qy qz]. destruct Hl as ((h1 & h2) & (h3 & h4) & h5 & h6). repeat split; nra.
  - rewrite Eq, qrot_ham, !qrot_scale. unfold similar in *. rewrite !qrot_scale in *. rewrite (qrot_eq3 q p _ He).
    destruct (qrot_plus q (fo f) (qrot (fq f) l)) as (h1 & h2 & h3). destruct Eo as (g1 & g2 & g3).
    unfold eq3, plus, scale in *; cbn [qx qy qz] in *. rewrite g1, g2, g3, h1, h2, h3. repeat split; ring.
Qed.
Lemma frust_decomposed b f k q t : ok_frustum f -> 0 <= k -> unitq q ->
  exists m, Frustum_TransformDecomposed (L:=RL) b f k q t = Some m /\ ok_frustum m /\ covers (frust f) (similar k q t) (frust m).
Proof.
  intros (Ho & (hn & hm) & hlr & hbt) Hk Hq. unfold Frustum_TransformDecomposed. rewrite !isunitq by assumption. unfold asserting. cbv zeta. l3.
  rewrite QMul_R, Scale_R, Rotate_R, Add_R. eexists. split; [reflexivity|]. split.
  - split; [apply unit_ham; assumption|]. cbn. ro. rt. repeat split; try assumption; nra.
  - apply similar_frust; try reflexivity; [assumption|]. cbn [fr_Origin]. eapply eq3_trans; [apply pos_store3|]. apply eq3_refl.

Qed.
Lemma frust_matrix b f k Rm t M : ok_frustum f -> 0 < k -> rotation Rm ->
  qx M = scale k (qx Rm) -> qy M = scale k (qy Rm) -> qz M = scale k (qz Rm) -> qw M = t ->
  exists m, Frustum_TransformMatrix (L:=RL) b f M = Some m /\ ok_frustum m /\ covers (frust f) (xform M) (frust m).
Proof.
  intros Hf Hk HR Mx My Mz Mw. pose proof Hf as (Ho & (hn & hm) & hlr & hbt). unfold Frustum_TransformMatrix. rewrite !isunitq by assumption. unfold asserting. cbv zeta. l3.
  assert (D : dot3 (qx Rm) (qx Rm) = 1 /\ dot3 (qy Rm) (qy Rm) = 1 /\ dot3 (qz Rm) (qz Rm) = 1 /\ qw Rm = Q 0 0 0 1).
  { destruct (mat_of_rotation Rm HR) as (m & n & p & r & s & u & v & w & x & -> & E). destruct E as [re1 re2 re3 _ _ _]. unfold dot3; cbn [qx qy qz qw].
    repeat split; assumption. }
  destruct D as (d1 & d2 & d3 & d4).
  assert (Esg : sg k = 1). { unfold sg. rewrite (proj2 (Rltb_false k 0)) by lra. reflexivity. }
  assert (ES : forall v, scale 1 v = v) by (intros v; dq v; unfold scale; cbn [qx qy qz qw]; f_equal; ring).
  assert (DK : forall v, dot3 v v = 1 -> dot3 (scale k v) (scale k v) = k * k).
  { intros v E. transitivity (k * k * dot3 v v); [unfold dot3, scale; cbn [qx qy qz]; ring|rewrite E; ring]. }
  rewrite Mx, My, Mz, !Dot3_R, !DK by assumption. rewrite !normalize_scaled, Esg, !ES by (assumption || lra).
  assert (MX : forall x, Rmax x x = x) by (intros; apply Rmax_left, Rle_refl). rewrite !Max_R, !rep_max, !MX. change (@tsqrt RL) with R_sqrt.sqrt.
  change (IdR3 (L:=RL)) with (Q 0 0 0 1 : rvec). rewrite <- d4.
  replace (Q (qx Rm) (qy Rm) (qz Rm) (qw Rm)) with Rm by (destruct Rm; reflexivity).
  destruct (mat_quat_mat b Rm HR) as (EQ & UQ). rewrite RotQuat_R in EQ. set (rq := XMQuaternionRotationMatrix (L:=RL) b Rm) in *. rt.
  rewrite Transform3_R, QMul_R. change (qx (qrep (k * k))) with (k * k). rewrite sqrt_square by lra.
  eexists; split; [reflexivity|]. split.
  - split; [apply unit_ham; assumption|]. cbn. ro. rt. repeat split; try assumption; nra.
  - assert (XS : forall v, eq3 (xform M v) (similar k rq t v)).
    { intros v. unfold xform, similar. rewrite qrot_scale, <- (qmat_rot rq v UQ), EQ. unfold vecmat. rewrite Mx, My, Mz, Mw. unfold direction, point, eq3, plus, scale; cbn [qx qy qz qw].
      rewrite !d4. cbn [qx qy qz qw]. repeat split; ring. }
    intros p Hp. assert (K : covers (frust f) (similar k rq t) (frust (MkFrustum (store3 (L:=RL) (vecmat (point (fo f)) M)) (ham rq (fq f)) (fr_RightSlope f) (fr_LeftSlope f) (fr_TopSlope f) (fr_BottomSlope f) (fr_Near f * k) (fr_Far f * k)))).
    { apply similar_frust; try reflexivity; [lra|]. cbn [fr_Origin]. eapply eq3_trans; [apply pos_store3|]. apply (XS (fo f)). }
    specialize (K p Hp). destruct K as (l & Hl & El). exists l. split; [exact Hl|]. eapply eq3_trans; [apply XS|exact El].
Qed.

(** ** From a projection *)
Definition projm (a c d e g u h : R) : rmat := Q (Q a 0 0 0) (Q 0 c 0 0) (Q d e g u) (Q 0 0 h 0).
Lemma unproject a c d e g u h x y z : a <> 0 -> c <> 0 -> u <> 0 -> h <> 0 ->
  vecmat (Q x y z 1) (mscale (1 / detM (projm a c d e g u h)) (adj (projm a c d e g u h))) = Q ((x - d / u) / a) ((y - e / u) / c) (1 / u) ((z - g / u) / h).
Proof.
  intros. assert (D : detM (projm a c d e g u h) = - (a * c * u * h)) by (unfold projm; cbv [detM det4 det3 det2]; ms; ring).
  rewrite D. unfold projm. cbv [mscale det4 det3 det2 adj]. ms. f_equal; field; repeat split; assumption.
Qed.
Lemma from_matrix b a c d e g u h rh : a <> 0 -> c <> 0 -> u <> 0 -> h <> 0 -> g <> 0 -> g <> u ->
  let near := h / (- g) in let far := h / (u - g) in
  Frustum_CreateFromMatrix (L:=RL) b (projm a c d e g u h) rh =
  MkFrustum (F3 0 0 0) (Q 0 0 0 1) ((u - d) / a) ((- u - d) / a) ((u - e) / c) ((- u - e) / c) (if rh then far else near) (if rh then near else far).
Proof.
  intros Ha Hc Hu Hh Hg Hgu near far. unfold Frustum_CreateFromMatrix. cbv zeta. rewrite Inverse_R. cbn [snd]. rewrite !Mul_R, !Recip_R, !Transform4_R.
  change (@mone RL) with (-1). change (@zero RL) with 0. change (@one RL) with 1. rt. rewrite !unproject by assumption.
  unfold splat, perm, permute_ps, shuffle, qrep; cbn [qmap qmap2 qx qy qz qw lane permute_ps]. rt. unfold near, far. destruct rh; f_equal.
 all: field; repeat split; (lra || assumption).
Qed.
(** the frustum of a projection: its slopes and distances, and its points *)
Definition unprojected (l r bt t n f : R) : Frustum R := MkFrustum (F3 0 0 0) (Q 0 0 0 1) (r / n) (l / n) (t / n) (bt / n) n f.
Definition unprojected_rh (l r bt t n f : R) : Frustum R := MkFrustum (F3 0 0 0) (Q 0 0 0 1) (- r / n) (- l / n) (- t / n) (- bt / n) (- f) (- n).
Lemma make_lh b l r bt t n f : window_ok l r bt t n f -> Frustum_CreateFromMatrix (L:=RL) b (perspm l r bt t n f) false = unprojected l r bt t n f.
Proof.
  intros W. pose proof W as (Hn & Hf & _). destruct (window_ne _ _ _ _ _ _ W) as (h1 & h2 & h3 & h4). 
  change (perspm l r bt t n f) with (projm (2 * n / (r - l)) (2 * n / (t - bt)) (- (l + r) / (r - l)) (- (t + bt) / (t - bt)) (f / (f - n)) 1 (- (f / (f - n) * n))).
  assert (f / (f - n) <> 0) by (apply Rmult_integral_contrapositive_currified; [lra|apply Rinv_neq_0_compat; lra]).
  assert (EH : f / (f - n) * n / f = n / (f - n)) by (field; lra).
  rewrite from_matrix; try assumption; try lra.
  - unfold unprojected. f_equal; field; repeat split; lra.
  - apply Rmult_integral_contrapositive_currified; [lra|apply Rinv_neq_0_compat; lra].
  - apply Rmult_integral_contrapositive_currified; [lra|apply Rinv_neq_0_compat; lra].
  - apply Ropp_neq_0_compat, Rmult_integral_contrapositive_currified; lra.
  - intros E. apply h4. assert (E' : f = f - n) by (rewrite <- (Rmult_1_l (f - n)), <- E; field; lra). lra.
Qed.
Lemma make_rh b l r bt t n f : window_ok l r bt t n f -> Frustum_CreateFromMatrix (L:=RL) b (matmul flipz (perspm l r bt t n f)) true = unprojected_rh l r bt t n f.
Proof.
  intros W. pose proof W as (Hn & Hf & _). destruct (window_ne _ _ _ _ _ _ W) as (h1 & h2 & h3 & h4). 
  replace (matmul flipz (perspm l r bt t n f)) with (projm (2 * n / (r - l)) (2 * n / (t - bt)) ((l + r) / (r - l)) ((t + bt) / (t - bt)) (- f / (f - n)) (-1) (- (f / (f - n) * n)))
    by (unfold perspm, projm, flipz; ms; meq; field; lra).
  assert (f / (f - n) <> 0) by (apply Rmult_integral_contrapositive_currified; [lra|apply Rinv_neq_0_compat; lra]).
  assert (- f / (f - n) <> 0) by (apply Rmult_integral_contrapositive_currified; [lra|apply Rinv_neq_0_compat; lra]).
  rewrite from_matrix; try assumption; try lra.
  - unfold unprojected_rh. f_equal; field; repeat split; lra.
  - apply Rmult_integral_contrapositive_currified; [lra|apply Rinv_neq_0_compat; lra].
  - apply Rmult_integral_contrapositive_currified; [lra|apply Rinv_neq_0_compat; lra].
  - apply Ropp_neq_0_compat, Rmult_integral_contrapositive_currified; lra.
  - intros E. apply h4. assert (E' : - f = -1 * (f - n)) by (rewrite <- E; field; lra). lra.
Qed.
Lemma home_frust f p : fr_Origin f = F3 0 0 0 -> fr_Orientation f = Q 0 0 0 1 -> frust f p <-> in_slopes f p.
Proof.
  intros HO HQ. assert (Hq : unitq (fq f)) by (rewrite HQ; unfold unitq, dot4; cbn; ring). rewrite (frust_iff f p Hq).
  assert (E : eq3 (local (fo f) (fq f) p) p) by (unfold local; rewrite HO, HQ; apply home_local). split; apply slopes_eq3; [exact E|apply eq3_sym, E].
Qed.
Lemma slope_le a n z x : 0 < n -> a / n * z <= x <-> a * z <= x * n.
Proof. intros Hn. assert (I : a / n * n = a) by (field; lra). set (k := a / n) in *. rewrite <- I. split; nra. Qed.
Lemma slope_ge a n z x : 0 < n -> x <= a / n * z <-> x * n <= a * z.
Proof. intros Hn. assert (I : a / n * n = a) by (field; lra). set (k := a / n) in *. rewrite <- I. split; nra. Qed.
Lemma unprojected_iff l r bt t n f p : 0 < n -> frust (unprojected l r bt t n f) p <-> in_frustum l r bt t n f (qx p) (qy p) (qz p).
Proof.
  intros Hn. rewrite home_frust by reflexivity. unfold in_slopes, in_frustum, unprojected. cbn [fr_Near fr_Far fr_LeftSlope fr_RightSlope fr_TopSlope fr_BottomSlope].
  rewrite !(slope_le _ n) by assumption. rewrite !(slope_ge _ n) by assumption. tauto.
Qed.
Lemma unprojected_rh_iff l r bt t n f p : 0 < n -> frust (unprojected_rh l r bt t n f) p <-> in_frustum l r bt t n f (qx p) (qy p) (- qz p).
Proof.
  intros Hn. rewrite home_frust by reflexivity. unfold in_slopes, in_frustum, unprojected_rh. cbn [fr_Near fr_Far fr_LeftSlope fr_RightSlope fr_TopSlope fr_BottomSlope].
  rewrite !(slope_le _ n) by assumption. rewrite !(slope_ge _ n) by assumption.
  replace (- l * qz p) with (l * - qz p) by ring. replace (- r * qz p) with (r * - qz p) by ring. replace (- bt * qz p) with (bt * - qz p) by ring. replace (- t * qz p) with (t * - qz p) by ring.
  split; intros ((h1 & h2) & h3 & h4); (split; [lra|split; assumption]).
Qed.

(** ** The other volumes against a frustum *)
Lemma sphere_of_frust b f : ok_frustum f -> exists s, Sphere_CreateFromFrustum (L:=RL) b f = Some s /\ subset (frust f) (ball s) /\ ok_sphere s.
Proof.
  intros Hf. destruct (corners_R b f Hf) as (Cs & E & _ & _ & HH). unfold Sphere_CreateFromFrustum. rewrite E. cbn [obind]. eexists. split; [reflexivity|].
  destruct (sphere_points b Cs) as (HB & HO). split; [|exact HO]. intros p Hp. apply HH in Hp. revert Hp. apply hull_in; [apply ball_convex|]. apply Forall_map. exact HB.
Qed.
Lemma frust_obox_total b f o : unitq (fq f) -> unitq (ob_Orientation o) -> exists r, Frustum_IntersectsOrientedBox (L:=RL) b f o = Some r.
Proof.
  intros Hq Ho. unfold Frustum_IntersectsOrientedBox. cbv zeta. rewrite !isunitq by assumption. cbn [asserting].
  repeat match goal with |- exists r, (if ?c then _ else _) = Some r => destruct c | |- exists r, (let '(_, _) := ?c in _) = Some r => destruct c end; try (eexists; reflexivity).
Qed.
Lemma hull_subset (l : list rvec) (C : region) : convex C -> subset (hull l) C <-> Forall C l.
Proof.
  intros HC. split.
  - intros H. apply Forall_forall. intros x Hx. apply H, hull_point, Hx.
  - intros H p Hp. revert Hp. apply hull_in; assumption.
Qed.
Lemma frust_point f : ok_frustum f -> exists p, frust f p.
Proof.
  intros Hf. destruct (corners_R Scalar f Hf) as ([|c Cs] & _ & HL & HA & _); [discriminate|]. inversion HA; subst. eauto.
Qed.
Lemma fold_all3 {A} (h : A -> quad bool) l : forall m, all3 (fold_left (fun acc x => mand acc (h x)) l m) = (all3 m && forallb (fun x => all3 (h x)) l)%bool.
Proof. induction l as [|x l IH]; intros m; cbn [fold_left forallb]; [rewrite andb_true_r; reflexivity|]. rewrite IH, all3_mand, andb_assoc. reflexivity. Qed.
Lemma sphere_has_frust b s f : ok_sphere s -> ok_frustum f -> exists r, Sphere_ContainsFrustum (L:=RL) b s f = Some r /\
  (r = CONTAINS <-> subset (frust f) (ball s)) /\ (r = DISJOINT <-> ~ meets (ball s) (frust f)).
Proof.
  intros Hs Hf. destruct (frust_sphere b f s Hf Hs) as (hit & E & Hh). unfold Sphere_ContainsFrustum. rewrite E. cbn [obind]. rewrite meets_sym in Hh.
  destruct hit; cbn [negb].
  - cbv zeta. rewrite isunitq by apply Hf. cbn [asserting]. eexists; split; [reflexivity|]. rewrite fold_all3, local_corners_R. cbn [all3 mtrue qrep].
    assert (HM : meets (ball s) (frust f)) by (apply Hh; reflexivity).
    match goal with |- context [forallb ?k ?l] => assert (K : forallb k l = true <-> subset (frust f) (ball s)) end.
    { rewrite forallb_forall. split.
      - intros H p Hp. apply (frust_hull f p Hf) in Hp. revert Hp. apply hull_in; [apply ball_convex|]. apply Forall_map, Forall_forall. intros l Hl.
        specialize (H l Hl). revert H. l3. rewrite Rotate_R, Add_R, Sub_R, LengthSq3_R, Mul_R, rep_mul, vle_rep, all3_rep, Rleb_true. unfold ball. rewrite (dist_le _ _ _ Hs).
        match goal with |- ?a <= _ -> ?c <= _ => replace c with a; [tauto|] end. unfold dot3, minus, plus, global, plus, fo, fq; cbn [qx qy qz]. ring.
      - intros H l Hl. l3. rewrite Rotate_R, Add_R, Sub_R, LengthSq3_R, Mul_R, rep_mul, vle_rep, all3_rep, Rleb_true.
        specialize (H (global (fo f) (fq f) l)). unfold ball in H. rewrite (dist_le _ _ _ Hs) in H.
        match goal with |- ?a <= _ => match type of H with _ -> ?c <= _ => replace a with c end end.
        + apply H. apply (frust_hull f _ Hf). apply hull_point, in_map, Hl.
        + unfold dot3, minus, plus, global, plus, fo, fq; cbn [qx qy qz]. ring. }
    destruct (forallb _ _); cbn [andb]; split; split; intros; try discriminate; try reflexivity; try contradiction; try (apply K; reflexivity).
    symmetry. apply K in H. discriminate.
  - eexists; split; [reflexivity|]. assert (HM : ~ meets (ball s) (frust f)) by (rewrite <- Hh; discriminate).
    split; [|split; [intros _; exact HM|reflexivity]]. split; [discriminate|]. intros H. elim HM. destruct (frust_point f Hf) as (p & Hp). exists p. split; [apply H, Hp|exact Hp].
Qed.
Lemma box_has_frust b bx f : ok_box bx -> ok_frustum f -> exists r, Box_ContainsFrustum (L:=RL) b bx f = Some r /\
  (r = CONTAINS <-> subset (frust f) (aabb bx)) /\ (r = DISJOINT -> ~ meets (aabb bx) (frust f)).
Proof.
  intros Hb Hf. unfold Box_ContainsFrustum. pose proof (frust_box b f bx Hf Hb) as HX.
  destruct (frust_obox_total b f (obox_of (L:=RL) bx) (proj1 Hf) (proj2 (ok_of_box bx Hb))) as (hit & E).
  unfold Frustum_IntersectsBox in *. rewrite E in *. cbn [obind]. destruct (corners_R b f Hf) as (Cs & EC & _ & _ & HH). rewrite EC. cbn [obind].
  destruct hit; cbn [negb].
  - cbv zeta. eexists; split; [reflexivity|]. rewrite fold_all3. cbn [all3 mtrue qrep].
    match goal with |- context [forallb ?k ?l] => assert (K : forallb k l = true <-> subset (frust f) (aabb bx)) end.
    { transitivity (Forall (fun c => aabb bx (pos c)) Cs).
      - apply forallb_Forall. intros c _. l3. rewrite Sub_R, Abs_R, all3_vle. unfold aabb, within. cbn [qmap qx qy qz]. tauto.
      - rewrite <- Forall_map. rewrite <- hull_subset by apply aabb_convex. unfold subset. split; intros H p Hp; apply H, HH, Hp. }
    destruct (forallb _ _); cbn [andb]; split; try split; intros; try discriminate; try reflexivity; try contradiction; try (apply K; reflexivity).
    symmetry. apply K in H. discriminate.
  - eexists; split; [reflexivity|]. assert (HM : ~ meets (aabb bx) (frust f)) by (intros M; rewrite meets_sym in M; specialize (HX M); discriminate).
    split; [|intros _; exact HM]. split; [discriminate|]. intros H. elim HM. destruct (frust_point f Hf) as (p & Hp). exists p. split; [apply H, Hp|exact Hp].
Qed.
Lemma obox_has_frust b o f : ok_obox o -> ok_frustum f -> exists r, OBox_ContainsFrustum (L:=RL) b o f = Some r /\
  (r = CONTAINS <-> subset (frust f) (obb o)) /\ (r = DISJOINT -> ~ meets (obb o) (frust f)).
Proof.
  intros Hb Hf. unfold OBox_ContainsFrustum. pose proof (frust_obox b f o Hf Hb) as HX.
  destruct (frust_obox_total b f o (proj1 Hf) (proj2 Hb)) as (hit & E). rewrite E in *. cbn [obind]. destruct (corners_R b f Hf) as (Cs & EC & _ & _ & HH). rewrite EC. cbn [obind].
  cbv zeta. rewrite isunitq by apply Hb. cbn [asserting].
  destruct hit; cbn [negb].
  - eexists; split; [reflexivity|].
    match goal with |- context [forallb ?k ?l] => assert (K : forallb k l = true <-> subset (frust f) (obb o)) end.
    { transitivity (Forall (fun c => obb o (pos c)) Cs).
      - apply forallb_Forall. intros c _. l3. rewrite Sub_R, InvRotate_R by apply Hb. rewrite inb3, obb_iff by apply Hb. reflexivity.
      - rewrite <- Forall_map. rewrite <- hull_subset by apply obb_convex. unfold subset. split; intros H p Hp; apply H, HH, Hp. }
    destruct (forallb _ _); cbn [andb]; split; try split; intros; try discriminate; try reflexivity; try contradiction; try (apply K; reflexivity).
    symmetry. apply K in H. discriminate.
  - eexists; split; [reflexivity|]. assert (HM : ~ meets (obb o) (frust f)) by (intros M; rewrite meets_sym in M; specialize (HX M); discriminate).
    split; [|intros _; exact HM]. split; [discriminate|]. intros H. elim HM. destruct (frust_point f Hf) as (p & Hp). exists p. split; [apply H, Hp|exact Hp].
Qed.

(** ** Frusta of the perspective matrices *)
Lemma unprojected_ok l r bt t n f : 0 < n -> n <= f -> l <= r -> bt <= t -> ok_frustum (unprojected l r bt t n f).
Proof.
  intros Hn Hf Hl Hb. assert (0 < / n) by (apply Rinv_0_lt_compat, Hn). unfold ok_frustum, unprojected, unitq, dot4, Rdiv. cbn. repeat split; try lra; nra.
Qed.
Lemma from_off_lh b l r bt t n f M : XMMatrixPerspectiveOffCenterLH (L:=RL) b l r bt t n f = Some M ->
  let F := Frustum_CreateFromMatrix (L:=RL) b M false in
  (forall p, frust F p <-> in_frustum l r bt t n f (qx p) (qy p) (qz p)) /\ (n <= f -> l <= r -> bt <= t -> ok_frustum F).
Proof.
  intros (W & ->)%off_lh. cbv zeta. rewrite make_lh by exact W. split; [intros p; apply unprojected_iff, W|]. intros. apply unprojected_ok; try assumption. apply W.
Qed.
Lemma from_off_rh b l r bt t n f M : XMMatrixPerspectiveOffCenterRH (L:=RL) b l r bt t n f = Some M ->
  let F := Frustum_CreateFromMatrix (L:=RL) b M true in
  (forall p, frust F p <-> in_frustum l r bt t n f (qx p) (qy p) (- qz p)) /\ unitq (fr_Orientation F).
Proof.
  intros (W & ->)%off_rh. cbv zeta. rewrite make_rh by exact W. split; [intros p; apply unprojected_rh_iff, W|]. unfold unitq, dot4, unprojected_rh; cbn. ring.
Qed.
Lemma size_window w h n f : size_ok w h n f -> window_ok (- w / 2) (w / 2) (- h / 2) (h / 2) n f.
Proof.
  intros (a & c & d & e & g). unfold window_ok. replace (w / 2 - - w / 2) with w by field. replace (h / 2 - - h / 2) with h by field. auto.
Qed.
Lemma from_persp_lh b w h n f M : XMMatrixPerspectiveLH (L:=RL) b w h n f = Some M ->
  let F := Frustum_CreateFromMatrix (L:=RL) b M false in
  (forall p, frust F p <-> in_frustum (- w / 2) (w / 2) (- h / 2) (h / 2) n f (qx p) (qy p) (qz p)) /\ (n <= f -> 0 <= w -> 0 <= h -> ok_frustum F).
Proof.
  intros (W & ->)%persp_lh. apply size_window in W. cbv zeta. rewrite make_lh by exact W. split; [intros p; apply unprojected_iff, W|]. intros. apply unprojected_ok; try lra. apply W.
Qed.
Lemma from_persp_rh b w h n f M : XMMatrixPerspectiveRH (L:=RL) b w h n f = Some M ->
  let F := Frustum_CreateFromMatrix (L:=RL) b M true in
  (forall p, frust F p <-> in_frustum (- w / 2) (w / 2) (- h / 2) (h / 2) n f (qx p) (qy p) (- qz p)) /\ unitq (fr_Orientation F).
Proof.
  intros (W & ->)%persp_rh. apply size_window in W. cbv zeta. rewrite make_rh by exact W. split; [intros p; apply unprojected_rh_iff, W|]. unfold unitq, dot4, unprojected_rh; cbn. ring.
Qed.
