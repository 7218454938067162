(** Oriented boxes: the local frame, containment of points and spheres, corners, transforms. *)
From Coq Require Import Reals Lra Psatz List Bool.
From Verif Require Import Base F32 Intrin Lane MVec MTrig MQuat MInterp MPlane MMatrix Shapes MCollide.
From Verif Require Import SpecGeom SpecQuat SpecMat SpecShape PReal PVec PQuat PRot PMatrix PShape PSphere PSide PHull PBox.
Open Scope R_scope.

(** ** The local frame *)
Definition local (c q p : rvec) : rvec := qrot (conj q) (minus p c).
Definition global (c q l : rvec) : rvec := plus c (qrot q l).
Lemma unit_conj q : unitq q -> unitq (conj q).
Proof. unfold unitq, dot4, SpecQuat.conj; cbn [qx qy qz qw]. intros <-. ring. Qed.
Lemma local_global c q l : unitq q -> eq3 (local c q (global c q l)) l.
Proof.
  intros H. unfold local, global. assert (E : eq3 (minus (plus c (qrot q l)) c) (qrot q l)) by (e3; repeat split; ring).
  rewrite (qrot_eq3 _ _ _ E), qrot_conj by assumption. repeat split.
Qed.
Lemma global_local c q p : unitq q -> eq3 (global c q (local c q p)) p.
Proof. intros H. unfold local, global. rewrite qrot_conj' by assumption. unfold direction. e3. repeat split; ring. Qed.
Lemma local_eq3 c q u v : eq3 u v -> eq3 (local c q u) (local c q v).
Proof. intros (h1 & h2 & h3). unfold local. rewrite (qrot_eq3 _ (minus u c) (minus v c)); [apply eq3_refl|]. e3. rewrite h1, h2, h3. repeat split. Qed.
Lemma global_eq3 c q u v : eq3 u v -> eq3 (global c q u) (global c q v).
Proof. intros H. unfold global. rewrite (qrot_eq3 q u v H). apply eq3_refl. Qed.
Lemma local_dist c q u v : unitq q -> dist (local c q u) (local c q v) = dist u v.
Proof.
  intros H. unfold dist, norm3. f_equal.
  assert (E : eq3 (minus (local c q u) (local c q v)) (qrot (conj q) (minus u v))).
  { unfold local. pose proof (qrot_minus (conj q) 1 (minus u c) (minus v c)) as (h1 & h2 & h3).
    assert (S : forall w, eq3 (scale 1 w) w) by (intros; e3; repeat split; ring).
    rewrite !(qrot_eq3 _ _ _ (S _)) in h1, h2, h3.
    rewrite (qrot_eq3 _ (minus u v) (minus (minus u c) (minus v c))) by (e3; repeat split; ring). repeat split; assumption. }
  rewrite (dot3_eq3 _ _ _ _ E E). apply qrot_norm, unit_conj, H.
Qed.
Lemma obb_iff o p : unitq (ob_Orientation o) -> obb o p <-> within (ob_Extents o) (local (pos (ob_Center o)) (ob_Orientation o) p).
Proof.
  intros H. split.
  - intros (l & Hl & He). apply (within_eq3 _ l); [|assumption]. apply eq3_sym. eapply eq3_trans; [|apply (local_global (pos (ob_Center o)) _ l H)]. apply local_eq3, He.
  - intros Hw. eexists. split; [exact Hw|]. apply eq3_sym, (global_local _ _ _ H).
Qed.
(** the box in its own frame *)
Definition own (o : OBox R) : Box R := MkBox (F3 0 0 0) (ob_Extents o).
Lemma own_iff e l : aabb (MkBox (F3 0 0 0) e) l <-> within e l.
Proof. unfold aabb; cbn [bx_Center bx_Extents]. split; apply within_eq3; unfold pos; cbn [fx fy fz]; e3; repeat split; ring. Qed.
Lemma obb_own o p : unitq (ob_Orientation o) -> obb o p <-> aabb (own o) (local (pos (ob_Center o)) (ob_Orientation o) p).
Proof. intros H. rewrite obb_iff by assumption. symmetry. apply own_iff. Qed.
Definition local_sphere (o : OBox R) (s : Sphere R) : Sphere R :=
  let l := local (pos (ob_Center o)) (ob_Orientation o) (pos (sp_Center s)) in MkSphere (F3 (qx l) (qy l) (qz l)) (sp_Radius s).
Lemma local_sphere_iff o s p : unitq (ob_Orientation o) -> ball s p <-> ball (local_sphere o s) (local (pos (ob_Center o)) (ob_Orientation o) p).
Proof.
  intros H. unfold ball, local_sphere; cbn [sp_Center sp_Radius]. rewrite <- (local_dist (pos (ob_Center o)) _ p (pos (sp_Center s)) H).
  rewrite (dist_eq3_r _ (pos _) (local (pos (ob_Center o)) (ob_Orientation o) (pos (sp_Center s)))); [reflexivity|]. repeat split.
Qed.
(** questions about a region and an oriented box are questions in the box's frame *)
Lemma frame_meets c q (A B A' B' : region) : unitq q -> spatial A' -> spatial B' ->
  (forall p, A p <-> A' (local c q p)) -> (forall p, B p <-> B' (local c q p)) -> meets A B <-> meets A' B'.
Proof.
  intros H SA SB HA HB. split.
  - intros (p & h1 & h2). exists (local c q p). rewrite <- HA, <- HB. split; assumption.
  - intros (l & h1 & h2). exists (global c q l). rewrite HA, HB. split; [apply (SA l)|apply (SB l)]; try assumption; apply eq3_sym, local_global, H.
Qed.
Lemma frame_subset c q (A B A' B' : region) : unitq q -> spatial A' -> spatial B' ->
  (forall p, A p <-> A' (local c q p)) -> (forall p, B p <-> B' (local c q p)) -> subset A B <-> subset A' B'.
Proof.
  intros H SA SB HA HB. split.
  - intros S l Hl. apply (SB (local c q (global c q l))); [apply local_global, H|]. apply HB, S, HA. apply (SA l); [apply eq3_sym, local_global, H|exact Hl].
  - intros S p Hp. apply HB, S, HA, Hp.
Qed.

(** ** Points and spheres *)
Lemma obox_point b o p : ok_obox o ->
  (OBox_ContainsPoint (L:=RL) b o p = CONTAINS <-> obb o p) /\ (OBox_ContainsPoint (L:=RL) b o p = DISJOINT <-> ~ obb o p).
Proof.
  intros (_ & Hq). unfold OBox_ContainsPoint. cbv zeta. l3. rewrite Sub_R, InvRotate_R, !obb_iff by assumption.
  fold (local (pos (ob_Center o)) (ob_Orientation o) p).
  pose proof (inb3 b (local (pos (ob_Center o)) (ob_Orientation o) p) (ob_Extents o)) as H.
  change (qrot (conj (ob_Orientation o)) (minus p (pos (ob_Center o)))) with (local (pos (ob_Center o)) (ob_Orientation o) p) in *.
  destruct (XMVector3InBounds _ _ _); split; split; intros K; try reflexivity; try discriminate.
  - apply H; reflexivity.
  - exfalso. apply K, H. reflexivity.
  - apply H in K. discriminate.
  - intro h. apply H in h. discriminate.
Qed.
Lemma od2_R b (c e : rvec) : obox_sphere_d2 (L:=RL) b c e = qrep (d2 c (qmap Ropp e) e).
Proof.
  unfold obox_sphere_d2. cbv zeta. rewrite !Sub_R, !Add_R, Neg_R, Dot3_R. f_equal. unfold d2, dot3, excess. dq c; dq e.
  cbv [vsel vlt vgt vzero qmap3 qmap2 qmap plus minus qrep qx qy qz qw]. change (@tlt RL) with Rltb. unfold tgt. change (@tlt RL) with Rltb. change (@zero RL) with 0. rt.
  repeat rcase; ring.
Qed.
Lemma d2_local e s : nonneg3 e -> ok_sphere s ->
  d2 (pos (sp_Center s)) (qmap Ropp (pos e)) (pos e) <= sp_Radius s * sp_Radius s <-> meets (aabb (MkBox (F3 0 0 0) e)) (ball s).
Proof.
  intros He Hs. rewrite <- (d2_meets (F3 0 0 0) e s He Hs). unfold d2, minus, plus, pos, qmap; cbn [fx fy fz qx qy qz].
  rewrite !Rminus_0_l, !Rplus_0_l. reflexivity.
Qed.
Lemma obox_meets_local o s : ok_obox o -> meets (obb o) (ball s) <-> meets (aabb (own o)) (ball (local_sphere o s)).
Proof.
  intros (He & Hq). apply (frame_meets (pos (ob_Center o)) (ob_Orientation o)); try assumption.
  - apply aabb_convex. - apply ball_convex. - intros; apply obb_own; assumption. - intros; apply local_sphere_iff; assumption.
Qed.
Lemma obox_sphere_sub o s : ok_obox o -> subset (ball s) (obb o) <-> subset (ball (local_sphere o s)) (aabb (own o)).
Proof.
  intros (He & Hq). apply (frame_subset (pos (ob_Center o)) (ob_Orientation o)); try assumption.
  - apply ball_convex. - apply aabb_convex. - intros; apply local_sphere_iff; assumption. - intros; apply obb_own; assumption.
Qed.
Lemma obox_meets_sphere b o s : ok_obox o -> ok_sphere s ->
  exists r, OBox_IntersectsSphere (L:=RL) b o s = Some r /\ (r = true <-> meets (obb o) (ball s)).
Proof.
  intros Ho Hs. destruct Ho as (He & Hq). unfold OBox_IntersectsSphere. cbv zeta. rewrite isunitq by assumption. unfold asserting.
  eexists. split; [reflexivity|]. l3. rewrite Sub_R, InvRotate_R, od2_R, Mul_R, rep_mul, qall_le, Rleb_true.
  rewrite (obox_meets_local o s) by (split; assumption). exact (d2_local (ob_Extents o) (local_sphere o s) He Hs).
Qed.
Lemma obox_sphere b o s : ok_obox o -> ok_sphere s ->
  exists v, OBox_ContainsSphere (L:=RL) b o s = Some v /\ (v = CONTAINS <-> subset (ball s) (obb o)) /\ (v = DISJOINT <-> ~ meets (obb o) (ball s)).
Proof.
  intros Ho Hs. destruct Ho as (He & Hq). unfold OBox_ContainsSphere. cbv zeta. rewrite isunitq by assumption. unfold asserting. l3.
  rewrite !Sub_R, Add_R, InvRotate_R, od2_R, Mul_R, rep_mul, qall_gt.
  pose proof (obox_sphere_sub o s ltac:(split; assumption)) as HU. pose proof (obox_meets_local o s ltac:(split; assumption)) as HV.
  change (qrot (conj (ob_Orientation o)) (minus (pos (sp_Center s)) (pos (ob_Center o)))) with (local (pos (ob_Center o)) (ob_Orientation o) (pos (sp_Center s))).
  pose proof (d2_local (ob_Extents o) (local_sphere o s) He Hs) as HM.
  set (m := local (pos (ob_Center o)) (ob_Orientation o) (pos (sp_Center s))) in *.
  change (d2 (pos (sp_Center (local_sphere o s))) (qmap Ropp (pos (ob_Extents o))) (pos (ob_Extents o))) with (d2 m (qmap Ropp (pos (ob_Extents o))) (pos (ob_Extents o))) in HM.
  change (sp_Radius (local_sphere o s)) with (sp_Radius s) in HM. fold (own o) in HM.
  assert (HS : (XMVector3InBounds (L:=RL) b (minus m (qrep (sp_Radius s))) (pos (ob_Extents o)) && XMVector3InBounds (L:=RL) b (plus m (qrep (sp_Radius s))) (pos (ob_Extents o)))%bool = true
    <-> subset (ball (local_sphere o s)) (aabb (own o))).
  { rewrite andb_true_iff, !inb3. unfold own. rewrite (ball_in_box (local_sphere o s) (F3 0 0 0) (ob_Extents o) Hs). cbv zeta.
    change (pos (sp_Center (local_sphere o s))) with (Q (qx m) (qy m) (qz m) 0). change (sp_Radius (local_sphere o s)) with (sp_Radius s). clearbody m.
    unfold within, minus, plus, qrep; cbn [fx fy fz qx qy qz]. rewrite !abs_le_iff. unfold ok_sphere in Hs.
    split; intros; intuition lra. }
  destruct (Rltb_spec (sp_Radius s * sp_Radius s) (d2 m (qmap Ropp (pos (ob_Extents o))) (pos (ob_Extents o)))).
  - eexists. split; [reflexivity|]. rewrite HU, HV. split; split; intros K; try discriminate; try reflexivity.
    + exfalso. assert (M : meets (aabb (own o)) (ball (local_sphere o s))).
      { exists (pos (sp_Center (local_sphere o s))). assert (B : ball (local_sphere o s) (pos (sp_Center (local_sphere o s)))) by (unfold ball; rewrite dist_self; exact Hs).
        split; [apply K; exact B|exact B]. }
      apply HM in M. lra.
    + rewrite <- HM. lra.
  - rt. destruct (_ && _)%bool; eexists; (split; [reflexivity|]); rewrite HU, HV; split; split; intros K; try discriminate; try reflexivity.
    + apply HS; reflexivity.
    + exfalso. apply K, HM. lra.
    + apply HS in K. discriminate.
    + exfalso. apply K, HM. lra.
Qed.

(** ** Corners *)
Definition ocorner (o : OBox R) (s : R * R * R) : rvec := global (pos (ob_Center o)) (ob_Orientation o) (corner (F3 0 0 0) (ob_Extents o) s).
Lemma global_affine c q : affine (global c q).
Proof.
  split; [intros; apply global_eq3; assumption|]. intros u v t. unfold global. rewrite qrot_combo. e3. repeat split; ring.
Qed.
Lemma ocorner_in o s : ok_obox o -> In s signs -> obb o (ocorner o s).
Proof.
  intros (He & Hq) Hs. exists (corner (F3 0 0 0) (ob_Extents o) s). split; [|apply eq3_refl]. apply own_iff, corner_in; assumption.
Qed.
Lemma obb_in_convex o A : ok_obox o -> convex A -> (subset (obb o) A <-> Forall (fun s => A (ocorner o s)) signs).
Proof.
  intros Ho HA. split.
  - intros H. rewrite Forall_forall. intros s Hs. apply H, ocorner_in; assumption.
  - intros H p (l & Hl & He). apply (proj1 HA _ _ (eq3_sym _ _ He)).
    apply (corners_cover (own o) (global (pos (ob_Center o)) (ob_Orientation o)) A (proj1 Ho) (global_affine _ _) HA H). apply own_iff, Hl.
Qed.
Lemma obox_corners_R b o : unitq (ob_Orientation o) -> exists l, OBox_GetCorners (L:=RL) b o = Some l /\ Forall2 (fun c s => eq3 (pos c) (ocorner o s)) l signs.
Proof.
  intros Hq. unfold OBox_GetCorners. cbv zeta. rewrite isunitq by assumption. unfold asserting. eexists. split; [reflexivity|].
  rewrite box_offsets, map_map. induction signs as [|[[x y] z] l IH]; [constructor|]. cbn [map]. constructor; [|exact IH].
  l3. rewrite Mul_R, Rotate_R, Add_R. unfold ocorner, global.
  match goal with |- eq3 (pos (store3 (plus (qrot _ ?u) _))) (plus _ (qrot _ ?v)) => rewrite (qrot_eq3 _ u v) end.
  - unfold eq3, pos, store3, plus; cbn [fx fy fz qx qy qz]. repeat split; ring.
  - unfold eq3, qmap2, pos, corner; cbn [fx fy fz qx qy qz]. repeat split; ring.
Qed.
Lemma combo_eq3 : forall ws ps qs, Forall2 eq3 ps qs -> eq3 (combo ws ps) (combo ws qs).
Proof.
  induction ws as [|w ws IH]; intros ps qs H; [repeat split|]. inversion H as [|p q ps' qs' E F]; subst; [repeat split|].
  cbn [combo]. destruct E as (h1 & h2 & h3), (IH _ _ F) as (k1 & k2 & k3). e3. rewrite h1, h2, h3, k1, k2, k3. repeat split.
Qed.
Lemma hull_eq3 ps qs p : Forall2 eq3 ps qs -> hull ps p -> hull qs p.
Proof.
  intros H (ws & HL & HW & HT & He). exists ws. split; [rewrite HL; clear - H; induction H; cbn; congruence|]. repeat (split; [assumption|]).
  eapply eq3_trans; [exact He|]. apply combo_eq3, H.
Qed.
Lemma affine_combo f : affine f -> forall ws ps, length ws = length ps -> Forall (fun w => 0 <= w) ws -> 0 < total ws ->
  eq3 (f (scale (/ total ws) (combo ws ps))) (scale (/ total ws) (combo ws (map f ps))).
Proof.
  intros (f1 & f2). induction ws as [|w ws IH]; intros [|p ps] HL HW HT; try discriminate; [cbn in HT; lra|].
  inversion HW as [|? ? Hw HW']; subst. injection HL as HL. change (total (w :: ws)) with (w + total ws) in *.
  pose proof (total_nonneg _ HW') as Hn. set (s := total ws) in *. cbn [map combo].
  destruct (Req_dec s 0) as [E|E].
  - destruct (combo_zero ws ps (total_zero _ HW' E)) as (h1 & h2 & h3). destruct (combo_zero ws (map f ps) (total_zero _ HW' E)) as (k1 & k2 & k3).
    eapply eq3_trans; [apply (f1 _ p)|].
    + e3. rewrite h1, h2, h3, E. repeat split; field; lra.
    + e3. rewrite k1, k2, k3, E. repeat split; field; lra.
  - assert (Hs0 : 0 < s) by lra. specialize (IH ps HL HW' Hs0).
    eapply eq3_trans; [apply (f1 _ (plus (scale (w / (w + s)) p) (scale (1 - w / (w + s)) (scale (/ s) (combo ws ps)))))|].
    + e3. repeat split; field; lra.
    + eapply eq3_trans; [apply f2|]. destruct IH as (h1 & h2 & h3). generalize dependent (f (scale (/ s) (combo ws ps))). intros v h1 h2 h3.
      e3. rewrite h1, h2, h3. repeat split; field; lra.
Qed.
Lemma forall2_in {A B} (P : A -> B -> Prop) l m : Forall2 P l m -> forall a, In a l -> exists c, In c m /\ P a c.
Proof.
  induction 1 as [|a c l m E F IH]; intros x []; [subst; exists c; split; [left; reflexivity|assumption]|].
  destruct (IH x H) as (d & h1 & h2). exists d. split; [right; assumption|assumption].
Qed.
Lemma obox_is_hull b o : ok_obox o -> exists l, OBox_GetCorners (L:=RL) b o = Some l /\ forall p, obb o p <-> hull (map pos l) p.
Proof.
  intros Ho. destruct (obox_corners_R b o (proj2 Ho)) as (l & E & F). exists l. split; [exact E|].
  assert (F' : Forall2 eq3 (map (ocorner o) signs) (map pos l)).
  { revert F. generalize signs. clear. induction l as [|c l IH]; intros ss F; inversion F; subst; constructor; [apply eq3_sym; assumption|apply IH; assumption]. }
  intros p. split.
  - intros (v & Hv & He). apply (hull_eq3 _ _ _ F').
    destruct (hull_of_corners (F3 0 0 0) (ob_Extents o) v (proj1 Ho) Hv) as (ws & HL & HW & HT & Hc).
    exists ws. split; [rewrite HL, !map_length; reflexivity|]. split; [assumption|]. split; [assumption|].
    eapply eq3_trans; [exact He|]. pose proof (affine_combo _ (global_affine (pos (ob_Center o)) (ob_Orientation o)) ws (map (corner (F3 0 0 0) (ob_Extents o)) signs) HL HW) as G.
    rewrite HT, map_map in G. specialize (G ltac:(lra)).
    assert (S1 : forall w, eq3 (scale (/ 1) w) w) by (intros; e3; repeat split; field).
    eapply eq3_trans; [|eapply eq3_trans; [exact G|apply S1]]. apply (global_eq3 (pos (ob_Center o)) (ob_Orientation o)).
    eapply eq3_trans; [|apply eq3_sym, S1]. eapply eq3_trans; [|exact Hc]. unfold pos; e3. cbn [fx fy fz]. repeat split; ring.
  - apply hull_in; [apply obb_convex|]. rewrite Forall_map. rewrite Forall_forall. intros c Hc.
    destruct (forall2_in _ _ _ F c Hc) as (s & h1 & h2). apply (proj1 (obb_convex o) _ _ (eq3_sym _ _ h2)). apply ocorner_in; assumption.
Qed.
