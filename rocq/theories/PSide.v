(** Which side of a plane a volume lies on: IntersectsPlane and ContainedBy. *)
From Coq Require Import Reals Lra Psatz List Bool.
From Verif Require Import Base F32 Intrin Lane MVec MTrig MQuat MInterp MPlane MMatrix Shapes MCollide.
From Verif Require Import SpecGeom SpecQuat SpecMat SpecShape PReal PVec PQuat PRot PMatrix PShape PSphere.
Open Scope R_scope.

(** the values of the plane equation over [A] fill an interval with ends [lo] and [hi] *)
Definition spans (P : rvec) (A : region) (lo hi : R) : Prop :=
  (forall p, A p -> lo <= plane_at P p <= hi) /\ (exists p, A p /\ plane_at P p = lo) /\ (exists p, A p /\ plane_at P p = hi).
Lemma spans_front P A lo hi : spans P A lo hi -> strictly_front P A <-> 0 < lo.
Proof. intros (h & (p & Hp & E) & _). split; [intros H; rewrite <- E; exact (H p Hp)|intros H q Hq; specialize (h q Hq); lra]. Qed.
Lemma spans_back P A lo hi : spans P A lo hi -> strictly_back P A <-> hi < 0.
Proof. intros (h & _ & (p & Hp & E)). split; [intros H; rewrite <- E; exact (H p Hp)|intros H q Hq; specialize (h q Hq); lra]. Qed.
Lemma verdict_ok P A lo hi : spans P A lo hi ->
  side_ok P A (plane_verdict (qrep (Rltb 0 lo), qrep (Rltb hi 0))).
Proof.
  intros H. unfold side_ok, plane_verdict; cbn [fst snd]. rewrite !qall_rep, (spans_front _ _ _ _ H), (spans_back _ _ _ _ H).
  destruct H as (h & (p & Hp & Ep) & (q & Hq & Eq)). pose proof (h p Hp) as hp.
  assert (E : (exists p, A p /\ plane_at P p <= 0 /\ exists q, A q /\ 0 <= plane_at P q) <-> lo <= 0 <= hi).
  { split.
    - intros (x & Hx & Lx & y & Hy & Ly). pose proof (h x Hx). pose proof (h y Hy). lra.
    - intros (h1 & h2). exists p. rewrite Ep. split; [assumption|split; [assumption|]]. exists q. rewrite Eq. split; assumption. }
  rewrite E. destruct (Rltb_spec 0 lo); [|destruct (Rltb_spec hi 0)]; repeat split; intros; try discriminate; try reflexivity; lra.
Qed.
Lemma contained_ok (A : region) test (lo hi : rvec -> R) P0 P1 P2 P3 P4 P5 :
  (forall P, In P (P0 :: P1 :: P2 :: P3 :: P4 :: P5 :: nil)%list -> spans P A (lo P) (hi P) /\ test P = (qrep (Rltb 0 (lo P)), qrep (Rltb (hi P) 0))) ->
  six_ok A (P0 :: P1 :: P2 :: P3 :: P4 :: P5 :: nil)%list (contained_by (L:=RL) test P0 P1 P2 P3 P4 P5).
Proof.
  intros H. unfold contained_by.
  assert (T : forall P, In P (P0 :: P1 :: P2 :: P3 :: P4 :: P5 :: nil)%list -> test P = (qrep (Rltb 0 (lo P)), qrep (Rltb (hi P) 0))) by (intros; apply H; assumption).
  rewrite (T P0), (T P1), (T P2), (T P3), (T P4), (T P5) by (cbn; tauto). clear T. cbn [fst snd]. rewrite !mor_rep, !mand_rep, !qall_rep.
  assert (S : forall P, In P (P0 :: P1 :: P2 :: P3 :: P4 :: P5 :: nil)%list ->
     (Rltb 0 (lo P) = true <-> strictly_front P A) /\ (Rltb (hi P) 0 = true <-> strictly_back P A) /\ lo P <= hi P).
  { intros P HP. destruct (H P HP) as (Hs & _). rewrite (spans_front _ _ _ _ Hs), (spans_back _ _ _ _ Hs), !Rltb_true.
    destruct Hs as (h & (x & Hx & _) & _). specialize (h x Hx). split; [reflexivity|split; [reflexivity|lra]]. }
  assert (DJ : (Rltb 0 (lo P0) || Rltb 0 (lo P1) || Rltb 0 (lo P2) || Rltb 0 (lo P3) || Rltb 0 (lo P4) || Rltb 0 (lo P5))%bool = true
    <-> exists P, In P (P0 :: P1 :: P2 :: P3 :: P4 :: P5 :: nil)%list /\ strictly_front P A).
  { rewrite !orb_true_iff. split.
    - intros [[[[[h|h]|h]|h]|h]|h];
      match type of h with Rltb 0 (lo ?P) = true => exists P; split; [cbn; tauto|apply (S P); [cbn; tauto|exact h]] end.
    - intros (P & HP & HF). apply (S P HP) in HF. cbn in HP. destruct HP as [<-|[<-|[<-|[<-|[<-|[<-|[]]]]]]]; tauto. }
  assert (CT : (Rltb (hi P0) 0 && Rltb (hi P1) 0 && Rltb (hi P2) 0 && Rltb (hi P3) 0 && Rltb (hi P4) 0 && Rltb (hi P5) 0)%bool = true
    <-> forall P, In P (P0 :: P1 :: P2 :: P3 :: P4 :: P5 :: nil)%list -> strictly_back P A).
  { rewrite !andb_true_iff. split.
    - intros (((((? & ?) & ?) & ?) & ?) & ?) P HP. apply (S P HP). cbn in HP. destruct HP as [<-|[<-|[<-|[<-|[<-|[<-|[]]]]]]]; assumption.
    - intros HA. repeat split; apply S; try (cbn; tauto); apply HA; cbn; tauto. }
  unfold six_ok. rewrite <- DJ, <- CT.
  destruct (_ || _)%bool eqn:E1; [|destruct (_ && _)%bool eqn:E2]; repeat split; intros; try discriminate; try reflexivity.
  exfalso. apply (proj1 DJ) in H0 || apply (proj1 DJ) in E1 || idtac.
  destruct (proj1 DJ eq_refl) as (P & HP & HF). pose proof (proj1 CT H0 P HP) as HB.
  destruct (S P HP) as (s1 & s2 & s3). apply s1, Rltb_true in HF. apply s2, Rltb_true in HB. lra.
Qed.
(** the pair tested in terms of a central value and a radius *)
Lemma side_pair b (d r : R) :
  (vgt (L:=RL) (qrep d) (qrep r), vlt (L:=RL) (qrep d) (XMVectorNegate b (qrep r))) = (qrep (Rltb 0 (d - r)), qrep (Rltb (d + r) 0)).
Proof.
  rewrite Neg_R, rep_opp, vgt_rep, vlt_rep. f_equal; f_equal.
  - destruct (Rltb_spec r d), (Rltb_spec 0 (d - r)); try reflexivity; lra.
  - destruct (Rltb_spec d (- r)), (Rltb_spec (d + r) 0); try reflexivity; lra.
Qed.
Lemma point_plane c P : dot4 (insert_lane (L:=RL) I3 (pos c) (qrep 1)) P = plane_at P (pos c).
Proof. destruct c as [c1 c2 c3]. dn P. unfold plane_at. cbv [insert_lane setlane lane pos dot4 dot3 qx qy qz qw qrep fx fy fz]. rt. ring. Qed.

(** ** Spheres *)
Lemma ball_spans s P : ok_sphere s -> unit3 P ->
  spans P (ball s) (plane_at P (pos (sp_Center s)) - sp_Radius s) (plane_at P (pos (sp_Center s)) + sp_Radius s).
Proof.
  intros Hs Hu. unfold ok_sphere in Hs. set (c := pos (sp_Center s)).
  assert (Hp : forall k, plane_at P (plus c (scale k P)) = plane_at P c + k).
  { intros k. unfold plane_at. transitivity (dot3 P c + qw P + k * dot3 P P); [unfold dot3, plus, scale; cbn [qx qy qz]; ring|rewrite Hu; ring]. }
  split; [|split].
  - intros p Hb. unfold ball in Hb. fold c in Hb. unfold dist in Hb.
    pose proof (c19_cs3 P (minus p c)) as CS. unfold norm3 at 1 in CS. rewrite Hu, sqrt_1, Rmult_1_l in CS.
    assert (E : plane_at P p - plane_at P c = dot3 P (minus p c)) by (unfold plane_at, dot3, minus; cbn [qx qy qz]; ring).
    unfold Rabs in CS. destruct (Rcase_abs _) in CS; lra.
  - exists (plus c (scale (- sp_Radius s) P)). rewrite Hp. split; [|ring]. unfold ball. fold c. rewrite dist_along, Rabs_Ropp, Rabs_right by (assumption || lra). lra.
  - exists (plus c (scale (sp_Radius s) P)). rewrite Hp. split; [|ring]. unfold ball. fold c. rewrite dist_along, Rabs_right by (assumption || lra). lra.
Qed.
Lemma FastSphere_R b s P : FastIntersectSpherePlane (L:=RL) b (insert_lane I3 (load3 (sp_Center s)) vone) (qrep (sp_Radius s)) P =
  (qrep (Rltb 0 (plane_at P (pos (sp_Center s)) - sp_Radius s)), qrep (Rltb (plane_at P (pos (sp_Center s)) + sp_Radius s) 0)).
Proof. unfold FastIntersectSpherePlane. cbv zeta. l3. rewrite vone_R, Dot4_R, point_plane. apply side_pair. Qed.
Lemma sphere_plane b s P : ok_sphere s -> unit3 P ->
  exists v, Sphere_IntersectsPlane (L:=RL) b s P = Some v /\ side_ok P (ball s) v.
Proof.
  intros Hs Hu. unfold Sphere_IntersectsPlane, XMPlaneIsUnit. rewrite isunit3 by assumption. unfold asserting. cbv zeta.
  rewrite FastSphere_R. eexists; split; [reflexivity|]. apply verdict_ok, ball_spans; assumption.
Qed.
Lemma sphere_six b s P0 P1 P2 P3 P4 P5 : ok_sphere s -> Forall unit3 (P0 :: P1 :: P2 :: P3 :: P4 :: P5 :: nil)%list ->
  six_ok (ball s) (P0 :: P1 :: P2 :: P3 :: P4 :: P5 :: nil)%list (Sphere_ContainedBy (L:=RL) b s P0 P1 P2 P3 P4 P5).
Proof.
  intros Hs Hu. unfold Sphere_ContainedBy. cbv zeta.
  apply (contained_ok (ball s) _ (fun P => plane_at P (pos (sp_Center s)) - sp_Radius s) (fun P => plane_at P (pos (sp_Center s)) + sp_Radius s)).
  intros P HP. split; [apply ball_spans; [assumption|rewrite Forall_forall in Hu; apply Hu, HP]|apply FastSphere_R].
Qed.
