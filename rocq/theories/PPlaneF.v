(** Which side of a plane a volume lies on, on bit patterns. *)
From Coq Require Import Reals Lra Lia ZArith Bool List.
From Flocq Require Import Core IEEE754.BinarySingleNaN.
From Verif Require Import Base F32 F32Facts Intrin Lane MVec MTrig MQuat MInterp MPlane MMatrix Shapes MCollide.
From Verif Require Import SpecF32 PF32 SpecRound PFloat PExp PHyp SpecGeom SpecQuat SpecMat SpecShape SpecErr PReal PVec PErr PErrNorm PFix PTrigF PArcF SpecTol PShape PSphere PSide PSolid PCollF PSphF.
Import ListNotations.
Open Scope R_scope.

(** every lane of the outside and inside masks is right up to [e] about the interval of values of the plane equation *)
Definition lanes_near (e lo hi : R) (t : quad bool * quad bool) : Prop :=
  forall i, (lane (fst t) i = true -> - e < lo) /\ (e < lo -> lane (fst t) i = true) /\ (lane (snd t) i = true -> hi < e) /\ (hi < - e -> lane (snd t) i = true).
Lemma qall_lanes (m : quad bool) : qall m = true <-> forall i, lane m i = true.
Proof.
  unfold qall. rewrite !andb_true_iff. split.
  - intros (((A & B) & C) & D) []; assumption.
  - intros H. repeat split; [apply (H I0)|apply (H I1)|apply (H I2)|apply (H I3)].
Qed.
Lemma not_qall (m : quad bool) : qall m = false -> exists i, lane m i = false.
Proof.
  unfold qall. destruct m as [[] [] [] []]; cbn; intros; try discriminate; first [exists I0; reflexivity|exists I1; reflexivity|exists I2; reflexivity|exists I3; reflexivity].
Qed.
Lemma near_verdict e P A lo hi t : 0 <= e -> spans P A lo hi -> lanes_near e lo hi t -> side_near e P A (plane_verdict t).
Proof.
  intros E0 (h & (p & Hp & Ep) & (q & Hq & Eq)) H. pose proof (h p Hp) as LH. destruct t as (o, i). unfold plane_verdict, side_near. cbn [fst snd]. pose proof (H I0) as K. cbn [fst snd] in K.
  destruct (qall o) eqn:O; [|destruct (qall i) eqn:I].
  - apply qall_lanes with (i := I0) in O. apply K in O. repeat split; try discriminate.
    + intros _ x X. specialize (h x X). lra.
    + intros B. specialize (B p Hp). lra.
  - apply qall_lanes with (i := I0) in I. apply K in I. repeat split; try discriminate.
    + intros B. specialize (B q Hq). lra.
    + intros _ x X. specialize (h x X). lra.
  - apply not_qall in O. apply not_qall in I. destruct O as (j & O), I as (k & I).
    assert (LO : lo <= e) by (destruct (Rle_or_lt lo e) as [L|L]; [exact L|]; apply (H j) in L; cbn [fst] in L; congruence).
    assert (HI : - e <= hi) by (destruct (Rle_or_lt (- e) hi) as [L|L]; [exact L|]; apply (H k) in L; cbn [snd] in L; congruence).
    repeat split; try discriminate.
    + intros B. specialize (B p Hp). lra.
    + intros B. specialize (B q Hq). lra.
    + exists p. split; [exact Hp|lra].
    + exists q. split; [exact Hq|lra].
Qed.
Lemma lane_mor (m n : quad bool) i : lane (mor m n) i = (lane m i || lane n i)%bool. Proof. destruct i; reflexivity. Qed.
Lemma lane_mand (m n : quad bool) i : lane (mand m n) i = (lane m i && lane n i)%bool. Proof. destruct i; reflexivity. Qed.
Lemma near_contained e A test (lo hi : rvec -> R) Z0 Z1 Z2 Z3 Z4 Z5 P0 P1 P2 P3 P4 P5 : 0 <= e ->
  Forall2 (fun z P => spans P A (lo P) (hi P) /\ lanes_near e (lo P) (hi P) (test z)) [Z0; Z1; Z2; Z3; Z4; Z5] [P0; P1; P2; P3; P4; P5] ->
  six_near e A [P0; P1; P2; P3; P4; P5] (contained_by (L:=FL) test Z0 Z1 Z2 Z3 Z4 Z5).
Proof.
  intros E0 H. repeat match goal with K : Forall2 _ (_ :: _) _ |- _ => inversion K; clear K; subst end.
  repeat match goal with K : spans _ _ _ _ /\ _ |- _ => destruct K end. unfold contained_by.
  repeat match goal with K : lanes_near _ _ _ (test ?z) |- _ => let o := fresh "o" in let i := fresh "i" in destruct (test z) as [o i]; unfold lanes_near in K; cbn [fst snd] in K end. cbn [fst snd].
  match goal with |- context [if qall ?m then _ else if qall ?n then _ else _] => set (OO := m); set (II := n) end.
  assert (OL : forall j, lane OO j = true -> exists P, In P [P0; P1; P2; P3; P4; P5] /\ forall p, A p -> - e < plane_at P p).
  { intros j HJ. unfold OO in HJ. rewrite !lane_mor, !orb_true_iff in HJ.
    repeat match type of HJ with _ \/ _ => destruct HJ as [HJ|HJ] end;
    match type of HJ with lane ?o j = true => match goal with K : (forall i, (lane o i = true -> - e < lo ?P) /\ _), S : spans ?P _ _ _ |- _ =>
      exists P; split; [cbn; tauto|]; intros p HP; apply K in HJ; destruct S as (h & _); specialize (h p HP); lra end end. }
  assert (OR : (exists P, In P [P0; P1; P2; P3; P4; P5] /\ forall p, A p -> e < plane_at P p) -> qall OO = true).
  { intros (P & IP & HP). apply qall_lanes. intros j. unfold OO. rewrite !lane_mor, !orb_true_iff. cbn in IP.
    repeat match type of IP with _ \/ _ => destruct IP as [IP|IP] end; try contradiction; subst;
    match type of HP with forall p, A p -> e < plane_at ?P p => match goal with S : spans P _ _ _, K : (forall i, (lane ?o i = true -> - e < lo P) /\ _) |- _ =>
      destruct S as (_ & (x & Hx & Ex) & _); specialize (HP x Hx); assert (lane o j = true) by (apply K; lra); tauto end end. }
  assert (IL : qall II = true -> forall P, In P [P0; P1; P2; P3; P4; P5] -> forall p, A p -> plane_at P p < e).
  { intros HI P IP p HP. apply qall_lanes with (i := I0) in HI. unfold II in HI. rewrite !lane_mand, !andb_true_iff in HI. decompose [and] HI. cbn in IP.
    repeat match type of IP with _ \/ _ => destruct IP as [IP|IP] end; try contradiction; subst;
    match goal with |- plane_at ?P p < e => match goal with S : spans P _ _ _, K : (forall i, _ /\ _ /\ (lane ?o i = true -> hi P < e) /\ _), L : lane ?o I0 = true |- _ =>
      apply K in L; destruct S as (h & _); specialize (h p HP); lra end end. }
  assert (IR : (forall P, In P [P0; P1; P2; P3; P4; P5] -> forall p, A p -> plane_at P p < - e) -> qall II = true).
  { intros HP. apply qall_lanes. intros j. unfold II. rewrite !lane_mand, !andb_true_iff.
    assert (KK : forall P, In P [P0; P1; P2; P3; P4; P5] -> spans P A (lo P) (hi P) -> hi P < - e).
    { intros P IP (_ & _ & (x & Hx & Ex)). specialize (HP P IP x Hx). lra. }
    repeat split; match goal with K : (forall i, _ /\ _ /\ (lane ?o i = true -> hi ?P < e) /\ _) |- lane ?o j = true => apply K, KK; [cbn; tauto|assumption] end. }
  clearbody OO II. unfold six_near. destruct (qall OO) eqn:QO; [|destruct (qall II) eqn:QI].
  - repeat split; try discriminate.
    + intros _. apply (OL I0). apply qall_lanes with (i := I0) in QO. exact QO.
    + intros HP. exfalso. destruct (OL I0) as (P & IP & HQ); [apply qall_lanes with (i := I0) in QO; exact QO|].
      assert (S : spans P A (lo P) (hi P)) by (cbn in IP; repeat match type of IP with _ \/ _ => destruct IP as [IP|IP] end; try contradiction; subst; assumption).
      destruct S as (_ & (x & Hx & _) & _). specialize (HP P IP x Hx). specialize (HQ x Hx). lra.
  - repeat split; try discriminate; auto. intros K. apply OR in K. congruence.
  - repeat split; try discriminate; auto; intros K; [apply OR in K|apply IR in K]; congruence.
Qed.

(** ** comparing a distance with a radius *)
Lemma gt_fin a c x y : value a = Fin x -> value c = Fin y -> tgt (L:=FL) a c = true <-> y < x.
Proof. intros Va Vc. change (tgt (L:=FL) a c) with (f_lt c a). apply lt_fin; assumption. Qed.
Lemma neg_lane b (R : quad Z) i r : is32 (lane R i) r -> value (lane (XMVectorNegate (L:=FL) b R) i) = Fin (- r).
Proof.
  intros (W & V). destruct b as [|s3 s4 f av].
  - transitivity (value (f_neg (lane R i))); [destruct i; reflexivity|apply neg_val; assumption].
  - transitivity (value (f_sub 0 (lane R i))); [destruct i; reflexivity|]. rewrite value_sub0, V by exact W. reflexivity.
Qed.
Lemma radius_test b (D R : quad Z) e1 e2 h r ra : (forall i, SpecErr.within e1 (lane D i) h) -> (forall i, exists v, is32 (lane R i) v /\ Rabs (v - r) <= e2) -> forall e, e1 + e2 + Rabs (ra - r) <= e ->
  lanes_near e (h - ra) (h + ra) (vgt (L:=FL) D R, vlt (L:=FL) D (XMVectorNegate b R)).
Proof.
  intros HD HR e HE i. destruct (HD i) as (d & Vd & Ed). destruct (HR i) as (v & Iv & Ev). pose proof (neg_lane b R i v Iv) as VN. destruct Iv as (W & V).
  assert (G : lane (vgt (L:=FL) D R) i = tgt (L:=FL) (lane D i) (lane R i)) by (destruct i; reflexivity).
  assert (K : lane (vlt (L:=FL) D (XMVectorNegate b R)) i = f_lt (lane D i) (lane (XMVectorNegate (L:=FL) b R) i)) by (destruct i; reflexivity).
  cbn [fst snd]. rewrite G, K, (gt_fin _ _ _ _ Vd V), (lt_fin _ _ _ _ Vd VN). apply Rabs_le_inv in Ed. apply Rabs_le_inv in Ev.
  pose proof (Rle_abs (ra - r)). pose proof (Rle_abs (- (ra - r))) as RA. rewrite Rabs_Ropp in RA. repeat split; intros; lra.
Qed.

(** ** the assertion on the normal *)
Lemma eps_val : value (f_lit 13743895 (-37)) = Fin (IZR 13743895 / IZR 137438953472).
Proof. rewrite lit_exact by lia. f_equal. Qed.
Lemma near_mid x : near_unit x -> mid_range (norm3 x).
Proof.
  unfold near_unit, mid_range. intros H. apply Rabs_le_inv in H. rewrite !pow2_bpow. split.
  - apply Rle_trans with (bpow radix2 (-1)); [apply bpow_le; lia|change (bpow radix2 (-1)) with (/ 2); lra].
  - apply Rle_trans with (bpow radix2 1); [change (bpow radix2 1) with 2; lra|apply bpow_le; lia].
Qed.
Lemma abs_lane b (V : quad Z) i x : is32 (lane V i) x -> is32 (lane (XMVectorAbs (L:=FL) b V) i) (Rabs x).
Proof.
  intros I. destruct b as [|s3 s4 f av].
  - destruct I as (W & V'). replace (lane (XMVectorAbs (L:=FL) Scalar V) i) with (f_abs (lane V i)) by (destruct i; reflexivity). split; [apply (word_abs _ W)|apply abs_val; assumption].
  - destruct I as (W & V'). pose proof (value_sub0 _ W) as N. rewrite V' in N. cbn [xneg] in N.
    assert (E : lane (XMVectorAbs (L:=FL) (SSE s3 s4 f av) V) i = (if f_lt (lane V i) (f_sub 0 (lane V i)) then f_sub 0 (lane V i) else lane V i)) by (destruct i; reflexivity).
    rewrite E, (lt_val' _ _ _ _ V' N). destruct (Rltb_spec x (- x)) as [L|L].
    + split; [apply enc_word|]. rewrite N, Rabs_left1 by lra. reflexivity.
    + split; [exact W|]. rewrite V', Rabs_pos_eq by lra. reflexivity.
Qed.
Lemma dot3_word b (V W : quad Z) i : word (lane (XMVector3Dot (L:=FL) b V W) i).
Proof. destruct b as [|[|] [|] f av]; destruct i; apply enc_word. Qed.
Lemma sub1_lane b (V : quad Z) i : lane (XMVectorSubtract (L:=FL) b V vone) i = f_sub (lane V i) (f_lit 1 0). Proof. destruct b, i; reflexivity. Qed.
Lemma vlt_lane (V W : quad Z) i : lane (vlt (L:=FL) V W) i = f_lt (lane V i) (lane W i). Proof. destruct i; reflexivity. Qed.
Lemma unit_passes b V x : holds3 V x -> near_unit x -> XMVector3IsUnit (L:=FL) b V = true.
Proof.
  intros HV HU. unfold XMVector3IsUnit. apply qall_lanes. intros i. destruct (length3_err b V x i HV (near_mid x HU)) as ((n & Vn & En) & _).
  generalize dependent (XMVector3Length (L:=FL) b V). intros LV Vn.
  unfold near_unit in HU. set (N := norm3 x) in *. apply Rabs_le_inv in HU. change ulp_half with u24 in En. apply Rabs_le_inv in En.
  assert (S : value (f_sub (lane LV i) (f_lit 1 0)) = Fin (RN (n - 1)) /\ Rabs (RN (n - 1) - (n - 1)) <= u24 * Rabs (n - 1)).
  { apply sub_rel; [exact Vn|apply val_one|]. apply Rle_trans with 1; [apply Rabs_le; unfold u24 in *; lra|]. apply (bpow_le radix2 0 62). lia. }
  destruct S as (VS & ES). set (d := RN (n - 1)) in *. assert (A : Rabs (n - 1) <= 91 / 1000000) by (apply Rabs_le; unfold u24 in *; lra).
  assert (D : Rabs d <= 92 / 1000000) by (replace d with (d - (n - 1) + (n - 1)) by ring; eapply Rle_trans; [apply Rabs_triang|]; unfold u24 in *; lra).
  assert (W : is32 (lane (XMVectorSubtract (L:=FL) b LV vone) i) d) by (rewrite sub1_lane; split; [apply enc_word|exact VS]).
  apply (abs_lane b) in W. destruct W as (_ & VA). rewrite vlt_lane. assert (G : value (lane (@g_UnitEpsilon FL) i) = Fin (IZR 13743895 / IZR 137438953472)) by (rewrite <- eps_val; destruct i; reflexivity).
  apply (lt_fin _ _ _ _ VA G). lra.
Qed.

(** ** spheres and boxes *)
Lemma point_holds c x : holdsF3 c x -> holds4 (insert_lane (L:=FL) I3 (load3 (L:=FL) c) vone) (point (pos x)).
Proof. intros (A & B & C). repeat split; cbn; try apply A; try apply B; try apply C; try (vm_compute; (discriminate || reflexivity)). apply val_one. Qed.
Lemma point_at P c : dot4 (point c) P = plane_at P c.
Proof. unfold dot4, point, plane_at, dot3. cbn [qx qy qz qw]. ring. Qed.
Lemma ball_spans' s P : ok_sphere s -> norm3 P <> 0 ->
  spans P (ball s) (plane_at P (pos (sp_Center s)) - sp_Radius s * norm3 P) (plane_at P (pos (sp_Center s)) + sp_Radius s * norm3 P).
Proof.
  intros Hs HN. unfold ok_sphere in Hs. set (c := pos (sp_Center s)). set (r := sp_Radius s) in *. pose proof (norm3_nonneg P) as N0. set (n := scale (/ norm3 P) P).
  assert (PP : dot3 P P = norm3 P * norm3 P) by (rewrite norm3_sq; reflexivity).
  assert (Un : unit3 n) by (unfold unit3, n; transitivity (/ norm3 P * / norm3 P * dot3 P P); [unfold dot3, scale; cbn [qx qy qz]; ring|rewrite PP; field; exact HN]).
  assert (Hp : forall k, plane_at P (plus c (scale k n)) = plane_at P c + k * norm3 P).
  { intros k. unfold plane_at. transitivity (dot3 P c + qw P + k * / norm3 P * dot3 P P); [unfold dot3, plus, n, scale; cbn [qx qy qz]; ring|rewrite PP; field; exact HN]. }
  split; [|split].
  - intros p Hb. unfold ball in Hb. fold c in Hb. unfold dist in Hb. pose proof (c19_cs3 P (minus p c)) as CS.
    assert (E : plane_at P p - plane_at P c = dot3 P (minus p c)) by (unfold plane_at, dot3, minus; cbn [qx qy qz]; ring).
    assert (norm3 P * norm3 (minus p c) <= norm3 P * r) by (apply Rmult_le_compat_l; assumption). unfold Rabs in CS. destruct (Rcase_abs _) in CS; lra.
  - exists (plus c (scale (- r) n)). rewrite Hp. split; [|ring]. unfold ball. fold c r. rewrite dist_along, Rabs_Ropp, Rabs_right by (assumption || lra). lra.
  - exists (plus c (scale r n)). rewrite Hp. split; [|ring]. unfold ball. fold c r. rewrite dist_along, Rabs_right by (assumption || lra). lra.
Qed.
Lemma sphere_lanes b S s Z P e : holdsSphere S s -> ok_sphere s -> holds4 Z P -> safe (plane_mag P (pos (sp_Center s))) -> sphere_plane_err s P <= e ->
  lanes_near e (plane_at P (pos (sp_Center s)) - sp_Radius s * norm3 P) (plane_at P (pos (sp_Center s)) + sp_Radius s * norm3 P)
    (FastIntersectSpherePlane (L:=FL) b (insert_lane I3 (load3 (L:=FL) (sp_Center S)) vone) (qrep (sp_Radius S)) Z).
Proof.
  intros (HC & HR) O HZ HS HE. unfold FastIntersectSpherePlane. cbv zeta. unfold sphere_plane_err, ok_sphere in *.
  apply radius_test with (5 * ulp_half * plane_mag P (pos (sp_Center s)) + 14 * tiny) 0 (sp_Radius s).
  - intros i. rewrite <- point_at. apply dot4_err; [apply point_holds, HC|exact HZ|exact HS].
  - intros i. exists (sp_Radius s). split; [destruct i; exact HR|replace (sp_Radius s - sp_Radius s) with 0 by ring; rewrite Rabs_R0; lra].
  - replace (sp_Radius s * norm3 P - sp_Radius s) with ((norm3 P - 1) * sp_Radius s) by ring. rewrite Rabs_mult, (Rabs_pos_eq (sp_Radius s)) by exact O. lra.
Qed.
Lemma all2_impl {A B} (P Q : A -> B -> Prop) l m : (forall a b, P a b -> Q a b) -> Forall2 P l m -> Forall2 Q l m.
Proof. intros H F. induction F; constructor; auto. Qed.
Lemma tiny_pos : 0 < tiny. Proof. rewrite tiny_eta. apply eta_pos. Qed.
Lemma mag_pos P c : 0 <= plane_mag P c.
Proof. unfold plane_mag, dot4, vabs, point. cbn [qx qy qz qw]. repeat apply Rplus_le_le_0_compat; apply Rmult_le_pos; apply Rabs_pos. Qed.
Lemma sphere_err_pos s P : ok_sphere s -> 0 <= sphere_plane_err s P.
Proof.
  intros O. unfold sphere_plane_err. pose proof (mag_pos P (pos (sp_Center s))). pose proof tiny_pos. pose proof (Rmult_le_pos _ _ (Rabs_pos (norm3 P - 1)) O). unfold ulp_half. lra.
Qed.
Lemma near_nz P : near_unit P -> norm3 P <> 0. Proof. unfold near_unit. intros H E. rewrite E in H. apply Rabs_le_inv in H. lra. Qed.
Lemma holds43 Z P : holds4 Z P -> holds3 Z P. Proof. intros (A & B & C & _). repeat split; apply A || apply B || apply C. Qed.
Lemma sphere_plane_f b S s Z P : holdsSphere S s -> ok_sphere s -> holds4 Z P -> near_unit P -> safe (plane_mag P (pos (sp_Center s))) ->
  exists v, Sphere_IntersectsPlane (L:=FL) b S Z = Some v /\ side_near (sphere_plane_err s P) P (ball s) v.
Proof.
  intros HS O HZ HU SF. unfold Sphere_IntersectsPlane, XMPlaneIsUnit. rewrite (unit_passes b Z P (holds43 _ _ HZ) HU). unfold asserting. cbv zeta. eexists. split; [reflexivity|].
  eapply near_verdict; [apply sphere_err_pos, O|apply ball_spans'; [exact O|apply near_nz, HU]|apply sphere_lanes; auto; lra].
Qed.
Lemma sphere_six_f b S s e Z0 Z1 Z2 Z3 Z4 Z5 P0 P1 P2 P3 P4 P5 : holdsSphere S s -> ok_sphere s ->
  Forall2 (fun z P => holds4 z P /\ near_unit P /\ safe (plane_mag P (pos (sp_Center s))) /\ sphere_plane_err s P <= e) [Z0; Z1; Z2; Z3; Z4; Z5] [P0; P1; P2; P3; P4; P5] ->
  six_near e (ball s) [P0; P1; P2; P3; P4; P5] (Sphere_ContainedBy (L:=FL) b S Z0 Z1 Z2 Z3 Z4 Z5).
Proof.
  intros HS O H. unfold Sphere_ContainedBy. cbv zeta.
  apply near_contained with (lo := fun P => plane_at P (pos (sp_Center s)) - sp_Radius s * norm3 P) (hi := fun P => plane_at P (pos (sp_Center s)) + sp_Radius s * norm3 P).
  - inversion H as [|? ? ? ? (_ & _ & _ & E)]. pose proof (sphere_err_pos s P0 O). lra.
  - revert H; apply all2_impl. intros z P (HZ & HU & SF & HE). split; [apply ball_spans'; [exact O|apply near_nz, HU]|apply sphere_lanes; assumption].
Qed.

Lemma reach_dot e P : nonneg3 e -> reach e P = dot3 (pos e) (vabs P).
Proof. intros _. unfold reach, dot3, pos, vabs. cbn [qx qy qz]. ring. Qed.
Lemma box_lanes b S s Z P e : holdsBox S s -> ok_box s -> holds4 Z P -> safe (plane_mag P (pos (bx_Center s))) -> safe (dot3 (pos (bx_Extents s)) (vabs P)) -> box_plane_err s P <= e ->
  lanes_near e (plane_at P (pos (bx_Center s)) - reach (bx_Extents s) P) (plane_at P (pos (bx_Center s)) + reach (bx_Extents s) P)
    (FastIntersectAxisAlignedBoxPlane (L:=FL) b (insert_lane I3 (load3 (L:=FL) (bx_Center S)) vone) (load3 (L:=FL) (bx_Extents S)) Z).
Proof.
  intros (HC & HX) O HZ HS HX2 HE. unfold FastIntersectAxisAlignedBoxPlane. cbv zeta. unfold box_plane_err in *. rewrite (reach_dot _ _ O). set (r := dot3 (pos (bx_Extents s)) (vabs P)) in *.
  assert (EA : dot3 (vabs (pos (bx_Extents s))) (vabs (vabs P)) = r).
  { unfold r. destruct O as (O1 & O2 & O3). unfold dot3, vabs, pos. cbn [qx qy qz]. rewrite !Rabs_Rabsolu, (Rabs_pos_eq _ O1), (Rabs_pos_eq _ O2), (Rabs_pos_eq _ O3). reflexivity. }
  apply radius_test with (5 * ulp_half * plane_mag P (pos (bx_Center s)) + 14 * tiny) (4 * ulp_half * r + 12 * tiny) r.
  - intros i. rewrite <- point_at. apply dot4_err; [apply point_holds, HC|exact HZ|exact HS].
  - intros i. destruct (dot3_err b (load3 (L:=FL) (bx_Extents S)) (XMVectorAbs (L:=FL) b Z) (pos (bx_Extents s)) (vabs P) i) as (v & V & E).
    + exact HX.
    + destruct HZ as (Z0 & Z1 & Z2 & _). split; [exact (abs_lane b Z I0 _ Z0)|split; [exact (abs_lane b Z I1 _ Z1)|exact (abs_lane b Z I2 _ Z2)]].
    + rewrite EA. exact HX2.
    + exists v. rewrite EA in E. split; [|exact E]. split; [|exact V]. apply dot3_word.
  - replace (r - r) with 0 by ring. rewrite Rabs_R0. lra.
Qed.
Lemma box_err_pos s P : ok_box s -> 0 <= box_plane_err s P.
Proof.
  intros O. unfold box_plane_err. pose proof (mag_pos P (pos (bx_Center s))). pose proof tiny_pos. assert (0 <= dot3 (pos (bx_Extents s)) (vabs P)).
  { destruct O as (? & ? & ?). unfold dot3, pos, vabs. cbn [qx qy qz]. repeat apply Rplus_le_le_0_compat; apply Rmult_le_pos; try assumption; apply Rabs_pos. }
  unfold ulp_half. lra.
Qed.
Lemma box_plane_f b S s Z P : holdsBox S s -> ok_box s -> holds4 Z P -> near_unit P -> safe (plane_mag P (pos (bx_Center s))) -> safe (dot3 (pos (bx_Extents s)) (vabs P)) ->
  exists v, Box_IntersectsPlane (L:=FL) b S Z = Some v /\ side_near (box_plane_err s P) P (aabb s) v.
Proof.
  intros HS O HZ HU SF SX. unfold Box_IntersectsPlane, XMPlaneIsUnit. rewrite (unit_passes b Z P (holds43 _ _ HZ) HU). unfold asserting. cbv zeta. eexists. split; [reflexivity|].
  eapply near_verdict; [apply box_err_pos, O|apply box_spans, O|apply box_lanes; auto; lra].
Qed.
Lemma box_six_f b S s e Z0 Z1 Z2 Z3 Z4 Z5 P0 P1 P2 P3 P4 P5 : holdsBox S s -> ok_box s ->
  Forall2 (fun z P => holds4 z P /\ safe (plane_mag P (pos (bx_Center s))) /\ safe (dot3 (pos (bx_Extents s)) (vabs P)) /\ box_plane_err s P <= e) [Z0; Z1; Z2; Z3; Z4; Z5] [P0; P1; P2; P3; P4; P5] ->
  six_near e (aabb s) [P0; P1; P2; P3; P4; P5] (Box_ContainedBy (L:=FL) b S Z0 Z1 Z2 Z3 Z4 Z5).
Proof.
  intros HS O H. unfold Box_ContainedBy. cbv zeta.
  apply near_contained with (lo := fun P => plane_at P (pos (bx_Center s)) - reach (bx_Extents s) P) (hi := fun P => plane_at P (pos (bx_Center s)) + reach (bx_Extents s) P).
  - inversion H as [|? ? ? ? (_ & _ & _ & E)]. pose proof (box_err_pos s P0 O). lra.
  - revert H; apply all2_impl. intros z P (HZ & SF & SX & HE). split; [apply box_spans, O|apply box_lanes; assumption].
Qed.
