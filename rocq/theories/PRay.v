(** Rays against boxes: the slab test. *)
From Coq Require Import Reals Lra Psatz List Bool.
From Verif Require Import Base F32 Intrin Lane MVec MTrig MQuat MInterp MPlane MMatrix Shapes MCollide.
From Verif Require Import SpecGeom SpecQuat SpecMat SpecShape PReal PVec PQuat PRot PMatrix PTransf PDecomp PShape PSphere PSide PHull PBox POBox PSat PSolid.
Open Scope R_scope.

Definition eps : R := Rlit 1547425 (-87).
Definition fmax : R := Rlit 16777215 104.
Lemma eps_pos : 0 < eps.
Proof. unfold eps, Rlit. apply Rmult_lt_0_compat; [apply IZR_lt; lia|apply Rinv_0_lt_compat, IZR_lt; lia]. Qed.
Lemma fmax_pos : 0 < fmax.
Proof. unfold fmax, Rlit. apply IZR_lt. lia. Qed.
Lemma neg_fmax : Rlit (-16777215) 104 = - fmax.
Proof. unfold fmax, Rlit. rewrite <- opp_IZR. reflexivity. Qed.
Definition lo (a d e : R) : R := if Rleb (Rabs d) eps then - fmax else Rmin ((a - e) * (1 / d)) ((a + e) * (1 / d)).
Definition hi (a d e : R) : R := if Rleb (Rabs d) eps then fmax else Rmax ((a - e) * (1 / d)) ((a + e) * (1 / d)).
Definition off (a d e : R) : bool := (Rleb (Rabs d) eps && negb (Rleb a e && Rleb (- e) a))%bool.
Definition max3 (x y z : R) : R := Rmax (Rmax x y) (Rmax z y).
Definition min3' (x y z : R) : R := Rmin (Rmin x y) (Rmin z y).
Lemma slab_R b (a d e : rvec) :
  let m := max3 (lo (qx a) (qx d) (qx e)) (lo (qy a) (qy d) (qy e)) (lo (qz a) (qz d) (qz e)) in
  let n := min3' (hi (qx a) (qx d) (qx e)) (hi (qy a) (qy d) (qy e)) (hi (qz a) (qz d) (qz e)) in
  slab_test (L:=RL) b a d e =
  if (Rltb n m || Rltb n 0 || off (qx a) (qx d) (qx e) || off (qy a) (qy d) (qy e) || off (qz a) (qz d) (qz e))%bool then (false, 0) else (true, m).
Proof.
  unfold slab_test. cbv zeta. rewrite Recip_R, Abs_R, !Sub_R, !Add_R, !Mul_R, !Max_R, !Min_R, !InBounds_R.
  destruct a as [a1 a2 a3 a4], d as [d1 d2 d3 d4], e as [e1 e2 e3 e4].
  unfold off, lo, hi. cbn [qx qy qz].
  cbv [vle vlt vgt vsel mor mandc splat permute_ps shuffle lane qmap3 qmap2 qmap any3 g_FltMin g_FltMax g_RayEpsilon qrep vzero plus minus qx qy qz qw].
  unfold tgt. change (@tlt RL) with Rltb. change (@tle RL) with Rleb. change (@zero RL) with 0. change (@tlit RL 1547425 (-87)) with eps.
  change (@tlit RL 16777215 104) with fmax. change (@tlit RL (-16777215) 104) with (Rlit (-16777215) 104). rewrite neg_fmax. rt.
  fold (max3 (if Rleb (Rabs d1) eps then - fmax else Rmin ((a1 - e1) * (1 / d1)) ((a1 + e1) * (1 / d1)))
     (if Rleb (Rabs d2) eps then - fmax else Rmin ((a2 - e2) * (1 / d2)) ((a2 + e2) * (1 / d2)))
     (if Rleb (Rabs d3) eps then - fmax else Rmin ((a3 - e3) * (1 / d3)) ((a3 + e3) * (1 / d3)))).
  fold (min3' (if Rleb (Rabs d1) eps then fmax else Rmax ((a1 - e1) * (1 / d1)) ((a1 + e1) * (1 / d1)))
     (if Rleb (Rabs d2) eps then fmax else Rmax ((a2 - e2) * (1 / d2)) ((a2 + e2) * (1 / d2)))
     (if Rleb (Rabs d3) eps then fmax else Rmax ((a3 - e3) * (1 / d3)) ((a3 + e3) * (1 / d3)))).
  set (m := max3 _ _ _). set (n := min3' _ _ _).
  destruct (Rltb n m), (Rltb n 0); try reflexivity.
  destruct (Rleb (Rabs d1) eps && _)%bool; try reflexivity.
  destruct (Rleb (Rabs d2) eps && _)%bool; try reflexivity.
  destruct (Rleb (Rabs d3) eps && _)%bool; reflexivity.
Qed.
Lemma lane_in a d e t : 0 <= e -> clear_of d -> lo a d e <= t <= hi a d e -> off a d e = false -> Rabs (t * d - a) <= e.
Proof.
  intros He Hd. unfold lo, hi, off. pose proof eps_pos. destruct Hd as [->|Hd].
  - rewrite Rabs_R0, (proj2 (Rleb_true 0 eps)) by lra. cbn [andb]. rewrite negb_false_iff, andb_true_iff, !Rleb_true.
    replace (t * 0 - a) with (- a) by ring. rewrite Rabs_Ropp, abs_le_iff. lra.
  - change ray_epsilon with eps in Hd. rewrite (proj2 (Rleb_false (Rabs d) eps)) by lra. cbn [andb]. rewrite abs_le_iff.
    assert (Hd0 : d <> 0) by (intros ->; rewrite Rabs_R0 in Hd; lra).
    set (x := (a - e) * (1 / d)). set (y := (a + e) * (1 / d)).
    assert (Ex : x * d = a - e) by (unfold x; field; assumption). assert (Ey : y * d = a + e) by (unfold y; field; assumption). clearbody x y.
    destruct (Rlt_or_le 0 d) as [P|P].
    + assert (x <= y) by nra. rewrite Rmin_left, Rmax_right by assumption. intros (h1 & h2) _. split; nra.
    + assert (d < 0) by lra. assert (y <= x) by nra. rewrite Rmin_right, Rmax_left by assumption. intros (h1 & h2) _; split; nra.
Qed.
Lemma lane_out a d e t : 0 <= e -> clear_of d -> 0 <= t -> Rabs (t * d - a) <= e -> lo a d e <= t /\ (t <= fmax -> t <= hi a d e) /\ off a d e = false.
Proof.
  intros He Hd Ht. unfold lo, hi, off. pose proof eps_pos. pose proof fmax_pos. destruct Hd as [->|Hd].
  - rewrite Rabs_R0, (proj2 (Rleb_true 0 eps)) by lra. cbn [andb]. rewrite negb_false_iff, andb_true_iff, !Rleb_true.
    replace (t * 0 - a) with (- a) by ring. rewrite Rabs_Ropp, abs_le_iff. lra.
  - change ray_epsilon with eps in Hd. rewrite (proj2 (Rleb_false (Rabs d) eps)) by lra. cbn [andb]. rewrite abs_le_iff.
    assert (Hd0 : d <> 0) by (intros ->; rewrite Rabs_R0 in Hd; lra).
    set (x := (a - e) * (1 / d)). set (y := (a + e) * (1 / d)).
    assert (Ex : x * d = a - e) by (unfold x; field; assumption). assert (Ey : y * d = a + e) by (unfold y; field; assumption). clearbody x y.
    destruct (Rlt_or_le 0 d) as [P|P].
    + assert (x <= y) by nra. rewrite Rmin_left, Rmax_right by assumption. intros (h1 & h2). repeat split; intros; nra.
    + assert (d < 0) by lra. assert (y <= x) by nra. rewrite Rmin_right, Rmax_left by assumption. intros (h1 & h2); repeat split; intros; nra.
Qed.
Lemma max3_le x y z t : max3 x y z <= t <-> x <= t /\ y <= t /\ z <= t.
Proof. unfold max3. split; [intros H|intros (? & ? & ?); repeat apply Rmax_lub; assumption].
  pose proof (Rmax_l (Rmax x y) (Rmax z y)). pose proof (Rmax_r (Rmax x y) (Rmax z y)). pose proof (Rmax_l x y). pose proof (Rmax_r x y). pose proof (Rmax_l z y). repeat split; lra. Qed.
Lemma min3_le x y z t : t <= min3' x y z <-> t <= x /\ t <= y /\ t <= z.
Proof. unfold min3'. split; [intros H|intros (? & ? & ?); repeat apply Rmin_glb; assumption].
  pose proof (Rmin_l (Rmin x y) (Rmin z y)). pose proof (Rmin_r (Rmin x y) (Rmin z y)). pose proof (Rmin_l x y). pose proof (Rmin_r x y). pose proof (Rmin_l z y). repeat split; lra. Qed.
(** the slab test in the coordinates of a box centred at the origin, the ray starting at [-a] *)
Definition slab_ok (a d : rvec) (e : float3 R) (r : bool * R) : Prop :=
  let inside t := within e (minus (scale t d) a) in
  (fst r = true -> exists t, 0 <= t /\ inside t) /\ ((exists t, 0 <= t <= fmax /\ inside t) -> fst r = true) /\
  (fst r = true -> ~ inside 0 -> 0 <= snd r /\ inside (snd r) /\ forall t, 0 <= t -> inside t -> snd r <= t) /\
  (inside 0 -> snd r <= 0).
Lemma slab_spec b (a d : rvec) e : nonneg3 e -> clear_dir d -> slab_ok a d e (slab_test (L:=RL) b a d (pos e)).
Proof.
  intros (e1 & e2 & e3) (c1 & c2 & c3). rewrite slab_R. cbv zeta. unfold pos; cbn [qx qy qz].
  set (m := max3 _ _ _). set (n := min3' _ _ _).
  assert (Hm : forall t, m <= t <-> lo (qx a) (qx d) (fx e) <= t /\ lo (qy a) (qy d) (fy e) <= t /\ lo (qz a) (qz d) (fz e) <= t) by (intros; apply max3_le).
  assert (Hn : forall t, t <= n <-> t <= hi (qx a) (qx d) (fx e) /\ t <= hi (qy a) (qy d) (fy e) /\ t <= hi (qz a) (qz d) (fz e)) by (intros; apply min3_le).
  clearbody m n. set (o1 := off _ _ _) at 1. set (o2 := off (qy a) _ _). set (o3 := off (qz a) _ _).
  assert (IN : forall t, m <= t <= n -> o1 = false -> o2 = false -> o3 = false -> within e (minus (scale t d) a)).
  { intros t (h1 & h2) E1 E2 E3. apply Hm in h1. apply Hn in h2. unfold within, minus, scale; cbn [qx qy qz].
    repeat split; apply lane_in; try assumption; lra. }
  assert (OUT : forall t, 0 <= t -> within e (minus (scale t d) a) -> m <= t /\ (t <= fmax -> t <= n) /\ o1 = false /\ o2 = false /\ o3 = false).
  { intros t Ht (h1 & h2 & h3). unfold minus, scale in *; cbn [qx qy qz] in *.
    apply lane_out in h1; try assumption. apply lane_out in h2; try assumption. apply lane_out in h3; try assumption. rewrite Hm, Hn. fold o1 in h1. fold o2 in h2. fold o3 in h3. tauto. }
  clearbody o1 o2 o3. clear Hm Hn. pose proof fmax_pos.
  destruct (Rltb_spec n m) as [l1|l1]; cbn [orb].
  - split; [discriminate|split; [|split; [discriminate|intros _; cbn [snd]; lra]]]. intros (t & Ht & Hi). apply OUT in Hi; lra.
  - destruct (Rltb_spec n 0) as [l2|l2]; cbn [orb].
    + split; [discriminate|split; [|split; [discriminate|intros _; cbn [snd]; lra]]]. intros (t & Ht & Hi). apply OUT in Hi; lra.
    + destruct (o1 || o2 || o3)%bool eqn:EO.
      * split; [discriminate|split; [|split; [discriminate|intros _; cbn [snd]; lra]]]. intros (t & Ht & Hi). apply OUT in Hi; [|lra].
        destruct Hi as (_ & _ & E1 & E2 & E3). rewrite E1, E2, E3 in EO. discriminate.
      * apply orb_false_elim in EO. destruct EO as (EO & E3). apply orb_false_elim in EO. destruct EO as (E1 & E2). cbn [fst snd].
        split; [|split; [reflexivity|split]].
        -- intros _. exists (Rmax m 0). split; [apply Rmax_r|]. apply IN; try assumption. split; [apply Rmax_l|apply Rmax_lub; lra].
        -- intros _ H0. assert (0 < m). { apply Rnot_le_lt. intros h. apply H0, IN; try assumption. lra. }
           apply Rnot_lt_le in l1. clear H0. split; [apply Rlt_le; assumption|split; [apply IN; [split; [apply Rle_refl|assumption]|assumption..]|]]. intros t Ht Hi. apply OUT in Hi; [apply Hi|assumption].
        -- intros H0. apply OUT in H0; [apply H0|apply Rle_refl].
Qed.
Lemma ray_at_0 o d (A : region) : spatial A -> A (ray_at o d 0) <-> A o.
Proof. intros S. split; apply S; unfold ray_at; e3; repeat split; ring. Qed.
Lemma ray_ok_of (A : region) (inside : R -> Prop) o d r : spatial A -> (forall t, inside t <-> A (ray_at o d t)) ->
  (fst r = true -> exists t, 0 <= t /\ inside t) /\ ((exists t, 0 <= t <= fmax /\ inside t) -> fst r = true) /\
  (fst r = true -> ~ inside 0 -> 0 <= snd r /\ inside (snd r) /\ forall t, 0 <= t -> inside t -> snd r <= t) /\
  (inside 0 -> snd r <= 0) -> ray_ok A o d r.
Proof.
  intros S HI (h1 & h2 & h3 & h4). pose proof (ray_at_0 o d A S) as H0. unfold ray_ok, first_hit, hits. split; [|split; [|split]].
  - intros F. destruct (h1 F) as (t & Ht & Hi). exists t. split; [assumption|apply HI, Hi].
  - intros (t & (Ht & Ha) & Hb). apply h2. exists t. split; [split; assumption|apply HI, Ha].
  - intros F Ho. destruct (h3 F) as (k1 & k2 & k3); [intros K; apply Ho, H0, HI, K|]. split; [split; [assumption|apply HI, k2]|].
    intros t (Ht & Ha). apply k3; [assumption|apply HI, Ha].
  - intros Ho. apply h4, HI, H0, Ho.
Qed.
(** ** Axis-aligned and oriented boxes *)
Lemma box_ray b bx o d : ok_box bx -> unit3 d -> clear_dir d ->
  exists r, Box_IntersectsRay (L:=RL) b bx o d = Some r /\ ray_ok (aabb bx) o d r.
Proof.
  intros Hb Hu Hc. unfold Box_IntersectsRay. rewrite isunit3 by assumption. unfold asserting. cbv zeta. l3. rewrite Sub_R.
  eexists; split; [reflexivity|].
  pose proof (slab_spec b (minus (pos (bx_Center bx)) o) d (bx_Extents bx) Hb Hc) as H. unfold slab_ok in H. rt.
  set (r := slab_test _ _ _ _) in *. clearbody r.
  assert (E : forall t, within (bx_Extents bx) (minus (scale t d) (minus (pos (bx_Center bx)) o)) <-> aabb bx (ray_at o d t)).
  { intros t. unfold aabb, ray_at. split; apply within_eq3; e3; repeat split; ring. }
  apply (ray_ok_of _ (fun t => within (bx_Extents bx) (minus (scale t d) (minus (pos (bx_Center bx)) o)))); [apply aabb_convex|assumption|assumption].
Qed.
Lemma dots3_R b q v : unitq q -> eq3 (dots3 (L:=RL) b (qmat q) v) (qrot (conj q) v).
Proof.
  intros H. unfold dots3. cbv zeta. rewrite !Dot3_R. destruct (qmat_rows q v H) as (h1 & h2 & h3). repeat split; [rewrite h1|rewrite h2|rewrite h3]; reflexivity.
Qed.
Lemma obox_ray b ob o d : ok_obox ob -> unit3 d -> clear_dir (qrot (conj (ob_Orientation ob)) d) ->
  exists r, OBox_IntersectsRay (L:=RL) b ob o d = Some r /\ ray_ok (obb ob) o d r.
Proof.
  intros (He & Hq) Hu Hc. unfold OBox_IntersectsRay. rewrite isunit3, isunitq by assumption. unfold asserting. cbv zeta. l3. rewrite Sub_R, RotQuat_R.
  eexists; split; [reflexivity|].
  pose proof (dots3_R b (ob_Orientation ob) (minus (pos (ob_Center ob)) o) Hq) as E1. pose proof (dots3_R b (ob_Orientation ob) d Hq) as E2.
  set (a' := dots3 (L:=RL) b (qmat (ob_Orientation ob)) (minus (pos (ob_Center ob)) o)) in *. set (d' := dots3 (L:=RL) b (qmat (ob_Orientation ob)) d) in *. clearbody a' d'.
  assert (Hc' : clear_dir d'). { destruct E2 as (h1 & h2 & h3). unfold clear_dir. rewrite h1, h2, h3. exact Hc. }
  pose proof (slab_spec b a' d' (ob_Extents ob) He Hc') as H. unfold slab_ok in H. rt.
  set (r := slab_test _ _ _ _) in *. clearbody r.
  apply (ray_ok_of _ (fun t => within (ob_Extents ob) (minus (scale t d') a'))); [apply obb_convex| |assumption].
  intros t. rewrite obb_iff by assumption.
  assert (E : eq3 (minus (scale t d') a') (local (pos (ob_Center ob)) (ob_Orientation ob) (ray_at o d t))).
  { unfold local, ray_at. rewrite (qrot_eq3 _ (minus (plus o (scale t d)) (pos (ob_Center ob))) (plus (scale t d) (scale (-1) (minus (pos (ob_Center ob)) o)))) by (e3; repeat split; ring).
    rewrite qrot_linear, qrot_scale. destruct E1 as (h1 & h2 & h3), E2 as (g1 & g2 & g3).
    unfold eq3, minus, plus, scale in *; cbn [qx qy qz] in *. rewrite h1, h2, h3, g1, g2, g3. repeat split; ring. }
  split; apply within_eq3; [|apply eq3_sym]; exact E.
Qed.
