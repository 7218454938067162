(** Triangles: plane sides, spheres (C52, C55). *)
From Coq Require Import Reals Lra Psatz List Bool.
From Verif Require Import Base F32 Intrin Lane MVec MTrig MQuat MInterp MPlane MMatrix Shapes MCollide MFrustum.
From Verif Require Import SpecGeom SpecQuat SpecMat SpecShape PReal PVec PQuat PRot PMatrix PShape PSphere PSide PHull.
Open Scope R_scope.

(** ** Leaving a convex region given by affine inequalities *)
(** the pairs are the values of an affine function at the start and at the end of a segment *)
Definition along (t : R) (g : R * R) : R := fst g + t * (snd g - fst g).
Lemma along_mid t g : 0 <= t <= 1 -> fst g <= 0 -> snd g <= 0 -> along t g <= 0.
Proof. unfold along. intros. nra. Qed.
Lemma along_back t t' g : 0 <= t' <= t -> fst g <= 0 -> along t g <= 0 -> along t' g <= 0.
Proof. unfold along. intros. destruct (Rle_dec (snd g) (fst g)); nra. Qed.
Lemma crossing g : fst g <= 0 -> 0 < snd g -> exists t, 0 <= t <= 1 /\ along t g = 0.
Proof.
  intros h1 h2. exists (- fst g / (snd g - fst g)). unfold along. split; [|field; lra].
  split; [apply Rle_mult_inv_pos; lra|]. apply (Rmult_le_reg_r (snd g - fst g)); [lra|]. unfold Rdiv. rewrite Rmult_assoc, Rinv_l by lra. lra.
Qed.
Lemma leaving (l : list (R * R)) : Forall (fun g => fst g <= 0) l -> Exists (fun g => 0 < snd g) l ->
  exists t, 0 <= t <= 1 /\ Forall (fun g => along t g <= 0) l /\ Exists (fun g => 0 < snd g /\ along t g = 0) l.
Proof.
  induction l as [|g l IH]; intros HF HE; [inversion HE|]. inversion HF as [|? ? Hg HF']; subst.
  destruct (Exists_dec (fun g => 0 < snd g) l (fun x => Rlt_dec 0 (snd x))) as [E|E].
  - destruct (IH HF' E) as (t & Ht & HA & HX). destruct (Rle_dec (along t g) 0) as [h|h].
    + exists t. split; [assumption|]. split; [constructor; assumption|]. apply Exists_cons_tl, HX.
    + assert (S : 0 < snd g) by (unfold along in h; nra). destruct (crossing g Hg S) as (t' & Ht' & Ez).
      assert (t' <= t) by (unfold along in *; nra).
      exists t'. split; [assumption|]. split.
      * constructor; [lra|]. apply Forall_forall. intros x Hx. rewrite Forall_forall in HA, HF'. apply (along_back t); [lra|apply HF', Hx|apply HA, Hx].
      * apply Exists_cons_hd. split; assumption.
  - assert (S : 0 < snd g) by (inversion HE; [assumption|contradiction]). destruct (crossing g Hg S) as (t' & Ht' & Ez).
    exists t'. split; [assumption|]. split; [|apply Exists_cons_hd; split; assumption].
    constructor; [lra|]. apply Forall_forall. intros x Hx. rewrite Forall_forall in HF'. apply along_mid; [assumption|apply HF', Hx|].
    apply Rnot_lt_le. intros h. apply E, Exists_exists. exists x. split; assumption.
Qed.

(** ** Triangles and planes *)
Lemma min3_in (a c d : R) : Rmin (Rmin a c) d = a \/ Rmin (Rmin a c) d = c \/ Rmin (Rmin a c) d = d.
Proof. unfold Rmin. destruct (Rle_dec a c); [destruct (Rle_dec a d)|destruct (Rle_dec c d)]; tauto. Qed.
Lemma max3_in (a c d : R) : Rmax (Rmax a c) d = a \/ Rmax (Rmax a c) d = c \/ Rmax (Rmax a c) d = d.
Proof. unfold Rmax. destruct (Rle_dec a c); [destruct (Rle_dec c d)|destruct (Rle_dec a d)]; tauto. Qed.
Lemma min3_le (a c d : R) : Rmin (Rmin a c) d <= a /\ Rmin (Rmin a c) d <= c /\ Rmin (Rmin a c) d <= d.
Proof. unfold Rmin. destruct (Rle_dec a c); [destruct (Rle_dec a d)|destruct (Rle_dec c d)]; lra. Qed.
Lemma max3_le (a c d : R) : a <= Rmax (Rmax a c) d /\ c <= Rmax (Rmax a c) d /\ d <= Rmax (Rmax a c) d.
Proof. unfold Rmax. destruct (Rle_dec a c); [destruct (Rle_dec c d)|destruct (Rle_dec a d)]; lra. Qed.
Lemma tri_v0 V0 V1 V2 : tri V0 V1 V2 V0.
Proof. exists 1, 0, 0. e3. repeat split; lra. Qed.
Lemma tri_v1 V0 V1 V2 : tri V0 V1 V2 V1.
Proof. exists 0, 1, 0. e3. repeat split; lra. Qed.
Lemma tri_v2 V0 V1 V2 : tri V0 V1 V2 V2.
Proof. exists 0, 0, 1. e3. repeat split; lra. Qed.
Lemma tri_spans P V0 V1 V2 : let a := plane_at P V0 in let c := plane_at P V1 in let d := plane_at P V2 in
  spans P (tri V0 V1 V2) (Rmin (Rmin a c) d) (Rmax (Rmax a c) d).
Proof.
  intros a c d. destruct (min3_le a c d) as (n1 & n2 & n3), (max3_le a c d) as (m1 & m2 & m3). split; [|split].
  - intros p (x & y & z & Hx & Hy & Hz & Hs & He).
    assert (E : plane_at P p = x * a + y * c + z * d).
    { unfold a, c, d, plane_at, dot3. destruct He as (-> & -> & ->). e3. replace z with (1 - x - y) by lra. ring. }
    rewrite E. set (lo := Rmin _ _) in *. set (hi := Rmax _ _) in *. clearbody lo hi. clear - Hx Hy Hz Hs n1 n2 n3 m1 m2 m3. nra.
  - destruct (min3_in a c d) as [-> | [-> | ->]]; [exists V0|exists V1|exists V2]; (split; [|reflexivity]); [apply tri_v0|apply tri_v1|apply tri_v2].
  - destruct (max3_in a c d) as [-> | [-> | ->]]; [exists V0|exists V1|exists V2]; (split; [|reflexivity]); [apply tri_v0|apply tri_v1|apply tri_v2].
Qed.
Lemma vert_plane (V P : rvec) : dot4 (insert_lane (L:=RL) I3 V (qrep 1)) P = plane_at P V.
Proof. unfold dot4, plane_at, dot3, insert_lane; cbn. ring. Qed.
Lemma FastTri_R b V0 V1 V2 P : FastIntersectTrianglePlane (L:=RL) b (insert_lane I3 V0 vone) (insert_lane I3 V1 vone) (insert_lane I3 V2 vone) P =
  let a := plane_at P V0 in let c := plane_at P V1 in let d := plane_at P V2 in
  (qrep (Rltb 0 (Rmin (Rmin a c) d)), qrep (Rltb (Rmax (Rmax a c) d) 0)).
Proof.
  unfold FastIntersectTrianglePlane. cbv zeta. rewrite !Dot4_R, !vone_R, !vert_plane, !Min_R, !Max_R, !rep_min, !rep_max, vzero_R, vgt_rep, vlt_rep. reflexivity.
Qed.
Lemma tri_plane b V0 V1 V2 P : unit3 P -> exists v, Triangle_IntersectsPlane (L:=RL) b V0 V1 V2 P = Some v /\ side_ok P (tri V0 V1 V2) v.
Proof.
  intros HP. unfold Triangle_IntersectsPlane, XMPlaneIsUnit. rewrite isunit3 by assumption. cbn [asserting]. eexists; split; [reflexivity|].
  rewrite FastTri_R. apply verdict_ok, tri_spans.
Qed.
Lemma tri_six b V0 V1 V2 P0 P1 P2 P3 P4 P5 :
  six_ok (tri V0 V1 V2) (P0 :: P1 :: P2 :: P3 :: P4 :: P5 :: nil)%list (Triangle_ContainedBy (L:=RL) b V0 V1 V2 P0 P1 P2 P3 P4 P5).
Proof.
  unfold Triangle_ContainedBy.
  apply (contained_ok _ _ (fun P => Rmin (Rmin (plane_at P V0) (plane_at P V1)) (plane_at P V2)) (fun P => Rmax (Rmax (plane_at P V0) (plane_at P V1)) (plane_at P V2))).
  intros P _. split; [apply tri_spans|]. apply FastTri_R.
Qed.

(** ** Segments *)
Definition seg (S1 S2 : rvec) : region := fun p => exists t, 0 <= t <= 1 /\ eq3 p (plus S1 (scale t (minus S2 S1))).
Lemma nearest b S1 S2 P : let n := PointOnLineSegmentNearestPoint (L:=RL) b S1 S2 P in
  seg S1 S2 n /\ forall x, seg S1 S2 x -> dot3 (minus P n) (minus P n) <= dot3 (minus P x) (minus P x).
Proof.
  unfold PointOnLineSegmentNearestPoint. cbv zeta. rewrite !Sub_R, !Dot3_R, Recip_R, MulAdd_R, Mul_R, vzero_R. rewrite rep_minus, vlt_rep, vgt_rep.
  set (d := minus S2 S1). set (L := dot3 d d). set (j := dot3 P d - dot3 S1 d).
  assert (HL : 0 <= L) by apply dot3_nonneg.
  assert (EX : forall t x, eq3 x (plus S1 (scale t d)) -> dot3 (minus P x) (minus P x) = dot3 (minus P S1) (minus P S1) - 2 * t * j + t * t * L).
  { intros t x (h1 & h2 & h3). unfold j, L, dot3, minus; cbn [qx qy qz]. rewrite h1, h2, h3. e3. ring. }
  assert (Z : L = 0 -> j = 0 /\ eq3 d (Q 0 0 0 0)).
  { intros h. unfold L, dot3 in h. assert (qx d = 0 /\ qy d = 0 /\ qz d = 0) as (h1 & h2 & h3) by (repeat split; nra).
    unfold j, dot3, eq3. rewrite h1, h2, h3. cbn [qx qy qz]. repeat split; ring. }
  cut (exists t, 0 <= t <= 1 /\ eq3 (vsel (L:=RL) (vsel (L:=RL) (qmap3 (fun x y z : R => x * y + z) (qmap2 Rmult (qrep j) (qmap (fun x => 1 / x) (qrep L))) d S1) S1 (qrep (Rltb j 0))) S2 (qrep (Rltb L j)))
     (plus S1 (scale t d)) /\ forall s, 0 <= s <= 1 -> - 2 * t * j + t * t * L <= - 2 * s * j + s * s * L).
  { intros (t & Ht & He & Hm). split; [exists t; split; [assumption|exact He]|]. intros x (s & Hs & Hx). rewrite (EX t _ He), (EX s _ Hx). specialize (Hm s Hs). lra. }
  destruct (Rltb_spec L j) as [h|h].
  - exists 1. split; [lra|]. split; [unfold vsel, d; e3; cbn; repeat split; ring|]. intros s Hs. clearbody L j. clear - h Hs HL.
    assert (0 <= (1 - s) * (j - L)) by (apply Rmult_le_pos; lra). assert (0 <= (1 - s) * (1 - s) * L) by (repeat apply Rmult_le_pos; lra). nra.
  - destruct (Rltb_spec j 0) as [k|k].
    + exists 0. split; [lra|]. split; [unfold vsel; e3; cbn; repeat split; ring|]. intros s Hs. clearbody L j. clear - k Hs HL.
      assert (0 <= s * (- j)) by (apply Rmult_le_pos; lra). assert (0 <= s * s * L) by (repeat apply Rmult_le_pos; lra). nra.
    + destruct (Req_dec L 0) as [E|E].
      * destruct (Z E) as (Ej & Ed1 & Ed2 & Ed3). exists 0. split; [lra|]. rewrite Ej, E. split; [|intros; nra].
        unfold vsel; e3. cbn. cbn in Ed1, Ed2, Ed3. rewrite Ed1, Ed2, Ed3. repeat split; ring.
      * exists (j / L). assert (0 < L) by lra. split.
        { split; [apply Rle_mult_inv_pos; lra|]. apply (Rmult_le_reg_r L); [lra|]. unfold Rdiv. rewrite Rmult_assoc, Rinv_l by lra. lra. }
        split; [unfold vsel; e3; cbn; unfold Rdiv; repeat split; ring|]. intros s Hs.
        assert (Ej : j = j / L * L) by (field; lra). set (t := j / L) in *. clearbody t L j. subst j. clear - HL.
        assert (0 <= (s - t) * (s - t) * L) by (apply Rmult_le_pos; [apply Rle_0_sqr|assumption]). lra.
Qed.

(** ** Barycentric coordinates in the plane of a triangle *)
Definition normal (V0 V1 V2 : rvec) : rvec := cross (minus V1 V0) (minus V2 V0).
(** twice the signed area, times the length of the normal, of the triangle [x A B] *)
Definition area (N A B x : rvec) : R := dot3 (cross (minus B A) (minus x A)) N.
Lemma area_sum V0 V1 V2 x : let N := normal V0 V1 V2 in area N V1 V2 x + area N V2 V0 x + area N V0 V1 x = dot3 N N.
Proof. cbv [area normal cross minus dot3]; cbn [qx qy qz]. ring. Qed.
Lemma area_combo N A B x y t : area N A B (plus x (scale t (minus y x))) = area N A B x + t * (area N A B y - area N A B x).
Proof. cbv [area cross minus plus scale dot3]; cbn [qx qy qz]. ring. Qed.
Lemma area_eq3 N A B x y : eq3 x y -> area N A B x = area N A B y.
Proof. intros (h1 & h2 & h3). unfold area, cross, minus, dot3; cbn [qx qy qz]. rewrite h1, h2, h3. reflexivity. Qed.
Lemma bary V0 V1 V2 x : let N := normal V0 V1 V2 in dot3 (minus x V0) N = 0 ->
  eq3 (scale (dot3 N N) x) (plus (plus (scale (area N V1 V2 x) V0) (scale (area N V2 V0 x) V1)) (scale (area N V0 V1 x) V2)).
Proof.
  intros N H.
  assert (E : eq3 (plus (scale (dot3 N N) x) (scale (- dot3 (minus x V0) N) N)) (plus (plus (scale (area N V1 V2 x) V0) (scale (area N V2 V0 x) V1)) (scale (area N V0 V1 x) V2))).
  { cbv [N area normal cross minus plus scale dot3 eq3]; cbn [qx qy qz]. repeat split; ring. }
  rewrite H in E. destruct E as (h1 & h2 & h3). e3. repeat split; lra.
Qed.
Lemma tri_plane_zero V0 V1 V2 p : tri V0 V1 V2 p -> dot3 (minus p V0) (normal V0 V1 V2) = 0.
Proof.
  intros (a & c & d & _ & _ & _ & Hs & h1 & h2 & h3). change (dot3 (minus p V0) (normal V0 V1 V2)) with
    ((qx p - qx V0) * qx (normal V0 V1 V2) + (qy p - qy V0) * qy (normal V0 V1 V2) + (qz p - qz V0) * qz (normal V0 V1 V2)). rewrite h1, h2, h3. replace a with (1 - c - d) by lra.
  cbv [normal cross minus plus scale dot3]; cbn [qx qy qz]. ring.
Qed.
Lemma tri_areas V0 V1 V2 p : let N := normal V0 V1 V2 in tri V0 V1 V2 p -> 0 <= area N V1 V2 p /\ 0 <= area N V2 V0 p /\ 0 <= area N V0 V1 p.
Proof.
  intros N (a & c & d & Ha & Hc & Hd & Hs & He).
  assert (HN : 0 <= dot3 N N) by apply dot3_nonneg.
  assert (E : area N V1 V2 p = a * dot3 N N /\ area N V2 V0 p = c * dot3 N N /\ area N V0 V1 p = d * dot3 N N).
  { rewrite !(area_eq3 _ _ _ _ _ He). replace d with (1 - a - c) by lra. cbv [N area normal cross minus plus scale dot3]; cbn [qx qy qz]. repeat split; ring. }
  destruct E as (-> & -> & ->). repeat split; apply Rmult_le_pos; assumption.
Qed.
Lemma areas_tri V0 V1 V2 x : let N := normal V0 V1 V2 in 0 < dot3 N N -> dot3 (minus x V0) N = 0 ->
  0 <= area N V1 V2 x -> 0 <= area N V2 V0 x -> 0 <= area N V0 V1 x -> tri V0 V1 V2 x.
Proof.
  intros N HN Hp Ha Hc Hd. pose proof (bary V0 V1 V2 x Hp) as (h1 & h2 & h3). pose proof (area_sum V0 V1 V2 x) as HS. fold N in h1, h2, h3, HS. cbv zeta in HS.
  set (m := dot3 N N) in *. exists (area N V1 V2 x / m), (area N V2 V0 x / m), (area N V0 V1 x / m).
  repeat (split; [apply Rle_mult_inv_pos; assumption|]). split; [rewrite <- HS; field; rewrite HS; lra|].
  clearbody m. e3. repeat split; apply (Rmult_eq_reg_l m); try lra; [rewrite h1|rewrite h2|rewrite h3]; field; lra.
Qed.
(** a point of the plane with two non-negative areas and a zero one lies on an edge *)
Lemma edge_seg V0 V1 V2 x : let N := normal V0 V1 V2 in 0 < dot3 N N -> dot3 (minus x V0) N = 0 ->
  0 <= area N V1 V2 x -> 0 <= area N V2 V0 x -> area N V0 V1 x = 0 -> seg V0 V1 x.
Proof.
  intros N HN Hp Ha Hc Hd. pose proof (bary V0 V1 V2 x Hp) as (h1 & h2 & h3). pose proof (area_sum V0 V1 V2 x) as HS. fold N in h1, h2, h3, HS. cbv zeta in HS.
  set (m := dot3 N N) in *. exists (area N V2 V0 x / m). split.
  { split; [apply Rle_mult_inv_pos; assumption|]. apply (Rmult_le_reg_r m); [assumption|]. unfold Rdiv. rewrite Rmult_assoc, Rinv_l by lra. lra. }
  rewrite Hd in *. assert (E : area N V1 V2 x = m - area N V2 V0 x) by lra. rewrite E in *. set (k := area N V2 V0 x) in *. clearbody k m. clear - h1 h2 h3 HN.
  e3. repeat split; apply (Rmult_eq_reg_l m); try lra; [rewrite h1|rewrite h2|rewrite h3]; field; lra.
Qed.
Lemma tri_rot V0 V1 V2 : normal V1 V2 V0 = normal V0 V1 V2.
Proof. cbv [normal cross minus]; cbn [qx qy qz]. apply (@Qeq R); ring. Qed.
Lemma seg_tri01 V0 V1 V2 : subset (seg V0 V1) (tri V0 V1 V2).
Proof. intros p (t & Ht & He). exists (1 - t), t, 0. repeat (split; [lra|]). destruct He as (h1 & h2 & h3). e3. rewrite h1, h2, h3. repeat split; ring. Qed.
Lemma seg_tri12 V0 V1 V2 : subset (seg V1 V2) (tri V0 V1 V2).
Proof. intros p (t & Ht & He). exists 0, (1 - t), t. repeat (split; [lra|]). destruct He as (h1 & h2 & h3). e3. rewrite h1, h2, h3. repeat split; ring. Qed.
Lemma seg_tri20 V0 V1 V2 : subset (seg V2 V0) (tri V0 V1 V2).
Proof. intros p (t & Ht & He). exists t, 0, (1 - t). repeat (split; [lra|]). destruct He as (h1 & h2 & h3). e3. rewrite h1, h2, h3. repeat split; ring. Qed.
Lemma plane_other V0 V1 V2 x : dot3 (minus x V1) (normal V0 V1 V2) = dot3 (minus x V0) (normal V0 V1 V2) /\ dot3 (minus x V2) (normal V0 V1 V2) = dot3 (minus x V0) (normal V0 V1 V2).
Proof. cbv [normal cross minus dot3]; cbn [qx qy qz]. split; ring. Qed.
(** from a point [p] of the triangle towards a point [y] of its plane outside it, there is a point of an edge on the way *)
Lemma tri_exit V0 V1 V2 p y : let N := normal V0 V1 V2 in 0 < dot3 N N -> tri V0 V1 V2 p -> dot3 (minus y V0) N = 0 ->
  ~ (0 <= area N V1 V2 y /\ 0 <= area N V2 V0 y /\ 0 <= area N V0 V1 y) ->
  exists t, 0 <= t <= 1 /\ let x := plus p (scale t (minus y p)) in seg V0 V1 x \/ seg V1 V2 x \/ seg V2 V0 x.
Proof.
  intros N HN Hp Hy Ho. destruct (tri_areas _ _ _ _ Hp) as (a1 & a2 & a3). fold N in a1, a2, a3.
  destruct (leaving ((- area N V1 V2 p, - area N V1 V2 y) :: (- area N V2 V0 p, - area N V2 V0 y) :: (- area N V0 V1 p, - area N V0 V1 y) :: nil)%list) as (t & Ht & HA & HX).
  - repeat apply Forall_cons; try apply Forall_nil; cbn [fst]; lra.
  - destruct (Rlt_dec (area N V1 V2 y) 0); [apply Exists_cons_hd; cbn; lra|]. destruct (Rlt_dec (area N V2 V0 y) 0); [apply Exists_cons_tl, Exists_cons_hd; cbn; lra|].
    destruct (Rlt_dec (area N V0 V1 y) 0); [do 2 apply Exists_cons_tl; apply Exists_cons_hd; cbn; lra|]. exfalso. apply Ho. lra.
  - exists t. split; [assumption|]. set (x := plus p (scale t (minus y p))). cbv zeta.
    assert (Hx : dot3 (minus x V0) N = 0).
    { pose proof (tri_plane_zero _ _ _ _ Hp) as H0. fold N in H0.
      replace (dot3 (minus x V0) N) with ((1 - t) * dot3 (minus p V0) N + t * dot3 (minus y V0) N) by (unfold x, dot3; e3; ring). rewrite H0, Hy. ring. }
    assert (AL : forall A B, along t (- area N A B p, - area N A B y) = - area N A B x).
    { intros A B. unfold along, x. cbn [fst snd]. rewrite area_combo. ring. }
    inversion HA as [|? ? g1 HA1]; subst. inversion HA1 as [|? ? g2 HA2]; subst. inversion HA2 as [|? ? g3 _]; subst. rewrite AL in g1, g2, g3. clear HA HA1 HA2.
    destruct (plane_other V0 V1 V2 x) as (o1 & o2). fold N in o1, o2. rewrite Hx in o1, o2.
    apply Exists_exists in HX as (g & [<-|[<-|[<-|[]]]] & _ & Hz); rewrite AL in Hz.
    + right; left. pose proof (edge_seg V1 V2 V0 x) as K. cbv zeta in K. rewrite (tri_rot V0 V1 V2) in K. fold N in K. apply K; try assumption; lra.
    + right; right. assert (ER : normal V2 V0 V1 = N) by (unfold N; rewrite <- (tri_rot V0 V1 V2); apply tri_rot).
      pose proof (edge_seg V2 V0 V1 x) as K. cbv zeta in K. rewrite ER in K. apply K; try assumption; lra.
    + left. apply (edge_seg V0 V1 V2); fold N; try assumption; lra.
Qed.

(** ** A sphere and a triangle *)
Lemma Rleb_opp_area N A B x : dot3 (cross (minus x A) (minus B A)) (scale (-1) N) = area N A B x.
Proof. cbv [area cross minus scale dot3]; cbn [qx qy qz]. ring. Qed.
Lemma inside_test b P V0 V1 V2 : let N := normal V0 V1 V2 in PointOnPlaneInsideTriangle (L:=RL) b P V0 V1 V2 =
  qrep (Rleb 0 (area N V0 V1 P) && Rleb 0 (area N V1 V2 P) && Rleb 0 (area N V2 V0 P))%bool.
Proof.
  intros N. unfold PointOnPlaneInsideTriangle. cbv zeta. rewrite !Sub_R, !Cross3_R, !Dot3_R, vzero_R.
  assert (E : cross (minus V2 V0) (minus V1 V0) = scale (-1) N) by (cbv [N normal cross minus scale]; cbn [qx qy qz]; apply (@Qeq R); cbn [qw]; ring).
  rewrite E, !Rleb_opp_area. unfold vge, tge. change (@tle RL) with Rleb. reflexivity.
Qed.
Lemma not_zero3_pos v : ~ zero3 v -> 0 < dot3 v v.
Proof. intros H. destruct (Rle_lt_or_eq_dec _ _ (dot3_nonneg v)) as [h|h]; [assumption|]. exfalso. apply H. unfold dot3 in h. repeat split; nra. Qed.
Lemma sphere_tri b s V0 V1 V2 : ok_sphere s -> ~ zero3 (normal V0 V1 V2) ->
  exists r, Sphere_IntersectsTriangle (L:=RL) b s V0 V1 V2 = Some r /\ (r = true <-> meets (ball s) (tri V0 V1 V2)).
Proof.
  intros Hs HN. unfold Sphere_IntersectsTriangle. cbv zeta. l3. rewrite !Sub_R, !Cross3_R. fold (normal V0 V1 V2). rewrite (Normalize3_R b _ HN).
  set (N := normal V0 V1 V2) in *. pose proof (not_zero3_pos N HN) as HP. set (c := pos (sp_Center s)). set (r := sp_Radius s). unfold ok_sphere in Hs. fold r in Hs.
  assert (Hn : norm3 N <> 0) by (intros h; pose proof (norm3_sq N) as h'; rewrite h in h'; lra).
  pose proof (unit_of N Hn) as HU. set (n := scale (/ norm3 N) N) in *.
  assert (Ez : all3 (veq (L:=RL) n (qrep 0)) = false).
  { destruct (all3 _) eqn:E; [|reflexivity]. exfalso. unfold all3, veq, qmap2 in E. cbn [qx qy qz qrep] in E. change (@teq RL) with Reqb in E.
    apply andb_true_iff in E as (E & E3). apply andb_true_iff in E as (E1 & E2). apply Reqb_true in E1, E2, E3. rt. unfold unit3, dot3 in HU. rewrite E1, E2, E3 in HU. lra. }
  rewrite vzero_R, Ez. cbn [negb asserting]. eexists; split; [reflexivity|].
  rewrite Dot3_R, Neg_R, rep_opp, NMulSub_R, !LengthSq3_R, Mul_R. rewrite rep_mul, vlt_rep, vgt_rep, !vle_rep, inside_test. fold N.
  set (k := dot3 (minus c V0) n). set (y := qmap3 (fun x y z : R => z - x * y) n (qrep k) c).
  rewrite !mor_rep, mandc_rep, qall_rep.
  assert (En : forall v, dot3 v N = norm3 N * dot3 v n) by (intros v; unfold n, dot3, scale; cbn [qx qy qz]; field; assumption).
  assert (Ey : dot3 (minus y V0) N = 0).
  { rewrite En. replace (dot3 (minus y V0) n) with (k - k * dot3 n n) by (unfold y, k, dot3, minus; cbn; ring). unfold unit3 in HU. rewrite HU. ring. }
  assert (PY : forall x, dot3 (minus x V0) N = 0 -> dot3 (minus c x) (minus c x) = k * k + dot3 (minus y x) (minus y x)).
  { intros x Hx. assert (Hx' : dot3 (minus y x) n = 0).
    { apply (Rmult_eq_reg_l (norm3 N)); [|assumption]. rewrite <- En, Rmult_0_r.
      replace (dot3 (minus y x) N) with (dot3 (minus y V0) N - dot3 (minus x V0) N) by (unfold dot3, minus; cbn [qx qy qz]; ring). rewrite Ey, Hx. ring. }
    replace (dot3 (minus c x) (minus c x)) with (dot3 (minus y x) (minus y x) + 2 * k * dot3 (minus y x) n + k * k * dot3 n n) by (unfold y, dot3, minus; cbn; ring).
    unfold unit3 in HU. rewrite Hx', HU. ring. }
  assert (Ball : forall x, dot3 (minus c x) (minus c x) <= r * r <-> ball s x).
  { intros x. unfold ball. fold c r. rewrite (dist_sym x c). symmetry. apply dist_le. exact Hs. }
  assert (NE : forall A B, (forall x, seg A B x -> ball s x -> Rleb (dot3 (minus c (PointOnLineSegmentNearestPoint (L:=RL) b A B c)) (minus c (PointOnLineSegmentNearestPoint (L:=RL) b A B c))) (r * r) = true) /\
     (Rleb (dot3 (minus c (PointOnLineSegmentNearestPoint (L:=RL) b A B c)) (minus c (PointOnLineSegmentNearestPoint (L:=RL) b A B c))) (r * r) = true -> meets (ball s) (seg A B))).
  { intros A B. destruct (nearest b A B c) as (h1 & h2). cbv zeta in h1, h2. split.
    - intros x Hx Hb. apply Rleb_true. eapply Rle_trans; [apply h2, Hx|]. apply Ball, Hb.
    - intros h. apply Rleb_true in h. eexists; split; [apply Ball, h|exact h1]. }
  rewrite andb_true_iff, negb_true_iff, orb_false_iff, !Rltb_false, !orb_true_iff, !andb_true_iff, !Rleb_true. split.
  - intros (HI & k1 & k2).
    assert (HK : k * k <= r * r) by (clear - k1 k2; rt; nra).
    destruct HI as [[[((a1 & a2) & a3)|h]|h]|h].
    + exists y. split; [|apply areas_tri; assumption]. apply Ball. rewrite (PY y Ey).
      replace (dot3 (minus y y) (minus y y)) with 0 by (unfold dot3, minus; cbn [qx qy qz]; ring). lra.
    + apply Rleb_true in h. destruct (proj2 (NE V0 V1) h) as (x & h1 & h2). exists x. split; [assumption|]. apply seg_tri01, h2.
    + apply Rleb_true in h. destruct (proj2 (NE V1 V2) h) as (x & h1 & h2). exists x. split; [assumption|]. apply seg_tri12, h2.
    + apply Rleb_true in h. destruct (proj2 (NE V2 V0) h) as (x & h1 & h2). exists x. split; [assumption|]. apply seg_tri20, h2.
  - intros (p & Hb & Ht). pose proof (tri_plane_zero _ _ _ _ Ht) as Hp. fold N in Hp. apply Ball in Hb. rewrite (PY p Hp) in Hb.
    pose proof (dot3_nonneg (minus y p)) as Hd. split; [|clear - Hb Hd Hs; rt; split; nra].
    destruct (Rle_dec 0 (area N V1 V2 y)) as [a1|a1]; [destruct (Rle_dec 0 (area N V2 V0 y)) as [a2|a2]; [destruct (Rle_dec 0 (area N V0 V1 y)) as [a3|a3]|]|].
    { left; left; left. repeat split; assumption. }
    all: destruct (tri_exit V0 V1 V2 p y HP Ht Ey) as (t & Htt & HS); [fold N; tauto|]; cbv zeta in HS; set (x := plus p (scale t (minus y p))) in *;
      assert (Hx : ball s x) by (apply Ball; rewrite PY;
        [replace (dot3 (minus y x) (minus y x)) with ((1 - t) * (1 - t) * dot3 (minus y p) (minus y p)) by (unfold x, dot3; e3; ring);
         clear - Htt Hb Hd; set (m := dot3 (minus y p) (minus y p)) in *; clearbody m; assert ((1 - t) * (1 - t) * m <= 1 * m) by (apply Rmult_le_compat_r; [assumption|nra]); lra
        |replace (dot3 (minus x V0) N) with ((1 - t) * dot3 (minus p V0) N + t * dot3 (minus y V0) N) by (unfold x, dot3; e3; ring); rewrite Hp, Ey; ring]);
      (destruct HS as [h|[h|h]]; [left; left; right|left; right|right]; apply Rleb_true; eapply NE; eassumption).
Qed.
