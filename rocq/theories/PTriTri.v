(** Two triangles (C55): exact when no vertex lies on the other plane; four ways in which the code fails otherwise. *)
From Coq Require Import Reals Lra Psatz List Bool Nsatz.
From Verif Require Import Base F32 Intrin Lane MVec MTrig MQuat MInterp MPlane MMatrix Shapes MCollide MFrustum.
From Verif Require Import SpecGeom SpecQuat SpecMat SpecShape PReal PVec PQuat PRot PMatrix PPlane PShape PSphere PSide PHull PBox POBox PSat PSolid PRay PTri PTriBox.
Open Scope R_scope.

(** ** Geometry *)
Lemma tri_mix V0 V1 V2 x y t : 0 <= t <= 1 -> tri V0 V1 V2 x -> tri V0 V1 V2 y -> tri V0 V1 V2 (plus x (scale t (minus y x))).
Proof.
  intros Ht (a & b & c & Ha & Hb & Hc & Hs & h1 & h2 & h3) (a' & b' & c' & Ha' & Hb' & Hc' & Hs' & g1 & g2 & g3).
  exists (a + t * (a' - a)), (b + t * (b' - b)), (c + t * (c' - c)). split; [nra|]. split; [nra|]. split; [nra|]. split; [nra|].
  unfold eq3, plus, minus, scale in *; cbn [qx qy qz] in *. rewrite h1, h2, h3, g1, g2, g3. repeat split; ring.
Qed.
Lemma tri_swap V0 V1 V2 p : tri V0 V1 V2 p -> tri V0 V2 V1 p.
Proof. intros (a & b & c & Ha & Hb & Hc & Hs & He). exists a, c, b. repeat split; try assumption; try lra; destruct He as (h1 & h2 & h3); unfold plus, scale in *; cbn [qx qy qz] in *; lra. Qed.
Lemma tri_turn V0 V1 V2 p : tri V0 V1 V2 p -> tri V1 V2 V0 p.
Proof. intros (a & b & c & Ha & Hb & Hc & Hs & He). exists b, c, a. repeat split; try assumption; try lra; destruct He as (h1 & h2 & h3); unfold plus, scale in *; cbn [qx qy qz] in *; lra. Qed.
Lemma tri_eq3 V0 V1 V2 x y : eq3 x y -> tri V0 V1 V2 x -> tri V0 V1 V2 y.
Proof. intros He (a & b & c & Ha & Hb & Hc & Hs & Hx). exists a, b, c. repeat split; try assumption; destruct He as (h1 & h2 & h3), Hx as (g1 & g2 & g3); congruence. Qed.
Lemma normal_swap V0 V1 V2 : normal V0 V2 V1 = scale (-1) (normal V0 V1 V2).
Proof. unfold normal. dq V0. dq V1. dq V2. qs. qring. Qed.

(** the two ends of the crossing of two triangles, each given by the vertex that is alone on its side *)
Definition ends (A0 A2 B0 B2 : rvec) : R := dot3 (minus A0 B0) (cross (minus B2 B0) (minus A2 A0)).
(** a vector orthogonal to two others is a multiple of their product *)
Lemma on_line (N M v g : rvec) : dot3 N v = 0 -> dot3 M v = 0 -> eq3 (scale (dot3 g (cross N M)) v) (scale (dot3 g v) (cross N M)).
Proof. dq N. dq M. dq v. dq g. unfold eq3. qs. intros H1 H2. repeat split; nsatz. Qed.
Lemma meet_ends A0 A1 A2 B0 B1 B2 :
  dot3 (normal B0 B1 B2) (minus A1 A0) < 0 -> dot3 (normal B0 B1 B2) (minus A2 A0) < 0 ->
  dot3 (normal A0 A1 A2) (minus B1 B0) < 0 -> dot3 (normal A0 A1 A2) (minus B2 B0) < 0 ->
  meets (tri A0 A1 A2) (tri B0 B1 B2) -> ends A0 A2 B0 B2 <= 0 /\ 0 <= ends A0 A1 B0 B1.
Proof.
  intros a1 a2 b1 b2 (x & (u0 & u1 & u2 & U0 & U1 & U2 & US & UE) & (v0 & v1 & v2 & V0 & V1 & V2 & VS & VE)).
  assert (X2 : ends A0 A2 B0 B2 = v1 * dot3 (normal B0 B1 B2) (minus A2 A0) + u1 * dot3 (normal A0 A1 A2) (minus B2 B0)).
  { destruct UE as (h1 & h2 & h3), VE as (g1 & g2 & g3). rewrite g1 in h1. rewrite g2 in h2. rewrite g3 in h3. clear - h1 h2 h3 US VS. unfold ends, normal. dq A0. dq A1. dq A2. dq B0. dq B1. dq B2. unfold dot3, minus, plus, scale, cross in *; cbn [qx qy qz qw] in *. nsatz. }
  assert (X1 : ends A0 A1 B0 B1 = - (v2 * dot3 (normal B0 B1 B2) (minus A1 A0) + u2 * dot3 (normal A0 A1 A2) (minus B1 B0))).
  { destruct UE as (h1 & h2 & h3), VE as (g1 & g2 & g3). rewrite g1 in h1. rewrite g2 in h2. rewrite g3 in h3. clear - h1 h2 h3 US VS. unfold ends, normal. dq A0. dq A1. dq A2. dq B0. dq B1. dq B2. unfold dot3, minus, plus, scale, cross in *; cbn [qx qy qz qw] in *. nsatz. }
  rewrite X1, X2. split; nra.
Qed.
(** a point of an edge, and where it meets the other plane *)
Definition cut (A0 A1 : rvec) (s : R) : rvec := plus A0 (scale s (minus A1 A0)).
Lemma cut_plane N B A0 A1 : 0 < dot3 N (minus A0 B) -> dot3 N (minus A1 B) < 0 -> let s := - dot3 N (minus A0 B) / dot3 N (minus A1 A0) in
  0 <= s <= 1 /\ dot3 N (minus (cut A0 A1 s) B) = 0.
Proof.
  intros H0 H1 s. assert (HD : dot3 N (minus A1 A0) = dot3 N (minus A1 B) - dot3 N (minus A0 B)) by (unfold dot3, minus; cbn [qx qy qz]; ring).
  assert (HS : s * dot3 N (minus A1 A0) = - dot3 N (minus A0 B)) by (unfold s; field; lra). split; [nra|].
  replace (dot3 N (minus (cut A0 A1 s) B)) with (dot3 N (minus A0 B) + s * dot3 N (minus A1 A0)) by (unfold cut, dot3, minus, plus, scale; cbn [qx qy qz]; ring). lra.
Qed.
(** two overlapping segments of a line *)
Lemma overlap p1 p2 q1 q2 D k n l1 l2 : ~ zero3 D -> 0 < k -> 0 < n -> 0 <= l1 -> l2 <= 0 ->
  eq3 (minus p1 p2) (scale k D) -> eq3 (minus q2 q1) (scale n D) -> eq3 (minus p2 q2) (scale l2 D) -> eq3 (minus p1 q1) (scale l1 D) ->
  exists s t, 0 <= s <= 1 /\ 0 <= t <= 1 /\ eq3 (plus p2 (scale s (minus p1 p2))) (plus q1 (scale t (minus q2 q1))).
Proof.
  intros HD Hk Hn H1 H2 (a1 & a2 & a3) (b1 & b2 & b3) (c1 & c2 & c3) (d1 & d2 & d3).
  assert (HK : k = l1 - n - l2).
  { destruct (Req_dec k (l1 - n - l2)) as [E|E]; [exact E|]. exfalso. apply HD. assert (E' : k - (l1 - n - l2) <> 0) by lra.
    unfold zero3. unfold minus, scale in *; cbn [qx qy qz] in *. split; [|split]; apply (Rmult_eq_reg_l (k - (l1 - n - l2))); try assumption; lra. }
  assert (IK : / k * k = 1) by (apply Rinv_l; lra). assert (IN : / n * n = 1) by (apply Rinv_l; lra).
  assert (PK : 0 < / k) by (apply Rinv_0_lt_compat; lra). assert (PN : 0 < / n) by (apply Rinv_0_lt_compat; lra).
  destruct (Rle_dec 0 (n + l2)) as [C|C].
  - exists 0, ((n + l2) * / n). split; [lra|]. split; [nra|]. unfold eq3. unfold minus, plus, scale in *; cbn [qx qy qz] in *. rewrite a1, a2, a3, b1, b2, b3.
    assert (F : forall d, (n + l2) * / n * (n * d) = (n + l2) * d) by (intros d; transitivity ((n + l2) * (/ n * n) * d); [ring|rewrite IN; ring]). rewrite !F. repeat split; lra.
  - exists (- (n + l2) * / k), 0. split; [nra|]. split; [lra|]. unfold eq3. unfold minus, plus, scale in *; cbn [qx qy qz] in *. rewrite a1, a2, a3, b1, b2, b3.
    assert (F : forall d, - (n + l2) * / k * (k * d) = - (n + l2) * d) by (intros d; transitivity (- (n + l2) * (/ k * k) * d); [ring|rewrite IK; ring]). rewrite !F. repeat split; lra.
Qed.
Lemma cuts_line A0 A1 A2 M a s1 s2 : s1 * dot3 M (minus A1 A0) = - a -> s2 * dot3 M (minus A2 A0) = - a ->
  eq3 (scale (dot3 M (minus A1 A0) * dot3 M (minus A2 A0)) (minus (cut A0 A1 s1) (cut A0 A2 s2))) (scale a (cross (normal A0 A1 A2) M)).
Proof. unfold normal, cut. intros H1 H2. dq A0. dq A1. dq A2. dq M. unfold eq3, dot3, minus, plus, scale, cross in *; cbn [qx qy qz] in *. repeat split; nsatz. Qed.
Lemma div_scale c u v : c <> 0 -> forall d, eq3 (scale c u) (scale d v) -> eq3 u (scale (d * / c) v).
Proof.
  intros Hc d (h1 & h2 & h3). assert (I : / c * c = 1) by (apply Rinv_l; exact Hc). unfold eq3, scale in *; cbn [qx qy qz] in *. repeat split; nsatz.
Qed.
Lemma ends_cut A0 A2 B0 B2 s t : dot3 (cross (minus B2 B0) (minus A2 A0)) (minus (cut A0 A2 s) (cut B0 B2 t)) = ends A0 A2 B0 B2.
Proof. unfold ends, cut, dot3, cross, minus, plus, scale; cbn [qx qy qz]. ring. Qed.
Lemma line_dot A0 A1 A2 B0 B1 B2 e f : dot3 (cross f e) (cross (normal A0 A1 A2) (normal B0 B1 B2)) =
  dot3 (normal A0 A1 A2) f * dot3 (normal B0 B1 B2) e - dot3 (normal A0 A1 A2) e * dot3 (normal B0 B1 B2) f.
Proof. set (N := normal A0 A1 A2). set (M := normal B0 B1 B2). unfold dot3, cross; cbn [qx qy qz]. ring. Qed.
Lemma normal_edges A0 A1 A2 : dot3 (normal A0 A1 A2) (minus A1 A0) = 0 /\ dot3 (normal A0 A1 A2) (minus A2 A0) = 0.
Proof. unfold normal, dot3, cross, minus; cbn [qx qy qz]. split; ring. Qed.
Lemma cut_own A0 A1 A2 s : dot3 (normal A0 A1 A2) (minus (cut A0 A1 s) A0) = 0 /\ dot3 (normal A0 A1 A2) (minus (cut A0 A2 s) A0) = 0.
Proof. unfold normal, cut, dot3, cross, minus, plus, scale; cbn [qx qy qz]. split; ring. Qed.
Lemma dot_split N p q r : dot3 N (minus p q) = dot3 N (minus p r) - dot3 N (minus q r).
Proof. unfold dot3, minus; cbn [qx qy qz]. ring. Qed.
Lemma seg_cut A0 A1 s : 0 <= s <= 1 -> seg A0 A1 (cut A0 A1 s).
Proof. intros H. exists s. split; [exact H|]. unfold eq3; auto. Qed.
Lemma ends_meet A0 A1 A2 B0 B1 B2 : let N := normal A0 A1 A2 in let M := normal B0 B1 B2 in
  0 < dot3 M (minus A0 B0) -> dot3 M (minus A1 B0) < 0 -> dot3 M (minus A2 B0) < 0 ->
  0 < dot3 N (minus B0 A0) -> dot3 N (minus B1 A0) < 0 -> dot3 N (minus B2 A0) < 0 ->
  ends A0 A2 B0 B2 <= 0 -> 0 <= ends A0 A1 B0 B1 -> meets (tri A0 A1 A2) (tri B0 B1 B2).
Proof.
  intros N M a0 a1 a2 b0 b1 b2 E2 E1.
  destruct (cut_plane M B0 A0 A1 a0 a1) as (S1 & P1). destruct (cut_plane M B0 A0 A2 a0 a2) as (S2 & P2).
  destruct (cut_plane N A0 B0 B1 b0 b1) as (T1 & Q1). destruct (cut_plane N A0 B0 B2 b0 b2) as (T2 & Q2).
  assert (x1 : dot3 M (minus A1 A0) < 0) by (rewrite (dot_split M A1 A0 B0); lra). assert (x2 : dot3 M (minus A2 A0) < 0) by (rewrite (dot_split M A2 A0 B0); lra).
  assert (y1 : dot3 N (minus B1 B0) < 0) by (rewrite (dot_split N B1 B0 A0); lra). assert (y2 : dot3 N (minus B2 B0) < 0) by (rewrite (dot_split N B2 B0 A0); lra).
  assert (z1 : - dot3 M (minus A0 B0) / dot3 M (minus A1 A0) * dot3 M (minus A1 A0) = - dot3 M (minus A0 B0)) by (field; lra).
  assert (z2 : - dot3 M (minus A0 B0) / dot3 M (minus A2 A0) * dot3 M (minus A2 A0) = - dot3 M (minus A0 B0)) by (field; lra).
  assert (w1 : - dot3 N (minus B0 A0) / dot3 N (minus B1 B0) * dot3 N (minus B1 B0) = - dot3 N (minus B0 A0)) by (field; lra).
  assert (w2 : - dot3 N (minus B0 A0) / dot3 N (minus B2 B0) * dot3 N (minus B2 B0) = - dot3 N (minus B0 A0)) by (field; lra).
  set (s1 := - dot3 M (minus A0 B0) / dot3 M (minus A1 A0)) in *. set (s2 := - dot3 M (minus A0 B0) / dot3 M (minus A2 A0)) in *.
  set (t1 := - dot3 N (minus B0 A0) / dot3 N (minus B1 B0)) in *. set (t2 := - dot3 N (minus B0 A0) / dot3 N (minus B2 B0)) in *.
  pose proof (cuts_line _ _ _ _ _ _ _ z1 z2) as KA. fold N in KA. pose proof (cuts_line _ _ _ _ _ _ _ w1 w2) as KB. fold M in KB.
  destruct (cut_own A0 A1 A2 s1) as (o1 & _). destruct (cut_own A0 A1 A2 s2) as (_ & o2). destruct (cut_own B0 B1 B2 t1) as (r1 & _). destruct (cut_own B0 B1 B2 t2) as (_ & r2).
  fold N in o1, o2. fold M in r1, r2.
  assert (L2 : eq3 (scale (dot3 (cross (minus B2 B0) (minus A2 A0)) (cross N M)) (minus (cut A0 A2 s2) (cut B0 B2 t2)))
                   (scale (ends A0 A2 B0 B2) (cross N M))).
  { rewrite <- (ends_cut A0 A2 B0 B2 s2 t2). apply on_line; [rewrite (dot_split N _ _ A0)|rewrite (dot_split M _ _ B0)]; lra. }
  assert (L1 : eq3 (scale (dot3 (cross (minus B1 B0) (minus A1 A0)) (cross N M)) (minus (cut A0 A1 s1) (cut B0 B1 t1)))
                   (scale (ends A0 A1 B0 B1) (cross N M))).
  { rewrite <- (ends_cut A0 A1 B0 B1 s1 t1). apply on_line; [rewrite (dot_split N _ _ A0)|rewrite (dot_split M _ _ B0)]; lra. }
  destruct (normal_edges A0 A1 A2) as (n1 & n2). destruct (normal_edges B0 B1 B2) as (m1 & m2). fold N in n1, n2. fold M in m1, m2.
  assert (G2 : dot3 (cross (minus B2 B0) (minus A2 A0)) (cross N M) = dot3 N (minus B2 B0) * dot3 M (minus A2 A0)).
  { unfold N, M. rewrite line_dot. fold N M. rewrite n2, m2. ring. }
  assert (G1 : dot3 (cross (minus B1 B0) (minus A1 A0)) (cross N M) = dot3 N (minus B1 B0) * dot3 M (minus A1 A0)).
  { unfold N, M. rewrite line_dot. fold N M. rewrite n1, m1. ring. }
  rewrite G2 in L2. rewrite G1 in L1.
  assert (g1 : 0 < dot3 N (minus B1 B0) * dot3 M (minus A1 A0)) by nra. assert (g2 : 0 < dot3 N (minus B2 B0) * dot3 M (minus A2 A0)) by nra.
  assert (h1 : 0 < dot3 M (minus A1 A0) * dot3 M (minus A2 A0)) by nra. assert (h2 : 0 < dot3 N (minus B1 B0) * dot3 N (minus B2 B0)) by nra.
  assert (HD : ~ zero3 (cross N M)). { intros (e1 & e2 & e4). revert G1. unfold dot3 at 1. rewrite e1, e2, e4. lra. }
  apply div_scale in L2, L1, KA, KB; try lra.
  assert (KB' : eq3 (minus (cut B0 B2 t2) (cut B0 B1 t1)) (scale (dot3 N (minus B0 A0) * / (dot3 N (minus B1 B0) * dot3 N (minus B2 B0))) (cross N M))).
  { destruct KB as (e1 & e2 & e4). clear - e1 e2 e4. revert e1 e2 e4. generalize (dot3 N (minus B0 A0) * / (dot3 N (minus B1 B0) * dot3 N (minus B2 B0))). intros k.
    generalize (cut B0 B1 t1) (cut B0 B2 t2). intros u v. unfold eq3, minus, scale, cross; cbn [qx qy qz]. intros. repeat split; lra. }
  pose proof (Rinv_0_lt_compat _ g1) as i1. pose proof (Rinv_0_lt_compat _ g2) as i2. pose proof (Rinv_0_lt_compat _ h1) as j1. pose proof (Rinv_0_lt_compat _ h2) as j2.
  assert (E2' : ends A0 A2 B0 B2 * / (dot3 N (minus B2 B0) * dot3 M (minus A2 A0)) <= 0) by (clear - E2 i2; nra).
  destruct (overlap _ _ _ _ _ _ _ _ _ HD (Rmult_lt_0_compat _ _ a0 j1) (Rmult_lt_0_compat _ _ b0 j2)
     (Rmult_le_pos _ _ E1 (Rlt_le _ _ i1)) E2' KA KB' L2 L1) as (s & t & Hs & Ht & E).
  exists (plus (cut A0 A2 s2) (scale s (minus (cut A0 A1 s1) (cut A0 A2 s2)))). split.
  - apply tri_mix; [exact Hs|apply tri_swap, seg_tri01, seg_cut, S2|apply seg_tri01, seg_cut, S1].
  - apply (tri_eq3 _ _ _ _ _ (eq3_sym _ _ E)). apply tri_mix; [exact Ht|apply seg_tri01, seg_cut, T1|apply tri_swap, seg_tri01, seg_cut, T2].
Qed.

(** ** The code *)
Definition off (N O : rvec) (p : rvec) : R := dot3 N (minus p O).
Lemma tri_dists_R b N O P0 P1 P2 : tri_dists (L:=RL) b N O P0 P1 P2 = Q (off N O P0) (off N O P1) (off N O P2) (off N O P0).
Proof. unfold tri_dists. cbv zeta. l3. rewrite !Sub_R, !Dot3_R. reflexivity. Qed.
Lemma vgt_Q (a c d e a' c' d' e' : R) : vgt (L:=RL) (Q a c d e) (Q a' c' d' e') = Q (Rltb a' a) (Rltb c' c) (Rltb d' d) (Rltb e' e).
Proof. reflexivity. Qed.
Lemma clear_lanes b a c d : ray_epsilon <= Rabs a -> ray_epsilon <= Rabs c -> ray_epsilon <= Rabs d ->
  vgt (L:=RL) g_RayEpsilon (XMVectorAbs b (Q a c d a)) = qrep false.
Proof.
  intros Ha Hc Hd. unfold g_RayEpsilon. change (@tlit RL 1547425 (-87)) with ray_epsilon. rewrite Abs_R. transitivity (Q (Rltb (Rabs a) ray_epsilon) (Rltb (Rabs c) ray_epsilon) (Rltb (Rabs d) ray_epsilon) (Rltb (Rabs a) ray_epsilon)); [reflexivity|].
  rewrite !(proj2 (Rltb_false _ _)) by assumption. reflexivity.
Qed.
Lemma reorder_R V0 V1 V2 (g : rvec -> R) : g V0 <> 0 -> g V1 <> 0 -> g V2 <> 0 ->
  ~ (g V0 < 0 /\ g V1 < 0 /\ g V2 < 0) -> ~ (0 < g V0 /\ 0 < g V1 /\ 0 < g V2) ->
  exists P0 P1 P2 s, reorder (L:=RL) V0 V1 V2 (vgt (L:=RL) vzero (Q (g V0) (g V1) (g V2) (g V0))) (vgt (L:=RL) (Q (g V0) (g V1) (g V2) (g V0)) vzero) (qrep false) = Some (P0, P1, P2, s) /\
    (forall p, tri P0 P1 P2 p <-> tri V0 V1 V2 p) /\
    if s then normal P0 P1 P2 = normal V0 V1 V2 /\ 0 < g P0 /\ g P1 < 0 /\ g P2 < 0
    else normal P0 P1 P2 = scale (-1) (normal V0 V1 V2) /\ g P0 < 0 /\ 0 < g P1 /\ 0 < g P2.
Proof.
  intros H0 H1 H2 HL HG. rewrite vzero_R. unfold qrep. rt. rewrite !vgt_Q.
  assert (SP : forall x, 0 < x -> Rltb x 0 = false /\ Rltb 0 x = true) by (intros x Hx; split; [apply Rltb_false; lra|apply Rltb_true; lra]).
  assert (SN : forall x, x < 0 -> Rltb x 0 = true /\ Rltb 0 x = false) by (intros x Hx; split; [apply Rltb_true; lra|apply Rltb_false; lra]).
  assert (ID : forall p : rvec, tri V0 V1 V2 p <-> tri V0 V1 V2 p) by (intros; tauto).
  assert (T1 : forall p, tri V1 V2 V0 p <-> tri V0 V1 V2 p) by (intros p; split; [intros; apply tri_turn, tri_turn; assumption|apply tri_turn]).
  assert (T2 : forall p, tri V2 V0 V1 p <-> tri V0 V1 V2 p) by (intros p; split; [apply tri_turn|intros; apply tri_turn, tri_turn; assumption]).
  assert (W0 : forall p, tri V0 V2 V1 p <-> tri V0 V1 V2 p) by (intros p; split; apply tri_swap).
  assert (W1 : forall p, tri V1 V0 V2 p <-> tri V0 V1 V2 p) by (intros p; rewrite <- T1; split; apply tri_swap).
  assert (W2 : forall p, tri V2 V1 V0 p <-> tri V0 V1 V2 p) by (intros p; rewrite <- T2; split; apply tri_swap).
  assert (N1 : normal V1 V2 V0 = normal V0 V1 V2) by apply tri_rot. assert (N2 : normal V2 V0 V1 = normal V0 V1 V2) by (symmetry; apply tri_rot).
  pose proof (normal_swap V0 V1 V2) as M0. pose proof (normal_swap V1 V2 V0) as M1. rewrite N1 in M1. pose proof (normal_swap V2 V0 V1) as M2. rewrite N2 in M2.
  destruct (Rdichotomy _ _ H0) as [h0|h0]; destruct (Rdichotomy _ _ H1) as [h1|h1]; destruct (Rdichotomy _ _ H2) as [h2|h2]; try (exfalso; (apply HL + apply HG); repeat split; assumption);
  repeat match goal with
  | H : ?x < 0 |- context [Rltb ?x 0] => rewrite (proj1 (SN x H)), (proj2 (SN x H))
  | H : ?x > 0 |- context [Rltb ?x 0] => rewrite (proj1 (SP x H)), (proj2 (SP x H))
  end; do 4 eexists; (split; [reflexivity|]); (split; [assumption|]); cbv iota; (split; [|repeat split; assumption]); (reflexivity || assumption).
Qed.
(** no vertex of [P] within the code's threshold of the plane with normal [N] through [O] *)
Definition apart (N O P0 P1 P2 : rvec) : Prop := ray_epsilon <= Rabs (off N O P0) /\ ray_epsilon <= Rabs (off N O P1) /\ ray_epsilon <= Rabs (off N O P2).
Lemma apart_nonzero x : ray_epsilon <= Rabs x -> x <> 0.
Proof. intros H E. rewrite E, Rabs_R0 in H. pose proof eps_pos. lra. Qed.
Lemma off_neg N O p : off (scale (-1) N) O p = - off N O p.
Proof. unfold off, dot3, scale; cbn [qx qy qz]. ring. Qed.
Lemma off_tri N O V0 V1 V2 p : tri V0 V1 V2 p -> Rmin (Rmin (off N O V0) (off N O V1)) (off N O V2) <= off N O p <= Rmax (Rmax (off N O V0) (off N O V1)) (off N O V2).
Proof.
  intros (a & c & d & Ha & Hc & Hd & Hs & He). pose proof (mean3 a c d (off N O V0) (off N O V1) (off N O V2) Ha Hc Hd Hs) as M.
  replace (off N O p) with (a * off N O V0 + c * off N O V1 + d * off N O V2); [exact M|]. destruct He as (h1 & h2 & h3). unfold off, dot3, minus; cbn [qx qy qz]. rewrite h1, h2, h3. unfold plus, scale; cbn [qx qy qz].
  replace a with (1 - c - d) by lra. ring.
Qed.
Lemma off_own V0 V1 V2 p : tri V0 V1 V2 p -> off (normal V0 V1 V2) V0 p = 0.
Proof. intros H. unfold off. rewrite dot3_sym. apply tri_plane_zero, H. Qed.
Lemma ends_swap A0 A2 B0 B2 : ends B0 B2 A0 A2 = ends A0 A2 B0 B2.
Proof. unfold ends, dot3, cross, minus; cbn [qx qy qz]. ring. Qed.
Definition alone (g : rvec -> R) (P0 P1 P2 : rvec) : Prop := 0 < g P0 /\ g P1 < 0 /\ g P2 < 0.
Lemma ends_iff A0 A1 A2 B0 B1 B2 : alone (off (normal B0 B1 B2) B0) A0 A1 A2 -> alone (off (normal A0 A1 A2) A0) B0 B1 B2 ->
  meets (tri A0 A1 A2) (tri B0 B1 B2) <-> ends A0 A2 B0 B2 <= 0 /\ 0 <= ends A0 A1 B0 B1.
Proof.
  unfold alone, off. intros (a0 & a1 & a2) (b0 & b1 & b2). split.
  - apply meet_ends; [rewrite (dot_split _ A1 A0 B0)|rewrite (dot_split _ A2 A0 B0)|rewrite (dot_split _ B1 B0 A0)|rewrite (dot_split _ B2 B0 A0)]; lra.
  - intros (E2 & E1). apply (ends_meet A0 A1 A2 B0 B1 B2); assumption.
Qed.
Lemma meets_ext A A' B B' : (forall p, A p <-> A' p) -> (forall p, B p <-> B' p) -> meets A B <-> meets A' B'.
Proof. intros HA HB. split; intros (x & hx & hy); exists x; split; (apply HA + apply HB); assumption. Qed.
Lemma shift_off V0 V1 V2 W0 W1 W2 c : (forall p, tri W0 W1 W2 p <-> tri V0 V1 V2 p) -> forall p, off (scale c (normal V0 V1 V2)) W0 p = c * off (normal V0 V1 V2) V0 p.
Proof.
  intros E p. assert (H : tri V0 V1 V2 W0) by (apply E, tri_v0). pose proof (off_own _ _ _ _ H) as Z. set (N := normal V0 V1 V2) in *.
  replace (off (scale c N) W0 p) with (c * off N W0 p) by (unfold off, dot3, scale; cbn [qx qy qz]; ring). f_equal. unfold off in *. rewrite (dot_split _ p W0 V0), Z. ring.
Qed.
Lemma scale1 N : eq3 (scale 1 N) N.
Proof. unfold eq3, scale; cbn [qx qy qz]. repeat split; ring. Qed.
Lemma shift_off1 V0 V1 V2 W0 W1 W2 : (forall p, tri W0 W1 W2 p <-> tri V0 V1 V2 p) -> forall p, off (normal V0 V1 V2) W0 p = off (normal V0 V1 V2) V0 p.
Proof. intros E p. pose proof (shift_off V0 V1 V2 W0 W1 W2 1 E p) as H. rewrite Rmult_1_l in H. rewrite <- H. unfold off, dot3, scale; cbn [qx qy qz]. ring. Qed.
Lemma tri_tri b A0 A1 A2 B0 B1 B2 : nonflat A0 A1 A2 -> nonflat B0 B1 B2 ->
  apart (normal A0 A1 A2) A0 B0 B1 B2 -> (apart (normal B0 B1 B2) B0 A0 A1 A2) ->
  exists r, Triangle_IntersectsTriangle (L:=RL) b A0 A1 A2 B0 B1 B2 = Some r /\ (r = true <-> meets (tri A0 A1 A2) (tri B0 B1 B2)).
Proof.
  intros HA HB (cb0 & cb1 & cb2) (ca0 & ca1 & ca2). unfold Triangle_IntersectsTriangle. cbv zeta. l3. rewrite !Sub_R, !Cross3_R, !vzero_R.
  assert (NZ : forall V0 V1 V2, nonflat V0 V1 V2 -> all3 (veq (L:=RL) (normal V0 V1 V2) (qrep 0)) = false).
  { intros V0 V1 V2 H. apply not_true_iff_false. intros E. apply H. fold (normal V0 V1 V2). destruct (normal V0 V1 V2) as [x y z w]. revert E. unfold all3, veq, qrep, qmap2; cbn [qx qy qz]. change (@teq RL) with Reqb.
    rewrite !andb_true_iff, !Reqb_true. unfold zero3; cbn [qx qy qz]. tauto. }
  fold (normal A0 A1 A2). fold (normal B0 B1 B2). rewrite (NZ _ _ _ HA), (NZ _ _ _ HB). cbn [negb asserting]. rewrite !tri_dists_R.
  set (N := normal A0 A1 A2) in *. set (M := normal B0 B1 B2) in *.
  rewrite (clear_lanes b _ _ _ cb0 cb1 cb2). 
  replace (vsel (L:=RL) (Q (off N A0 B0) (off N A0 B1) (off N A0 B2) (off N A0 B0)) (qrep 0) (qrep false)) with (Q (off N A0 B0) (off N A0 B1) (off N A0 B2) (off N A0 B0)) by reflexivity.
  rewrite (clear_lanes b _ _ _ cb0 cb1 cb2).
  replace (vsel (L:=RL) (Q (off M B0 A0) (off M B0 A1) (off M B0 A2) (off M B0 A0)) (qrep 0) (qrep false)) with (Q (off M B0 A0) (off M B0 A1) (off M B0 A2) (off M B0 A0)) by reflexivity.
  assert (SIDE : forall a c d : R, (qall (vgt (L:=RL) (qrep 0) (Q a c d a)) || qall (vgt (L:=RL) (Q a c d a) (qrep 0)))%bool = true -> (a < 0 /\ c < 0 /\ d < 0) \/ (0 < a /\ 0 < c /\ 0 < d)).
  { intros a c d. unfold qrep. rt. rewrite !vgt_Q. unfold qall. cbn [qx qy qz qw]. rewrite orb_true_iff, !andb_true_iff, !Rltb_true. tauto. }
  assert (SIDE' : forall a c d : R, (qall (vgt (L:=RL) (qrep 0) (Q a c d a)) || qall (vgt (L:=RL) (Q a c d a) (qrep 0)))%bool = false -> ~ (a < 0 /\ c < 0 /\ d < 0) /\ ~ (0 < a /\ 0 < c /\ 0 < d)).
  { intros a c d. unfold qrep. rt. rewrite !vgt_Q. unfold qall. cbn [qx qy qz qw]. intros E. apply orb_false_iff in E. destruct E as (E1 & E2). split; intros (h1 & h2 & h3); [revert E1|revert E2];
    rewrite (proj2 (Rltb_true _ _) h1), (proj2 (Rltb_true _ _) h2), (proj2 (Rltb_true _ _) h3); discriminate. }
  assert (MIN : forall a c d k, Rmin (Rmin a c) d <= k <= Rmax (Rmax a c) d -> (a < 0 /\ c < 0 /\ d < 0) \/ (0 < a /\ 0 < c /\ 0 < d) -> k <> 0).
  { intros a c d k. unfold Rmin, Rmax. repeat destruct (Rle_dec _ _); lra. }
  destruct (qall (vgt (L:=RL) (qrep 0) (Q (off N A0 B0) (off N A0 B1) (off N A0 B2) (off N A0 B0))) || _)%bool eqn:S1.
  { eexists. split; [reflexivity|]. split; [discriminate|]. intros (x & hx & hy). exfalso. apply (MIN _ _ _ _ (off_tri N A0 _ _ _ _ hy) (SIDE _ _ _ S1)). apply off_own, hx. }
  destruct (qall (vgt (L:=RL) (qrep 0) (Q (off M B0 A0) (off M B0 A1) (off M B0 A2) (off M B0 A0))) || _)%bool eqn:S2.
  { eexists. split; [reflexivity|]. split; [discriminate|]. intros (x & hx & hy). exfalso. apply (MIN _ _ _ _ (off_tri M B0 _ _ _ _ hx) (SIDE _ _ _ S2)). apply off_own, hy. }
  rewrite qall_rep. cbn [orb]. apply SIDE' in S1, S2. rewrite <- !vzero_R.
  destruct (reorder_R A0 A1 A2 (off M B0)) as (P0 & P1 & P2 & s & -> & EA & KA); try (apply apart_nonzero; assumption); try tauto.
  destruct (reorder_R B0 B1 B2 (off N A0)) as (Q0 & Q1 & Q2 & t & -> & EB & KB); try (apply apart_nonzero; assumption); try tauto.
  cbn [obind]. rewrite vzero_R. pose proof (meets_ext _ _ _ _ EA EB) as ME. fold N in KA. fold M in KB.
  assert (FIN : forall x y : R, exists r, (if qall (vgt (L:=RL) (qrep x) (qrep 0)) then Some false else if qall (vgt (L:=RL) (qrep y) (qrep 0)) then Some false else Some true) = Some r /\ (r = true <-> x <= 0 /\ y <= 0)).
  { intros x y. rewrite !vgt_rep, !qall_rep. destruct (Rltb_spec 0 x); [eexists; split; [reflexivity|]; split; [discriminate|lra]|]. destruct (Rltb_spec 0 y); [eexists; split; [reflexivity|]; split; [discriminate|lra]|]. eexists; split; [reflexivity|]. split; [lra|reflexivity]. }
  assert (OP : forall u v w, dot3 (minus v u) w = - dot3 (minus u v) w) by (intros; unfold dot3, minus; cbn [qx qy qz]; ring).
  destruct s, t; cbn [xorb]; destruct KA as (NA & ka0 & ka1 & ka2), KB as (NB & kb0 & kb1 & kb2); rewrite !Sub_R, !Cross3_R, !Dot3_R.
  - destruct (FIN (dot3 (minus P0 Q0) (cross (minus Q2 Q0) (minus P2 P0))) (dot3 (minus Q0 P0) (cross (minus Q1 Q0) (minus P1 P0)))) as (r & Er & Hr).
    exists r. split; [exact Er|]. rewrite Hr, <- ME, ends_iff. 
    + unfold ends. rewrite (OP P0 Q0). split; lra.
    + unfold alone. rewrite NB. unfold M. rewrite !(shift_off1 _ _ _ _ _ _ EB). auto.
    + unfold alone. rewrite NA. unfold N. rewrite !(shift_off1 _ _ _ _ _ _ EA). auto.
  - destruct (FIN (dot3 (minus Q0 P0) (cross (minus Q2 Q0) (minus P2 P0))) (dot3 (minus P0 Q0) (cross (minus Q1 Q0) (minus P1 P0)))) as (r & Er & Hr).
    exists r. split; [exact Er|]. rewrite Hr, <- ME.
    rewrite (meets_ext _ (tri P0 P2 P1) _ (tri Q0 Q2 Q1)) by (intros; split; apply tri_swap). rewrite ends_iff.
    + unfold ends. rewrite (OP P0 Q0). split; lra.
    + unfold alone. rewrite (normal_swap Q0 Q1 Q2), NB. unfold M. assert (E : forall p, off (scale (-1) (scale (-1) (normal B0 B1 B2))) Q0 p = off (normal B0 B1 B2) B0 p).
      { intros p. rewrite off_neg, (shift_off _ _ _ _ _ _ _ EB). ring. } rewrite !E. auto.
    + unfold alone. rewrite (normal_swap P0 P1 P2), NA. unfold N. rewrite !(shift_off _ _ _ _ _ _ _ EA). fold N. lra.
  - destruct (FIN (dot3 (minus Q0 P0) (cross (minus Q2 Q0) (minus P2 P0))) (dot3 (minus P0 Q0) (cross (minus Q1 Q0) (minus P1 P0)))) as (r & Er & Hr).
    exists r. split; [exact Er|]. rewrite Hr, <- ME.
    rewrite (meets_ext _ (tri P0 P2 P1) _ (tri Q0 Q2 Q1)) by (intros; split; apply tri_swap). rewrite ends_iff.
    + unfold ends. rewrite (OP P0 Q0). split; lra.
    + unfold alone. rewrite (normal_swap Q0 Q1 Q2), NB. unfold M. rewrite !(shift_off _ _ _ _ _ _ _ EB). fold M. lra.
    + unfold alone. rewrite (normal_swap P0 P1 P2), NA. unfold N. assert (E : forall p, off (scale (-1) (scale (-1) (normal A0 A1 A2))) P0 p = off (normal A0 A1 A2) A0 p).
      { intros p. rewrite off_neg, (shift_off _ _ _ _ _ _ _ EA). ring. } rewrite !E. auto.
  - destruct (FIN (dot3 (minus P0 Q0) (cross (minus Q2 Q0) (minus P2 P0))) (dot3 (minus Q0 P0) (cross (minus Q1 Q0) (minus P1 P0)))) as (r & Er & Hr).
    exists r. split; [exact Er|]. rewrite Hr, <- ME, ends_iff. 
    + unfold ends. rewrite (OP P0 Q0). split; lra.
    + unfold alone. rewrite NB. unfold M. rewrite !(shift_off _ _ _ _ _ _ _ EB). fold M. lra.
    + unfold alone. rewrite NA. unfold N. rewrite !(shift_off _ _ _ _ _ _ _ EA). fold N. lra.
Qed.

(** ** Where it fails *)
Ltac rnum := repeat match goal with
  | |- context [Rltb ?a ?c] => first [rewrite (proj2 (Rltb_true a c)) by (unfold off, dot3, cross, minus; cbn [qx qy qz]; lra) | rewrite (proj2 (Rltb_false a c)) by (unfold off, dot3, cross, minus; cbn [qx qy qz]; lra)]
  | |- context [Rleb ?a ?c] => first [rewrite (proj2 (Rleb_true a c)) by (unfold off, dot3, cross, minus; cbn [qx qy qz]; lra) | rewrite (proj2 (Rleb_false a c)) by (unfold off, dot3, cross, minus; cbn [qx qy qz]; lra)]
  end.
Lemma nonflat_all V0 V1 V2 : nonflat V0 V1 V2 -> all3 (veq (L:=RL) (cross (minus V1 V0) (minus V2 V0)) (qrep 0)) = false.
Proof.
  intros H. apply not_true_iff_false. intros E. apply H. destruct (cross (minus V1 V0) (minus V2 V0)) as [x y z w]. revert E. unfold all3, veq, qrep, qmap2; cbn [qx qy qz]. change (@teq RL) with Reqb.
  rewrite !andb_true_iff, !Reqb_true. unfold zero3; cbn [qx qy qz]. tauto.
Qed.
Lemma zero_lanes b a c d : vgt (L:=RL) g_RayEpsilon (XMVectorAbs b (Q a c d a)) = Q (Rltb (Rabs a) ray_epsilon) (Rltb (Rabs c) ray_epsilon) (Rltb (Rabs d) ray_epsilon) (Rltb (Rabs a) ray_epsilon).
Proof. rewrite Abs_R. reflexivity. Qed.
Lemma near0 x : x = 0 -> Rltb (Rabs x) ray_epsilon = true.
Proof. intros ->. rewrite Rabs_R0. apply Rltb_true, eps_pos. Qed.
Lemma eps_small : ray_epsilon <= 1.
Proof. unfold ray_epsilon. apply (Rmult_le_reg_r (IZR (2 ^ 87))); [apply IZR_lt; reflexivity|]. unfold Rdiv. rewrite Rmult_assoc, Rinv_l, Rmult_1_r, Rmult_1_l by (apply IZR_neq; discriminate). apply IZR_le. discriminate. Qed.
Lemma far0 x : 1 <= x \/ x <= -1 -> Rltb (Rabs x) ray_epsilon = false.
Proof. intros H. apply Rltb_false. pose proof eps_small. destruct H; [rewrite Rabs_right by lra|rewrite Rabs_left by lra]; lra. Qed.
Lemma vsel_Q (a c d e a' c' d' e' : R) k l m n : vsel (L:=RL) (Q a c d e) (Q a' c' d' e') (Q k l m n) = Q (if k then a' else a) (if l then c' else c) (if m then d' else d) (if n then e' else e).
Proof. reflexivity. Qed.
Lemma nonflat_iff V0 V1 V2 : 0 < dot3 (cross (minus V1 V0) (minus V2 V0)) (cross (minus V1 V0) (minus V2 V0)) -> nonflat V0 V1 V2.
Proof. intros H (h1 & h2 & h3). revert H. unfold dot3. rewrite h1, h2, h3. lra. Qed.
(** the values of the code on given triangles *)
Ltac flats := apply nonflat_iff; unfold dot3, cross, minus; cbn [qx qy qz]; lra.
Ltac lanes := repeat match goal with |- context [Rltb (Rabs ?x) ray_epsilon] => first [rewrite (near0 x) by (unfold off, dot3, cross, minus; cbn [qx qy qz]; lra) | rewrite (far0 x) by (unfold off, dot3, cross, minus; cbn [qx qy qz]; lra)] end.
Ltac tt HA HB := unfold Triangle_IntersectsTriangle; cbv zeta; l3; rewrite !Sub_R, !Cross3_R, !vzero_R, !(nonflat_all _ _ _ HA), !(nonflat_all _ _ _ HB); cbn [negb asserting];
  rewrite !tri_dists_R, !zero_lanes; unfold qrep; lanes; rewrite !vsel_Q, !vgt_Q, !zero_lanes; cbv iota; lanes; rewrite ?vsel_Q; cbv iota; rewrite ?vgt_Q; rnum.
(** every triangle is reported disjoint from itself: the axes of the coplanar case point inwards *)
Lemma tri_tri_self b V0 V1 V2 : nonflat V0 V1 V2 -> Triangle_IntersectsTriangle (L:=RL) b V0 V1 V2 V0 V1 V2 = Some false.
Proof.
  intros H. unfold Triangle_IntersectsTriangle. cbv zeta. l3. rewrite !Sub_R, !Cross3_R, !vzero_R, !(nonflat_all _ _ _ H). cbn [negb asserting]. rewrite !tri_dists_R.
  change (cross (minus V1 V0) (minus V2 V0)) with (normal V0 V1 V2) in *.
  rewrite (off_own _ _ _ _ (tri_v0 V0 V1 V2)), (off_own _ _ _ _ (tri_v1 V0 V1 V2)), (off_own _ _ _ _ (tri_v2 V0 V1 V2)).
  rewrite !zero_lanes, !near0 by reflexivity. unfold qrep. rewrite !vsel_Q. cbv iota. rt. rewrite !zero_lanes, !near0 by reflexivity. rewrite !vsel_Q. cbv iota. rt. rewrite !vgt_Q, !(proj2 (Rltb_false 0 0)) by lra.
  unfold qall at 1 2 3 4 5 6; cbn [qx qy qz qw andb orb].
  assert (E : edge_out (L:=RL) b (normal V0 V1 V2) V0 V1 V0 V1 V2 = true).
  { unfold edge_out. cbv zeta. rewrite Sub_R, Cross3_R, !Dot3_R, !Min_R, !rep_min, vge_rep, qall_rep. apply Rleb_true.
    set (X := cross (normal V0 V1 V2) (minus V1 V0)). assert (E1 : dot3 V1 X = dot3 X V0) by (unfold X, dot3, cross, minus; cbn [qx qy qz]; ring).
    assert (E2 : dot3 X V0 <= dot3 V2 X).
    { replace (dot3 V2 X) with (dot3 X V0 + dot3 (normal V0 V1 V2) (normal V0 V1 V2)) by (unfold X, normal, dot3, cross, minus; cbn [qx qy qz]; ring). pose proof (dot3_nonneg (normal V0 V1 V2)). lra. }
    rewrite (dot3_sym V0 X), E1. apply Rmin_glb; [apply Rmin_glb; apply Rle_refl|exact E2]. }
  rewrite E. reflexivity.
Qed.
(** the assertion of the reordering fails for a vertex on the other plane *)
Lemma tri_tri_panic b : exists A0 A1 A2 B0 B1 B2, nonflat A0 A1 A2 /\ nonflat B0 B1 B2 /\ meets (tri A0 A1 A2) (tri B0 B1 B2) /\ Triangle_IntersectsTriangle (L:=RL) b A0 A1 A2 B0 B1 B2 = None.
Proof.
  exists (Q 0 0 2 0), (Q 1 0 0 0), (Q 0 2 0 0), (Q 0 0 (-1) 0), (Q 1 1 0 0), (Q 0 0 0 0).
  assert (HA : nonflat (Q 0 0 2 0) (Q 1 0 0 0) (Q 0 2 0 0)) by flats. assert (HB : nonflat (Q 0 0 (-1) 0) (Q 1 1 0 0) (Q 0 0 0 0)) by flats.
  split; [exact HA|]. split; [exact HB|]. split.
  { exists (Q (2/3) (2/3) 0 0). split; [exists 0, (2/3), (1/3)|exists 0, (2/3), (1/3)]; unfold eq3, plus, scale; cbn [qx qy qz]; repeat split; lra. }
  tt HA HB. reflexivity.
Qed.
(** triangles that do not share a point are reported as intersecting, and the other way round *)
Lemma tri_tri_wrong b : exists A0 A1 A2 B0 B1 B2, nonflat A0 A1 A2 /\ nonflat B0 B1 B2 /\ ~ meets (tri A0 A1 A2) (tri B0 B1 B2) /\ Triangle_IntersectsTriangle (L:=RL) b A0 A1 A2 B0 B1 B2 = Some true.
Proof.
  exists (Q 0 (-1) 0 0), (Q 0 0 0 0), (Q 0 (-1) 1 0), (Q 0 0 1 0), (Q 1 1 0 0), (Q 1 0 2 0).
  assert (HA : nonflat (Q 0 (-1) 0 0) (Q 0 0 0 0) (Q 0 (-1) 1 0)) by flats. assert (HB : nonflat (Q 0 0 1 0) (Q 1 1 0 0) (Q 1 0 2 0)) by flats.
  split; [exact HA|]. split; [exact HB|]. split.
  { intros (x & (a & c & d & h1 & h2 & h3 & h4 & e1 & e2 & e4) & (a' & c' & d' & k1 & k2 & k3 & k4 & f1 & f2 & f4)). unfold plus, scale in *; cbn [qx qy qz] in *. lra. }
  tt HA HB. cbn - [XMVectorSubtract XMVector3Cross XMVector3Dot vgt]. l3. rewrite !Sub_R, !Cross3_R, !Dot3_R. unfold qrep. rt. rewrite !vgt_Q. rnum. reflexivity.
Qed.
Lemma tri_tri_missed b : exists A0 A1 A2 B0 B1 B2, nonflat A0 A1 A2 /\ nonflat B0 B1 B2 /\ meets (tri A0 A1 A2) (tri B0 B1 B2) /\ Triangle_IntersectsTriangle (L:=RL) b A0 A1 A2 B0 B1 B2 = Some false
  /\ ~ zero3 (cross (normal A0 A1 A2) (normal B0 B1 B2)).
Proof.
  exists (Q 0 (-1) 0 0), (Q 0 0 0 0), (Q 0 0 (-2) 0), (Q 0 1 1 0), (Q (-1) (-1) (-1) 0), (Q 1 1 0 0).
  assert (HA : nonflat (Q 0 (-1) 0 0) (Q 0 0 0 0) (Q 0 0 (-2) 0)) by flats. assert (HB : nonflat (Q 0 1 1 0) (Q (-1) (-1) (-1) 0) (Q 1 1 0 0)) by flats.
  split; [exact HA|]. split; [exact HB|]. split.
  { exists (Q 0 0 (-1/2) 0). split; [exists 0, (3/4), (1/4)|exists 0, (1/2), (1/2)]; unfold eq3, plus, scale; cbn [qx qy qz]; repeat split; lra. }
  split; [tt HA HB; cbn - [XMVectorSubtract XMVector3Cross XMVector3Dot vgt]; l3; rewrite !Sub_R, !Cross3_R, !Dot3_R; unfold qrep; rt; rewrite !vgt_Q; rnum; reflexivity|].
  unfold normal, zero3, cross, minus; cbn [qx qy qz]. lra.
Qed.
