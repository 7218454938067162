(** Spheres on bit patterns: distance tests with explicit tolerances. *)
From Coq Require Import Reals Lra Lia ZArith Bool List.
From Flocq Require Import Core IEEE754.BinarySingleNaN.
From Verif Require Import Base F32 F32Facts Intrin Lane MVec MTrig MQuat MInterp MPlane MMatrix Shapes MCollide.
From Verif Require Import SpecF32 PF32 SpecRound PFloat PExp PHyp SpecGeom SpecShape SpecErr PErr PErrNorm SpecTol PShape PSphere PCollF.
Open Scope R_scope.

Lemma p62 : pow2 62 = bpow radix2 62. Proof. apply pow2_bpow. Qed.
Lemma sq_big : bpow radix2 62 * bpow radix2 62 = / 4 * big.
Proof. unfold big. rewrite <- bpow_plus. change (62 + 62)%Z with (-2 + 126)%Z. rewrite bpow_plus. change (bpow radix2 (-2)) with (/ 4). reflexivity. Qed.
Lemma sq_rel v d e : Rabs (v - d) <= e * Rabs d -> 0 <= e <= / 1000 -> Rabs (v * v - d * d) <= (2 * e + e * e) * (d * d).
Proof.
  intros H E. replace (v * v - d * d) with ((v - d) * (v - d) + 2 * d * (v - d)) by ring. eapply Rle_trans; [apply Rabs_triang|]. rewrite !Rabs_mult, (Rabs_pos_eq 2) by lra.
  pose proof (Rabs_pos (v - d)). pose proof (Rabs_pos d).
  assert (Rabs (v - d) * Rabs (v - d) <= e * Rabs d * (e * Rabs d)) by (apply Rmult_le_compat; lra).
  assert (2 * Rabs d * Rabs (v - d) <= 2 * Rabs d * (e * Rabs d)) by (apply Rmult_le_compat_l; lra).
  assert (D : Rabs d * Rabs d = d * d) by (rewrite <- Rabs_mult; apply Rabs_pos_eq, (Rle_0_sqr d)).
  replace ((2 * e + e * e) * (d * d)) with ((2 * e + e * e) * (Rabs d * Rabs d)) by (rewrite D; reflexivity). lra.
Qed.
(** a difference of two inputs *)
Lemma sub_rel a c x y : value a = Fin x -> value c = Fin y -> Rabs (x - y) <= bpow radix2 62 -> value (f_sub a c) = Fin (RN (x - y)) /\ Rabs (RN (x - y) - (x - y)) <= u24 * Rabs (x - y).
Proof.
  intros Va Vc H. destruct (value_fmt _ _ Va) as (Fx & _). destruct (value_fmt _ _ Vc) as (Fy & _). split; [|apply (dif_err x y Fx Fy)].
  apply sub_val; [exact Va|exact Vc|]. apply Rle_lt_trans with (bpow radix2 62); [|apply bpow_lt; lia]. apply Rabs_le_inv in H. destruct H as (H1 & H2).
  apply RN_le in H1. apply RN_le in H2. rewrite RN_fmt in H1 by (apply fmt_opp, fmt_pow; lia). rewrite (RN_fmt (bpow radix2 62)) in H2 by (apply fmt_pow; lia). apply Rabs_le. lra.
Qed.
Lemma comp_le x y z m : 0 <= m -> x * x + y * y + z * z <= m * m -> Rabs x <= m /\ Rabs y <= m /\ Rabs z <= m.
Proof.
  intros M H. pose proof (Rle_0_sqr x) as A. pose proof (Rle_0_sqr y) as B. pose proof (Rle_0_sqr z) as C. unfold Rsqr in *.
  assert (forall t, t * t <= m * m -> Rabs t <= m) as K. { intros t T. rewrite <- (Rabs_pos_eq m M). apply Rsqr_le_abs_0. exact T. }
  split; [|split]; apply K; lra.
Qed.
(** the squared length of a difference, on every path: 6.02 half-ulps *)
Definition subq (P C : quad Z) : quad Z := Q (f_sub (qx P) (qx C)) (f_sub (qy P) (qy C)) (f_sub (qz P) (qz C)) (f_sub (qw P) (qw C)).
Lemma sub_subq b P C : XMVectorSubtract (L:=FL) b P C = subq P C. Proof. destruct b; reflexivity. Qed.
Lemma dif_holds P C p c : holds3 P p -> holds3 C c -> dist p c <= pow2 62 -> exists v, holds3 (subq P C) v /\ dot3 v v <= big /\
  Rabs (dot3 v v - dist p c * dist p c) <= 2001 / 1000 * u24 * (dist p c * dist p c).
Proof.
  rewrite p62. intros HP HC D. assert (D2 : dist p c * dist p c <= bpow radix2 62 * bpow radix2 62) by (pose proof (dist_nonneg p c); apply Rmult_le_compat; lra).
  rewrite dist_sq in *. dq4 P p0 p1 p2 p3; dq4 C k0 k1 k2 k3; dq4 p x0 x1 x2 x3; dq4 c y0 y1 y2 y3. unfold holds3, is32, subq, minus, dot3 in *. cbn [qx qy qz qw] in *. dest.
  destruct (comp_le _ _ _ _ (bpow_ge_0 radix2 62) D2) as (A0 & A1 & A2).
  destruct (sub_rel p0 k0 x0 y0) as (V0 & E0); try assumption. destruct (sub_rel p1 k1 x1 y1) as (V1 & E1); try assumption. destruct (sub_rel p2 k2 x2 y2) as (V2 & E2); try assumption.
  assert (U : 0 <= u24 <= / 1000) by (unfold u24; lra).
  apply sq_rel in E0; [|exact U]. apply sq_rel in E1; [|exact U]. apply sq_rel in E2; [|exact U].
  set (v0 := RN (x0 - y0)) in *. set (v1 := RN (x1 - y1)) in *. set (v2 := RN (x2 - y2)) in *.
  pose proof (Rle_0_sqr (x0 - y0)). pose proof (Rle_0_sqr (x1 - y1)). pose proof (Rle_0_sqr (x2 - y2)). unfold Rsqr in *.
  assert (E : Rabs (v0 * v0 + v1 * v1 + v2 * v2 - ((x0 - y0) * (x0 - y0) + (x1 - y1) * (x1 - y1) + (x2 - y2) * (x2 - y2))) <= 2001 / 1000 * u24 * ((x0 - y0) * (x0 - y0) + (x1 - y1) * (x1 - y1) + (x2 - y2) * (x2 - y2))).
  { replace (v0 * v0 + v1 * v1 + v2 * v2 - ((x0 - y0) * (x0 - y0) + (x1 - y1) * (x1 - y1) + (x2 - y2) * (x2 - y2))) with ((v0 * v0 - (x0 - y0) * (x0 - y0)) + (v1 * v1 - (x1 - y1) * (x1 - y1)) + (v2 * v2 - (x2 - y2) * (x2 - y2))) by ring.
    eapply Rle_trans; [apply Rabs_triang|]. eapply Rle_trans; [apply Rplus_le_compat_r, Rabs_triang|]. unfold u24 in *. lra. }
  exists (Q v0 v1 v2 0). cbn [qx qy qz]. split; [|split; [|exact E]].
  - repeat split; try assumption; apply enc_word.
  - apply Rabs_le_inv in E. rewrite sq_big in D2. pose proof big_pos. unfold u24 in *. lra.
Qed.
Lemma lensq_dif b P C p c i : holds3 P p -> holds3 C c -> dist p c <= pow2 62 ->
  exists q, value (lane (XMVector3Dot (L:=FL) b (subq P C) (subq P C)) i) = Fin q /\ Rabs (q - dist p c * dist p c) <= 602 / 100 * u24 * (dist p c * dist p c) + 20 * eta.
Proof.
  intros HP HC D. destruct (dif_holds P C p c HP HC D) as (v & HV & HB & E). destruct (lensq3_bd b _ v i HV HB) as ((_ & _ & _ & q & V & Eq) & _).
  exists q. split; [exact V|]. set (X := dist p c * dist p c) in *. assert (0 <= X) by (apply Rmult_le_pos; apply dist_nonneg).
  replace (q - X) with ((q - dot3 v v) + (dot3 v v - X)) by ring. eapply Rle_trans; [apply Rabs_triang|]. apply Rabs_le_inv in E. unfold w in Eq.
  assert (Rabs (dot3 v v - X) <= 2001 / 1000 * u24 * X) by (apply Rabs_le; lra). unfold u24 in *. lra.
Qed.
(** the radius squared *)
Lemma eta_small_sq Y : pow2 (-48) * pow2 (-48) <= Y -> eta <= / 1000000 * (u24 * Y).
Proof.
  rewrite !pow2_bpow, <- bpow_plus. intros H. apply Rle_trans with (/ 1000000 * (u24 * bpow radix2 (-48 + -48))); [|unfold u24; lra].
  change (-48 + -48)%Z with (-96)%Z. replace eta with (bpow radix2 (-54) * bpow radix2 (-96)) by (unfold eta; rewrite <- bpow_plus; reflexivity).
  rewrite <- Rmult_assoc. apply Rmult_le_compat_r; [apply bpow_ge_0|]. change (bpow radix2 (-54)) with (/ 18014398509481984). unfold u24. lra.
Qed.
Lemma rsq_val z r R : value z = Fin r -> Rabs (r - R) <= 1001 / 1000 * u24 * R -> pow2 (-48) <= R <= pow2 62 ->
  exists y, value (f_mul z z) = Fin y /\ Rabs (y - R * R) <= 301 / 100 * u24 * (R * R).
Proof.
  intros V E (L & H). rewrite p62 in H. assert (P : 0 < pow2 (-48)) by (rewrite pow2_bpow; apply bpow_gt_0).
  assert (LL : pow2 (-48) * pow2 (-48) <= R * R) by (apply Rmult_le_compat; lra). pose proof (eta_small_sq _ LL) as ES.
  assert (HH : R * R <= / 4 * big) by (rewrite <- sq_big; apply Rmult_le_compat; lra).
  assert (S : Rabs (r * r - R * R) <= (2 * (1001 / 1000 * u24) + 1001 / 1000 * u24 * (1001 / 1000 * u24)) * (R * R)) by (apply sq_rel; [rewrite (Rabs_pos_eq R) by lra; exact E|unfold u24; lra]).
  pose proof (RN_err (r * r)) as RE. assert (0 <= R * R) by (apply Rmult_le_pos; lra). assert (A : Rabs (r * r) <= 1001 / 1000 * (R * R)).
  { replace (r * r) with ((r * r - R * R) + R * R) by ring. eapply Rle_trans; [apply Rabs_triang|]. rewrite (Rabs_pos_eq (R * R)) by lra. unfold u24 in *. lra. }
  exists (RN (r * r)). split.
  - apply mul_val; [exact V|exact V|]. rewrite huge_4big. replace (RN (r * r)) with ((RN (r * r) - r * r) + r * r) by ring. eapply Rle_lt_trans; [apply Rabs_triang|]. pose proof big_pos. unfold u24 in *. lra.
  - replace (RN (r * r) - R * R) with ((RN (r * r) - r * r) + (r * r - R * R)) by ring. eapply Rle_trans; [apply Rabs_triang|]. unfold u24 in *. lra.
Qed.
Lemma rsq_exact z r : value z = Fin r -> pow2 (-48) <= r <= pow2 62 -> exists y, value (f_mul z z) = Fin y /\ Rabs (y - r * r) <= 101 / 100 * u24 * (r * r).
Proof.
  intros V (L & H). rewrite p62 in H. assert (P : 0 < pow2 (-48)) by (rewrite pow2_bpow; apply bpow_gt_0).
  assert (LL : pow2 (-48) * pow2 (-48) <= r * r) by (apply Rmult_le_compat; lra). pose proof (eta_small_sq _ LL) as ES.
  assert (HH : r * r <= / 4 * big) by (rewrite <- sq_big; apply Rmult_le_compat; lra). pose proof (RN_err (r * r)) as RE. assert (0 <= r * r) by (apply Rmult_le_pos; lra). rewrite (Rabs_pos_eq (r * r)) in RE by lra.
  exists (RN (r * r)). split; [|unfold u24 in *; lra]. apply mul_val; [exact V|exact V|]. rewrite huge_4big. apply Rabs_le_inv in RE. pose proof big_pos. apply Rabs_lt. unfold u24 in *. lra.
Qed.
Lemma le_fin a c x y : value a = Fin x -> value c = Fin y -> f_le a c = true <-> x <= y.
Proof. intros Va Vc. rewrite f_le_spec, Va, Vc. unfold xle, xlt, xeq. lra. Qed.
Lemma lt_fin a c x y : value a = Fin x -> value c = Fin y -> f_lt a c = true <-> x < y.
Proof. intros Va Vc. rewrite f_lt_spec, Va, Vc. unfold xlt. tauto. Qed.
Lemma sq_lt_le d m : 0 <= d -> 0 <= m -> d * d <= m * m -> d <= m.
Proof. intros. apply (proj2 (le_sq d m H H0)). assumption. Qed.

(** ** ContainsPoint *)
Lemma all3_le_f (D : quad Z) z d R y k : (forall i, exists q, value (lane D i) = Fin q /\ Rabs (q - d * d) <= 602 / 100 * u24 * (d * d) + 20 * eta) -> value z = Fin y ->
  Rabs (y - R * R) <= k * u24 * (R * R) -> 0 <= k <= 302 / 100 -> 0 <= d -> pow2 (-48) <= R ->
  (d <= R - (305 / 100 + k / 2) * u24 * R -> all3 (vle (L:=FL) D (qrep z)) = true) /\ (all3 (vle (L:=FL) D (qrep z)) = true -> d <= R + (305 / 100 + k / 2) * u24 * R).
Proof.
  intros HD Vz Ez K D0 RL. assert (P : 0 < pow2 (-48)) by (rewrite pow2_bpow; apply bpow_gt_0).
  assert (LL : pow2 (-48) * pow2 (-48) <= R * R) by (apply Rmult_le_compat; lra). pose proof (eta_small_sq _ LL) as ES. assert (RR : 0 <= R * R) by (apply Rmult_le_pos; lra).
  assert (DD : 0 <= d * d) by (apply Rmult_le_pos; lra). set (t := 305 / 100 + k / 2). assert (T : 305 / 100 <= t <= 5) by (unfold t; lra).
  assert (KR : k * u24 * (R * R) = (2 * t - 61 / 10) * u24 * (R * R)) by (unfold t; field).
  assert (TR : 0 <= t * (R * R) <= 5 * (R * R)) by (split; [apply Rmult_le_pos; lra|apply Rmult_le_compat_r; lra]).
  apply Rabs_le_inv in Ez. rewrite KR in Ez. split.
  - intros H. assert (M : d * d <= (R - t * u24 * R) * (R - t * u24 * R)) by (apply Rmult_le_compat; lra).
    assert (Q1 : (R - t * u24 * R) * (R - t * u24 * R) <= R * R - 2 * u24 * (t * (R * R)) + 25 * u24 * u24 * (R * R)).
    { replace ((R - t * u24 * R) * (R - t * u24 * R)) with (R * R - 2 * u24 * (t * (R * R)) + t * t * (u24 * u24 * (R * R))) by ring.
      assert (t * t * (u24 * u24 * (R * R)) <= 25 * (u24 * u24 * (R * R))); [|lra]. apply Rmult_le_compat_r; [apply Rmult_le_pos; [unfold u24; lra|lra]|]. assert (t * t <= 5 * 5) by (apply Rmult_le_compat; lra). lra. }
    assert (L : forall i, f_le (lane D i) z = true).
    { intros i. destruct (HD i) as (q & Vq & Eq). apply (le_fin _ _ _ _ Vq Vz). apply Rabs_le_inv in Eq. unfold u24 in *. lra. }
    change (f_le (lane D I0) z && f_le (lane D I1) z && f_le (lane D I2) z = true)%bool. rewrite !L. reflexivity.
  - intros H. assert (L : f_le (lane D I0) z = true). { change (f_le (lane D I0) z && f_le (lane D I1) z && f_le (lane D I2) z = true)%bool in H. rewrite !andb_true_iff in H. apply H. }
    destruct (HD I0) as (q & Vq & Eq). apply (le_fin _ _ _ _ Vq Vz) in L. apply Rabs_le_inv in Eq.
    assert (S : (1 - 602 / 100 * u24) * (d * d) <= R * R + 2 * u24 * (t * (R * R)) - 609 / 100 * u24 * (R * R)) by (unfold u24 in *; lra).
    apply sq_lt_le; [lra| |].
    + assert (0 <= t * u24 * R) by (apply Rmult_le_pos; [apply Rmult_le_pos; [lra|unfold u24; lra]|lra]). lra.
    + replace ((R + t * u24 * R) * (R + t * u24 * R)) with (R * R + 2 * u24 * (t * (R * R)) + t * u24 * R * (t * u24 * R)) by ring. pose proof (Rle_0_sqr (t * u24 * R)) as Z. unfold Rsqr in Z. unfold u24 in *. lra.
Qed.
Lemma load3_holds p x : holdsF3 p x -> holds3 (load3 (L:=FL) p) (pos x).
Proof. intros H. exact H. Qed.
Lemma sphere_point_f b S P s p : holdsSphere S s -> holds3 P p -> pow2 (-48) <= sp_Radius s <= pow2 62 -> dist p (pos (sp_Center s)) <= pow2 62 ->
  (ball (swollen (- (4 * ulp_half)) s) p -> Sphere_ContainsPoint (L:=FL) b S P = CONTAINS) /\
  (Sphere_ContainsPoint (L:=FL) b S P = CONTAINS -> ball (swollen (4 * ulp_half) s) p).
Proof.
  intros (HC & WR & VR) HP HR HD. unfold ball, swollen. cbn [sp_Center sp_Radius]. set (r := sp_Radius s) in *. set (d := dist p (pos (sp_Center s))) in *.
  destruct (rsq_exact _ _ VR HR) as (y & Vy & Ey). assert (P48 : 0 < pow2 (-48)) by (rewrite pow2_bpow; apply bpow_gt_0).
  assert (E : Sphere_ContainsPoint (L:=FL) b S P = if all3 (vle (L:=FL) (XMVector3Dot b (subq P (load3 (L:=FL) (sp_Center S))) (subq P (load3 (L:=FL) (sp_Center S)))) (qrep (f_mul (sp_Radius S) (sp_Radius S)))) then CONTAINS else DISJOINT).
  { unfold Sphere_ContainsPoint, XMVector3LengthSq. rewrite sub_subq. destruct b; reflexivity. }
  rewrite E. destruct (all3_le_f (XMVector3Dot b (subq P (load3 (L:=FL) (sp_Center S))) (subq P (load3 (L:=FL) (sp_Center S)))) (f_mul (sp_Radius S) (sp_Radius S)) d r y (101 / 100)) as (A & B).
  - intros i. apply lensq_dif; [exact HP|apply load3_holds, HC|exact HD].
  - exact Vy.
  - exact Ey.
  - lra.
  - apply dist_nonneg.
  - lra.
  - change ulp_half with u24. split.
    + intros H. rewrite A; [reflexivity|]. unfold u24 in *. lra.
    + destruct (all3 _); [intros _|discriminate]. specialize (B eq_refl). unfold u24 in *. lra.
Qed.
(** ** IntersectsSphere *)
Lemma sum_rel a c x y : value a = Fin x -> value c = Fin y -> Rabs (x + y) <= bpow radix2 62 -> value (f_add a c) = Fin (RN (x + y)) /\ Rabs (RN (x + y) - (x + y)) <= u24 * Rabs (x + y).
Proof.
  intros Va Vc H. destruct (value_fmt _ _ Va) as (Fx & _). destruct (value_fmt _ _ Vc) as (Fy & _). split; [|apply (sum_err x y Fx Fy)].
  apply add_val; [exact Va|exact Vc|]. apply Rle_lt_trans with (bpow radix2 62); [|apply bpow_lt; lia]. apply Rabs_le_inv in H. destruct H as (H1 & H2).
  apply RN_le in H1. apply RN_le in H2. rewrite RN_fmt in H1 by (apply fmt_opp, fmt_pow; lia). rewrite (RN_fmt (bpow radix2 62)) in H2 by (apply fmt_pow; lia). apply Rabs_le. lra.
Qed.
Lemma sphere_sphere_f b S S' s s' : holdsSphere S s -> holdsSphere S' s' -> ok_sphere s -> ok_sphere s' ->
  pow2 (-48) <= sp_Radius s + sp_Radius s' <= pow2 62 -> dist (pos (sp_Center s')) (pos (sp_Center s)) <= pow2 62 ->
  (meets (ball (swollen (- (5 * ulp_half)) s)) (ball (swollen (- (5 * ulp_half)) s')) -> Sphere_IntersectsSphere (L:=FL) b S S' = true) /\
  (Sphere_IntersectsSphere (L:=FL) b S S' = true -> meets (ball (swollen (5 * ulp_half) s)) (ball (swollen (5 * ulp_half) s'))).
Proof.
  intros (HC & WR & VR) (HC' & WR' & VR') O O' HR HD. unfold ok_sphere in *. unfold ball, swollen. cbn [sp_Center sp_Radius]. set (r := sp_Radius s) in *. set (r' := sp_Radius s') in *.
  set (c := pos (sp_Center s)) in *. set (c' := pos (sp_Center s')) in *. set (d := dist c' c) in *.
  assert (P48 : 0 < pow2 (-48)) by (rewrite pow2_bpow; apply bpow_gt_0).
  destruct (sum_rel _ _ _ _ VR VR') as (VS & ES); [rewrite Rabs_pos_eq by lra; rewrite <- p62; lra|]. rewrite (Rabs_pos_eq (r + r')) in ES by lra.
  destruct (rsq_val _ _ (r + r') VS) as (y & Vy & Ey); [unfold u24 in *; lra|exact HR|].
  assert (E : Sphere_IntersectsSphere (L:=FL) b S S' = all3 (vle (L:=FL) (XMVector3Dot b (subq (load3 (L:=FL) (sp_Center S')) (load3 (L:=FL) (sp_Center S))) (subq (load3 (L:=FL) (sp_Center S')) (load3 (L:=FL) (sp_Center S))))
     (qrep (f_mul (f_add (sp_Radius S) (sp_Radius S')) (f_add (sp_Radius S) (sp_Radius S')))))).
  { unfold Sphere_IntersectsSphere, XMVector3LengthSq. rewrite sub_subq. destruct b; reflexivity. }
  rewrite E. destruct (all3_le_f (XMVector3Dot b (subq (load3 (L:=FL) (sp_Center S')) (load3 (L:=FL) (sp_Center S))) (subq (load3 (L:=FL) (sp_Center S')) (load3 (L:=FL) (sp_Center S))))
     (f_mul (f_add (sp_Radius S) (sp_Radius S')) (f_add (sp_Radius S) (sp_Radius S'))) d (r + r') y (301 / 100)) as (A & B).
  - intros i. apply lensq_dif; [apply load3_holds, HC'|apply load3_holds, HC|exact HD].
  - exact Vy.
  - exact Ey.
  - lra.
  - apply dist_nonneg.
  - lra.
  - change ulp_half with u24. split.
    + intros (p & P1 & P2). apply A. pose proof (dist_tri c' p c) as TR. rewrite (dist_sym c' p) in TR. fold d in TR. unfold u24 in *. lra.
    + intros H. apply B in H. apply ball_meets_iff; [unfold u24; lra|unfold u24; lra|]. fold d. unfold u24 in *. lra.
Qed.
