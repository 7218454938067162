(** Proofs about planes and the Fresnel term. *)
From Coq Require Import ZArith Reals Lra Psatz Nsatz.
From Flocq Require Import Core IEEE754.BinarySingleNaN.
From Verif Require Import Base F32 Intrin Lane MVec MTrig MQuat MPlane MMatrix SpecF32 PF32 PCompare SpecGeom SpecQuat SpecMat PReal PVec PQuat PMatrix PTransf.
Open Scope R_scope.

Lemma PDot_R b P v : XMPlaneDot (L:=RL) b P v = qrep (dot4 P v).
Proof. apply Dot4_R. Qed.
Lemma PDotCoord_R b P v : XMPlaneDotCoord (L:=RL) b P v = qrep (plane_at P v).
Proof. unfold XMPlaneDotCoord. rewrite Dot4_R. f_equal. unfold plane_at. dq P; dq v. cbv [dot4 dot3]. rl. ring. Qed.
Lemma PDotNormal_R b P v : XMPlaneDotNormal (L:=RL) b P v = qrep (dot3 P v).
Proof. apply Dot3_R. Qed.
Lemma PNorm_R b P : ~ zero3 P -> XMPlaneNormalize (L:=RL) b P = scale (/ norm3 P) P.
Proof.
  intros H. pose proof (norm3_pos P H) as N. destruct b as [|s3 s4 f a]; unfold XMPlaneNormalize.
  - dq P. rl. fold (norm3 (Q Px Py Pz Pw)). 
    match goal with |- context [sqrt ?x] => replace (sqrt x) with (norm3 (Q Px Py Pz Pw)) by reflexivity end.
    destruct (Rltb_spec 0 (norm3 (Q Px Py Pz Pw))); [|lra]. unfold scale. apply (@Qeq R); cbn [qx qy qz qw]; unfold Rdiv; ring.
  - rewrite dp3_R. dq P. unfold scale. apply (@Qeq R); unfold norm3, qrep; rl; unfold negb, Rdiv; ring.
Qed.
Lemma scale_norm3 P : ~ zero3 P -> dot3 (scale (/ norm3 P) P) (scale (/ norm3 P) P) = 1.
Proof.
  intros H. pose proof (norm3_pos P H) as N.
  replace (dot3 (scale (/ norm3 P) P) (scale (/ norm3 P) P)) with (/ norm3 P * / norm3 P * dot3 P P) by (unfold dot3, scale; cbn [qx qy qz qw]; ring).
  replace (dot3 P P) with (norm3 P * norm3 P) by (apply sqrt_sqrt; apply dot3_nonneg). field. lra.
Qed.
Lemma plane_normalize b P : ~ zero3 P ->
  unit3 (XMPlaneNormalize (L:=RL) b P) /\ (forall x, on_plane (XMPlaneNormalize (L:=RL) b P) x <-> on_plane P x) /\
  (forall x, plane_at (XMPlaneNormalize (L:=RL) b P) x * norm3 P = plane_at P x).
Proof.
  intros H. rewrite PNorm_R by exact H. pose proof (norm3_pos P H) as N.
  assert (A : forall x, plane_at (scale (/ norm3 P) P) x = / norm3 P * plane_at P x).
  { intros x. unfold plane_at, dot3, scale; cbn [qx qy qz qw]; ring. }
  split; [apply scale_norm3; exact H|]. split.
  - intros x. unfold on_plane. rewrite A. pose proof (Rinv_0_lt_compat _ N). split; intros E; nra.
  - intros x. rewrite A. field. lra.
Qed.

Lemma qrep_near b d : XMVectorNearEqual (L:=RL) b (qrep d) vzero (qrep epsilon) = qrep (Rleb (Rabs d) (/ 8388608)).
Proof.
  unfold XMVectorNearEqual. rewrite Abs_R. unfold vle, vsub, qmap2, qmap, vzero, qrep; cbn [qx qy qz qw].
 unfold epsilon. rl. rewrite Rminus_0_r. replace (1 / 8388608) with (/ 8388608) by lra. reflexivity.
Qed.
Lemma IntersectLine_R b P A B : / 8388608 < Rabs (dot3 P A - dot3 P B) ->
  XMPlaneIntersectLine (L:=RL) b P A B = along A B (plane_at P A / (dot3 P A - dot3 P B)).
Proof.
  intros H. unfold XMPlaneIntersectLine. rewrite !Dot3_R, PDotCoord_R, !Sub_R, Div_R, MulAdd_R.
  replace (minus (qrep (dot3 P A)) (qrep (dot3 P B))) with (qrep (dot3 P A - dot3 P B)) by reflexivity.
  rewrite qrep_near. replace (Rleb _ _) with false by (symmetry; apply Rleb_false; lra).
  unfold along. dq A; dq B. unfold plus, minus, scale. qring.
Qed.
Lemma intersect_line b P A B : / 8388608 < Rabs (dot3 P A - dot3 P B) ->
  on_plane P (XMPlaneIntersectLine (L:=RL) b P A B) /\ exists t, XMPlaneIntersectLine (L:=RL) b P A B = along A B t.
Proof.
  intros H. rewrite IntersectLine_R by exact H. split; [|eexists; reflexivity].
  assert (N : dot3 P A - dot3 P B <> 0).
  { intros E. rewrite E, Rabs_R0 in H. lra. }
  set (t := plane_at P A / (dot3 P A - dot3 P B)).
  assert (E : t * (dot3 P A - dot3 P B) = plane_at P A) by (subst t; field; exact N). clearbody t.
  unfold on_plane. replace (plane_at P (along A B t)) with (plane_at P A - t * (dot3 P A - dot3 P B)).
  - lra.
  - unfold plane_at, along, dot3, plus, minus, scale; cbn [qx qy qz qw]. ring.
Qed.
Lemma IntersectPlane_R b P1 P2 : let n := cross P2 P1 in / 8388608 < dot3 n n ->
  XMPlaneIntersectPlane (L:=RL) b P1 P2 =
  let l := scale (/ dot3 n n) (plus (scale (qw P1) (cross P2 n)) (scale (qw P2) (cross n P1))) in (l, plus l n).
Proof.
  intros n H. unfold XMPlaneIntersectPlane. rewrite !Cross3_R. fold n. rewrite LengthSq3_R, Mul_R, MulAdd_R, Div_R, Add_R.
  replace (vle (L:=RL) (qrep (dot3 n n)) (qrep epsilon)) with (qrep false)
    by (symmetry; apply (f_equal qrep); apply Rleb_false; unfold epsilon; rl; lra).
  set (d := dot3 n n) in *. clearbody d n. dq n; dq P1; dq P2. cbv [vsel plus scale cross]. rl.
  assert (d <> 0) by lra. f_equal; apply (@Qeq R); field; assumption.
Qed.
Lemma intersect_plane b P1 P2 : / 8388608 < dot3 (cross P2 P1) (cross P2 P1) ->
  let r := XMPlaneIntersectPlane (L:=RL) b P1 P2 in
  on_plane P1 (fst r) /\ on_plane P2 (fst r) /\ on_plane P1 (snd r) /\ on_plane P2 (snd r) /\ ~ eq3 (fst r) (snd r).
Proof.
  intros H. rewrite IntersectPlane_R by exact H. cbv zeta. cbn [fst snd].
  set (n := cross P2 P1) in *.
  assert (N : dot3 n n <> 0) by lra.
  set (l := scale _ _).
  assert (L1 : on_plane P1 l).
  { unfold on_plane. apply (Rmult_eq_reg_l (dot3 n n)); [|exact N]. rewrite Rmult_0_r.
    replace (dot3 n n * plane_at P1 l) with (dot3 n n * / dot3 n n * dot3 P1 (plus (scale (qw P1) (cross P2 n)) (scale (qw P2) (cross n P1))) + dot3 n n * qw P1)
      by (subst l; unfold plane_at, dot3 at 2 4, scale at 1; cbn [qx qy qz qw]; unfold dot3, scale; cbn [qx qy qz qw]; ring).
    rewrite Rinv_r by exact N. subst n. clear. dq P1; dq P2. ms. ring. }
  assert (L2 : on_plane P2 l).
  { unfold on_plane. apply (Rmult_eq_reg_l (dot3 n n)); [|exact N]. rewrite Rmult_0_r.
    replace (dot3 n n * plane_at P2 l) with (dot3 n n * / dot3 n n * dot3 P2 (plus (scale (qw P1) (cross P2 n)) (scale (qw P2) (cross n P1))) + dot3 n n * qw P2)
      by (subst l; unfold plane_at, dot3 at 2 4, scale at 1; cbn [qx qy qz qw]; unfold dot3, scale; cbn [qx qy qz qw]; ring).
    rewrite Rinv_r by exact N. subst n. clear. dq P1; dq P2. ms. ring. }
  clearbody l. split; [exact L1|]. split; [exact L2|].
  unfold on_plane in *. split; [|split].
  - rewrite <- L1. subst n. dq P1; dq P2; dq l. ms. ring.
  - rewrite <- L2. subst n. dq P1; dq P2; dq l. ms. ring.
  - intros (E1 & E2 & E3). apply N. unfold plus in *. cbn [qx qy qz qw] in *. unfold dot3.
    replace (qx n) with 0 by lra. replace (qy n) with 0 by lra. replace (qz n) with 0 by lra. ring.
Qed.
Lemma PTransform_R b P M : XMPlaneTransform (L:=RL) b P M = vecmat P M.
Proof.
  unfold XMPlaneTransform. rewrite Mul_R, !MulAdd_R. dq P; dm M. unfold vecmat, plus, scale. qring.
Qed.
Lemma vecmat_dot u v M : dot4 (vecmat u M) v = dot4 u (vecmat v (transp M)).
Proof. dq u; dq v; dm M. ms. ring. Qed.
Lemma plane_transform b P M x : mdet M <> 0 ->
  dot4 (XMPlaneTransform (L:=RL) b P (XMMatrixTranspose b (snd (XMMatrixInverse b M)))) (vecmat (point x) M) = plane_at P x.
Proof.
  intros H. rewrite PTransform_R, Transpose_R, Inverse_R. cbn [snd].
  rewrite vecmat_dot, transp_transp, vecmat_matmul.
  replace (matmul M (mscale (1 / detM M) (adj M))) with ident.
  - rewrite vecmat_ident. dq P; dq x. ms. ring.
  - replace (matmul M (mscale (1 / detM M) (adj M))) with (mscale (1 / detM M) (matmul M (adj M))).
    + rewrite adj_r. change (mdet M) with (detM M) in H. set (d := detM M) in *. clearbody d. unfold mscale, scale, ident. cbn [qx qy qz qw].
      meq; field; exact H.
    + set (A := adj M). clearbody A. set (k := 1 / detM M). clearbody k. dm M; dm A. unfold mscale. ms. meq; ring.
Qed.
Lemma FromPointNormal_R b p n : XMPlaneFromPointNormal (L:=RL) b p n = Q (qx n) (qy n) (qz n) (- dot3 p n).
Proof. unfold XMPlaneFromPointNormal. rewrite Dot3_R, Neg_R. reflexivity. Qed.
Lemma from_point_normal b p n : let P := XMPlaneFromPointNormal (L:=RL) b p n in
  on_plane P p /\ eq3 P n /\ forall x, on_plane P x <-> dot3 n (minus x p) = 0.
Proof.
  cbv zeta. rewrite FromPointNormal_R. unfold on_plane, plane_at, eq3. dq p; dq n. cbv [dot3 minus qx qy qz qw].
  split; [ring|]. split; [tauto|]. intros x. dq x. split; intros H; lra.
Qed.

Lemma FromPoints_R b A B C : ~ zero3 (cross (minus A B) (minus A C)) ->
  let n := cross (minus A B) (minus A C) in
  XMPlaneFromPoints (L:=RL) b A B C = Q (/ norm3 n * qx n) (/ norm3 n * qy n) (/ norm3 n * qz n) (- (/ norm3 n * dot3 n A)).
Proof.
  intros H n. unfold XMPlaneFromPoints. rewrite !Sub_R, Cross3_R, Normalize3_R, PDotNormal_R, Neg_R by exact H. fold n.
  set (k := / norm3 n). clearbody k n. dq n; dq A. cbv [dot3 scale]. rl. apply (@Qeq R); ring.
Qed.
Lemma from_points b A B C : ~ zero3 (cross (minus A B) (minus A C)) ->
  let P := XMPlaneFromPoints (L:=RL) b A B C in
  unit3 P /\ on_plane P A /\ on_plane P B /\ on_plane P C.
Proof.
  intros H. cbv zeta. rewrite FromPoints_R by exact H.
  pose proof (scale_norm3 _ H) as U. unfold unit3. set (n := cross (minus A B) (minus A C)) in *.
  split. { rewrite <- U. reflexivity. }
  unfold on_plane, plane_at.
  set (k := / norm3 n). clearbody k. subst n. dq A; dq B; dq C. ms. split; [|split]; ring.
Qed.

(** ** Fresnel *)
(** the reflectance of unpolarised light at cosine [c] entering index [n], with g = sqrt |n^2 + c^2 - 1| *)
Definition fres (c n : R) : R :=
  let g := sqrt (Rabs (n * n + c * c - 1)) in
  / 2 * ((g - c) * (g - c)) / ((g + c) * (g + c)) * (1 + (c * (g + c) - 1) * (c * (g + c) - 1) / ((c * (g - c) + 1) * (c * (g - c) + 1))).
Lemma clamp01_a x : (if Rltb 1 (if Rltb x 0 then 0 else x) then 1 else (if Rltb x 0 then 0 else x)) = clampR 0 1 x.
Proof. unfold clampR, Rmin, Rmax. repeat rcase; repeat destruct Rle_dec; lra. Qed.
Lemma clamp01_b x : (if Rltb (if Rltb 0 x then x else 0) 1 then (if Rltb 0 x then x else 0) else 1) = clampR 0 1 x.
Proof. unfold clampR, Rmin, Rmax. repeat rcase; repeat destruct Rle_dec; lra. Qed.
Lemma fres_scalar c n : let g := sqrt (Rabs (c * c + (n * n + - 1))) in
  / 2 * ((g - c) * (g - c)) * (1 / ((g + c) * (g + c))) * ((c * (g + c) + - 1) * (c * (g + c) + - 1) * (1 / ((c * (g - c) + 1) * (c * (g - c) + 1))) + 1) = fres c n.
Proof.
  unfold fres. replace (c * c + (n * n + - 1)) with (n * n + c * c - 1) by ring. set (g := sqrt _). clearbody g. cbv zeta.
  unfold Rdiv. ring.
Qed.
Lemma fres_sse c n : let g := sqrt (Rabs (c * c + (n * n - 1))) in
  (g - c) * (g - c) * / 2 / ((g + c) * (g + c)) * (((g + c) * c - 1) * ((g + c) * c - 1) / (((g - c) * c + 1) * ((g - c) * c + 1)) + 1) = fres c n.
Proof.
  unfold fres. replace (c * c + (n * n - 1)) with (n * n + c * c - 1) by ring. set (g := sqrt _). clearbody g. cbv zeta.
  replace ((g - c) * c) with (c * (g - c)) by ring. unfold Rdiv. ring.
Qed.
Lemma Fresnel_R b c n : XMFresnelTerm (L:=RL) b c n = Some (qmap2 (fun c n => clampR 0 1 (fres c n)) c n).
Proof.
  unfold XMFresnelTerm. replace (qany _) with false by reflexivity. cbv iota. f_equal.
  destruct b as [|s3 s4 f a]; dq c; dq n.
  - transitivity (XMVectorClamp (L:=RL) Scalar (qmap2 fres (Q cx cy cz cw) (Q nx ny nz nw)) vzero vone).
    + f_equal. unfold mone. cbv [qmap2]. apply (@Qeq R); rewrite <- fres_scalar; cbv zeta; rl; replace (1 / 2) with (/ 2) by lra; reflexivity.
    + cbv [XMVectorClamp qmap2]. apply (@Qeq R); rl; apply clamp01_a.
  - transitivity (vmin (L:=RL) (vmax (qmap2 fres (Q cx cy cz cw) (Q nx ny nz nw)) vzero) vone).
    + f_equal. f_equal. cbv [qmap2]. apply (@Qeq R); rewrite <- fres_sse; cbv zeta; rl; rewrite Rabs_max; replace (1 / 2) with (/ 2) by lra; reflexivity.
    + cbv [qmap2]. apply (@Qeq R); rl; apply clamp01_b.
Qed.
(** it is the mean of the two Fresnel reflectances, and lies in [0,1] by itself, for a transmitted ray ([g] real) *)
Lemma fres_physical c n : 0 < c <= 1 -> 1 <= n ->
  let ct := sqrt (1 - (1 - c * c) / (n * n)) in
  let rs := (c - n * ct) / (c + n * ct) in
  let rp := (n * c - ct) / (n * c + ct) in
  fres c n = (rs * rs + rp * rp) / 2 /\ 0 <= fres c n <= 1.
Proof.
  intros Hc Hn. cbv zeta. set (ct := sqrt _). unfold fres.
  assert (G0 : 0 < n * n + c * c - 1) by nra.
  rewrite (Rabs_pos_eq (n * n + c * c - 1)) by lra.
  assert (E : n * ct = sqrt (n * n + c * c - 1)).
  { subst ct. rewrite <- sqrt_sq_scale.
    - f_equal. field. lra.
    - lra.
    - apply Rmult_le_reg_l with (n * n); [nra|]. replace (n * n * (1 - (1 - c * c) / (n * n))) with (n * n + c * c - 1) by (field; lra). lra. }
  assert (G : sqrt (n * n + c * c - 1) * sqrt (n * n + c * c - 1) = n * n + c * c - 1) by (apply sqrt_sqrt; lra).
  assert (Gp : 0 < sqrt (n * n + c * c - 1)) by (apply sqrt_lt_R0; lra).
  rewrite <- E in *. cbv zeta. set (g := n * ct) in *.
  assert (T : ct = g / n) by (subst g; field; lra). rewrite T. clearbody g.
  assert (g >= c) by nra.
  assert (D1 : g + c <> 0) by lra. assert (D2 : c * (g - c) + 1 <> 0) by nra. 
  assert (D3 : n * c + g / n <> 0). { assert (0 < n * c) by nra. assert (0 < g / n) by (apply Rdiv_lt_0_compat; lra). lra. }
  assert (RP : (n * c - g / n) / (n * c + g / n) = (g - c) * (c * (g + c) - 1) / ((g + c) * (c * (g - c) + 1))).
  { assert (NC : n * n * c + g <> 0) by nra.
    replace ((n * c - g / n) / (n * c + g / n)) with ((n * n * c - g) / (n * n * c + g)) by (field; repeat split; lra).
    apply Rmult_eq_reg_r with ((n * n * c + g) * ((g + c) * (c * (g - c) + 1))).
    - replace ((n * n * c - g) / (n * n * c + g) * ((n * n * c + g) * ((g + c) * (c * (g - c) + 1)))) with ((n * n * c - g) * ((g + c) * (c * (g - c) + 1))) by (field; lra).
      replace ((g - c) * (c * (g + c) - 1) / ((g + c) * (c * (g - c) + 1)) * ((n * n * c + g) * ((g + c) * (c * (g - c) + 1)))) with ((g - c) * (c * (g + c) - 1) * (n * n * c + g)) by (field; lra).
      replace (n * n) with (g * g - c * c + 1) by lra. ring.
    - apply Rmult_integral_contrapositive_currified; [exact NC|]. apply Rmult_integral_contrapositive_currified; assumption. }
  rewrite RP.
  set (x := (c - g) / (c + g)).
  assert (X : -1 <= x <= 1). { subst x. split; [apply Rmult_le_reg_r with (c + g); [lra|]|apply Rmult_le_reg_r with (c + g); [lra|]]; replace ((c - g) / (c + g) * (c + g)) with (c - g) by (field; lra); lra. }
  set (y := (c * (g + c) - 1) / (c * (g - c) + 1)).
  assert (Y : -1 <= y <= 1).
  { assert (0 < c * (g - c) + 1) by nra. subst y. split; apply Rmult_le_reg_r with (c * (g - c) + 1); try lra;
    replace ((c * (g + c) - 1) / (c * (g - c) + 1) * (c * (g - c) + 1)) with (c * (g + c) - 1) by (field; lra); nra. }
  replace (/ 2 * ((g - c) * (g - c)) / ((g + c) * (g + c)) * (1 + (c * (g + c) - 1) * (c * (g + c) - 1) / ((c * (g - c) + 1) * (c * (g - c) + 1))))
    with (/ 2 * (x * x) * (1 + y * y)) by (subst x y; field; lra).
  replace ((g - c) * (c * (g + c) - 1) / ((g + c) * (c * (g - c) + 1))) with (- x * y) by (subst x y; field; lra).
  split; [field|].
  assert (0 <= x * x <= 1) by nra. assert (0 <= y * y <= 1) by nra. nra.
Qed.
(** ** In binary32 *)
Lemma f_lt_le a b : f_lt a b = true -> f_le a b = true.
Proof. rewrite f_lt_spec, f_le_spec. intros H; left; exact H. Qed.
Lemma f_nlt_le a b : f_isnan a = false -> f_isnan b = false -> f_lt a b = false -> f_le b a = true.
Proof. intros Ha Hb H. rewrite f_le_negb_lt, H by (rewrite <- f_isnan_spec; congruence). reflexivity. Qed.
Lemma clampf_sse r : let a := if f_lt 0 r then r else 0%Z in let v := if f_lt a 0x3F800000 then a else 0x3F800000%Z in
  f_le 0 v = true /\ f_le v 0x3F800000 = true.
Proof.
  cbv zeta. destruct (f_lt 0 r) eqn:A.
  - destruct (f_lt r 0x3F800000) eqn:B.
    + split; apply f_lt_le; assumption.
    + split; vm_compute; reflexivity.
  - destruct (f_lt 0 0x3F800000); split; vm_compute; reflexivity.
Qed.
Lemma clampf_scalar r : let a := if f_lt r 0 then 0%Z else r in let v := if f_lt 0x3F800000 a then 0x3F800000%Z else a in
  (f_le 0 v = true /\ f_le v 0x3F800000 = true) \/ f_isnan v = true.
Proof.
  cbv zeta. destruct (f_lt r 0) eqn:A.
  - left. destruct (f_lt 0x3F800000 0); split; vm_compute; reflexivity.
  - destruct (f_lt 0x3F800000 r) eqn:B; [left; split; vm_compute; reflexivity|].
    destruct (f_isnan r) eqn:N; [right; reflexivity|left].
    split; apply f_nlt_le; try assumption; vm_compute; reflexivity.
Qed.
Lemma fresnel_float b c n r : XMFresnelTerm (L:=FL) b c n = Some r -> forall i,
  (f_le 0 (lane r i) = true /\ f_le (lane r i) 0x3F800000 = true) \/ (b = Scalar /\ f_isnan (lane r i) = true).
Proof.
  unfold XMFresnelTerm. destruct (qany _); [discriminate|]. intros H. injection H as <-. intros i.
  destruct b as [|s3 s4 f a].
  - match goal with |- context [XMVectorClamp Scalar ?x _ _] => generalize x end. intros R.
    destruct (clampf_scalar (lane R i)) as [X|X]; [left|right; split; [reflexivity|]]; revert X;
    destruct R as [r0 r1 r2 r3]; destruct i; cbv [XMVectorClamp]; cbn [lane qx qy qz qw qmap2 vmin vmax vzero vone qrep]; exact (fun x => x).
  - left. match goal with |- context [vmax ?x _] => match x with vmul _ _ => generalize x end end. intros R.
    pose proof (clampf_sse (lane R i)) as X; revert X. destruct R as [r0 r1 r2 r3]; destruct i; cbn [lane qx qy qz qw qmap2 vmin vmax vzero vone qrep]; exact (fun x => x).
Qed.
