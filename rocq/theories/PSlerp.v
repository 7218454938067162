(** Proofs about quaternion slerp over the reals. *)
From Coq Require Import Reals ZArith Lra Lia Psatz Ratan.
From Flocq Require Import Core.Raux.
From Verif Require Import Base F32 Intrin Lane SpecGeom SpecQuat SpecSlerp SpecTrig MVec MTrig MQuat PReal PVec PTrigPoly PArcPoly PTrig PTrigFn PArc PQuat.
Open Scope R_scope.

Definition hcos (p q : rvec) : R := hemi p q * dot4 p q.
Definition hsin (p q : rvec) : R := sqrt (1 - hcos p q * hcos p q).
(** the code's result for a given arc tangent and sine *)
Definition slerp_with (at2 : R -> R -> R) (sn : R -> R) (p q : rvec) (t : R) : rvec :=
  if Rltb (hcos p q) near_one
  then plus (scale (sn ((1 - t) * at2 (hsin p q) (hcos p q)) / hsin p q) p)
            (scale (sn (t * at2 (hsin p q) (hcos p q)) / hsin p q * hemi p q) q)
  else lerp_hemi p q t.
Definition ssin (a : R) : R := sinp (refl (modang a)).

Lemma hemi_R p q : (if Rltb (dot4 p q) 0 then -1 else 1) = hemi p q.
Proof. unfold hemi. destruct (Rltb_spec (dot4 p q) 0), (Rlt_dec (dot4 p q) 0); try reflexivity; lra. Qed.
Lemma slerp_body_sse b (p q : rvec) t : b <> Scalar -> slerp_body b p q (qrep t) = slerp_with ratan2 ssin p q t.
Proof.
  intros H. destruct b as [|s3 s4 f a]; [congruence|]. unfold slerp_body. cbv zeta. unfold XMQuaternionDot. rewrite Dot4_R.
  set (bb := SSE s3 s4 f a) in *.
  assert (Sg : @vsel RL vone (qrep mone) (vlt (qrep (dot4 p q)) vzero) = qrep (hemi p q)) by (rewrite <- hemi_R; reflexivity).
  rt. rewrite Sg.
  assert (Co : @vmul RL (qrep (dot4 p q)) (qrep (hemi p q)) = qrep (hcos p q)) by (unfold hcos; rewrite Rmult_comm; reflexivity).
  rt. rewrite Co.
  assert (Si : @vsqrt RL (vsub vone (vmul (qrep (hcos p q)) (qrep (hcos p q)))) = qrep (hsin p q)) by reflexivity.
  rt. rewrite Si, vatan2_R by exact H.
  change (qmap2 ratan2 (qrep (hsin p q)) (qrep (hcos p q))) with (qrep (ratan2 (hsin p q) (hcos p q))).
  set (w := ratan2 _ _). rewrite vsin_R by exact H. unfold slerp_with. fold w. change (fun a => sinp (refl (modang a))) with ssin.
  assert (E1 : forall V01, V01 = @vadd RL IdR0 (let V01 := @vand RL (Q true true false false) (permute_ps (qrep t) I2 I3 I0 I1) in Q (- qx V01) (qy V01) (qz V01) (qw V01)) ->
     qx V01 = 1 - t /\ qy V01 = t).
  { intros V ->. rl. split; ring. }
  destruct (E1 _ eq_refl) as [X Y]. cbv zeta in X, Y. rt.
  match type of X with qx ?v = _ => set (V01 := v) in * end.
  assert (Ct : @vlt RL (qrep (hcos p q)) (qrep OneMinus1e5) = qrep (Rltb (hcos p q) near_one)) by reflexivity.
  rt. rewrite Ct. clearbody V01. destruct V01 as [vx vy vz vw]. cbn [qx qy] in X, Y. subst vx vy.
  unfold lerp_hemi. clear Sg Co Si Ct E1. clearbody w. generalize (hemi p q) (hsin p q). intros hm hs.
  destruct (Rltb (hcos p q) near_one); dq p; dn q; rl; unfold plus, scale; cbn [qx qy qz qw].
  all: replace (1 + - t) with (1 - t) by ring; replace (0 + t) with t by ring; apply (@Qeq R); unfold Rdiv; ring.
Qed.
Lemma slerp_body_scalar (p q : rvec) t : slerp_body Scalar p q (qrep t) = slerp_with Ratan2 sin p q t.
Proof.
  unfold slerp_body. cbv zeta. unfold XMQuaternionDot. rewrite Dot4_R.
  assert (Sg : @vsel RL vone (qrep mone) (vlt (qrep (dot4 p q)) vzero) = qrep (hemi p q)) by (rewrite <- hemi_R; reflexivity).
  rt. rewrite Sg, (Mul_R Scalar (qrep (dot4 p q))).
  assert (Co : qmap2 Rmult (qrep (dot4 p q)) (qrep (hemi p q)) = qrep (hcos p q)) by (unfold hcos; rewrite Rmult_comm; reflexivity).
  rewrite Co, NMulSub_R, Sqrt_R. change (@vone RL) with (qrep 1).
  change (qmap sqrt (qmap3 (fun x y z => z - x * y) (qrep (hcos p q)) (qrep (hcos p q)) (qrep 1))) with (qrep (hsin p q)).
  change (XMVectorATan2 Scalar (qrep (hsin p q)) (qrep (hcos p q))) with (qrep (Ratan2 (hsin p q) (hcos p q))).
  set (w := Ratan2 _ _). unfold slerp_with. fold w.
  rewrite !Mul_R, MulAdd_R, Recip_R, Add_R. rewrite (proj1 (sin_exact_scalar _)).
  assert (Ct : @vlt RL (qrep (hcos p q)) (qrep OneMinus1e5) = qrep (Rltb (hcos p q) near_one)) by reflexivity.
  rt. rewrite Ct. change (@zero RL) with 0. change (@IdR0 RL) with (Q 1 0 0 0).
  unfold lerp_hemi. clear Sg Co Ct. clearbody w. generalize (hemi p q) (hsin p q). intros hm hs.
  destruct (Rltb (hcos p q) near_one); dq p; dn q; rl; unfold plus, scale; cbn [qx qy qz qw].
  - replace (1 + - t) with (1 - t) by ring. replace (0 + t) with t by ring. apply (@Qeq R); unfold Rdiv; ring.
  - apply (@Qeq R); ring.
Qed.

Lemma slerp_some b (p q : rvec) t : XMQuaternionSlerp b p q t = Some (slerp_body b p q (qrep t)).
Proof.
  unfold XMQuaternionSlerp, XMQuaternionSlerpV, lanes_equal. cbn [qrep qx qy qz qw].
  change (@teq RL t t) with (Reqb t t). destruct (Reqb_spec t t); [reflexivity|congruence].
Qed.
Lemma slerpV_some b (p q tv : rvec) r : XMQuaternionSlerpV b p q tv = Some r -> XMQuaternionSlerp b p q (qx tv) = Some r.
Proof.
  unfold XMQuaternionSlerp. unfold XMQuaternionSlerpV at 1, lanes_equal. destruct tv as [x y z w]. cbn [qx qy qz qw].
  change (@teq RL) with Reqb. destruct (Reqb_spec y x); [|discriminate]. destruct (Reqb_spec z x); [|discriminate].
  destruct (Reqb_spec w x); [|discriminate]. subst y z w. cbn [andb]. intros E. rewrite <- E. apply slerp_some.
Qed.
Lemma slerp_sse b p q t : b <> Scalar -> XMQuaternionSlerp b p q t = Some (slerp_with ratan2 ssin p q t).
Proof. intros H. rewrite slerp_some, slerp_body_sse by exact H. reflexivity. Qed.
Lemma slerp_scalar p q t : XMQuaternionSlerp Scalar p q t = Some (slerp_with Ratan2 sin p q t).
Proof. rewrite slerp_some, slerp_body_scalar. reflexivity. Qed.

(** ** The angle *)
Lemma hemi_sq p q : hemi p q * hemi p q = 1.
Proof. unfold hemi. destruct (Rlt_dec _ _); ring. Qed.
Lemma hcos_nonneg p q : 0 <= hcos p q.
Proof. unfold hcos, hemi. destruct (Rlt_dec (dot4 p q) 0); lra. Qed.
Lemma cauchy p q : unitq p -> unitq q -> hcos p q <= 1.
Proof.
  intros Hp Hq. assert (S : hcos p q * hcos p q <= 1).
  { unfold hcos. replace (hemi p q * dot4 p q * (hemi p q * dot4 p q)) with (hemi p q * hemi p q * (dot4 p q * dot4 p q)) by ring.
    rewrite hemi_sq, Rmult_1_l. unfold unitq, dot4 in *. dq p. dn q. cbn [qx qy qz qw] in *.
    assert (E : 1 - (px * a1 + py * a2 + pz * a3 + pw * a4) * (px * a1 + py * a2 + pz * a3 + pw * a4) =
      (px * a2 - py * a1) * (px * a2 - py * a1) + (px * a3 - pz * a1) * (px * a3 - pz * a1) + (px * a4 - pw * a1) * (px * a4 - pw * a1)
      + (py * a3 - pz * a2) * (py * a3 - pz * a2) + (py * a4 - pw * a2) * (py * a4 - pw * a2) + (pz * a4 - pw * a3) * (pz * a4 - pw * a3)).
    { replace 1 with ((px * px + py * py + pz * pz + pw * pw) * (a1 * a1 + a2 * a2 + a3 * a3 + a4 * a4)) by (rewrite Hp, Hq; ring). ring. }
    assert (Sq : forall x, 0 <= x * x) by (intros x; apply Rle_0_sqr).
    pose proof (Sq (px * a2 - py * a1)). pose proof (Sq (px * a3 - pz * a1)). pose proof (Sq (px * a4 - pw * a1)).
    pose proof (Sq (py * a3 - pz * a2)). pose proof (Sq (py * a4 - pw * a2)). pose proof (Sq (pz * a4 - pw * a3)). lra. }
  pose proof (hcos_nonneg p q). nra.
Qed.
Lemma near_one_lt : 0 < near_one < 1. Proof. unfold near_one. lra. Qed.
(** hcos = cos w and hsin = sin w for w = arc_angle p q in (0, pi/2] *)
Lemma angle_facts p q : unitq p -> unitq q -> hcos p q < near_one ->
  let w := arc_angle p q in cos w = hcos p q /\ sin w = hsin p q /\ 4 / 1000 < hsin p q /\ 0 < w <= PI / 2 /\ Ratan2 (hsin p q) (hcos p q) = w.
Proof.
  intros Hp Hq Hn. cbv zeta. pose proof (hcos_nonneg p q) as C0. pose proof near_one_lt as N.
  assert (C : cos (arc_angle p q) = hcos p q) by (apply cos_acos; fold (hcos p q); lra).
  assert (S : sin (arc_angle p q) = hsin p q) by (unfold arc_angle; fold (hcos p q); rewrite sin_acos by lra; reflexivity).
  assert (P : 4 / 1000 < hsin p q).
  { unfold hsin. apply (Rle_lt_trans _ (sqrt (4 / 1000 * (4 / 1000)))); [rewrite sqrt_square; lra|]. apply sqrt_lt_1_alt. unfold near_one in *. nra. }
  pose proof PI_RGT_0 as PP.
  assert (W : 0 < arc_angle p q <= PI / 2).
  { pose proof (acos_bound (hcos p q)) as B. fold (arc_angle p q) in B.
    split.
    - destruct (Req_dec (arc_angle p q) 0) as [E|E]; [rewrite E, sin_0 in S; lra|]. unfold arc_angle in *. fold (hcos p q) in *. lra.
    - apply Rnot_lt_le. intros L. assert (cos (arc_angle p q) < 0).
      { apply cos_lt_0; unfold arc_angle in *; fold (hcos p q) in *; lra. } lra. }
  repeat split; auto; try lra.
  assert (Pol : polar (hcos p q) (hsin p q) (Ratan2 (hsin p q) (hcos p q))) by (apply Ratan2_polar; right; lra).
  refine (polar_unique _ _ _ _ _ Pol _); [right; lra|].
  assert (U : sqrt (hcos p q * hcos p q + hsin p q * hsin p q) = 1).
  { rewrite <- C, <- S. replace (cos (arc_angle p q) * cos (arc_angle p q) + sin (arc_angle p q) * sin (arc_angle p q)) with 1; [apply sqrt_1|].
    pose proof (sin2_cos2 (arc_angle p q)) as E. unfold Rsqr in E. lra. }
  unfold polar. rewrite U, !Rmult_1_l. repeat split; auto; lra.
Qed.

(** ** Exact interpolation *)
Lemma slerp_with_exact p q t : unitq p -> unitq q -> hcos p q < near_one -> slerp_with Ratan2 sin p q t = slerp p q t.
Proof.
  intros Hp Hq Hn. destruct (angle_facts p q Hp Hq Hn) as (C & S & P & W & A). unfold slerp_with, slerp. cbv zeta.
  rewrite (proj2 (Rltb_true _ _) Hn), A, S. reflexivity.
Qed.
Lemma slerp_with_near at2 sn p q t : near_one <= hcos p q -> slerp_with at2 sn p q t = lerp_hemi p q t.
Proof. intros H. unfold slerp_with. rewrite (proj2 (Rltb_false _ _) H). reflexivity. Qed.

Lemma dot_comb p q a c a' c' : dot4 (plus (scale a p) (scale c q)) (plus (scale a' p) (scale c' q)) =
  a * a' * dot4 p p + (a * c' + a' * c) * dot4 p q + c * c' * dot4 q q.
Proof. unfold dot4, plus, scale. cbn [qx qy qz qw]. ring. Qed.
(** the spec's arc: unit length, at angle t w from p and (1 - t) w from q's representative *)
Lemma slerp_arc p q t : unitq p -> unitq q -> hcos p q < near_one -> let w := arc_angle p q in
  unitq (slerp p q t) /\ dot4 (slerp p q t) p = cos (t * w) /\ hemi p q * dot4 (slerp p q t) q = cos ((1 - t) * w).
Proof.
  intros Hp Hq Hn. cbv zeta. destruct (angle_facts p q Hp Hq Hn) as (C & S & P & W & A).
  set (w := arc_angle p q) in *. unfold unitq in *.
  assert (NZ : sin w <> 0) by lra. pose proof (hemi_sq p q) as HH.
  assert (D : dot4 p q = hemi p q * cos w) by (rewrite C; unfold hcos; rewrite <- Rmult_assoc, HH; ring).
  assert (E1 : sin ((1 - t) * w) = sin w * cos (t * w) - cos w * sin (t * w)) by (rewrite <- sin_minus; f_equal; ring).
  assert (E2 : cos ((1 - t) * w) = cos w * cos (t * w) + sin w * sin (t * w)) by (rewrite <- cos_minus; f_equal; ring).
  pose proof (sin2_cos2 w) as T1. pose proof (sin2_cos2 (t * w)) as T2. unfold Rsqr in T1, T2.
  unfold slerp. cbv zeta. fold w. set (h := hemi p q) in *.
  set (a := sin ((1 - t) * w) / sin w). set (c := sin (t * w) / sin w * h).
  assert (P0 : forall u, dot4 (plus (scale a p) (scale c q)) u = a * dot4 p u + c * dot4 q u) by (intros u; unfold dot4, plus, scale; cbn [qx qy qz qw]; ring).
  assert (QP : dot4 q p = dot4 p q) by (unfold dot4; ring).
  split; [|split].
  - rewrite dot_comb, Hp, Hq, D. unfold a, c. rewrite E1.
    set (sw := sin w) in *. set (cw := cos w) in *. set (st := sin (t * w)) in *. set (ct := cos (t * w)) in *.
    apply (Rmult_eq_reg_r (sw * sw)); [|nra].
    replace (((sw * ct - cw * st) / sw * ((sw * ct - cw * st) / sw) * 1
      + ((sw * ct - cw * st) / sw * (st / sw * h) + (sw * ct - cw * st) / sw * (st / sw * h)) * (h * cw)
      + st / sw * h * (st / sw * h) * 1) * (sw * sw))
      with ((sw * ct - cw * st) * (sw * ct - cw * st) + 2 * (sw * ct - cw * st) * st * cw * (h * h) + st * st * (h * h)) by (field; exact NZ).
    rewrite HH. nra.
  - rewrite P0, Hp, QP, D. unfold a, c. rewrite E1.
    replace ((sin w * cos (t * w) - cos w * sin (t * w)) / sin w * 1 + sin (t * w) / sin w * h * (h * cos w))
      with (((sin w * cos (t * w) - cos w * sin (t * w)) + sin (t * w) * cos w * (h * h)) / sin w) by (field; exact NZ).
    rewrite HH. field. exact NZ.
  - rewrite P0, Hq, D, E2. unfold a, c. rewrite E1.
    replace (h * ((sin w * cos (t * w) - cos w * sin (t * w)) / sin w * (h * cos w) + sin (t * w) / sin w * h * 1))
      with ((h * h) * ((sin w * cos (t * w) - cos w * sin (t * w)) * cos w + sin (t * w)) / sin w) by (field; exact NZ).
    rewrite HH, Rmult_1_l. apply (Rmult_eq_reg_r (sin w)); [|exact NZ]. unfold Rdiv. rewrite Rmult_assoc, Rinv_l, Rmult_1_r by exact NZ.
    assert (K : cos w * cos w = 1 - sin w * sin w) by lra. replace ((sin w * cos (t * w) - cos w * sin (t * w)) * cos w)
      with (sin w * cos (t * w) * cos w - cos w * cos w * sin (t * w)) by ring. rewrite K. ring.
Qed.
Lemma lerp_length p q t : unitq p -> unitq q -> near_one <= hcos p q -> Rabs (dot4 (lerp_hemi p q t) (lerp_hemi p q t) - 1) <= 21 / 1000000 * Rabs (t * (1 - t)).
Proof.
  intros Hp Hq Hn. unfold unitq in *. pose proof (cauchy p q Hp Hq) as C1. unfold lerp_hemi. rewrite dot_comb, Hp, Hq.
  pose proof (hemi_sq p q) as HH.
  replace ((1 - t) * (1 - t) * 1 + ((1 - t) * (t * hemi p q) + (1 - t) * (t * hemi p q)) * dot4 p q + t * hemi p q * (t * hemi p q) * 1 - 1)
    with (t * t * (hemi p q * hemi p q - 1) + t * (1 - t) * (- (2 * (1 - hcos p q)))) by (unfold hcos; ring).
  rewrite HH, Rminus_diag_eq, Rmult_0_r, Rplus_0_l, Rabs_mult, Rmult_comm, Rabs_Ropp by reflexivity.
  apply Rmult_le_compat_r; [apply Rabs_pos|]. rewrite Rabs_pos_eq by lra. unfold near_one in *. lra.
Qed.

(** endpoints *)
Lemma scale_1 p : scale 1 p = p. Proof. dq p. unfold scale. cbn [qx qy qz qw]. apply (@Qeq R); ring. Qed.
Lemma slerp_ends p q : unitq p -> unitq q -> slerp_with Ratan2 sin p q 0 = p /\ slerp_with Ratan2 sin p q 1 = scale (hemi p q) q.
Proof.
  intros Hp Hq. destruct (Rlt_dec (hcos p q) near_one) as [L|L].
  - rewrite !slerp_with_exact by assumption. destruct (angle_facts p q Hp Hq L) as (C & S & P & W & A).
    unfold slerp. cbv zeta. set (w := arc_angle p q) in *. rewrite Rminus_0_r, !Rmult_0_l, !Rmult_1_l, Rminus_diag_eq, Rmult_0_l, sin_0 by reflexivity.
    assert (N : sin w <> 0) by lra. unfold Rdiv. rewrite Rinv_r by exact N. rewrite !Rmult_0_l, Rmult_1_l.
    split; [dq p|]; dn q; unfold plus, scale; cbn [qx qy qz qw]; apply (@Qeq R); ring.
  - rewrite !slerp_with_near by lra. unfold lerp_hemi. split; [dq p|]; dn q; unfold plus, scale; cbn [qx qy qz qw]; apply (@Qeq R); ring.
Qed.

(** ** The vector backends: computed arc tangent and sine *)
Lemma ssin_close a a' : Rabs a <= PI32 -> Rabs (ssin a - sin a') <= 12 / 100000000 + Rabs (a - a').
Proof.
  intros H. unfold ssin. destruct (near_zero a H) as [_ ->]. destruct (principal_sin a H) as [S _]. pose proof (sin_lip a a') as L.
  replace (sinp (refl a) - sin a') with ((sinp (refl a) - sin a) + (sin a - sin a')) by ring.
  eapply Rle_trans; [apply Rabs_triang|]. lra.
Qed.
Lemma comb_err p q a c a' c' : unitq (plus (scale a p) (scale c q)) -> Rabs (dot4 (plus (scale a p) (scale c q)) p) <= 1 ->
  Rabs (dot4 (plus (scale a p) (scale c q)) q) <= 1 -> unitq p -> unitq q ->
  forall d, Rabs (a' - a) + Rabs (c' - c) <= d -> let r := plus (scale a' p) (scale c' q) in
  Rabs (dot4 r r - 1) <= 2 * d + d * d.
Proof.
  intros U Dp Dq Hp Hq d Hd. cbv zeta. unfold unitq in *.
  set (x := dot4 (plus (scale a p) (scale c q)) p) in *. set (y := dot4 (plus (scale a p) (scale c q)) q) in *.
  assert (PQ : Rabs (dot4 p q) <= 1).
  { pose proof (cauchy p q Hp Hq) as C. pose proof (hcos_nonneg p q) as C0. unfold hcos, hemi in *. apply Rabs_le. destruct (Rlt_dec _ _); lra. }
  replace (dot4 (plus (scale a' p) (scale c' q)) (plus (scale a' p) (scale c' q)) - 1)
    with (2 * ((a' - a) * x + (c' - c) * y) + ((a' - a) * (a' - a) + 2 * (a' - a) * (c' - c) * dot4 p q + (c' - c) * (c' - c))).
  2:{ rewrite <- U. unfold x, y. rewrite !dot_comb.
      assert (P0 : forall u, dot4 (plus (scale a p) (scale c q)) u = a * dot4 p u + c * dot4 q u) by (intros u; unfold dot4, plus, scale; cbn [qx qy qz qw]; ring).
      assert (QP : dot4 q p = dot4 p q) by (unfold dot4; ring).
      rewrite !P0, QP, Hp, Hq. ring. }
  set (e := a' - a) in *. set (f := c' - c) in *. set (k := dot4 p q) in *.
  assert (Ae := Rabs_pos e). assert (Af := Rabs_pos f).
  assert (B1 : Rabs (2 * (e * x + f * y)) <= 2 * (Rabs e + Rabs f)).
  { rewrite Rabs_mult, (Rabs_pos_eq 2) by lra. apply Rmult_le_compat_l; [lra|]. eapply Rle_trans; [apply Rabs_triang|]. rewrite !Rabs_mult.
    pose proof (Rabs_pos x). pose proof (Rabs_pos y). nra. }
  assert (B2 : Rabs (e * e + 2 * e * f * k + f * f) <= (Rabs e + Rabs f) * (Rabs e + Rabs f)).
  { eapply Rle_trans; [apply Rabs_triang|]. eapply Rle_trans; [apply Rplus_le_compat_r, Rabs_triang|]. rewrite !Rabs_mult, (Rabs_pos_eq 2) by lra.
    assert (Rabs e * Rabs f * Rabs k <= Rabs e * Rabs f * 1) by (apply Rmult_le_compat_l; [apply Rmult_le_pos; assumption|exact PQ]). nra. }
  eapply Rle_trans; [apply Rabs_triang|]. nra.
Qed.
Lemma lane_le p k : unitq p -> Rabs (lane p k) <= 1.
Proof.
  unfold unitq, dot4. intros H. assert (lane p k * lane p k <= 1) by (dq p; cbn [qx qy qz qw] in H; destruct k; cbn [lane qx qy qz qw]; nra).
  apply Rabs_le. nra.
Qed.
Lemma slerp_sse_core p q t d : unitq p -> unitq q -> hcos p q < near_one ->
  let w := arc_angle p q in let v := ratan2 (hsin p q) (hcos p q) in
  Rabs (ssin ((1 - t) * v) - sin ((1 - t) * w)) + Rabs (ssin (t * v) - sin (t * w)) <= d ->
  (forall k, Rabs (lane (slerp_with ratan2 ssin p q t) k - lane (slerp p q t) k) <= d / hsin p q) /\
  Rabs (dot4 (slerp_with ratan2 ssin p q t) (slerp_with ratan2 ssin p q t) - 1) <= 2 * (d / hsin p q) + d / hsin p q * (d / hsin p q).
Proof.
  intros Hp Hq Hn w v Hd. destruct (angle_facts p q Hp Hq Hn) as (C & S & P & W & A).
  destruct (slerp_arc p q t Hp Hq Hn) as (U & Dp & Dq).
  unfold slerp_with. rewrite (proj2 (Rltb_true _ _) Hn). unfold slerp in *. cbv zeta in *. fold v. fold w in U, Dp, Dq, S |- *.
  set (s := hsin p q) in *. rewrite S in *.
  assert (IS : 0 < / s) by (apply Rinv_0_lt_compat; lra).
  assert (AH : Rabs (hemi p q) = 1) by (unfold hemi; destruct (Rlt_dec _ _); [rewrite Rabs_left by lra; ring|apply Rabs_R1]).
  set (a := sin ((1 - t) * w) / s) in *. set (c := sin (t * w) / s * hemi p q) in *.
  set (a' := ssin ((1 - t) * v) / s). set (c' := ssin (t * v) / s * hemi p q).
  assert (D1 : Rabs (a' - a) = Rabs (ssin ((1 - t) * v) - sin ((1 - t) * w)) * / s).
  { unfold a, a', Rdiv. rewrite <- Rmult_minus_distr_r, Rabs_mult, (Rabs_pos_eq (/ s)) by lra. reflexivity. }
  assert (D2 : Rabs (c' - c) = Rabs (ssin (t * v) - sin (t * w)) * / s).
  { unfold c, c', Rdiv. rewrite <- Rmult_minus_distr_r, <- Rmult_minus_distr_r, !Rabs_mult, AH, Rmult_1_r, (Rabs_pos_eq (/ s)) by lra. reflexivity. }
  assert (D : Rabs (a' - a) + Rabs (c' - c) <= d / s).
  { rewrite D1, D2, <- Rmult_plus_distr_r. apply Rmult_le_compat_r; lra. }
  split.
  - intros k. replace (lane (plus (scale a' p) (scale c' q)) k - lane (plus (scale a p) (scale c q)) k)
      with ((a' - a) * lane p k + (c' - c) * lane q k) by (dq p; dn q; destruct k; unfold plus, scale; cbn [lane qx qy qz qw]; ring).
    eapply Rle_trans; [apply Rabs_triang|]. rewrite !Rabs_mult. pose proof (lane_le p k Hp). pose proof (lane_le q k Hq).
    pose proof (Rabs_pos (a' - a)). pose proof (Rabs_pos (c' - c)). pose proof (Rabs_pos (lane p k)). pose proof (Rabs_pos (lane q k)). nra.
  - apply (comb_err p q a c a' c' U); [rewrite Dp; apply Rabs_le; apply COS_bound| |exact Hp|exact Hq|exact D].
    assert (G : Rabs (dot4 (plus (scale a p) (scale c q)) q) = Rabs (hemi p q * dot4 (plus (scale a p) (scale c q)) q)) by (rewrite Rabs_mult, AH; ring).
    rewrite G, Dq. apply Rabs_le, COS_bound.
Qed.
Lemma angle_close p q : unitq p -> unitq q -> hcos p q < near_one -> let v := ratan2 (hsin p q) (hcos p q) in
  Rabs (v - arc_angle p q) <= 53 / 100000000 /\ Rabs v <= 158 / 100.
Proof.
  intros Hp Hq Hn. cbv zeta. destruct (angle_facts p q Hp Hq Hn) as (C & S & P & W & A).
  pose proof (ratan2_ok (hsin p q) (hcos p q)) as E. rewrite A in E. split; [exact E|].
  pose proof PI32_err as PE. unfold pi_err, PI32 in PE. apply Rabs_le_inv in PE. apply Rabs_le. apply Rabs_le_inv in E. lra.
Qed.
Lemma slerp_sse_err p q t : unitq p -> unitq q -> hcos p q < near_one -> 0 <= t <= 1 ->
  (forall k, Rabs (lane (slerp_with ratan2 ssin p q t) k - lane (slerp p q t) k) <= 77 / 100000000 / hsin p q) /\
  Rabs (dot4 (slerp_with ratan2 ssin p q t) (slerp_with ratan2 ssin p q t) - 1) <= 155 / 100000000 / hsin p q.
Proof.
  intros Hp Hq Hn Ht. destruct (angle_facts p q Hp Hq Hn) as (C & S & P & W & A).
  destruct (angle_close p q Hp Hq Hn) as [E AV]. set (v := ratan2 _ _) in *. set (w := arc_angle p q) in *.
  assert (AU : forall u, 0 <= u <= 1 -> Rabs (u * v) <= PI32).
  { intros u Hu. rewrite Rabs_mult, (Rabs_pos_eq u) by lra. pose proof (Rabs_pos v). unfold PI32. nra. }
  assert (EU : forall u, 0 <= u <= 1 -> Rabs (ssin (u * v) - sin (u * w)) <= 12 / 100000000 + u * (53 / 100000000)).
  { intros u Hu. eapply Rle_trans; [apply ssin_close, AU; lra|]. apply Rplus_le_compat_l. rewrite <- Rmult_minus_distr_l, Rabs_mult, (Rabs_pos_eq u) by lra.
    apply Rmult_le_compat_l; lra. }
  pose proof (EU (1 - t) ltac:(lra)) as E1. pose proof (EU t Ht) as E2.
  destruct (slerp_sse_core p q t (77 / 100000000) Hp Hq Hn) as [X Y]; [fold v w; lra|]. split; [exact X|].
  eapply Rle_trans; [exact Y|]. set (s := hsin p q) in *.
  assert (IS : 0 < / s <= 250).
  { split; [apply Rinv_0_lt_compat; lra|]. apply (Rmult_le_reg_r s); [lra|]. rewrite Rinv_l by lra. lra. }
  unfold Rdiv. nra.
Qed.
(** any fraction, not only those between 0 and 1 *)
Definition slerp_bound (t : R) : R := 412 / 1000000000 + 575 / 1000000000 * (Rabs t + Rabs (1 - t)).
Lemma slerp_sse_any p q t : unitq p -> unitq q -> hcos p q < near_one -> Rabs t <= 10000000 ->
  let d := slerp_bound t / hsin p q in
  (forall k, Rabs (lane (slerp_with ratan2 ssin p q t) k - lane (slerp p q t) k) <= d) /\
  Rabs (dot4 (slerp_with ratan2 ssin p q t) (slerp_with ratan2 ssin p q t) - 1) <= 2 * d + d * d.
Proof.
  intros Hp Hq Hn Ht. cbv zeta.
  destruct (angle_close p q Hp Hq Hn) as [E AV]. set (v := ratan2 _ _) in *. set (w := arc_angle p q) in *.
  assert (EU : forall u, Rabs u <= 10000001 -> Rabs (ssin (u * v) - sin (u * w)) <= 206 / 1000000000 + 575 / 1000000000 * Rabs u).
  { intros u Hu. pose proof (Rabs_pos u) as U0. pose proof (Rabs_pos v) as V0.
    assert (B : Rabs (u * v) <= 158 / 100 * Rabs u) by (rewrite Rabs_mult; nra).
    destruct (modang_int (u * v)) as (n & M & N). destruct (total_sin (u * v) n N) as [S _]; [unfold ang_max; lra|].
    rewrite <- M in S. change (sinp (refl (modang (u * v)))) with (ssin (u * v)) in S. pose proof (err_sum _ n N) as ES. unfold trig_err in ES.
    pose proof (sin_lip (u * v) (u * w)) as L. rewrite <- Rmult_minus_distr_l, Rabs_mult in L.
    replace (ssin (u * v) - sin (u * w)) with ((ssin (u * v) - sin (u * v)) + (sin (u * v) - sin (u * w))) by ring.
    eapply Rle_trans; [apply Rabs_triang|]. nra. }
  assert (T1 : Rabs (1 - t) <= 10000001) by (eapply Rle_trans; [apply Rabs_triang|]; rewrite Rabs_R1, Rabs_Ropp; lra).
  pose proof (EU (1 - t) T1) as E1. pose proof (EU t ltac:(lra)) as E2.
  destruct (slerp_sse_core p q t (slerp_bound t) Hp Hq Hn) as [X Y]; [fold v w; unfold slerp_bound; lra|]. split; [exact X|exact Y].
Qed.
Lemma ssin_0 : ssin 0 = 0.
Proof.
  unfold ssin. assert (H : Rabs 0 <= PI32) by (rewrite Rabs_R0; unfold PI32; lra). destruct (near_zero 0 H) as [_ ->].
  assert (R0 : refl 0 = 0). { unfold refl. repeat rcase; try reflexivity; unfold PI32, halfPI32 in *; rewrite ?Rabs_R0 in *; lra. }
  rewrite R0. unfold sinp. ring.
Qed.
Lemma slerp_sse_ends p q : unitq p -> unitq q -> hcos p q < near_one ->
  exists m, slerp_with ratan2 ssin p q 0 = scale m p /\ slerp_with ratan2 ssin p q 1 = scale (m * hemi p q) q /\
    Rabs (m - 1) <= 65 / 100000000 / hsin p q.
Proof.
  intros Hp Hq Hn. destruct (angle_facts p q Hp Hq Hn) as (C & S & P & W & A).
  pose proof (ratan2_ok (hsin p q) (hcos p q)) as E. rewrite A in E.
  unfold slerp_with. rewrite (proj2 (Rltb_true _ _) Hn). set (v := ratan2 _ _) in *. set (s := hsin p q) in *.
  rewrite Rminus_0_r, !Rmult_0_l, !Rmult_1_l, Rminus_diag_eq, Rmult_0_l, ssin_0 by reflexivity.
  exists (ssin v / s). assert (Z0 : 0 / s = 0) by (unfold Rdiv; ring). rewrite Z0.
  split; [|split].
  - dq p; dn q; unfold plus, scale; cbn [qx qy qz qw]; apply (@Qeq R); ring.
  - dq p; dn q; unfold plus, scale; cbn [qx qy qz qw]; apply (@Qeq R); ring.
  - pose proof PI32_err as PE. unfold pi_err in PE. apply Rabs_le_inv in PE. pose proof PI2_3_2 as P2. unfold PI2 in P2.
    assert (AV : Rabs v <= PI32) by (apply Rabs_le; apply Rabs_le_inv in E; lra).
    pose proof (ssin_close v (arc_angle p q) AV) as B. rewrite S in B.
    replace (ssin v / s - 1) with ((ssin v - s) * / s) by (unfold Rdiv; rewrite Rmult_minus_distr_r, Rinv_r by lra; ring).
    assert (IS : 0 < / s) by (apply Rinv_0_lt_compat; lra).
    rewrite Rabs_mult, (Rabs_pos_eq (/ s)) by lra. unfold Rdiv at 2. apply Rmult_le_compat_r; lra.
Qed.
