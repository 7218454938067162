(** The modelled inverse trigonometric functions: closed forms and error bounds over the reals. *)
From Coq Require Import Reals ZArith Lra Lia Psatz Ratan.
From Flocq Require Import Core.
From Verif Require Import Base F32 Intrin Lane SpecGeom MVec MTrig PReal PTrigPoly PArcPoly SpecTrig PTrig PTrigFn.
Open Scope R_scope.

Lemma halfPI32_err : Rabs (halfPI32 - PI / 2) <= 4372 / 100000000000.
Proof. pose proof PI_close. unfold halfPI32, PI32 in *. apply Rabs_le. lra. Qed.

(** ** arc sine and arc cosine *)
Definition arcc (v : R) : R := arcp (Rabs v) * sqrt (Rmax 0 (1 - Rabs v)).
Definition racos (v : R) : R := if Rleb 0 v then arcc v else PI32 - arcc v.
Lemma arcc_ok v : Rabs (arcc v - acos (Rabs v)) <= acos_err.
Proof.
  unfold arcc. destruct (Rle_dec (Rabs v) 1) as [L|L].
  - rewrite Rmax_right by lra. apply arcp_ok. split; [apply Rabs_pos|exact L].
  - rewrite Rmax_left by lra. rewrite sqrt_0, Rmult_0_r. unfold acos.
    destruct (Rle_dec (Rabs v) (-1)); [pose proof (Rabs_pos v); lra|]. destruct (Rle_dec 1 (Rabs v)); [|lra].
    rewrite Rminus_0_r, Rabs_R0. unfold acos_err. lra.
Qed.
Lemma racos_ok v : Rabs (racos v - acos v) <= 62 / 100000000.
Proof.
  pose proof (arcc_ok v) as A. unfold racos, acos_err in *. destruct (Rleb_spec 0 v) as [L|L].
  - rewrite (Rabs_pos_eq v) in A by exact L. lra.
  - rewrite (Rabs_left v), acos_opp in A by lra. pose proof PI32_err as E. unfold pi_err in E.
    apply Rabs_le. apply Rabs_le_inv in A. apply Rabs_le_inv in E. lra.
Qed.
Lemma racos_asin v : Rabs (halfPI32 - racos v - asin v) <= 67 / 100000000.
Proof.
  pose proof (racos_ok v) as A. pose proof halfPI32_err as H. pose proof (acos_asin v) as E.
  assert (F : asin v = PI / 2 - acos v).
  { destruct (Rlt_dec v (-1)) as [B|B].
    - unfold asin, acos. destruct (Rle_dec v (-1)); lra.
    - destruct (Rlt_dec 1 v) as [C|C].
      + unfold asin, acos. destruct (Rle_dec v (-1)); [lra|]. destruct (Rle_dec 1 v); lra.
      + rewrite E by lra. lra. }
  rewrite F. apply Rabs_le. apply Rabs_le_inv in A. apply Rabs_le_inv in H. lra.
Qed.
Lemma arc_poly_R (x : R) : @arc_poly RL x = arcp x.
Proof. rcbv. unfold arcp. field. Qed.
Lemma scalar_arc_R (v : R) : @scalar_arc RL v = arcc v.
Proof.
  unfold scalar_arc, arcc. cbv zeta. change (@tabs RL v) with (Rabs v). rewrite arc_poly_R.
  change (@tmul RL) with Rmult. f_equal. change (@tsqrt RL) with R_sqrt.sqrt. f_equal.
  change (@tsub RL one (Rabs v)) with (1 - Rabs v). change (@tlt RL (1 - Rabs v) zero) with (Rltb (1 - Rabs v) 0).
  unfold Rmax. destruct (Rltb_spec (1 - Rabs v) 0), (Rle_dec 0 (1 - Rabs v)); try reflexivity; lra.
Qed.
Lemma scalar_acos_R (v : R) : @XMScalarACos RL v = racos v.
Proof. unfold XMScalarACos, racos. cbv zeta. rewrite scalar_arc_R. reflexivity. Qed.
Lemma scalar_asin_R (v : R) : @XMScalarASin RL v = if Rleb 0 v then halfPI32 - arcc v else arcc v - halfPI32.
Proof. unfold XMScalarASin. cbv zeta. rewrite scalar_arc_R. reflexivity. Qed.
Lemma varc_R b (V : quad R) : @varc RL b V = qmap racos V.
Proof.
  assert (G : forall v, (if Rleb 0 v then arcc v else PI32 - arcc v) = racos v) by reflexivity.
  assert (X : forall v, (if Rltb v (0 - v) then 0 - v else v) = Rabs v) by (intro; apply Rabs_max).
  unfold varc. cbv zeta. dq V.
  assert (L : forall v, (if Rleb 0 v then arcc v else PI32 - arcc v) = racos v) by reflexivity.
  assert (M : @vmax RL (Q Vx Vy Vz Vw) (vsub vzero (Q Vx Vy Vz Vw)) = Q (Rabs Vx) (Rabs Vy) (Rabs Vz) (Rabs Vw)).
  { rl. apply (@Qeq R); rcbv; unfold Rabs; rcase; destruct (Rcase_abs _); lra. }
  rt. rewrite M. rewrite !FMADD_R.
  assert (N : @vmax RL vzero (vsub vone (Q (Rabs Vx) (Rabs Vy) (Rabs Vz) (Rabs Vw))) =
    Q (Rmax 0 (1 - Rabs Vx)) (Rmax 0 (1 - Rabs Vy)) (Rmax 0 (1 - Rabs Vz)) (Rmax 0 (1 - Rabs Vw))).
  { rl. apply (@Qeq R); rcbv; unfold Rmax; rcase; destruct (Rle_dec _ _); lra. }
  rt. rewrite N. unfold racos, arcc, arcp.
  generalize (sqrt (Rmax 0 (1 - Rabs Vx))) (sqrt (Rmax 0 (1 - Rabs Vy))). intros.
  rcbv. apply (@Qeq R); rcase; unfold PI32; field.
Qed.
Lemma vacos_R b (V : quad R) : b <> Scalar -> XMVectorACos b V = qmap racos V.
Proof. intros H. rewrite <- (varc_R b). destruct b; [congruence|reflexivity]. Qed.
Lemma vasin_R b (V : quad R) : b <> Scalar -> XMVectorASin b V = qmap (fun v => halfPI32 - racos v) V.
Proof.
  intros H. transitivity (@vsub RL (qrep XM_PIDIV2) (@varc RL b V)); [destruct b; [congruence|reflexivity]|].
  rewrite varc_R. destruct V. reflexivity.
Qed.

(** ** arc tangent *)
Definition ratan (v : R) : R :=
  if Rleb (Rabs v) 1 then atanp v else (if Rltb 1 v then halfPI32 else - halfPI32) - atanp (1 / v).
Lemma ratan_ok v : Rabs (ratan v - atan v) <= 44 / 100000000.
Proof.
  unfold ratan. pose proof halfPI32_err as E. destruct (Rleb_spec (Rabs v) 1) as [L|L].
  - pose proof (atanp_ok v L) as A. unfold atan_err in A. lra.
  - assert (V : v <> 0) by (intros ->; rewrite Rabs_R0 in L; lra).
    assert (I : Rabs (1 / v) <= 1).
    { unfold Rdiv. rewrite Rmult_1_l, Rabs_inv. rewrite <- Rinv_1. apply Rinv_le_contravar; lra. }
    pose proof (atanp_ok _ I) as A. unfold atan_err in A. apply Rabs_le_inv in A. apply Rabs_le_inv in E.
    replace (1 / v) with (/ v) in * by (unfold Rdiv; ring). apply Rabs_le.
    destruct (Rltb_spec 1 v) as [P|P].
    + rewrite atan_inv in A by lra. lra.
    + assert (N : v < 0) by (unfold Rabs in L; destruct (Rcase_abs v); lra).
      pose proof (atan_inv (- v) ltac:(lra)) as B. rewrite atan_opp in B.
      replace (/ - v) with (- / v) in B by (field; exact V). rewrite atan_opp in B. lra.
Qed.
Lemma vatan_R b (V : quad R) : b <> Scalar -> XMVectorATan b V = qmap ratan V.
Proof.
  intros H.
  assert (G : forall v : R, qx (XMVectorATan b (Q v v v v)) = ratan v).
  { intros v. unfold ratan. bk b; [congruence|..]; rcbv; rewrite ?Rabs_max; unfold halfPI32, atanp; cbv zeta;
    repeat rcase; try (exfalso; lra); try (unfold Rdiv; ring). }
  dq V. transitivity (Q (ratan Vx) (ratan Vy) (ratan Vz) (ratan Vw)); [|reflexivity].
  rewrite <- (G Vx), <- (G Vy), <- (G Vz), <- (G Vw). bk b; [congruence|..]; rcbv; reflexivity.
Qed.

(** ** arc tangent of two arguments *)
Definition ratan2 (y x : R) : R :=
  if Reqb y 0 then (if Rltb x 0 then PI32 else 0)
  else if Reqb x 0 then (if Rltb y 0 then - halfPI32 else halfPI32)
  else ratan (y / x) + (if Rltb x 0 then (if Rltb y 0 then - PI32 else PI32) else 0).
Lemma vatan2_R b (Y X : quad R) : b <> Scalar -> XMVectorATan2 b Y X = qmap2 ratan2 Y X.
Proof.
  intros H. dq Y; dq X.
  assert (E : XMVectorDivide b (Q Yx Yy Yz Yw) (Q Xx Xy Xz Xw) = Q (Yx / Xx) (Yy / Xy) (Yz / Xz) (Yw / Xw)) by (rewrite Div_R; reflexivity).
  destruct b; [congruence|]. unfold XMVectorATan2. cbv zeta. rt. rewrite E, vatan_R by exact H.
  rewrite Add_R. cbn [qmap]. unfold ratan2.
  generalize (ratan (Yx / Xx)) (ratan (Yy / Xy)) (ratan (Yz / Xz)) (ratan (Yw / Xw)). intros.
  unfold PI32, halfPI32. rcbv. apply (@Qeq R); repeat rcase; try lra.
Qed.
Lemma ratan2_ok y x : Rabs (ratan2 y x - Ratan2 y x) <= 53 / 100000000.
Proof.
  pose proof PI32_err as E. pose proof halfPI32_err as F. unfold pi_err in E. pose proof (ratan_ok (y / x)) as A.
  apply Rabs_le_inv in E. apply Rabs_le_inv in F. apply Rabs_le_inv in A. apply Rabs_le.
  unfold ratan2, Ratan2. destruct (Reqb_spec y 0) as [Y|Y].
  - subst y. replace (0 / x) with 0 by (unfold Rdiv; ring). rewrite atan_0. repeat rcase; lra.
  - destruct (Reqb_spec x 0) as [X|X]; [subst x; repeat rcase; lra|]. repeat rcase; lra.
Qed.
Lemma Ratan2_polar y x : (x <> 0 \/ y <> 0) -> polar x y (Ratan2 y x).
Proof.
  intros H. pose proof PI_RGT_0 as PP.
  assert (C : forall t, sqrt (1 + t * t) * sqrt (1 + t * t) = 1 + t * t /\ 0 < sqrt (1 + t * t)).
  { intros t. split; [apply sqrt_sqrt; nra|apply sqrt_lt_R0; nra]. }
  assert (K : x <> 0 -> sqrt (x * x + y * y) = Rabs x * sqrt (1 + y / x * (y / x))).
  { intros X. rewrite <- (sqrt_Rsqr_abs x), <- sqrt_mult by (unfold Rsqr; nra). f_equal. unfold Rsqr. field. exact X. }
  pose proof (atan_bound (y / x)) as B.
  assert (CA : cos (atan (y / x)) = / sqrt (1 + y / x * (y / x))) by (rewrite cos_atan; unfold Rsqr; unfold Rdiv at 1; ring).
  assert (SA : sin (atan (y / x)) = y / x * / sqrt (1 + y / x * (y / x))) by (rewrite sin_atan; unfold Rsqr; reflexivity).
  destruct (C (y / x)) as [C1 C2].
  unfold polar, Ratan2. destruct (Rltb_spec 0 x) as [X|X]; [|destruct (Rltb_spec x 0) as [X'|X']].
  - split; [lra|]. rewrite K, CA, SA, Rabs_pos_eq by lra. split; field; repeat split; lra.
  - assert (PT : forall a, cos (a - PI) = - cos a /\ sin (a - PI) = - sin a).
    { intros a. rewrite <- neg_cos, <- neg_sin. replace (a + PI) with (a - PI + 2 * INR 1 * PI) by (cbn [INR]; ring).
      rewrite cos_period, sin_period. auto. }
    rewrite K, (Rabs_left x) by lra.
    destruct (Rltb_spec y 0) as [Y|Y].
    + assert (0 < y / x) by (replace (y / x) with (- y / - x) by (field; lra); apply Rdiv_lt_0_compat; lra).
      assert (0 < atan (y / x)) by (rewrite <- atan_0; apply atan_increasing; assumption).
      destruct (PT (atan (y / x))) as [-> ->]. rewrite CA, SA. split; [lra|]. split; field; repeat split; lra.
    + assert (y / x <= 0).
      { replace (y / x) with (- (y / - x)) by (field; lra). assert (0 <= y / - x) by (apply Rle_mult_inv_pos; lra). lra. }
      assert (atan (y / x) <= 0).
      { destruct (Req_dec (y / x) 0) as [E|E]; [rewrite E, atan_0; lra|]. rewrite <- atan_0. left. apply atan_increasing. lra. }
      rewrite neg_cos, neg_sin, CA, SA. split; [lra|]. split; field; repeat split; lra.
  - assert (x = 0) by lra. subst x. replace (0 * 0 + y * y) with (Rsqr y) by (unfold Rsqr; ring). rewrite sqrt_Rsqr_abs.
    destruct (Rltb_spec 0 y) as [Y|Y]; [|destruct (Rltb_spec y 0) as [Y'|Y']].
    + rewrite cos_PI2, sin_PI2, Rabs_pos_eq by lra. lra.
    + rewrite cos_neg, sin_neg, cos_PI2, sin_PI2, Rabs_left by lra. lra.
    + lra.
Qed.
Lemma polar_unique x y a b : x <> 0 \/ y <> 0 -> polar x y a -> polar x y b -> a = b.
Proof.
  intros N (A1 & A2 & A3) (B1 & B2 & B3). pose proof PI_RGT_0 as PP. set (r := sqrt (x * x + y * y)) in *.
  assert (R : r <> 0) by (apply Rgt_not_eq, sqrt_lt_R0; destruct N; nra).
  assert (C : cos a = cos b) by (apply (Rmult_eq_reg_l r); [congruence|exact R]).
  assert (S : sin a = sin b) by (apply (Rmult_eq_reg_l r); [congruence|exact R]).
  assert (D : cos (a - b) = 1) by (rewrite cos_minus, C, S; pose proof (sin2_cos2 b) as E; unfold Rsqr in E; lra).
  destruct (Req_dec a b) as [E|E]; [exact E|exfalso].
  assert (G : forall d, 0 < d < 2 * PI -> cos d <> 1).
  { intros d Hd Hc. assert (H : sin (d / 2) * sin (d / 2) = 0) by (replace d with (2 * (d / 2)) in Hc by field; rewrite cos_2a_sin in Hc; lra).
    assert (0 < sin (d / 2)) by (apply sin_gt_0; lra). nra. }
  destruct (Rlt_dec a b) as [L|L].
  - apply (G (b - a)); [lra|]. rewrite <- cos_neg. replace (- (b - a)) with (a - b) by ring. exact D.
  - apply (G (a - b)); [lra|exact D].
Qed.
