(** The modelled [Est] functions: closed forms and error bounds over the reals. *)
From Coq Require Import Reals ZArith Lra Lia Psatz Ratan.
From Flocq Require Import Core.
From Verif Require Import Base F32 Intrin Lane SpecGeom MVec MTrig MQuat MEst PReal PVec PPoly PTrigPoly PArcPoly PEstPoly SpecTrig SpecEst PTrig PTrigFn PArc.
Open Scope R_scope.

(** ** sine and cosine *)
Lemma total_est a n : Rabs (a * inv2PI32 - IZR n) <= / 2 -> Rabs a <= ang_max ->
  Rabs (sine (refl (a - IZR n * twoPI32)) - sin a) <= sine_err + pi_err + Rabs (IZR n) * (2 * pi_err) /\
  Rabs (rsgn (a - IZR n * twoPI32) * cose (refl (a - IZR n * twoPI32)) - cos a) <= cose_err + pi_err + Rabs (IZR n) * (2 * pi_err).
Proof.
  intros H Ha. pose proof (reduced a n H) as R. set (r := a - IZR n * twoPI32) in *.
  assert (Q : Rabs (refl r) <= halfPI32).
  { apply refl_range. eapply Rle_trans; [exact R|]. unfold kappa, halfPI32, ang_max in *. lra. }
  pose proof (shift_err a n) as S. fold r in S. destruct (sin_nper a n) as [P1 P2].
  assert (G : Rabs (rsgn r) = 1) by (unfold rsgn; destruct (Rleb _ _); [apply Rabs_R1|]; rewrite Rabs_left; lra).
  split.
  - replace (sine (refl r) - sin a) with (sine (refl r) - sin (refl r) + (sin (refl r) - sin r) + (sin r - sin (a - IZR n * (2 * PI))))
      by (rewrite P1; ring).
    eapply Rle_trans; [apply Rabs_triang|]. apply Rplus_le_compat; [|eapply Rle_trans; [apply sin_lip|exact S]].
    eapply Rle_trans; [apply Rabs_triang|]. apply Rplus_le_compat; [apply sine_ok, Q|apply refl_sin].
  - replace (rsgn r * cose (refl r) - cos a)
      with (rsgn r * (cose (refl r) - cos (refl r)) + (rsgn r * cos (refl r) - cos r) + (cos r - cos (a - IZR n * (2 * PI))))
      by (rewrite P2; ring).
    eapply Rle_trans; [apply Rabs_triang|]. apply Rplus_le_compat; [|eapply Rle_trans; [apply cos_lip|exact S]].
    eapply Rle_trans; [apply Rabs_triang|]. apply Rplus_le_compat; [|apply refl_cos].
    rewrite Rabs_mult, G, Rmult_1_l. apply cose_ok, Q.
Qed.
Definition sine_all (a : R) : R := 188 / 100000000 + 28 / 1000000000 * Rabs a.
Definition cose_all (a : R) : R := 968 / 100000000 + 28 / 1000000000 * Rabs a.
Lemma est_sum a n : Rabs (a * inv2PI32 - IZR n) <= / 2 ->
  sine_err + pi_err + Rabs (IZR n) * (2 * pi_err) <= sine_all a /\ cose_err + pi_err + Rabs (IZR n) * (2 * pi_err) <= cose_all a.
Proof.
  intros H. pose proof (periods_n a n H) as N. unfold sine_err, cose_err, pi_err, sine_all, cose_all, inv2PI32 in *. pose proof (Rabs_pos a).
  split; nra.
Qed.
Lemma sin_est_poly_R (y : R) : @sin_est_poly RL y = sine y.
Proof. rcbv. unfold sine. cbv zeta. field. Qed.
Lemma cos_est_poly_R (y : R) : @cos_est_poly RL y = cose y.
Proof. rcbv. unfold cose. cbv zeta. field. Qed.
Lemma vsin_est_poly_R b (x : rv) : @vsin_est_poly RL b x = qmap sine x.
Proof. bk b; dq x; rcbv; unfold sine; cbv zeta; apply (@Qeq R); field. Qed.
Lemma vcos_est_poly_R b (x s : rv) : @vcos_est_poly RL b x s = qmap2 (fun s x => s * cose x) s x.
Proof. bk b; dq x; dq s; rcbv; unfold cose; cbv zeta; apply (@Qeq R); field. Qed.
Lemma vsin_est_R b (V : rv) : b <> Scalar -> XMVectorSinEst b V = qmap (fun a => sine (refl (modang a))) V.
Proof.
  intros H. transitivity (@vsin_est_poly RL b (fst (@trig_reflect RL b V))); [destruct b; [congruence|reflexivity]|].
  rewrite trig_reflect_sse by exact H. cbn [fst]. rewrite vsin_est_poly_R. destruct V; reflexivity.
Qed.
Lemma vcos_est_R b (V : rv) : b <> Scalar -> XMVectorCosEst b V = qmap (fun a => rsgn (modang a) * cose (refl (modang a))) V.
Proof.
  intros H. transitivity (let '(x, comp) := @trig_reflect RL b V in @vcos_est_poly RL b x (vsel vneg_one vone comp));
    [destruct b; [congruence|reflexivity]|].
  rewrite trig_reflect_sse by exact H. rewrite vcos_est_poly_R. unfold rsgn. destruct V. reflexivity.
Qed.
Lemma sin_est_vec b (V : rv) k : b <> Scalar -> Rabs (lane V k) <= ang_max ->
  within (sine_all (lane V k)) (lane (XMVectorSinEst b V) k) (sin (lane V k)) /\
  within (cose_all (lane V k)) (lane (XMVectorCosEst b V) k) (cos (lane V k)).
Proof.
  intros Hb Ha. rewrite vsin_est_R, vcos_est_R by exact Hb. rt. rewrite !lane_qmap. unfold within.
  destruct (modang_int (lane V k)) as (n & -> & N). destruct (total_est _ n N Ha) as [S C].
  destruct (est_sum _ n N). split; lra.
Qed.
Lemma sin_est_scalar (v : R) : Rabs v <= ang_max ->
  within (sine_all v) (XMScalarSinEst v) (sin v) /\ within (cose_all v) (XMScalarCosEst v) (cos v).
Proof.
  intros Ha. destruct (scalar_reduce_R v) as (n & N & E); [unfold ang_max, sc_max in *; lra|].
  unfold XMScalarSinEst, XMScalarCosEst. cbv zeta. rt. rewrite E. cbn [fst snd]. rewrite sin_est_poly_R, cos_est_poly_R. unfold within.
  destruct (total_est _ n N Ha) as [S C]. destruct (est_sum _ n N). split; [lra|]. change (@tmul RL) with Rmult. lra.
Qed.
Lemma sincos_est_pair (L : Lane) (lm : Libm L) b (V : quad (T L)) : XMVectorSinCosEst b V = (XMVectorSinEst b V, XMVectorCosEst b V).
Proof.
  destruct b; [reflexivity|]. unfold XMVectorSinCosEst, XMVectorSinEst, XMVectorCosEst. destruct (trig_reflect _ V). reflexivity.
Qed.
Lemma sincos_est_scalar_pair (L : Lane) (v : T L) : XMScalarSinCosEst v = (XMScalarSinEst v, XMScalarCosEst v).
Proof. reflexivity. Qed.

(** ** arc sine, arc cosine, arc tangent *)
Definition arcec (v : R) : R := arce (Rabs v) * sqrt (Rmax 0 (1 - Rabs v)).
Definition racose (v : R) : R := if Rleb 0 v then arcec v else PI32 - arcec v.
Lemma arcec_ok v : Rabs (arcec v - acos (Rabs v)) <= arce_err.
Proof.
  unfold arcec. destruct (Rle_dec (Rabs v) 1) as [L|L].
  - rewrite Rmax_right by lra. apply arce_ok. split; [apply Rabs_pos|exact L].
  - rewrite Rmax_left by lra. rewrite sqrt_0, Rmult_0_r. unfold acos.
    destruct (Rle_dec (Rabs v) (-1)); [pose proof (Rabs_pos v); lra|]. destruct (Rle_dec 1 (Rabs v)); [|lra].
    rewrite Rminus_0_r, Rabs_R0. unfold arce_err. lra.
Qed.
Definition acos_est_err : R := 711 / 10000000.
Lemma racose_ok v : Rabs (racose v - acos v) <= acos_est_err.
Proof.
  pose proof (arcec_ok v) as A. unfold racose, arce_err, acos_est_err in *. destruct (Rleb_spec 0 v) as [L|L].
  - rewrite (Rabs_pos_eq v) in A by exact L. lra.
  - rewrite (Rabs_left v), acos_opp in A by lra. pose proof PI32_err as E. unfold pi_err in E.
    apply Rabs_le. apply Rabs_le_inv in A. apply Rabs_le_inv in E. lra.
Qed.
Lemma racose_asin v : Rabs (halfPI32 - racose v - asin v) <= 712 / 10000000.
Proof.
  pose proof (racose_ok v) as A. unfold acos_est_err in A. pose proof halfPI32_err as H. pose proof (acos_asin v) as E.
  assert (F : asin v = PI / 2 - acos v).
  { destruct (Rlt_dec v (-1)) as [B|B].
    - unfold asin, acos. destruct (Rle_dec v (-1)); lra.
    - destruct (Rlt_dec 1 v) as [C|C].
      + unfold asin, acos. destruct (Rle_dec v (-1)); [lra|]. destruct (Rle_dec 1 v); lra.
      + rewrite E by lra. lra. }
  rewrite F. apply Rabs_le. apply Rabs_le_inv in A. apply Rabs_le_inv in H. lra.
Qed.
Lemma scalar_arc_est_R (v : R) : @scalar_arc_est RL v = arcec v.
Proof.
  unfold scalar_arc_est, arcec. cbv zeta. change (@tabs RL v) with (Rabs v).
  change (@tmul RL) with Rmult. f_equal; [rcbv; unfold arce; field|]. change (@tsqrt RL) with R_sqrt.sqrt. f_equal.
  change (@tsub RL one (Rabs v)) with (1 - Rabs v). change (@tlt RL (1 - Rabs v) zero) with (Rltb (1 - Rabs v) 0).
  unfold Rmax. destruct (Rltb_spec (1 - Rabs v) 0), (Rle_dec 0 (1 - Rabs v)); try reflexivity; lra.
Qed.
Lemma scalar_acos_est_R (v : R) : @XMScalarACosEst RL v = racose v.
Proof. unfold XMScalarACosEst, racose. cbv zeta. rewrite scalar_arc_est_R. reflexivity. Qed.
Lemma scalar_asin_est_R (v : R) : @XMScalarASinEst RL v = halfPI32 - racose v.
Proof.
  unfold XMScalarASinEst, racose. cbv zeta. rewrite scalar_arc_est_R. change (@tge RL v zero) with (Rleb 0 v).
  destruct (Rleb 0 v); [reflexivity|]. change (@tsub RL) with Rminus. change (@XM_PIDIV2 RL) with halfPI32. unfold halfPI32, PI32. lra.
Qed.
Lemma varc_est_R b (V : rv) : @varc_est RL b V = qmap racose V.
Proof.
  unfold varc_est. cbv zeta. dq V.
  assert (M : @vmax RL (Q Vx Vy Vz Vw) (vsub vzero (Q Vx Vy Vz Vw)) = Q (Rabs Vx) (Rabs Vy) (Rabs Vz) (Rabs Vw)).
  { rl. apply (@Qeq R); rcbv; unfold Rabs; rcase; destruct (Rcase_abs _); lra. }
  rt. rewrite M. rewrite !FMADD_R.
  assert (N : @vmax RL vzero (vsub vone (Q (Rabs Vx) (Rabs Vy) (Rabs Vz) (Rabs Vw))) =
    Q (Rmax 0 (1 - Rabs Vx)) (Rmax 0 (1 - Rabs Vy)) (Rmax 0 (1 - Rabs Vz)) (Rmax 0 (1 - Rabs Vw))).
  { rl. apply (@Qeq R); rcbv; unfold Rmax; rcase; destruct (Rle_dec _ _); lra. }
  rt. rewrite N. unfold racose, arcec, arce.
  generalize (sqrt (Rmax 0 (1 - Rabs Vx))) (sqrt (Rmax 0 (1 - Rabs Vy))). intros.
  rcbv. apply (@Qeq R); rcase; unfold PI32; field.
Qed.
Lemma vacos_est_R b (V : rv) : b <> Scalar -> XMVectorACosEst b V = qmap racose V.
Proof. intros H. rewrite <- (varc_est_R b). destruct b; [congruence|reflexivity]. Qed.
Lemma vasin_est_R b (V : rv) : b <> Scalar -> XMVectorASinEst b V = qmap (fun v => halfPI32 - racose v) V.
Proof.
  intros H. transitivity (@vsub RL (qrep XM_PIDIV2) (@varc_est RL b V)); [destruct b; [congruence|reflexivity]|].
  rewrite varc_est_R. destruct V. reflexivity.
Qed.
Definition ratane (v : R) : R :=
  if Rleb (Rabs v) 1 then atane v else (if Rltb 1 v then halfPI32 else - halfPI32) - atane (1 / v).
Definition atan_est_err : R := 131 / 10000000.
Lemma ratane_ok v : Rabs (ratane v - atan v) <= atan_est_err.
Proof.
  unfold ratane, atan_est_err. pose proof halfPI32_err as E. destruct (Rleb_spec (Rabs v) 1) as [L|L].
  - pose proof (atane_ok v L) as A. unfold atane_err in A. lra.
  - assert (V : v <> 0) by (intros ->; rewrite Rabs_R0 in L; lra).
    assert (I : Rabs (1 / v) <= 1).
    { unfold Rdiv. rewrite Rmult_1_l, Rabs_inv. rewrite <- Rinv_1. apply Rinv_le_contravar; lra. }
    pose proof (atane_ok _ I) as A. unfold atane_err in A. apply Rabs_le_inv in A. apply Rabs_le_inv in E.
    replace (1 / v) with (/ v) in * by (unfold Rdiv; ring). apply Rabs_le.
    destruct (Rltb_spec 1 v) as [P|P].
    + rewrite atan_inv in A by lra. lra.
    + assert (N : v < 0) by (unfold Rabs in L; destruct (Rcase_abs v); lra).
      pose proof (atan_inv (- v) ltac:(lra)) as B. rewrite atan_opp in B.
      replace (/ - v) with (- / v) in B by (field; exact V). rewrite atan_opp in B. lra.
Qed.
Lemma vatan_est_R b (V : rv) : b <> Scalar -> XMVectorATanEst b V = qmap ratane V.
Proof.
  intros H.
  assert (G : forall v : R, qx (XMVectorATanEst b (Q v v v v)) = ratane v).
  { intros v. unfold ratane. bk b; [congruence|..]; rcbv; rewrite ?Rabs_max; unfold halfPI32, atane; cbv zeta;
    repeat rcase; try (exfalso; lra); try (unfold Rdiv; ring). }
  dq V. transitivity (Q (ratane Vx) (ratane Vy) (ratane Vz) (ratane Vw)); [|reflexivity].
  rewrite <- (G Vx), <- (G Vy), <- (G Vz), <- (G Vw). bk b; [congruence|..]; rcbv; reflexivity.
Qed.

(** ** hardware reciprocal and reciprocal square root *)
Definition rcpb (b : backend) (hw : HwEst RL) (x : R) : R := match b with Scalar => 1 / x | _ => @hw_rcp RL hw x end.
Definition rsqb (b : backend) (hw : HwEst RL) (x : R) : R := match b with Scalar => 1 / sqrt x | _ => @hw_rsqrt RL hw x end.
Lemma accurate_pos hw e : accurate hw e -> 0 <= e.
Proof. intros [A _]. eapply Rle_trans; [|exact (A 1 R1_neq_R0)]. apply Rabs_pos. Qed.
Lemma rcpb_ok b hw e x : accurate hw e -> x <> 0 -> Rabs (x * rcpb b hw x - 1) <= e.
Proof.
  intros H X. pose proof (accurate_pos _ _ H). destruct b; [|exact (proj1 H x X)]. cbn [rcpb].
  replace (x * (1 / x) - 1) with 0 by (field; exact X). rewrite Rabs_R0. assumption.
Qed.
Lemma rsqb_ok b hw e x : accurate hw e -> 0 < x -> Rabs (sqrt x * rsqb b hw x - 1) <= e.
Proof.
  intros H X. pose proof (accurate_pos _ _ H). destruct b; [|exact (proj2 H x X)]. cbn [rsqb].
  assert (sqrt x <> 0) by (apply Rgt_not_eq, sqrt_lt_R0, X).
  replace (sqrt x * (1 / sqrt x) - 1) with 0 by (field; assumption). rewrite Rabs_R0. assumption.
Qed.
Lemma RecipEst_R b (hw : HwEst RL) (V : rv) : XMVectorReciprocalEst b V = qmap (rcpb b hw) V.
Proof. destruct b; reflexivity. Qed.
Lemma RecipSqrtEst_R b (hw : HwEst RL) (V : rv) : XMVectorReciprocalSqrtEst b V = qmap (rsqb b hw) V.
Proof. destruct b; reflexivity. Qed.

(** ** tangent *)
Definition inv1PI32 : R := 10680707 / 33554432.
Definition modpi (a : R) : R := a - Rrint (a * inv1PI32) * PI32.
Lemma modpi_int a : congruent XM_PI_c a (modpi a) /\ Rabs (modpi a) <= 157080 / 100000 + 2 / 100000000 * Rabs a.
Proof.
  destruct (Rrint_int (a * inv1PI32)) as (n & E & H). unfold modpi. rewrite E. split; [exists n; reflexivity|].
  replace (a - IZR n * PI32) with ((a * inv1PI32 - IZR n) * PI32 + a * (1 - inv1PI32 * PI32)) by ring.
  eapply Rle_trans; [apply Rabs_triang|]. rewrite !Rabs_mult. unfold PI32, inv1PI32 in *.
  rewrite (Rabs_pos_eq (13176795 / 4194304)) by lra.
  assert (Rabs (1 - 10680707 / 33554432 * (13176795 / 4194304)) <= 2 / 100000000) by (apply Rabs_le; lra).
  pose proof (Rabs_pos a). nra.
Qed.
Lemma modpi_0 a : Rabs a <= 157 / 100 -> modpi a = a.
Proof.
  intros H. unfold modpi. rewrite Rrint_0; [ring|]. rewrite Rabs_mult. unfold inv1PI32. rewrite (Rabs_pos_eq (10680707 / 33554432)) by lra.
  nra.
Qed.
Lemma vtan_est_R b hw (V : rv) : b <> Scalar ->
  XMVectorTanEst b V = qmap (fun a => modpi a * tann (modpi a * modpi a) * rcpb b hw (tand (modpi a * modpi a))) V.
Proof.
  intros H. dq V.
  set (W := XMVectorNegativeMultiplySubtract b (qrep (@XM_PI RL)) (XMVectorRound b (XMVectorMultiply b (Q Vx Vy Vz Vw) (qrep (@XM_1DIVPI RL)))) (Q Vx Vy Vz Vw)).
  assert (E : W = Q (modpi Vx) (modpi Vy) (modpi Vz) (modpi Vw)).
  { unfold W, modpi, PI32, inv1PI32. bk b; [congruence|..]; rcbv; apply (@Qeq R); ring. }
  transitivity (let V2T2 := XMVectorNegativeMultiplySubtract b W W (qrep (@NE2 RL)) in
    let V2 := XMVectorMultiply b W W in
    let V1T0 := XMVectorMultiply b W (qrep (@NE0 RL)) in
    let V1T1 := XMVectorMultiply b W (qrep (@NE1 RL)) in
    let D := XMVectorReciprocalEst b V2T2 in
    let N := XMVectorMultiplyAdd b V2 V1T1 V1T0 in
    XMVectorMultiply b N D); [destruct b; [congruence|reflexivity]|].
  cbv zeta. rewrite E. rewrite RecipEst_R. rewrite NMulSub_R, MulAdd_R, !Mul_R.
  assert (N0 : (@NE0 RL : R) = 10418651 / 4194304) by (rcbv; field).
  assert (N1 : (@NE1 RL : R) = -13119267 / 67108864) by (rcbv; field).
  assert (N2 : (@NE2 RL : R) = 5174515 / 2097152) by (rcbv; field).
  rt. rewrite N0, N1, N2. cbv [qrep qmap qmap2 qmap3 qx qy qz qw]. unfold tann, tand.
  apply (@Qeq R); apply (f_equal2 Rmult); (reflexivity || ring).
Qed.
Lemma rel_product e1 e2 x t r : Rabs (x - t) <= e1 * Rabs t -> Rabs (r - 1) <= e2 -> 0 <= e1 -> 0 <= e2 ->
  Rabs (x * r - t) <= (e1 + e2 * (1 + e1)) * Rabs t.
Proof.
  intros H1 H2 P1 P2. replace (x * r - t) with ((x - t) + x * (r - 1)) by ring.
  eapply Rle_trans; [apply Rabs_triang|]. rewrite Rabs_mult.
  assert (Rabs x <= (1 + e1) * Rabs t).
  { replace x with (x - t + t) by ring. eapply Rle_trans; [apply Rabs_triang|]. lra. }
  pose proof (Rabs_pos x). pose proof (Rabs_pos t). pose proof (Rabs_pos (r - 1)).
  assert (Rabs x * Rabs (r - 1) <= (1 + e1) * Rabs t * e2) by (apply Rmult_le_compat; assumption). lra.
Qed.
Lemma tan_est_lane b hw e r : accurate hw e -> Rabs r <= 157 / 100 ->
  Rabs (r * tann (r * r) * rcpb b hw (tand (r * r)) - tan r) <= (tane_err + e * (1 + tane_err)) * Rabs (tan r).
Proof.
  intros H R. destruct (tane_ok r R) as [D E].
  replace (r * tann (r * r) * rcpb b hw (tand (r * r))) with (r * tann (r * r) / tand (r * r) * (tand (r * r) * rcpb b hw (tand (r * r)))) by (field; lra).
  apply rel_product; [exact E|apply rcpb_ok; [exact H|lra]|unfold tane_err; lra|exact (accurate_pos _ _ H)].
Qed.
Lemma tan_est_vec b hw e (V : rv) k : b <> Scalar -> accurate hw e ->
  exists r, congruent XM_PI_c (lane V k) r /\ Rabs r <= 157080 / 100000 + 2 / 100000000 * Rabs (lane V k) /\
    (Rabs r <= 157 / 100 -> rel_within (tane_err + e * (1 + tane_err)) (lane (XMVectorTanEst b V) k) (tan r)) /\
    (Rabs (lane V k) <= 157 / 100 -> r = lane V k).
Proof.
  intros Hb H. exists (modpi (lane V k)). destruct (modpi_int (lane V k)) as [C B]. repeat apply conj; [exact C|exact B| |apply modpi_0].
  intros R. rewrite (vtan_est_R b hw) by exact Hb. rt. rewrite lane_qmap. apply tan_est_lane; assumption.
Qed.

(** ** arc tangent of two arguments *)
Lemma atan_rel u d e : Rabs d <= e -> e <= 1 / 2 -> Rabs (atan (u * (1 + d)) - atan u) <= e.
Proof.
  intros D E. pose proof (Rabs_pos d) as P. apply Rabs_le_inv in D as D'.
  destruct (MVT_abs atan (fun x => / (1 + x ^ 2)) u (u * (1 + d))) as (c & -> & C).
  { intros x _. apply derivable_pt_lim_atan. }
  assert (Q : u * u / 4 <= c * c).
  { destruct (Rle_dec 0 u) as [U|U].
    - assert (0 <= u * (1 / 2 + d)) by (apply Rmult_le_pos; lra).
      assert (u / 2 <= c) by (destruct C as [C _]; unfold Rmin in C; destruct (Rle_dec u (u * (1 + d))); lra). nra.
    - assert (0 <= - u * (1 / 2 + d)) by (apply Rmult_le_pos; lra).
      assert (c <= u / 2) by (destruct C as [_ C]; unfold Rmax in C; destruct (Rle_dec u (u * (1 + d))); lra). nra. }
  replace (c ^ 2) with (c * c) by ring. assert (0 < 1 + c * c) by nra. rewrite Rabs_pos_eq by (left; apply Rinv_0_lt_compat; lra).
  replace (u * (1 + d) - u) with (u * d) by ring. rewrite Rabs_mult.
  apply (Rmult_le_reg_l (1 + c * c)); [lra|]. rewrite <- Rmult_assoc, Rinv_r, Rmult_1_l by lra.
  assert (A : Rabs u <= 1 + c * c).
  { assert (Rabs u * Rabs u = u * u) by (rewrite <- Rabs_mult; apply Rabs_pos_eq; nra). pose proof (Rle_0_sqr (Rabs u - 2)). unfold Rsqr in *. nra. }
  pose proof (Rabs_pos u). apply Rmult_le_compat; assumption || lra.
Qed.
Definition ratan2e (b : backend) (hw : HwEst RL) (y x : R) : R :=
  if Reqb y 0 then (if Rltb x 0 then PI32 else 0)
  else if Reqb x 0 then (if Rltb y 0 then - halfPI32 else halfPI32)
  else ratane (y * rcpb b hw x) + (if Rltb x 0 then (if Rltb y 0 then - PI32 else PI32) else 0).
Lemma vatan2_est_R b hw (Y X : rv) : b <> Scalar -> XMVectorATan2Est b Y X = qmap2 (ratan2e b hw) Y X.
Proof.
  intros H. dq Y; dq X.
  assert (E : XMVectorMultiply b (Q Yx Yy Yz Yw) (XMVectorReciprocalEst b (Q Xx Xy Xz Xw)) =
    Q (Yx * rcpb b hw Xx) (Yy * rcpb b hw Xy) (Yz * rcpb b hw Xz) (Yw * rcpb b hw Xw)) by (rewrite Mul_R, RecipEst_R; reflexivity).
  unfold ratan2e. destruct b; [congruence|]. unfold XMVectorATan2Est. cbv zeta. rt. rewrite E, vatan_est_R by exact H.
  rewrite Add_R. cbv beta iota delta [qmap qmap2 qx qy qz qw].
  generalize (ratane (Yx * rcpb (SSE sse3 sse4 fma3 avx) hw Xx)) (ratane (Yy * rcpb (SSE sse3 sse4 fma3 avx) hw Xy))
    (ratane (Yz * rcpb (SSE sse3 sse4 fma3 avx) hw Xz)) (ratane (Yw * rcpb (SSE sse3 sse4 fma3 avx) hw Xw)). intros.
  unfold PI32, halfPI32. rcbv. apply (@Qeq R); repeat rcase; try lra.
Qed.
Lemma ratan2e_ok b hw e y x : accurate hw e -> e <= 1 / 2 -> Rabs (ratan2e b hw y x - Ratan2 y x) <= 132 / 10000000 + e.
Proof.
  intros H He. pose proof (accurate_pos _ _ H) as P.
  pose proof PI32_err as E. pose proof halfPI32_err as F. unfold pi_err in E.
  apply Rabs_le_inv in E. apply Rabs_le_inv in F.
  unfold ratan2e, Ratan2. destruct (Reqb_spec y 0) as [Y|Y].
  - apply Rabs_le. subst y. replace (0 / x) with 0 by (unfold Rdiv; ring). rewrite atan_0. repeat rcase; lra.
  - destruct (Reqb_spec x 0) as [X|X]; [apply Rabs_le; subst x; repeat rcase; lra|].
    pose proof (rcpb_ok b hw e x H X) as D. pose proof (atan_rel (y / x) _ _ D He) as A.
    replace (y / x * (1 + (x * rcpb b hw x - 1))) with (y * rcpb b hw x) in A by (field; exact X).
    pose proof (ratane_ok (y * rcpb b hw x)) as B. unfold atan_est_err in B.
    apply Rabs_le_inv in A. apply Rabs_le_inv in B. apply Rabs_le. repeat rcase; lra.
Qed.

(** ** lengths *)
Lemma LengthEst_R b (u : rv) :
  XMVector2LengthEst b u = qrep (norm2 u) /\ XMVector3LengthEst b u = qrep (norm3 u) /\ XMVector4LengthEst b u = qrep (norm4 u).
Proof.
  repeat apply conj.
  - unfold norm2. destruct b as [|[|] [|] f a]; cbn [XMVector2LengthEst]; rewrite ?dp2_R, ?LengthSq2_R; try reflexivity; dq u; rcbv; repeat f_equal; ring.
  - destruct b as [|[|] [|] f a]; cbn [XMVector3LengthEst]; rewrite ?dp3_R, ?lensq3_sse3_R, ?lensq3_xzy_R, ?LengthSq3_R; reflexivity.
  - destruct b as [|[|] [|] f a]; cbn [XMVector4LengthEst]; rewrite ?dp4_R, ?dot4_sse3_R, ?lensq4_sse2_R, ?LengthSq4_R; reflexivity.
Qed.
Lemma RLengthEst_R b hw (u : rv) :
  XMVector2ReciprocalLengthEst b u = qrep (rsqb b hw (dot2 u u)) /\ XMVector3ReciprocalLengthEst b u = qrep (rsqb b hw (dot3 u u)) /\
  XMVector4ReciprocalLengthEst b u = qrep (rsqb b hw (dot4 u u)).
Proof.
  repeat apply conj.
  - destruct b as [|[|] [|] f a]; cbn [XMVector2ReciprocalLengthEst]; rewrite ?dp2_R, ?LengthSq2_R; try reflexivity;
    dq u; unfold dot2; cbn [qx qy]; rl; reflexivity.
  - destruct b as [|[|] [|] f a]; cbn [XMVector3ReciprocalLengthEst]; rewrite ?dp3_R, ?lensq3_xzy_R, ?LengthSq3_R; reflexivity.
  - destruct b as [|[|] [|] f a]; cbn [XMVector4ReciprocalLengthEst]; rewrite ?dp4_R, ?dot4_sse3_R, ?lensq4_sse2_R, ?LengthSq4_R; reflexivity.
Qed.
Lemma len_rel e d r : 0 < d -> Rabs (sqrt d * r - 1) <= e -> Rabs (r - / sqrt d) <= e * Rabs (/ sqrt d).
Proof.
  intros D H. assert (S : 0 < sqrt d) by (apply sqrt_lt_R0, D).
  replace (r - / sqrt d) with ((sqrt d * r - 1) * / sqrt d) by (field; lra). rewrite Rabs_mult.
  apply Rmult_le_compat_r; [apply Rabs_pos|exact H].
Qed.
Lemma scale_norm2 k u : norm2 (scale k u) = Rabs k * norm2 u.
Proof.
  unfold norm2. replace (dot2 (scale k u) (scale k u)) with (Rsqr k * dot2 u u) by (unfold dot2, scale, Rsqr; cbn [qx qy]; ring).
  rewrite sqrt_mult, sqrt_Rsqr_abs; [reflexivity|apply Rle_0_sqr|apply dot2_nonneg].
Qed.
Lemma scale_norm3 k u : norm3 (scale k u) = Rabs k * norm3 u.
Proof.
  unfold norm3. replace (dot3 (scale k u) (scale k u)) with (Rsqr k * dot3 u u) by (unfold dot3, scale, Rsqr; cbn [qx qy qz]; ring).
  rewrite sqrt_mult, sqrt_Rsqr_abs; [reflexivity|apply Rle_0_sqr|apply dot3_nonneg].
Qed.
Lemma scale_norm4 k u : norm4 (scale k u) = Rabs k * norm4 u.
Proof.
  unfold norm4. replace (dot4 (scale k u) (scale k u)) with (Rsqr k * dot4 u u) by (unfold dot4, scale, Rsqr; cbn [qx qy qz qw]; ring).
  rewrite sqrt_mult, sqrt_Rsqr_abs; [reflexivity|apply Rle_0_sqr|apply dot4_nonneg].
Qed.
Lemma vmul_rep (k : R) (u : rv) : @vmul RL (qrep k) u = scale k u /\ @vmul RL u (qrep k) = scale k u.
Proof. dq u. split; rl; apply (@Qeq R); rl; cbn [qx qy qz qw]; ring. Qed.
(** the scale factor a normalisation applies is within e of the exact one *)
Definition near_unit (e len k : R) : Prop := Rabs (k * len - 1) <= e.
Lemma near_exact e d : 0 <= e -> 0 < d -> near_unit e (sqrt d) (/ sqrt d).
Proof.
  intros E D. unfold near_unit. assert (0 < sqrt d) by (apply sqrt_lt_R0, D). replace (/ sqrt d * sqrt d - 1) with 0 by (field; lra).
  rewrite Rabs_R0. exact E.
Qed.
Lemma near_hw b hw e d : accurate hw e -> 0 < d -> near_unit e (sqrt d) (rsqb b hw d).
Proof. intros H D. unfold near_unit. rewrite Rmult_comm. apply rsqb_ok; assumption. Qed.
Lemma pos2 u : ~ zero2 u -> 0 < dot2 u u.
Proof. intros N. rewrite <- dot2_0 in N. pose proof (dot2_nonneg u). lra. Qed.
Lemma pos3 u : ~ zero3 u -> 0 < dot3 u u.
Proof. intros N. rewrite <- dot3_0 in N. pose proof (dot3_nonneg u). lra. Qed.
Lemma pos4 u : ~ zero4 u -> 0 < dot4 u u.
Proof. intros N. rewrite <- dot4_0 in N. pose proof (dot4_nonneg u). lra. Qed.
Lemma Normalize2Est_R b hw e (V : rv) : accurate hw e -> ~ zero2 V -> exists k, XMVector2NormalizeEst b V = scale k V /\ near_unit e (norm2 V) k.
Proof.
  intros H N. pose proof (pos2 V N) as P. pose proof (accurate_pos _ _ H) as E. unfold norm2.
  destruct b as [|[|] [|] f a]; cbn [XMVector2NormalizeEst]; rewrite ?dp2_R, ?dot2_sse2_R.
  - exists (/ sqrt (dot2 V V)). split; [|apply near_exact; assumption]. rewrite RLength2_R, Mul_R. unfold norm2. dq V. apply (@Qeq R); cbn; unfold Rdiv; ring.
  - exists (@hw_rsqrt RL hw (dot2 V V)). split; [apply vmul_rep|exact (near_hw (SSE true true f a) hw e _ H P)].
  - exists (@hw_rsqrt RL hw (dot2 V V)). split; [|exact (near_hw (SSE true true f a) hw e _ H P)].
    rewrite <- (proj1 (vmul_rep _ V)). reflexivity.
  - exists (@hw_rsqrt RL hw (dot2 V V)). split; [apply vmul_rep|exact (near_hw (SSE true true f a) hw e _ H P)].
  - exists (/ sqrt (dot2 V V)). split; [apply ntail_R; lra|apply near_exact; assumption].
Qed.
Lemma Normalize3Est_R b hw e (V : rv) : accurate hw e -> ~ zero3 V -> exists k, XMVector3NormalizeEst b V = scale k V /\ near_unit e (norm3 V) k.
Proof.
  intros H N. pose proof (pos3 V N) as P. pose proof (accurate_pos _ _ H) as E. unfold norm3.
  destruct b as [|[|] [|] f a]; cbn [XMVector3NormalizeEst]; rewrite ?dp3_R, ?lensq3_sse3_R, ?dot3_sse2_R.
  1: { exists (/ sqrt (dot3 V V)). split; [|apply near_exact; assumption]. rewrite RLength3_R, Mul_R. unfold norm3. dq V. apply (@Qeq R); cbn; unfold Rdiv; ring. }
  all: exists (@hw_rsqrt RL hw (dot3 V V)); split; [apply vmul_rep|exact (near_hw (SSE true true f a) hw e _ H P)].
Qed.
Lemma Normalize4Est_R b hw e (V : rv) : accurate hw e -> ~ zero4 V -> exists k, XMVector4NormalizeEst b V = scale k V /\ near_unit e (norm4 V) k.
Proof.
  intros H N. pose proof (pos4 V N) as P. pose proof (accurate_pos _ _ H) as E. unfold norm4.
  destruct b as [|[|] [|] f a]; cbn [XMVector4NormalizeEst]; rewrite ?dp4_R, ?dot4_sse3_R, ?lensq4_sse2_R.
  1: { exists (/ sqrt (dot4 V V)). split; [|apply near_exact; assumption]. rewrite RLength4_R, Mul_R. unfold norm4. dq V. apply (@Qeq R); cbn; unfold Rdiv; ring. }
  all: exists (@hw_rsqrt RL hw (dot4 V V)); split; [apply vmul_rep|exact (near_hw (SSE true true f a) hw e _ H P)].
Qed.
Lemma PlaneNormalizeEst_R b hw e (V : rv) : accurate hw e -> ~ zero3 V -> exists k, XMPlaneNormalizeEst b V = scale k V /\ near_unit e (norm3 V) k.
Proof.
  intros H N. pose proof (pos3 V N) as P. exists (rsqb b hw (dot3 V V)). split; [|apply near_hw; assumption].
  destruct b; cbn [XMPlaneNormalizeEst].
  - rewrite (proj1 (proj2 (RLengthEst_R Scalar hw V))). rewrite Mul_R. dq V. apply (@Qeq R); cbn; ring.
  - rewrite dot3_sse2_R. apply vmul_rep.
Qed.
Lemma near_norm e len k (n : R) : 0 < len -> e <= 1 -> near_unit e len k -> n = Rabs k * len -> Rabs (n - 1) <= e /\ 0 <= k.
Proof.
  intros L E N ->. unfold near_unit in N. apply Rabs_le_inv in N. assert (K : 0 <= k) by nra.
  rewrite (Rabs_pos_eq k) by exact K. split; [apply Rabs_le; lra|exact K].
Qed.

(** ** angles *)
Lemma acos_clamp c : acos (Rmin 1 (Rmax (-1) c)) = acos c.
Proof.
  unfold Rmin, Rmax. destruct (Rle_dec (-1) c) as [A|A]; destruct (Rle_dec 1 _) as [B|B]; try reflexivity; try lra;
  unfold acos; repeat destruct (Rle_dec _ _); lra || reflexivity.
Qed.
Lemma angle_est b (c : R) k : Rabs (lane (@angle_of_cos_est RL RM b (qrep c)) k - acos c) <= acos_est_err.
Proof.
  unfold angle_of_cos_est.
  assert (E : XMVectorClamp b (qrep c : rv) (qrep (@mone RL)) (@vone RL) = qrep (Rmin 1 (Rmax (-1) c))).
  { bk b; rcbv; unfold Rmin, Rmax; apply (@Qeq R); repeat rcase; repeat destruct (Rle_dec _ _); lra. }
  rt. rewrite E, <- (acos_clamp c). generalize (Rmin 1 (Rmax (-1) c)). intros r. destruct b.
  - replace (lane (XMVectorACosEst Scalar (qrep r)) k) with (acos r) by (destruct k; reflexivity).
    unfold acos_est_err. rewrite Rminus_eq_0, Rabs_R0. lra.
  - rewrite vacos_est_R by discriminate. replace (lane (qmap racose (qrep r)) k) with (racose r) by (destruct k; reflexivity). apply racose_ok.
Qed.
