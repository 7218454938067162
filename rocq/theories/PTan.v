(** The tangent: rational approximation on [-0.8, 0.8], closed form and error bound. *)
From Coq Require Import Reals ZArith Lra Lia Psatz List.
From Flocq Require Import Core.
From Verif Require Import Base F32 Intrin Lane SpecGeom MVec MTrig MRound MTan PReal PPoly PTrigPoly PEstPoly SpecTrig SpecEst PTrig PTrigFn.
Import ListNotations.
Open Scope R_scope.

Definition tnn (z : R) : R := 1 + z * (-8951215 / 67108864 + z * (14709781 / 4294967296 + z * (-9819577 / 549755813888))).
Definition tnd (z : R) : R :=
  1 + z * (-7830209 / 16777216 + z * (13778165 / 536870912 + z * (-10713893 / 34359738368 + z * (1095541 / 2199023255552)))).
(** 2^90 (n c - d s) *)
Definition tnx : list Z := [0; 0; -35247680868847714304; 61908616588409438208; -53140219196268871680; 22242132220497100800;
  -4273318830590001152; 291828752608333824; -5158829387475584; 14733706323095]%Z.
Lemma tnx_ok z : peval tnx z = 1237940039285380274899124224 * (tnn z * cosz z - tnd z * sins z).
Proof. unfold tnx, tnn, tnd, sins, cosz. cbn [peval]. field. Qed.
Lemma chk_tnx : pbounded tnx 1000 0 3 107 6189700196426901374 1 = true. Proof. vm_compute. reflexivity. Qed.
Lemma tn_close z : 0 <= z <= 64 / 100 -> Rabs (tnn z * cosz z - tnd z * sins z) <= 5 / 1000000000.
Proof.
  intros H. assert (R : 0 <= 1000 * z < 642) by lra. pose proof (pbounded_ok _ _ _ _ _ _ _ _ chk_tnx R) as A.
  rewrite tnx_ok, Rabs_mult, (Rabs_pos_eq 1237940039285380274899124224) in A by lra. lra.
Qed.
Definition tan_err : R := 1 / 10000000.
(** a quotient y n / d is close to tan y when n cos y is close to d sin y / y *)
Lemma tan_quot y n d e : 0 < y <= 8 / 10 -> 0 < d -> Rabs (n * cos y - d * (sin y / y)) <= e * (d * (sin y / y)) ->
  0 < tan y /\ Rabs (y * n / d - tan y) <= e * tan y.
Proof.
  intros Hy D M. pose proof PI_close as PB. unfold PI32 in PB.
  assert (Cp : 0 < cos y) by (apply cos_gt_0; lra). assert (Sp : 0 < sin y) by (apply sin_gt_0; lra).
  assert (T : 0 < tan y) by (unfold tan; apply Rdiv_lt_0_compat; assumption). split; [exact T|].
  replace (y * n / d - tan y) with ((n * cos y - d * (sin y / y)) * (y * / (d * cos y))).
  2:{ unfold tan. field. repeat split; lra. }
  replace (tan y) with (d * (sin y / y) * (y * / (d * cos y))) by (unfold tan; field; repeat split; lra).
  assert (W : 0 <= y * / (d * cos y)) by (apply Rmult_le_pos; [lra|]; apply Rlt_le, Rinv_0_lt_compat, Rmult_lt_0_compat; assumption).
  rewrite Rabs_mult, (Rabs_pos_eq (y * _)) by exact W. rewrite <- (Rmult_assoc e). apply Rmult_le_compat_r; assumption.
Qed.
Lemma sc_close y : 0 < y <= 8 / 10 ->
  Rabs (sins (y * y) - sin y / y) <= 19 / 1000000000 /\ Rabs (cosz (y * y) - cos y) <= 3 / 100000000.
Proof.
  intros Hy. split.
  - pose proof (sins_rel y ltac:(unfold halfPI32; lra)) as S.
    replace (sins (y * y) - sin y / y) with ((y * sins (y * y) - sin y) * / y) by (field; lra).
    rewrite Rabs_mult, (Rabs_pos_eq (/ y)) by (apply Rlt_le, Rinv_0_lt_compat; lra).
    apply (Rmult_le_reg_r y); [lra|]. rewrite Rmult_assoc, Rinv_l, Rmult_1_r by lra. exact S.
  - apply cosp_err. rewrite Rabs_pos_eq; unfold halfPI32; lra.
Qed.
Lemma tan_main y : 0 < y <= 8 / 10 -> 0 < tnd (y * y) /\ 0 < tan y /\ Rabs (y * tnn (y * y) / tnd (y * y) - tan y) <= tan_err * tan y.
Proof.
  intros Hy. assert (Z : 0 <= y * y <= 64 / 100) by nra. destruct (sc_close y Hy) as [S C]. pose proof (tn_close _ Z) as A.
  assert (N : 9 / 10 <= tnn (y * y) <= 1) by (unfold tnn; generalize dependent (y * y); intros z; intros; nra).
  assert (D : 70 / 100 <= tnd (y * y) <= 1) by (unfold tnd; generalize dependent (y * y); intros z; intros; nra).
  assert (B : 89 / 100 <= sins (y * y)) by (unfold sins; generalize dependent (y * y); intros z; intros; nra).
  set (d := tnd (y * y)) in *. set (n := tnn (y * y)) in *. set (c := cosz (y * y)) in *. set (s := sins (y * y)) in *.
  split; [lra|]. apply tan_quot; [exact Hy|lra|]. unfold tan_err. set (s' := sin y / y) in *.
  apply Rabs_le_inv in S. apply Rabs_le_inv in C. apply Rabs_le_inv in A.
  assert (Q1 : Rabs (n * (cos y - c)) <= 1 * (3 / 100000000)).
  { rewrite Rabs_mult. apply Rmult_le_compat; try apply Rabs_pos; apply Rabs_le; lra. }
  assert (Q2 : Rabs (d * (s' - s)) <= 1 * (19 / 1000000000)).
  { rewrite Rabs_mult. apply Rmult_le_compat; try apply Rabs_pos; apply Rabs_le; lra. }
  assert (62 / 100 <= d * s') by nra.
  apply Rabs_le_inv in Q1. apply Rabs_le_inv in Q2. apply Rabs_le. lra.
Qed.
Lemma tan_small y : 0 < y <= / 4096 -> 0 < tan y /\ Rabs (y * 1 / 1 - tan y) <= tan_err * tan y.
Proof.
  intros Hy. destruct (sc_close y ltac:(lra)) as [S C]. apply tan_quot; [lra|lra|].
  assert (Z : 0 <= y * y <= / 16777216) by nra.
  assert (E : Rabs (cosz (y * y) - sins (y * y)) <= 2 / 100000000).
  { apply Rabs_le. unfold cosz, sins. generalize dependent (y * y). intros z. intros. nra. }
  assert (B : 99 / 100 <= sins (y * y)) by (unfold sins; generalize dependent (y * y); intros z; intros; nra).
  unfold tan_err. set (c := cosz (y * y)) in *. set (s := sins (y * y)) in *. set (s' := sin y / y) in *.
  apply Rabs_le_inv in S. apply Rabs_le_inv in C. apply Rabs_le_inv in E. apply Rabs_le. lra.
Qed.
(** the quotient the code forms: numerator and denominator *)
Definition tnN (r : R) : R := if (Rleb r (/ 4096) && Rleb (- / 4096) r)%bool then r else r * tnn (r * r).
Definition tnD (r : R) : R := if (Rleb r (/ 4096) && Rleb (- / 4096) r)%bool then 1 else tnd (r * r).
Lemma tn_odd r : tnN (- r) = - tnN r /\ tnD (- r) = tnD r.
Proof.
  unfold tnN, tnD. replace (- r * - r) with (r * r) by ring.
  destruct (Rleb_spec r (/ 4096)), (Rleb_spec (- / 4096) r), (Rleb_spec (- r) (/ 4096)), (Rleb_spec (- / 4096) (- r)); cbn [andb];
  try (exfalso; lra); split; ring.
Qed.
Lemma tn_ok r : Rabs r <= 8 / 10 -> 0 < tnD r /\ Rabs (tnN r / tnD r - tan r) <= tan_err * Rabs (tan r).
Proof.
  assert (P : forall y, 0 < y <= 8 / 10 -> 0 < tnD y /\ 0 < tan y /\ Rabs (tnN y / tnD y - tan y) <= tan_err * tan y).
  { intros y Hy. unfold tnN, tnD. destruct (Rleb_spec y (/ 4096)) as [A|A]; cbn [andb].
    - destruct (Rleb_spec (- / 4096) y); [|lra]. destruct (tan_small y) as [B C]; [lra|]. split; [lra|]. split; [exact B|].
      rewrite Rmult_1_r in C. exact C.
    - apply tan_main, Hy. }
  intros H. destruct (Rtotal_order r 0) as [L|[E|G]].
  - rewrite Rabs_left in H by exact L. destruct (P (- r)) as (A & B & C); [lra|]. destruct (tn_odd r) as [E1 E2]. rewrite E1, E2, tan_neg in *.
    split; [exact A|]. rewrite (Rabs_left (tan r)) by lra. replace (- tnN r / tnD r - - tan r) with (- (tnN r / tnD r - tan r)) in C
      by (unfold Rdiv; ring). rewrite Rabs_Ropp in C. exact C.
  - subst. rewrite tan_0. unfold tnN, tnD. destruct (Rleb_spec 0 (/ 4096)); [|lra]. destruct (Rleb_spec (- / 4096) 0); [|lra]. cbn [andb].
    unfold Rdiv. rewrite Rmult_0_l, Rminus_0_r, Rabs_R0. lra.
  - rewrite Rabs_pos_eq in H by lra. destruct (P r) as (A & B & C); [lra|]. rewrite (Rabs_pos_eq (tan r)) by lra. auto.
Qed.
Lemma rel_inv e x t : 0 <= e <= 1 / 2 -> t <> 0 -> Rabs (x - t) <= e * Rabs t -> x <> 0 /\ Rabs (/ x - / t) <= 2 * e * Rabs (/ t).
Proof.
  intros E T H. pose proof (Rabs_pos_lt t T) as P.
  assert (X : Rabs t / 2 <= Rabs x).
  { pose proof (Rabs_triang_inv t x) as A. rewrite Rabs_minus_sym in A. nra. }
  assert (X0 : x <> 0) by (intros ->; rewrite Rabs_R0 in X; lra). split; [exact X0|].
  replace (/ x - / t) with ((t - x) * (/ x * / t)) by (field; split; assumption).
  rewrite !Rabs_mult, (Rabs_minus_sym t x), (Rabs_inv x), (Rabs_inv t). rewrite <- Rmult_assoc.
  apply Rmult_le_compat_r; [left; apply Rinv_0_lt_compat, P|].
  apply (Rmult_le_reg_r (Rabs x)); [lra|]. rewrite Rmult_assoc, Rinv_l, Rmult_1_r by lra. nra.
Qed.

(** ** the reduction *)
Definition tanC : R := 13176795 / 8388608 + 8758025 / 144115188075855872.
Definition twoDivPI : R := 10680707 / 16777216.
Lemma tanC_err : Rabs (PI / 2 - tanC) <= 4378 / 100000000000.
Proof. pose proof PI32_err as H. unfold pi_err, PI32 in H. apply Rabs_le_inv in H. unfold tanC. apply Rabs_le. lra. Qed.
Definition tan_n (v : R) : R := Rrint (v * twoDivPI).
Definition tan_r (v : R) : R := v - tan_n v * tanC.
Lemma tan_red v : exists n : Z, tan_n v = IZR n /\ Rabs (v * twoDivPI - IZR n) <= / 2.
Proof. apply Rrint_int. Qed.
Lemma tan_r_small v : Rabs v <= 1000000 -> Rabs (tan_r v) <= 8 / 10.
Proof.
  intros H. destruct (tan_red v) as (n & E & B). unfold tan_r. rewrite E.
  replace (v - IZR n * tanC) with ((v * twoDivPI - IZR n) * tanC + v * (1 - twoDivPI * tanC)) by ring.
  eapply Rle_trans; [apply Rabs_triang|]. rewrite !Rabs_mult. rewrite (Rabs_pos_eq tanC) by (unfold tanC; lra).
  assert (Rabs (1 - twoDivPI * tanC) <= 13 / 1000000000) by (unfold twoDivPI, tanC; apply Rabs_le; lra).
  assert (tanC <= 15708 / 10000) by (unfold tanC; lra). assert (0 < tanC) by (unfold tanC; lra).
  assert (Rabs (v * twoDivPI - IZR n) * tanC <= / 2 * (15708 / 10000)) by (apply Rmult_le_compat; try apply Rabs_pos; lra).
  assert (Rabs v * Rabs (1 - twoDivPI * tanC) <= 1000000 * (13 / 1000000000)) by (apply Rmult_le_compat; try apply Rabs_pos; lra). lra.
Qed.
Lemma tan_n_0 v : Rabs v <= 785 / 1000 -> tan_n v = 0.
Proof. intros H. apply Rrint_0. rewrite Rabs_mult. unfold twoDivPI. rewrite (Rabs_pos_eq (_ / _)) by lra. lra. Qed.
(** the angle whose tangent is computed *)
Definition tan_arg (v : R) : R := tan_r v + tan_n v * (PI / 2).
Lemma tan_arg_close v : Rabs (tan_arg v - v) <= 6 / 100000000 * Rabs v.
Proof.
  destruct (tan_red v) as (n & E & B). unfold tan_arg, tan_r. rewrite E.
  replace (v - IZR n * tanC + IZR n * (PI / 2) - v) with (IZR n * (PI / 2 - tanC)) by ring.
  rewrite Rabs_mult. pose proof tanC_err as C. pose proof (Rabs_pos v) as V.
  destruct (Z.eq_dec n 0) as [->|N]; [rewrite Rabs_R0; lra|].
  assert (1 <= Rabs (IZR n)) by (rewrite <- abs_IZR; apply IZR_le; lia).
  assert (A : Rabs (IZR n) <= Rabs v * twoDivPI + / 2).
  { replace (IZR n) with (v * twoDivPI - (v * twoDivPI - IZR n)) by ring. eapply Rle_trans; [apply Rabs_triang|].
    rewrite Rabs_Ropp, Rabs_mult, (Rabs_pos_eq twoDivPI) by (unfold twoDivPI; lra). lra. }
  assert (A2 : Rabs (IZR n) <= 13 / 10 * Rabs v) by (unfold twoDivPI in A; lra).
  assert (Rabs (IZR n) * Rabs (PI / 2 - tanC) <= 13 / 10 * Rabs v * (4378 / 100000000000)) by (apply Rmult_le_compat; try apply Rabs_pos; lra). lra.
Qed.
Lemma tan_period_Z x m : tan (x + IZR m * PI) = tan x /\ (cos x <> 0 -> cos (x + IZR m * PI) <> 0).
Proof.
  assert (N : forall k x, sin (x + INR k * PI) = (-1) ^ k * sin x /\ cos (x + INR k * PI) = (-1) ^ k * cos x).
  { induction k; intros y; [cbn [INR pow]; rewrite Rmult_0_l, Rplus_0_r; lra|]. rewrite S_INR.
    replace (y + (INR k + 1) * PI) with (y + INR k * PI + PI) by ring. rewrite neg_sin, neg_cos. destruct (IHk y) as [-> ->]. cbn [pow]. lra. }
  assert (P : forall k, (-1) ^ k <> 0) by (intros k; apply pow_nonzero; lra).
  assert (K : forall k y, tan (y + INR k * PI) = tan y).
  { intros k y. unfold tan. destruct (N k y) as [-> ->]. unfold Rdiv. destruct (Req_dec (cos y) 0) as [E|E].
    - rewrite E, Rmult_0_r, Rinv_0. ring.
    - field. split; [exact E|apply P]. }
  assert (G : exists k, IZR m = INR k \/ IZR m = - INR k).
  { exists (Z.abs_nat m). rewrite INR_IZR_INZ, Zabs2Nat.id_abs. destruct (Z.abs_eq_or_opp m) as [->| ->]; [auto|right; rewrite opp_IZR; ring]. }
  destruct G as (k & [E|E]); rewrite E.
  - split; [apply K|]. intros C. destruct (N k x) as [_ ->]. apply Rmult_integral_contrapositive. split; [apply P|exact C].
  - split; [rewrite <- (K k (x + - INR k * PI)); f_equal; ring|]. intros C D. apply C.
    replace x with (x + - INR k * PI + INR k * PI) by ring. destruct (N k (x + - INR k * PI)) as [_ ->]. rewrite D. ring.
Qed.
Definition rtan (v : R) : R :=
  if Reqb v 0 then 0 else if Z.eqb (Z.land (Rcvtt (Rabs (tan_n v))) 1) 0 then tnN (tan_r v) / tnD (tan_r v) else tnD (tan_r v) / (0 - tnN (tan_r v)).
Lemma even_n n : (Z.abs n < 2 ^ 31)%Z -> Z.eqb (Z.land (Rcvtt (Rabs (IZR n))) 1) 0 = Z.even n.
Proof.
  intros H. unfold Rcvtt. rewrite <- abs_IZR, Ztrunc_IZR.
  replace (andb (- 2 ^ 31 <=? Z.abs n)%Z (Z.abs n <? 2 ^ 31)%Z) with true by (symmetry; apply andb_true_intro; split; [apply Z.leb_le|apply Z.ltb_lt]; lia).
  replace (Z.land (Z.abs n) 1) with (Z.abs n mod 2)%Z by (rewrite <- (Z.land_ones _ 1) by lia; reflexivity).
  replace (Z.even n) with (Z.even (Z.abs n)) by (destruct (Z.abs_eq_or_opp n) as [->| ->]; rewrite ?Z.even_opp; reflexivity).
  rewrite Zmod_even. destruct (Z.even (Z.abs n)); reflexivity.
Qed.
Lemma rtan_ok v : Rabs v <= 1000000 -> cos (tan_arg v) <> 0 -> Rabs (rtan v - tan (tan_arg v)) <= 2 * tan_err * Rabs (tan (tan_arg v)).
Proof.
  intros H C. unfold rtan. destruct (Reqb_spec v 0) as [->|V].
  - assert (E : tan_arg 0 = 0). { pose proof (tan_arg_close 0) as A. rewrite Rabs_R0, Rminus_0_r, Rmult_0_r in A. apply Rabs_le_inv in A. lra. }
    rewrite E, tan_0, Rminus_0_r, Rabs_R0. lra.
  - pose proof (tan_r_small v H) as R. destruct (tn_ok _ R) as [D T]. destruct (tan_red v) as (n & E & B).
    assert (NB : (Z.abs n < 2 ^ 31)%Z).
    { apply lt_IZR. rewrite abs_IZR. replace (IZR n) with (v * twoDivPI - (v * twoDivPI - IZR n)) by ring.
      eapply Rle_lt_trans; [apply Rabs_triang|]. rewrite Rabs_Ropp, Rabs_mult, (Rabs_pos_eq twoDivPI) by (unfold twoDivPI; lra).
      change (2 ^ 31)%Z with 2147483648%Z. unfold twoDivPI in *. lra. }
    unfold tan_arg in *. rewrite E in *. rewrite (even_n n NB). set (r := tan_r v) in *. pose proof PI_close as PB. unfold PI32 in PB.
    assert (CR : 0 < cos r) by (apply Rabs_le_inv in R; apply cos_gt_0; lra).
    destruct (Z.even n) eqn:EV.
    + apply Z.even_spec in EV. destruct EV as [m ->]. replace (r + IZR (2 * m) * (PI / 2)) with (r + IZR m * PI) by (rewrite mult_IZR; field).
      rewrite (proj1 (tan_period_Z r m)). pose proof (Rabs_pos (tan r)). unfold tan_err in *. lra.
    + assert (O : Z.odd n = true) by (rewrite <- Z.negb_even, EV; reflexivity). apply Z.odd_spec in O. destruct O as [m ->].
      replace (r + IZR (2 * m + 1) * (PI / 2)) with (r + PI / 2 + IZR m * PI) in * by (rewrite plus_IZR, mult_IZR; field).
      rewrite (proj1 (tan_period_Z _ m)).
      assert (S : sin r <> 0).
      { intros S. apply C. replace (cos (r + PI / 2 + IZR m * PI)) with (- sin (r + IZR m * PI)).
        2:{ replace (r + PI / 2 + IZR m * PI) with (PI / 2 + (r + IZR m * PI)) by ring. rewrite (sin_cos (r + IZR m * PI)). ring. }
        assert (TZ : tan (r + IZR m * PI) = 0) by (rewrite (proj1 (tan_period_Z r m)); unfold tan; rewrite S; unfold Rdiv; ring).
        assert (CN : cos (r + IZR m * PI) <> 0) by (apply tan_period_Z; lra).
        unfold tan in TZ. apply Rmult_integral in TZ. destruct TZ as [TZ|TZ]; [rewrite TZ; ring|]. exfalso. revert TZ. apply Rinv_neq_0_compat, CN. }
      assert (TT : tan (r + PI / 2) = - / tan r).
      { unfold tan. replace (r + PI / 2) with (PI / 2 + r) by ring. rewrite cos_plus, sin_plus, sin_PI2, cos_PI2. field. lra. }
      assert (TR : tan r <> 0). { unfold tan. apply Rmult_integral_contrapositive. split; [exact S|]. apply Rinv_neq_0_compat. lra. }
      destruct (rel_inv tan_err (tnN r / tnD r) (tan r)) as [X I]; [unfold tan_err; lra|exact TR|exact T|].
      assert (NZ : tnN r <> 0) by (intros NZ; apply X; rewrite NZ; unfold Rdiv; ring).
      rewrite TT. replace (tnD r / (0 - tnN r) - - / tan r) with (- (/ (tnN r / tnD r) - / tan r)) by (field; repeat split; lra).
      rewrite !Rabs_Ropp. exact I.
Qed.
Lemma vtan_R b (V : rv) : b <> Scalar -> XMVectorTan b V = qmap rtan V.
Proof.
  intros H. dq V.
  set (VA := XMVectorRound b (XMVectorMultiply b (Q Vx Vy Vz Vw) (qrep (@TwoDivPi RL)))).
  assert (EA : VA = Q (tan_n Vx) (tan_n Vy) (tan_n Vz) (tan_n Vw)).
  { unfold VA, tan_n, twoDivPI. bk b; [congruence|..]; rcbv; reflexivity. }
  set (VC := XMVectorNegativeMultiplySubtract b VA (qrep (@TNC1 RL)) (XMVectorNegativeMultiplySubtract b VA (qrep (@TNC0 RL)) (Q Vx Vy Vz Vw))).
  assert (EC : VC = Q (tan_r Vx) (tan_r Vy) (tan_r Vz) (tan_r Vw)).
  { unfold VC. rewrite EA. unfold tan_r. generalize (tan_n Vx), (tan_n Vy), (tan_n Vz), (tan_n Vw). intros. rewrite !NMulSub_R. unfold tanC. rcbv. apply (@Qeq R); ring. }
  assert (EB : XMVectorAbs b VA = Q (Rabs (tan_n Vx)) (Rabs (tan_n Vy)) (Rabs (tan_n Vz)) (Rabs (tan_n Vw))) by (rewrite Abs_R, EA; reflexivity).
  assert (NZ : forall r : R, (Rleb r (1 / 4096) && Rleb (1 / 4096 * -1) r)%bool = (Rleb r (/ 4096) && Rleb (- / 4096) r)%bool).
  { intros r. replace (1 / 4096) with (/ 4096) by field. replace (/ 4096 * -1) with (- / 4096) by ring. reflexivity. }
  assert (IB : @vinbounds RL VC (qrep TNEps) = qmap (fun r => (Rleb r (/ 4096) && Rleb (- / 4096) r)%bool) (Q (tan_r Vx) (tan_r Vy) (tan_r Vz) (tan_r Vw))).
  { rewrite EC. generalize (tan_r Vx), (tan_r Vy), (tan_r Vz), (tan_r Vw). intros r0 r1 r2 r3.
    transitivity (qmap (fun r => (Rleb r (1 / 4096) && Rleb (1 / 4096 * -1) r)%bool) (Q r0 r1 r2 r3)); [reflexivity|].
    cbv beta iota delta [qmap qx qy qz qw]. rewrite !NZ. reflexivity. }
  destruct b; [congruence|]. unfold XMVectorTan. cbv zeta. fold VA. fold VC. rewrite EB, IB, EC.
  rewrite !Mul_R, !MulAdd_R. rewrite Neg_R, !Div_R.
  unfold rtan, tnN, tnD. cbv beta iota delta [qmap qx qy qz qw].
  generalize (tan_n Vx), (tan_n Vy), (tan_n Vz), (tan_n Vw), (tan_r Vx), (tan_r Vy), (tan_r Vz), (tan_r Vw). intros n0 n1 n2 n3 r0 r1 r2 r3.
  change (@cvt_int RL RC) with Rcvtt.
  generalize (Z.land (Rcvtt (Rabs n0)) 1 =? 0)%Z, (Z.land (Rcvtt (Rabs n1)) 1 =? 0)%Z, (Z.land (Rcvtt (Rabs n2)) 1 =? 0)%Z, (Z.land (Rcvtt (Rabs n3)) 1 =? 0)%Z.
  generalize (Rleb r0 (/ 4096) && Rleb (- / 4096) r0)%bool, (Rleb r1 (/ 4096) && Rleb (- / 4096) r1)%bool,
    (Rleb r2 (/ 4096) && Rleb (- / 4096) r2)%bool, (Rleb r3 (/ 4096) && Rleb (- / 4096) r3)%bool.
  intros z0 z1 z2 z3 e0 e1 e2 e3. unfold tnn, tnd.
  rcbv. apply (@Qeq R).
  - destruct (Reqb Vx 0), z0, e0; try reflexivity; apply (f_equal2 Rdiv); ring.
  - destruct (Reqb Vy 0), z1, e1; try reflexivity; apply (f_equal2 Rdiv); ring.
  - destruct (Reqb Vz 0), z2, e2; try reflexivity; apply (f_equal2 Rdiv); ring.
  - destruct (Reqb Vw 0), z3, e3; try reflexivity; apply (f_equal2 Rdiv); ring.
Qed.
Lemma tan_vec b (V : rv) k : b <> Scalar -> Rabs (lane V k) <= 1000000 ->
  exists w, Rabs (w - lane V k) <= 6 / 100000000 * Rabs (lane V k) /\ (Rabs (lane V k) <= 785 / 1000 -> w = lane V k) /\
    (cos w <> 0 -> rel_within (2 / 10000000) (lane (XMVectorTan b V) k) (tan w)).
Proof.
  intros Hb H. exists (tan_arg (lane V k)). split; [apply tan_arg_close|]. split.
  - intros S. unfold tan_arg, tan_r. rewrite (tan_n_0 _ S). ring.
  - intros C. rewrite vtan_R by exact Hb. rt. rewrite lane_qmap. unfold rel_within. pose proof (rtan_ok _ H C) as A. unfold tan_err in A. lra.
Qed.
(** at the binary32 value nearest to pi the exact residue is 2 (C0 - pi/2) > 0, but the code computes -2 C1 < 0 *)
Lemma tan_pi b (V : rv) k : b <> Scalar -> lane V k = PI32 -> lane (XMVectorTan b V) k = - (2 * (8758025 / 144115188075855872)) /\ 8 / 100000000 < tan PI32.
Proof.
  intros Hb E. split.
  - rewrite vtan_R by exact Hb. rt. rewrite lane_qmap, E. unfold rtan.
    destruct (Reqb_spec PI32 0) as [Z|_]; [unfold PI32 in Z; lra|].
    assert (N : tan_n PI32 = 2).
    { destruct (tan_red PI32) as (n & -> & B). apply Rabs_le_inv in B. unfold PI32, twoDivPI in B.
      assert (1 < n < 3)%Z by (split; apply lt_IZR; lra). replace n with 2%Z by lia. reflexivity. }
    assert (R : tan_r PI32 = - (2 * (8758025 / 144115188075855872))) by (unfold tan_r; rewrite N; unfold tanC, PI32; lra).
    rewrite N, R, (even_n 2) by (cbn; lia). change (Z.even 2) with true. cbv iota. unfold tnN, tnD.
    destruct (Rleb_spec (- (2 * (8758025 / 144115188075855872))) (/ 4096)); [|lra].
    destruct (Rleb_spec (- / 4096) (- (2 * (8758025 / 144115188075855872)))); [|lra]. cbn [andb]. field.
  - pose proof PI_close as P. set (d := PI32 - PI) in *.
    assert (T : tan PI32 = tan d).
    { unfold d. rewrite <- (proj1 (tan_period_Z (PI32 - PI) 1)). f_equal. ring. }
    rewrite T. destruct (tan_small d) as [A B]; [lra|]. unfold tan_err in B. apply Rabs_le_inv in B. lra.
Qed.
