(** Proofs about angle reduction, sine and cosine over the reals. *)
From Coq Require Import Reals ZArith Lra Lia Psatz.
From Flocq Require Import Core.
From Verif Require Import Base F32 Intrin Lane SpecGeom MVec MTrig PReal PPoly PTrigPoly SpecTrig.
Open Scope R_scope.

(** ** Rounding to an integer *)
Lemma Rrint_int x : exists n, Rrint x = IZR n /\ Rabs (x - IZR n) <= / 2.
Proof. exists (ZnearestE x). split; [reflexivity|apply Znearest_half]. Qed.
Lemma Rrint_0 x : Rabs x <= / 2 -> Rrint x = 0.
Proof.
  intros H. unfold Rrint. destruct (Req_dec (Rabs x) (/ 2)) as [E|E].
  - replace (ZnearestE x) with 0%Z; [reflexivity|]. symmetry. unfold Rabs in E. destruct (Rcase_abs x).
    + replace x with (IZR (-1) + / 2) by lra. unfold Znearest.
      rewrite (Zfloor_imp (-1)) by (cbn; lra). rewrite (Zceil_imp 0) by (cbn; lra). cbn [IZR].
      rewrite Rcompare_Eq by (cbn; lra). reflexivity.
    + subst x. unfold Znearest. rewrite (Zfloor_imp 0) by (cbn; lra). rewrite (Zceil_imp 1) by (cbn; lra).
      rewrite Rcompare_Eq by (cbn; lra). reflexivity.
  - rewrite (Znearest_imp _ x 0); [reflexivity|]. rewrite Rminus_0_r. lra.
Qed.
Lemma trunc_bounds x : 0 <= x -> 0 <= IZR (Ztrunc x) <= x /\ x < IZR (Ztrunc x) + 1.
Proof.
  intros H. rewrite Ztrunc_floor by assumption. split; [split|].
  - apply IZR_le, Zfloor_lub. exact H.
  - apply Zfloor_lb.
  - apply Zfloor_ub.
Qed.
Lemma trunc32_pos x : 0 <= x < 2147483648 -> Rtrunc32 x = IZR (Ztrunc x).
Proof.
  intros H. unfold Rtrunc32. f_equal. destruct (trunc_bounds x) as [[A B] C]; [lra|].
  apply le_IZR in A. assert (Ztrunc x < 2 ^ 31)%Z by (apply lt_IZR; change (IZR (2 ^ 31)) with 2147483648; lra). lia.
Qed.
Lemma trunc32_opp x : Rabs x < 2147483648 -> Rtrunc32 (- x) = - Rtrunc32 x.
Proof.
  intros H. unfold Rtrunc32. rewrite Ztrunc_opp, <- opp_IZR. f_equal.
  assert (Z.abs (Ztrunc x) < 2 ^ 31)%Z.
  { apply lt_IZR. rewrite abs_IZR. eapply Rle_lt_trans; [|exact H].
    destruct (Rle_dec 0 x) as [P|P].
    - destruct (trunc_bounds x P) as [[A B] C]. rewrite !Rabs_pos_eq; lra.
    - destruct (trunc_bounds (- x)) as [[A B] C]; [lra|]. rewrite Ztrunc_opp, opp_IZR in *. rewrite !Rabs_left1; lra. }
  lia.
Qed.

(** ** sine and cosine are 1-Lipschitz *)
Lemma sin_abs x : Rabs (sin x) <= Rabs x.
Proof.
  assert (P : forall x, 0 < x -> Rabs (sin x) <= x).
  { intros y H. apply Rabs_le. split; [|left; apply sin_lt_x; exact H].
    destruct (Rle_dec y PI) as [L|L]; [pose proof (sin_ge_0 y ltac:(lra) L); lra|].
    pose proof (SIN_bound y). pose proof PI_RGT_0. pose proof PI2_1. lra. }
  destruct (Rtotal_order x 0) as [H|[H|H]].
  - replace (Rabs (sin x)) with (Rabs (sin (- x))) by (rewrite sin_neg, Rabs_Ropp; reflexivity). rewrite (Rabs_left x) by lra. apply P. lra.
  - subst. rewrite sin_0. lra.
  - rewrite (Rabs_pos_eq x) by lra. apply P, H.
Qed.
Lemma sin_lip a b : Rabs (sin a - sin b) <= Rabs (a - b).
Proof.
  rewrite form4. rewrite !Rabs_mult. rewrite (Rabs_pos_eq 2) by lra.
  pose proof (sin_abs ((a - b) / 2)) as H. pose proof (COS_bound ((a + b) / 2)) as C.
  assert (Rabs (cos ((a + b) / 2)) <= 1) by (apply Rabs_le; lra).
  replace (Rabs (a - b)) with (2 * Rabs ((a - b) / 2)).
  - pose proof (Rabs_pos (sin ((a - b) / 2))). pose proof (Rabs_pos (cos ((a + b) / 2))). nra.
  - unfold Rdiv. rewrite Rabs_mult, (Rabs_pos_eq (/ 2)) by lra. field.
Qed.
Lemma cos_lip a b : Rabs (cos a - cos b) <= Rabs (a - b).
Proof.
  rewrite !cos_sin. replace (a - b) with (PI / 2 + a - (PI / 2 + b)) by ring. apply sin_lip.
Qed.

(** ** Periods and reflection with the rounded constants *)
Definition pi_err : R := 8743 / 100000000000.
Lemma PI32_err : Rabs (PI32 - PI) <= pi_err.
Proof. pose proof PI_close. unfold pi_err. apply Rabs_le. lra. Qed.
Lemma twoPI32_err : Rabs (twoPI32 - 2 * PI) <= 2 * pi_err.
Proof. pose proof PI_close. unfold pi_err, twoPI32, PI32 in *. apply Rabs_le. lra. Qed.
Lemma sin_nper a n : sin (a - IZR n * (2 * PI)) = sin a /\ cos (a - IZR n * (2 * PI)) = cos a.
Proof.
  assert (P : forall a n, (0 <= n)%Z -> sin (a + IZR n * (2 * PI)) = sin a /\ cos (a + IZR n * (2 * PI)) = cos a).
  { intros x m Hm. replace (IZR m) with (INR (Z.to_nat m)) by (rewrite INR_IZR_INZ, Z2Nat.id; auto).
    replace (INR (Z.to_nat m) * (2 * PI)) with (2 * INR (Z.to_nat m) * PI) by ring.
    split; [apply sin_period|apply cos_period]. }
  destruct (Z_le_gt_dec n 0) as [H|H].
  - replace (a - IZR n * (2 * PI)) with (a + IZR (- n) * (2 * PI)) by (rewrite opp_IZR; ring). apply P. lia.
  - destruct (P (a - IZR n * (2 * PI)) n ltac:(lia)) as [A B].
    replace (a - IZR n * (2 * PI) + IZR n * (2 * PI)) with a in * by ring. auto.
Qed.
Definition refl (r : R) : R := if Rleb (Rabs r) halfPI32 then r else (if Rltb r 0 then - PI32 else PI32) - r.
Definition rsgn (r : R) : R := if Rleb (Rabs r) halfPI32 then 1 else -1.
Lemma refl_range r : Rabs r <= PI32 + halfPI32 -> Rabs (refl r) <= halfPI32.
Proof.
  intros H. unfold refl. destruct (Rleb_spec (Rabs r) halfPI32) as [L|L]; [exact L|].
  unfold PI32, halfPI32 in *. revert H L. unfold Rabs at 1 2. destruct (Rcase_abs r); intros; rcase; try lra;
  apply Rabs_le; lra.
Qed.
Lemma refl_sin r : Rabs (sin (refl r) - sin r) <= pi_err.
Proof.
  assert (0 <= pi_err) by (unfold pi_err; lra). pose proof PI32_err as E.
  unfold refl. destruct (Rleb (Rabs r) halfPI32); [rewrite Rminus_diag_eq, Rabs_R0 by reflexivity; lra|].
  destruct (Rltb r 0).
  - replace (sin r) with (sin (- PI - r)).
    + eapply Rle_trans; [apply sin_lip|]. replace (- PI32 - r - (- PI - r)) with (- (PI32 - PI)) by ring. rewrite Rabs_Ropp. exact E.
    + replace (- PI - r) with (- (r + PI)) by ring. rewrite sin_neg, neg_sin. ring.
  - rewrite <- (sin_PI_x r). eapply Rle_trans; [apply sin_lip|]. replace (PI32 - r - (PI - r)) with (PI32 - PI) by ring. exact E.
Qed.
Lemma refl_cos r : Rabs (rsgn r * cos (refl r) - cos r) <= pi_err.
Proof.
  assert (0 <= pi_err) by (unfold pi_err; lra). pose proof PI32_err as E.
  unfold refl, rsgn. destruct (Rleb (Rabs r) halfPI32).
  - rewrite Rmult_1_l, Rminus_diag_eq, Rabs_R0 by reflexivity; lra.
  - replace (-1 * cos ((if Rltb r 0 then - PI32 else PI32) - r) - cos r)
      with (- (cos ((if Rltb r 0 then - PI32 else PI32) - r) - - cos r)) by ring. rewrite Rabs_Ropp. destruct (Rltb r 0).
    + replace (- cos r) with (cos (- PI - r)).
      * eapply Rle_trans; [apply cos_lip|]. replace (- PI32 - r - (- PI - r)) with (- (PI32 - PI)) by ring. rewrite Rabs_Ropp. exact E.
      * replace (- PI - r) with (- (r + PI)) by ring. rewrite cos_neg, neg_cos. ring.
    + replace (- cos r) with (cos (PI - r)).
      * eapply Rle_trans; [apply cos_lip|]. replace (PI32 - r - (PI - r)) with (PI32 - PI) by ring. exact E.
      * replace (PI - r) with (- (r - PI)) by ring. rewrite cos_neg. unfold Rminus. rewrite <- (neg_cos r).
        replace (r + PI) with (r + - PI + 2 * INR 1 * PI) by (cbn [INR]; ring). rewrite cos_period. reflexivity.
Qed.

(** 1 - XM_2PI * XM_1DIV2PI *)
Definition kappa : R := 1761263 / 140737488355328.
Lemma per_inv : twoPI32 * inv2PI32 = 1 - kappa.
Proof. unfold twoPI32, inv2PI32, kappa. lra. Qed.

(** the result of taking off n periods, n the integer nearest to a / 2 PI computed with the rounded constants *)
Lemma reduced a n : Rabs (a * inv2PI32 - IZR n) <= / 2 -> Rabs (a - IZR n * twoPI32) <= PI32 + kappa * Rabs a.
Proof.
  intros H. replace (a - IZR n * twoPI32) with (twoPI32 * (a * inv2PI32 - IZR n) + kappa * a).
  2:{ replace (twoPI32 * (a * inv2PI32 - IZR n)) with (a * (twoPI32 * inv2PI32) - IZR n * twoPI32) by ring. rewrite per_inv. ring. }
  eapply Rle_trans; [apply Rabs_triang|]. rewrite !Rabs_mult. rewrite (Rabs_pos_eq twoPI32), (Rabs_pos_eq kappa).
  - unfold twoPI32, PI32 in *. nra.
  - unfold kappa. lra.
  - unfold twoPI32. lra.
Qed.
Lemma periods_n a n : Rabs (a * inv2PI32 - IZR n) <= / 2 -> Rabs (IZR n) <= / 2 + inv2PI32 * Rabs a.
Proof.
  intros H. replace (IZR n) with (- (a * inv2PI32 - IZR n) + inv2PI32 * a) by ring.
  eapply Rle_trans; [apply Rabs_triang|]. rewrite Rabs_Ropp, Rabs_mult, (Rabs_pos_eq inv2PI32); [lra|]. unfold inv2PI32. lra.
Qed.
Lemma shift_err a n : Rabs (a - IZR n * twoPI32 - (a - IZR n * (2 * PI))) <= Rabs (IZR n) * (2 * pi_err).
Proof.
  replace (a - IZR n * twoPI32 - (a - IZR n * (2 * PI))) with (- (IZR n * (twoPI32 - 2 * PI))) by ring.
  rewrite Rabs_Ropp, Rabs_mult. apply Rmult_le_compat_l; [apply Rabs_pos|apply twoPI32_err].
Qed.

(** the whole error *)
Definition trig_err (a : R) : R := 206 / 1000000000 + 28 / 1000000000 * Rabs a.
Definition ang_max : R := 100000000.
Lemma total_sin a n : Rabs (a * inv2PI32 - IZR n) <= / 2 -> Rabs a <= ang_max ->
  Rabs (sinp (refl (a - IZR n * twoPI32)) - sin a) <= poly_err + pi_err + Rabs (IZR n) * (2 * pi_err) /\
  Rabs (rsgn (a - IZR n * twoPI32) * cosp (refl (a - IZR n * twoPI32)) - cos a) <= poly_err + pi_err + Rabs (IZR n) * (2 * pi_err).
Proof.
  intros H Ha. pose proof (reduced a n H) as R. set (r := a - IZR n * twoPI32) in *.
  assert (Q : Rabs (refl r) <= halfPI32).
  { apply refl_range. eapply Rle_trans; [exact R|]. unfold kappa, halfPI32, ang_max in *. lra. }
  pose proof (shift_err a n) as S. fold r in S. destruct (sin_nper a n) as [P1 P2].
  assert (G : Rabs (rsgn r) = 1) by (unfold rsgn; destruct (Rleb _ _); [apply Rabs_R1|]; rewrite Rabs_left; lra).
  split.
  - replace (sinp (refl r) - sin a) with (sinp (refl r) - sin (refl r) + (sin (refl r) - sin r) + (sin r - sin (a - IZR n * (2 * PI))))
      by (rewrite P1; ring).
    eapply Rle_trans; [apply Rabs_triang|]. apply Rplus_le_compat; [|eapply Rle_trans; [apply sin_lip|exact S]].
    eapply Rle_trans; [apply Rabs_triang|]. apply Rplus_le_compat; [apply sinp_err, Q|apply refl_sin].
  - replace (rsgn r * cosp (refl r) - cos a)
      with (rsgn r * (cosp (refl r) - cos (refl r)) + (rsgn r * cos (refl r) - cos r) + (cos r - cos (a - IZR n * (2 * PI))))
      by (rewrite P2; ring).
    eapply Rle_trans; [apply Rabs_triang|]. apply Rplus_le_compat; [|eapply Rle_trans; [apply cos_lip|exact S]].
    eapply Rle_trans; [apply Rabs_triang|]. apply Rplus_le_compat; [|apply refl_cos].
    rewrite Rabs_mult, G, Rmult_1_l. apply cosp_err, Q.
Qed.
Lemma err_sum a n : Rabs (a * inv2PI32 - IZR n) <= / 2 -> poly_err + pi_err + Rabs (IZR n) * (2 * pi_err) <= trig_err a.
Proof.
  intros H. pose proof (periods_n a n H) as N. unfold poly_err, pi_err, trig_err, inv2PI32 in *. pose proof (Rabs_pos a). nra.
Qed.
