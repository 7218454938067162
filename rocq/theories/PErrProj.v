(** Relative rounding errors of projection matrices on bit patterns. *)
From Coq Require Import Reals Lra Lia ZArith Bool.
From Flocq Require Import Core Relative IEEE754.BinarySingleNaN.
From Verif Require Import Base F32 F32Facts Intrin Lane MVec MTrig MQuat MMatrix SpecF32 PF32 SpecRound PFloat PExp SpecGeom SpecMat SpecErr SpecErrP PErr PErrVec PErrMat PErrR.
Open Scope R_scope.

Definition rl (k e : Z) (z : Z) (x : R) : Prop :=
  (0 <= k <= 10)%Z /\ (0 <= e <= 110)%Z /\ (x = 0 \/ bpow radix2 (- e) <= Rabs x <= bpow radix2 e) /\ exists v, value z = Fin v /\ Rabs (v - x) <= IZR k * w * Rabs x.
Lemma eta_rel e x : (0 <= e <= 110)%Z -> bpow radix2 (- e) <= Rabs x -> eta <= u24 / 60000 * Rabs x.
Proof.
  intros He H. rewrite <- tiny_eta. change tiny with (bpow radix2 (-150)). apply Rle_trans with (bpow radix2 (-24) * bpow radix2 (-16) * bpow radix2 (- e)).
  - rewrite <- !bpow_plus. apply bpow_le. lia.
  - change (bpow radix2 (-24)) with (/ 16777216). change (bpow radix2 (-16)) with (/ 65536). unfold u24. pose proof (bpow_gt_0 radix2 (- e)). lra.
Qed.
Lemma rnd_rel k e t x : (0 <= k <= 9)%Z -> (0 <= e <= 110)%Z -> (x = 0 \/ bpow radix2 (- e) <= Rabs x <= bpow radix2 e) -> Rabs (t - x) <= (IZR k * w + 500 * w * w) * Rabs x ->
  Rabs (RN t) < huge /\ Rabs (RN t - x) <= IZR (k + 1) * w * Rabs x.
Proof.
  intros HK He HX HT. assert (K : 0 <= IZR k <= 9) by (split; apply IZR_le; lia). rewrite plus_IZR. pose proof big_pos as BP. rewrite huge_4big.
  destruct HX as [->|HX].
  - rewrite Rabs_R0, !Rmult_0_r in *. assert (t = 0) as -> by (replace (t - 0) with t in HT by ring; pose proof (Rabs_pos t); destruct (Req_dec t 0) as [|N]; [assumption|]; pose proof (Rabs_pos_lt t N); lra).
    unfold RN. rewrite round_0 by apply valid_rnd_N. replace (0 - 0) with 0 by ring. rewrite Rabs_R0. lra.
  - pose proof (eta_rel e x He (proj1 HX)) as EE. pose proof (RN_err t) as RE. set (a := Rabs x) in *. assert (a0 : 0 < a) by (pose proof (bpow_gt_0 radix2 (- e)); lra).
    assert (AB : a <= big / 2). { apply Rle_trans with (bpow radix2 110); [apply Rle_trans with (1 := proj2 HX), bpow_le; lia|]. unfold big. change 126%Z with (1 + 125)%Z. rewrite bpow_plus. change (bpow radix2 1) with 2. assert (bpow radix2 110 <= bpow radix2 125) by (apply bpow_le; lia). lra. }
    assert (Kw : IZR k * w * a <= 9 * w * a) by (apply Rmult_le_compat_r; [lra|apply Rmult_le_compat_r; [unfold w, u24; lra|lra]]).
    assert (Tb : Rabs t <= a + (IZR k * w + 500 * w * w) * a) by (replace t with ((t - x) + x) by ring; eapply Rle_trans; [apply Rabs_triang|fold a; lra]).
    assert (Tb2 : Rabs t <= a + 10 * w * a). { unfold w, u24 in *. lra. }
    assert (U : u24 * Rabs t <= u24 * (a + 10 * w * a)) by (apply Rmult_le_compat_l; [unfold u24; lra|exact Tb2]).
    split.
    + replace (RN t) with ((RN t - t) + t) by ring. eapply Rle_lt_trans; [apply Rabs_triang|]. unfold w, u24 in *. lra.
    + replace (RN t - x) with ((RN t - t) + (t - x)) by ring. eapply Rle_trans; [apply Rabs_triang|]. unfold w, u24 in *. lra.
Qed.
Lemma rl_exact e z x : (0 <= e <= 110)%Z -> value z = Fin x -> span e x -> rl 0 e z x.
Proof.
  intros He V S. split; [lia|]. split; [exact He|]. split.
  - destruct S as [S|S]; [left; exact S|right]. assert (P : forall k, pow2 k = bpow radix2 k) by (intros [|p|p]; reflexivity). rewrite !P in S. exact S.
  - exists x. split; [exact V|]. replace (x - x) with 0 by ring. rewrite Rabs_R0. lra.
Qed.
Lemma pow2_bpow k : pow2 k = bpow radix2 k. Proof. destruct k; reflexivity. Qed.
Lemma rl_sum e z1 z2 x1 x2 : (0 <= e <= 110)%Z -> value z1 = Fin x1 -> value z2 = Fin x2 -> span e (x1 + x2) -> rl 1 e (f_add z1 z2) (x1 + x2).
Proof.
  intros He V1 V2 S. unfold span in S. rewrite !pow2_bpow in S. destruct (rnd_rel 0 e (x1 + x2) (x1 + x2)) as (A & B); [lia|exact He|exact S| |].
  { replace (x1 + x2 - (x1 + x2)) with 0 by ring. rewrite Rabs_R0. apply Rmult_le_pos; [unfold w, u24; lra|apply Rabs_pos]. }
  split; [lia|]. split; [exact He|]. split; [exact S|]. exists (RN (x1 + x2)). split; [apply add_val; assumption|exact B].
Qed.
Lemma rl_diff e z1 z2 x1 x2 : (0 <= e <= 110)%Z -> value z1 = Fin x1 -> value z2 = Fin x2 -> span e (x1 - x2) -> rl 1 e (f_sub z1 z2) (x1 - x2).
Proof.
  intros He V1 V2 S. unfold span in S. rewrite !pow2_bpow in S. destruct (rnd_rel 0 e (x1 - x2) (x1 - x2)) as (A & B); [lia|exact He|exact S| |].
  { replace (x1 - x2 - (x1 - x2)) with 0 by ring. rewrite Rabs_R0. apply Rmult_le_pos; [unfold w, u24; lra|apply Rabs_pos]. }
  split; [lia|]. split; [exact He|]. split; [exact S|]. exists (RN (x1 - x2)). split; [apply sub_val; assumption|exact B].
Qed.
Lemma span_mul e1 e2 x y : (x = 0 \/ bpow radix2 (- e1) <= Rabs x <= bpow radix2 e1) -> (y = 0 \/ bpow radix2 (- e2) <= Rabs y <= bpow radix2 e2) -> x * y = 0 \/ bpow radix2 (- (e1 + e2)) <= Rabs (x * y) <= bpow radix2 (e1 + e2).
Proof.
  intros [->|X] [->|Y]; [left; ring|left; ring|left; ring|right]. rewrite Rabs_mult. replace (- (e1 + e2))%Z with (- e1 + - e2)%Z by lia. rewrite !bpow_plus.
  pose proof (bpow_gt_0 radix2 (- e1)). pose proof (bpow_gt_0 radix2 (- e2)). split; apply Rmult_le_compat; lra.
Qed.
Lemma rl_mul k1 e1 k2 e2 z1 z2 x1 x2 : rl k1 e1 z1 x1 -> rl k2 e2 z2 x2 -> (k1 + k2 <= 9)%Z -> (e1 + e2 <= 110)%Z -> rl (k1 + k2 + 1) (e1 + e2) (f_mul z1 z2) (x1 * x2).
Proof.
  intros (K1 & E1 & S1 & v1 & V1 & D1) (K2 & E2 & S2 & v2 & V2 & D2) HK HE. pose proof (span_mul _ _ _ _ S1 S2) as S.
  assert (k1r : 0 <= IZR k1 <= 10) by (split; apply IZR_le; lia). assert (k2r : 0 <= IZR k2 <= 10) by (split; apply IZR_le; lia). assert (w0 : 0 < w) by (unfold w, u24; lra).
  destruct (rnd_rel (k1 + k2) (e1 + e2) (v1 * v2) (x1 * x2)) as (A & B); [lia|lia|exact S| |].
  { rewrite plus_IZR, Rabs_mult. replace (v1 * v2 - x1 * x2) with ((v1 - x1) * (v2 - x2) + (v1 - x1) * x2 + x1 * (v2 - x2)) by ring.
    eapply Rle_trans; [apply Rabs_triang|]. eapply Rle_trans; [apply Rplus_le_compat_r, Rabs_triang|]. rewrite !Rabs_mult. set (p := Rabs x1) in *. set (q := Rabs x2) in *.
    assert (p0 : 0 <= p) by apply Rabs_pos. assert (q0 : 0 <= q) by apply Rabs_pos.
    assert (T1 : Rabs (v1 - x1) * Rabs (v2 - x2) <= (IZR k1 * w * p) * (IZR k2 * w * q)) by (apply Rmult_le_compat; try apply Rabs_pos; assumption).
    assert (T2 : Rabs (v1 - x1) * q <= (IZR k1 * w * p) * q) by (apply Rmult_le_compat_r; assumption).
    assert (T3 : p * Rabs (v2 - x2) <= p * (IZR k2 * w * q)) by (apply Rmult_le_compat_l; assumption).
    assert (kk : IZR k1 * IZR k2 <= 100) by (replace 100 with (10 * 10) by ring; apply Rmult_le_compat; lra).
    assert (ww : 0 <= w * w * (p * q)) by (apply Rmult_le_pos; apply Rmult_le_pos; lra).
    assert (T4 : IZR k1 * IZR k2 * (w * w * (p * q)) <= 100 * (w * w * (p * q))) by (apply Rmult_le_compat_r; lra). lra. }
  split; [lia|]. split; [lia|]. split; [exact S|]. exists (RN (v1 * v2)). split; [apply mul_val; assumption|exact B].
Qed.
Lemma rl_div k1 e1 k2 e2 z1 z2 x1 x2 : rl k1 e1 z1 x1 -> rl k2 e2 z2 x2 -> x2 <> 0 -> (k1 + k2 <= 9)%Z -> (e1 + e2 <= 110)%Z -> rl (k1 + k2 + 1) (e1 + e2) (f_div z1 z2) (x1 / x2).
Proof.
  intros (K1 & E1 & S1 & v1 & V1 & D1) (K2 & E2 & S2 & v2 & V2 & D2) HN HK HE.
  assert (SI : / x2 = 0 \/ bpow radix2 (- e2) <= Rabs (/ x2) <= bpow radix2 e2).
  { right. destruct S2 as [S2|S2]; [contradiction|]. rewrite Rabs_inv. pose proof (bpow_gt_0 radix2 (- e2)). pose proof (bpow_gt_0 radix2 e2). split.
    - rewrite bpow_opp. apply Rinv_le; [lra|apply S2].
    - replace (bpow radix2 e2) with (/ bpow radix2 (- e2)) by (rewrite bpow_opp; apply Rinv_inv). apply Rinv_le; [lra|apply S2]. }
  pose proof (span_mul _ _ _ _ S1 SI) as S. change (x1 * / x2) with (x1 / x2) in S.
  assert (k1r : 0 <= IZR k1 <= 10) by (split; apply IZR_le; lia). assert (k2r : 0 <= IZR k2 <= 10) by (split; apply IZR_le; lia). assert (w0 : 0 < w <= / 10000000) by (unfold w, u24; lra).
  assert (q0 : 0 < Rabs x2) by (apply Rabs_pos_lt, HN). set (q := Rabs x2) in *.
  assert (Dq : IZR k2 * w * q <= 10 * w * q) by (apply Rmult_le_compat_r; [lra|]; apply Rmult_le_compat_r; lra).
  assert (wq : 0 <= w * q) by (apply Rmult_le_pos; lra). assert (wq2 : w * q <= / 10000000 * q) by (apply Rmult_le_compat_r; lra).
  assert (L2 : (1 - 10 * w) * q <= Rabs v2). { pose proof (Rabs_triang_inv x2 (x2 - v2)) as T. replace (x2 - (x2 - v2)) with v2 in T by ring. rewrite (Rabs_minus_sym x2 v2) in T. fold q in T. lra. }
  assert (N2 : v2 <> 0) by (intros ->; rewrite Rabs_R0 in L2; lra).
  assert (I2 : Rabs (/ v2) <= (1 + 20 * w) * / q).
  { rewrite Rabs_inv. apply Rle_trans with (/ ((1 - 10 * w) * q)); [apply Rinv_le; [|exact L2]; apply Rmult_lt_0_compat; lra|]. rewrite Rinv_mult. apply Rmult_le_compat_r; [left; apply Rinv_0_lt_compat; lra|].
    apply Rmult_le_reg_r with (1 - 10 * w); [lra|]. rewrite Rinv_l by lra. assert (0 <= w * w) by (apply Rmult_le_pos; lra). assert (w * w <= / 10000000 * w) by (apply Rmult_le_compat_r; lra). lra. }
  destruct (rnd_rel (k1 + k2) (e1 + e2) (v1 / v2) (x1 / x2)) as (A & B); [lia|lia|exact S| |].
  { rewrite plus_IZR. unfold Rdiv at 3. rewrite Rabs_mult, Rabs_inv. replace (v1 / v2 - x1 / x2) with ((v1 - x1) * / v2 + - (x1 * / x2 * (v2 - x2) * / v2)) by (field; split; assumption).
    eapply Rle_trans; [apply Rabs_triang|]. rewrite Rabs_Ropp, !Rabs_mult, (Rabs_inv x2). fold q. set (p := Rabs x1) in *. assert (p0 : 0 <= p) by apply Rabs_pos. set (qi := / q) in *. assert (qi0 : 0 < qi) by (apply Rinv_0_lt_compat; lra).
    assert (T1 : Rabs (v1 - x1) * Rabs (/ v2) <= (IZR k1 * w * p) * ((1 + 20 * w) * qi)) by (apply Rmult_le_compat; try apply Rabs_pos; assumption).
    assert (T2 : p * qi * Rabs (v2 - x2) * Rabs (/ v2) <= p * qi * (IZR k2 * w * q) * ((1 + 20 * w) * qi)).
    { apply Rmult_le_compat; [apply Rmult_le_pos; [apply Rmult_le_pos; lra|apply Rabs_pos]|apply Rabs_pos| |exact I2]. apply Rmult_le_compat_l; [apply Rmult_le_pos; lra|exact D2]. }
    replace (p * qi * (IZR k2 * w * q) * ((1 + 20 * w) * qi)) with (IZR k2 * w * ((1 + 20 * w) * (p * qi)) * (q * qi)) in T2 by ring. assert (QI : q * qi = 1) by (apply Rinv_r; lra). rewrite QI, Rmult_1_r in T2.
    assert (pq : 0 <= w * w * (p * qi)) by (apply Rmult_le_pos; apply Rmult_le_pos; lra).
    assert (T3 : (IZR k1 + IZR k2) * (w * w * (p * qi)) <= 20 * (w * w * (p * qi))) by (apply Rmult_le_compat_r; lra). lra. }
  split; [lia|]. split; [lia|]. split; [exact S|]. exists (RN (v1 / v2)). split; [apply div_val; assumption|exact B].
Qed.
Lemma rl_neg k e z x : word z -> rl k e z x -> rl k e (f_neg z) (- x).
Proof.
  intros W (K & E & S & v & V & D). split; [exact K|]. split; [exact E|]. split.
  - destruct S as [->|S]; [left; ring|right; rewrite Rabs_Ropp; exact S].
  - exists (- v). split; [apply neg_val; assumption|]. replace (- v - - x) with (- (v - x)) by ring. rewrite !Rabs_Ropp. exact D.
Qed.
Lemma word_d z y : word (f_div z y). Proof. apply enc_word. Qed.
Lemma rl_fin k e z x0 x K : rl k e z x0 -> x0 = x -> (k < K)%Z -> exists v, value z = Fin v /\ Rabs (v - x) <= IZR K * ulp_half * Rabs x.
Proof.
  intros (HK & _ & _ & v & V & D) <- H. exists v. split; [exact V|]. eapply Rle_trans; [exact D|]. apply Rmult_le_compat_r; [apply Rabs_pos|].
  assert (0 <= IZR k <= 10) by (split; apply IZR_le; lia). assert (IZR (k + 1) <= IZR K) by (apply IZR_le; lia). rewrite plus_IZR in *. unfold w, u24, ulp_half. lra.
Qed.
Local Opaque f_add f_sub f_mul f_div f_sqrt f_fma f_lit f_neg f_eq f_lt f_le.
Lemma e_zero k : exists v, value (f_lit 0 0) = Fin v /\ Rabs (v - 0) <= k * ulp_half * Rabs 0.
Proof. exists 0. split; [exact val_zero|]. replace (0 - 0) with 0 by ring. rewrite Rabs_R0. lra. Qed.
Lemma e_one k : 0 <= k -> exists v, value (f_lit 1 0) = Fin v /\ Rabs (v - 1) <= k * ulp_half * Rabs 1.
Proof. intros K. exists 1. split; [exact val_one|]. replace (1 - 1) with 0 by ring. rewrite Rabs_R0, Rabs_R1. unfold ulp_half. lra. Qed.
Lemma val_mone : value (f_lit (-1) 0) = Fin (-1). Proof. change (f_lit (-1) 0) with (f_of_Z (-1)). apply (of_Z_exact (-1)). lia. Qed.
Lemma e_mone k : 0 <= k -> exists v, value (f_lit (-1) 0) = Fin v /\ Rabs (v - -1) <= k * ulp_half * Rabs (-1).
Proof. intros K. exists (-1). split; [exact val_mone|]. replace (-1 - -1) with 0 by ring. rewrite Rabs_R0, Rabs_left by lra. unfold ulp_half. lra. Qed.
Lemma span'_span e x : span' e x -> span e x. Proof. intros H. right. exact H. Qed.
Lemma span'_nz e x : span' e x -> x <> 0.
Proof. intros (A & _) ->. rewrite Rabs_R0, pow2_bpow in A. pose proof (bpow_gt_0 radix2 (- e)). lra. Qed.
Lemma span_dbl n : span' 30 n -> span 31 (n + n).
Proof.
  intros (A & B). right. replace (n + n) with (2 * n) by ring. rewrite Rabs_mult, (Rabs_pos_eq 2) by lra. rewrite pow2_bpow in *.
  assert (bpow radix2 31 = 2 * bpow radix2 30) by (change 31%Z with (1 + 30)%Z; rewrite bpow_plus; reflexivity). assert (bpow radix2 (-31) <= bpow radix2 (-30)) by (apply bpow_le; lia).
  rewrite pow2_bpow in *. change (- (31))%Z with (-31)%Z. change (- (30))%Z with (-30)%Z in *. pose proof (bpow_gt_0 radix2 (-30)). lra.
Qed.
Lemma rl_one : rl 0 0 (f_lit 1 0) 1.
Proof. apply rl_exact; [lia|exact val_one|]. right. rewrite Rabs_R1. change (pow2 (- 0)) with 1. change (pow2 0) with 1. lra. Qed.
Lemma rl_two : rl 0 1 (f_lit 2 0) 2.
Proof. apply rl_exact; [lia|change (f_lit 2 0) with (f_of_Z 2); apply (of_Z_exact 2); lia|]. right. rewrite Rabs_pos_eq by lra. rewrite !pow2_bpow. change (bpow radix2 (- (1))) with (/ 2). change (bpow radix2 1) with 2. lra. Qed.
Lemma inv3 (X : Prop) M (c : bool) (m : quad (quad Z)) : (if c then Some m else None) = Some M -> m = M. Proof. destruct c; [|discriminate]. intros H. now injection H. Qed.
Ltac flp := cbv beta iota zeta delta [persp_rows ortho_rows offcenter_rows perspective_fov_lh_sc perspective_fov_rh_sc move_ss vand mask_y mask_z IdR3 mone T tadd tsub tmul tdiv tneg tlit FL qx qy qz qw qmap qmap2 qmap3 lane zero one two vzero vsel splat permute_ps shuffle qrep].
Ltac leafr := first [exact rl_one | exact rl_two | eassumption | eapply rl_exact; [|eassumption|first [eassumption | apply span'_span; eassumption]]; lia].
Ltac rlt := lazymatch goal with
  | |- rl _ _ (f_div _ _) _ => eapply rl_div; [rlt|rlt|eapply span'_nz; eassumption|lia|lia]
  | |- rl _ _ (f_mul _ _) _ => eapply rl_mul; [rlt|rlt|lia|lia]
  | |- rl _ _ (f_add _ _) _ => eapply rl_sum; [|eassumption|eassumption|first [eassumption | apply span_dbl; eassumption | apply span'_span; eassumption]]; lia
  | |- rl _ _ (f_sub _ _) _ => eapply rl_diff; [|eassumption|eassumption|first [eassumption | apply span'_span; eassumption]]; lia
  | |- rl _ _ (f_neg _) _ => eapply rl_neg; [first [apply word_d | apply word_a | apply word_m]|rlt]
  | |- _ => leafr
  end.
Ltac entp := first [apply e_zero | apply e_one; lra | apply e_mone; lra | eapply rl_fin; [rlt|unfold Rdiv; ring|lia]].
Ltac start := intros HM; intros; repeat match goal with H : is32 _ _ |- _ => destruct H end; apply (inv3 True) in HM; rewrite <- HM; clear HM; intros i j.
Lemma span'_sym e x y : span' e (x - y) -> span' e (y - x). Proof. unfold span'. now rewrite Rabs_minus_sym. Qed.
Section P.
Variables (b : backend) (zw zh zn zf : Z) (w0 h n f : R) (M : quad (quad Z)).
Lemma persp_lh_err : XMMatrixPerspectiveLH (L:=FL) b zw zh zn zf = Some M -> is32 zw w0 -> is32 zh h -> is32 zn n -> is32 zf f ->
  span' 30 w0 -> span' 30 h -> span' 30 n -> span' 30 f -> span' 40 (f - n) -> mclose 5 M (persp_lh w0 h n f).
Proof. start. destruct b; destruct i, j; unfold entry, persp_lh; flp; entp. Qed.
Lemma persp_rh_err : XMMatrixPerspectiveRH (L:=FL) b zw zh zn zf = Some M -> is32 zw w0 -> is32 zh h -> is32 zn n -> is32 zf f ->
  span' 30 w0 -> span' 30 h -> span' 30 n -> span' 30 f -> span' 40 (n - f) -> mclose 5 M (persp_rh w0 h n f).
Proof. start. destruct b; destruct i, j; unfold entry, persp_rh; flp; entp. Qed.
Lemma ortho_lh_err : XMMatrixOrthographicLH (L:=FL) b zw zh zn zf = Some M -> is32 zw w0 -> is32 zh h -> is32 zn n -> is32 zf f ->
  span' 30 w0 -> span' 30 h -> span 30 n -> span' 40 (f - n) -> mclose 5 M (ortho_lh w0 h n f).
Proof. start. destruct b; destruct i, j; unfold entry, ortho_lh; flp; entp. Qed.
Lemma ortho_rh_err : XMMatrixOrthographicRH (L:=FL) b zw zh zn zf = Some M -> is32 zw w0 -> is32 zh h -> is32 zn n -> is32 zf f ->
  span' 30 w0 -> span' 30 h -> span 30 n -> span' 40 (n - f) -> mclose 5 M (ortho_rh w0 h n f).
Proof. start. destruct b; destruct i, j; unfold entry, ortho_rh; flp; entp. Qed.
Variables (zl zr zb zt zv za : Z) (l r bt t a : R).
Lemma off_lh_err : XMMatrixPerspectiveOffCenterLH (L:=FL) b zl zr zb zt zn zf = Some M -> is32 zl l -> is32 zr r -> is32 zb bt -> is32 zt t -> is32 zn n -> is32 zf f ->
  span' 40 (r - l) -> span' 40 (t - bt) -> span 40 (l + r) -> span 40 (t + bt) -> span' 30 n -> span' 30 f -> span' 40 (f - n) -> mclose 5 M (persp_off_lh l r bt t n f).
Proof. start. destruct b; destruct i, j; unfold entry, persp_off_lh; flp; entp. Qed.
Lemma off_rh_err : XMMatrixPerspectiveOffCenterRH (L:=FL) b zl zr zb zt zn zf = Some M -> is32 zl l -> is32 zr r -> is32 zb bt -> is32 zt t -> is32 zn n -> is32 zf f ->
  span' 40 (r - l) -> span' 40 (t - bt) -> span 40 (l + r) -> span 40 (t + bt) -> span' 30 n -> span' 30 f -> span' 40 (n - f) -> mclose 5 M (persp_off_rh l r bt t n f).
Proof. start. destruct b; destruct i, j; unfold entry, persp_off_rh; flp; entp. Qed.
Variables (zs zc : Z) (s c : R).
Lemma fov_lh_err : XMMatrixPerspectiveFovLH (L:=FL) b zv za zn zf = Some M -> XMScalarSinCos (L:=FL) (tmul (half (L:=FL)) zv) = (zs, zc) -> value zs = Fin s -> value zc = Fin c -> is32 za a -> is32 zn n -> is32 zf f ->
  span' 30 s -> span 30 c -> span' 30 a -> span' 30 n -> span' 30 f -> span' 40 (f - n) -> mclose 5 M (persp_fov_lh s c a n f).
Proof.
  unfold XMMatrixPerspectiveFovLH. intros HM HS. rewrite HS in HM. revert HM. start. destruct b; destruct i, j; unfold entry, persp_fov_lh; flp; entp.
Qed.
Lemma fov_rh_err : XMMatrixPerspectiveFovRH (L:=FL) b zv za zn zf = Some M -> XMScalarSinCos (L:=FL) (tmul (half (L:=FL)) zv) = (zs, zc) -> value zs = Fin s -> value zc = Fin c -> is32 za a -> is32 zn n -> is32 zf f ->
  span' 30 s -> span 30 c -> span' 30 a -> span' 30 n -> span' 30 f -> span' 40 (n - f) -> mclose 5 M (persp_fov_rh s c a n f).
Proof.
  unfold XMMatrixPerspectiveFovRH. intros HM HS. rewrite HS in HM. revert HM. start. destruct b; destruct i, j; unfold entry, persp_fov_rh; flp; entp.
Qed.
End P.
