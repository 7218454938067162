(** Rounding errors of the transforms with perspective divide on bit patterns. *)
From Coq Require Import Reals Lra Lia ZArith Bool.
From Flocq Require Import Core Relative IEEE754.BinarySingleNaN.
From Verif Require Import Base F32 F32Facts Intrin Lane MVec MTrig MQuat MMatrix SpecF32 PF32 SpecRound PFloat PExp SpecGeom SpecMat SpecErr PErr PErrVec PErrMat.
Open Scope R_scope.

Lemma quot_err (X W : Z) (x d A B : R) : within (5 * u24 * A + 14 * eta) X x -> within (5 * u24 * B + 14 * eta) W d -> Rabs x <= A -> Rabs d <= B ->
  pow2 (-100) <= Rabs d -> 24 * u24 * B <= Rabs d -> A / Rabs d <= pow2 125 ->
  within (u24 * (A / Rabs d) * (10 + 8 * (B / Rabs d)) + (20 / Rabs d + 2) * eta) (f_div X W) (x / d).
Proof.
  intros (vX & VX & EX) (vW & VW & EW) HA HB Hd HC HO. pose proof eta_pos as E0. assert (u0 : u24 = / 16777216) by reflexivity.
  assert (P100 : 0 < pow2 (-100)) by (change (pow2 (-100)) with (bpow radix2 (-100)); apply bpow_gt_0).
  assert (Pd : 0 < Rabs d) by lra. assert (d0 : d <> 0) by (intros ->; rewrite Rabs_R0 in Pd; lra).
  assert (ED : 14 * eta <= u24 * Rabs d).
  { apply Rle_trans with (u24 * pow2 (-100)); [|apply Rmult_le_compat_l; lra]. rewrite <- tiny_eta. change tiny with (bpow radix2 (-150)). change (pow2 (-100)) with (bpow radix2 (-100)).
    apply Rle_trans with (bpow radix2 4 * bpow radix2 (-150)); [change (bpow radix2 4) with 16; pose proof (bpow_gt_0 radix2 (-150)); lra|].
    change u24 with (bpow radix2 (-24)). rewrite <- !bpow_plus. apply bpow_le. lia. }
  assert (UB : u24 * Rabs d <= u24 * B) by (apply Rmult_le_compat_l; lra).
  assert (EW' : Rabs (vW - d) <= 6 * u24 * B) by lra.
  assert (HD : 3 / 4 * Rabs d <= Rabs vW). { pose proof (Rabs_triang_inv d (d - vW)) as T. replace (d - (d - vW)) with vW in T by ring. rewrite (Rabs_minus_sym d vW) in T. lra. }
  assert (W0 : vW <> 0) by (intros ->; rewrite Rabs_R0 in HD; lra).
  set (a := / Rabs d) in *. assert (a0 : 0 < a) by (apply Rinv_0_lt_compat, Pd).
  assert (HI : Rabs (/ vW) <= 4 / 3 * a). { rewrite Rabs_inv. unfold a. replace (4 / 3 * / Rabs d) with (/ (3 / 4 * Rabs d)) by (field; lra). apply Rinv_le; lra. }
  assert (Ad : Rabs (/ d) = a) by (unfold a; apply Rabs_inv).
  assert (A0 : 0 <= A) by (pose proof (Rabs_pos x); lra). assert (Aa0 : 0 <= A * a) by (apply Rmult_le_pos; lra).
  set (t := vX / vW).
  assert (ET : Rabs (t - x / d) <= (5 * u24 * A + 14 * eta) * (4 / 3 * a) + A * a * (6 * u24 * B) * (4 / 3 * a)).
  { unfold t. replace (vX / vW - x / d) with ((vX - x) * / vW + - (x * / d * (vW - d) * / vW)) by (field; split; assumption).
    eapply Rle_trans; [apply Rabs_triang|]. rewrite Rabs_Ropp, !Rabs_mult. apply Rplus_le_compat.
    - apply Rmult_le_compat; try apply Rabs_pos; assumption.
    - apply Rmult_le_compat; [repeat apply Rmult_le_pos; apply Rabs_pos|apply Rabs_pos| |exact HI].
      apply Rmult_le_compat; [apply Rmult_le_pos; apply Rabs_pos|apply Rabs_pos| |exact EW']. rewrite Ad. apply Rmult_le_compat_r; lra. }
  assert (TB : Rabs t <= (A + (5 * u24 * A + 14 * eta)) * (4 / 3 * a)).
  { unfold t, Rdiv. rewrite Rabs_mult. apply Rmult_le_compat; try apply Rabs_pos; [|exact HI]. replace vX with (vX - x + x) by ring. eapply Rle_trans; [apply Rabs_triang|]. lra. }
  set (p := A * a) in *. set (q := B * a). set (h := eta * a). assert (h0 : 0 <= h) by (apply Rmult_le_pos; lra).
  replace ((5 * u24 * A + 14 * eta) * (4 / 3 * a) + p * (6 * u24 * B) * (4 / 3 * a)) with (20 / 3 * (u24 * p) + 56 / 3 * h + 8 * (u24 * (p * q))) in ET by (unfold p, q, h; field).
  replace ((A + (5 * u24 * A + 14 * eta)) * (4 / 3 * a)) with (4 / 3 * p + 20 / 3 * (u24 * p) + 56 / 3 * h) in TB by (unfold p, h; field).
  assert (up : 0 <= u24 * p) by (apply Rmult_le_pos; lra). pose proof (RN_err t) as RT.
  assert (HH : h <= 1). { unfold h, a. apply Rmult_le_reg_r with (Rabs d); [exact Pd|]. replace (eta * / Rabs d * Rabs d) with eta by (field; lra). lra. }
  unfold Rdiv in HO. fold a in HO. fold p in HO.
  assert (P125 : pow2 125 = big / 2). { change (pow2 125) with (bpow radix2 125). unfold big. change 126%Z with (1 + 125)%Z. rewrite bpow_plus. change (bpow radix2 1) with 2. field. }
  pose proof big_pos as BP. pose proof eta_small as ES. pose proof huge_4big as HG.
  exists (RN t). split.
  - apply div_val; [exact VX|exact VW|exact W0|]. fold t. rewrite HG. replace (RN t) with ((RN t - t) + t) by ring. eapply Rle_lt_trans; [apply Rabs_triang|]. rewrite u0 in *. lra.
  - replace (RN t - x / d) with ((RN t - t) + (t - x / d)) by ring. eapply Rle_trans; [apply Rabs_triang|].
    unfold Rdiv. fold a. replace (u24 * (A * a) * (10 + 8 * (B * a)) + (20 * a + 2) * eta) with (10 * (u24 * p) + 8 * (u24 * (p * q)) + 20 * h + 2 * eta) by (unfold p, q, h; ring).
    assert (u24 * (4 / 3 * p + 20 / 3 * (u24 * p) + 56 / 3 * h) <= 3 / 2 * (u24 * p) + h) by (rewrite u0 in *; lra).
    assert (u24 * Rabs t <= u24 * (4 / 3 * p + 20 / 3 * (u24 * p) + 56 / 3 * h)) by (apply Rmult_le_compat_l; lra). lra.
Qed.
Local Opaque f_add f_sub f_mul f_div f_sqrt f_fma f_lit f_neg f_eq f_lt.
(** the transformed vector before the divide *)
Definition pre3 b (V : quad Z) (M : quad (quad Z)) : quad Z :=
  XMVectorMultiplyAdd (L:=FL) b (splat I0 V) (qx M) (XMVectorMultiplyAdd (L:=FL) b (splat I1 V) (qy M) (XMVectorMultiplyAdd (L:=FL) b (splat I2 V) (qz M) (qw M))).
Definition pre2 b (V : quad Z) (M : quad (quad Z)) : quad Z := XMVectorMultiplyAdd (L:=FL) b (splat I0 V) (qx M) (XMVectorMultiplyAdd (L:=FL) b (splat I1 V) (qy M) (qw M)).
Lemma pre3_err b V M x m i : holds3 V x -> holdsM M m -> safe (lane (vecmat (vabs (point x)) (mabs m)) i) ->
  within (5 * ulp_half * lane (vecmat (vabs (point x)) (mabs m)) i + 14 * tiny) (lane (pre3 b V M) i) (lane (vecmat (point x) m) i).
Proof.
  intros HV HM. pose proof (HM I0) as H0. pose proof (HM I1) as H1. pose proof (HM I2) as H2. pose proof (HM I3) as H3. clear HM. revert HV H0 H1 H2 H3.
  dq4 V a0 a1 a2 a3; dq4 x x0 x1 x2 x3. destruct M as [[b0 b1 b2 b3] [c0 c1 c2 c3] [e0 e1 e2 e3] [d0 d1 d2 d3]], m as [[y0 y1 y2 y3] [z0 z1 z2 z3] [m20 m21 m22 m23] [t0 t1 t2 t3]]. cbn [lane qx qy qz qw]. hyps. geo. rewrite ?Rabs_R0, ?Rabs_R1 in *.
  destruct b as [|s3 s4 [|] av]; destruct i; cbv beta iota zeta delta [pre3]; fl; cbn [lane qx qy qz qw] in *; fin.
Qed.
Lemma pre2_err b V M x m i : holds2 V x -> holdsM M m -> safe (lane (vecmat (vabs (point2 x)) (mabs m)) i) ->
  within (5 * ulp_half * lane (vecmat (vabs (point2 x)) (mabs m)) i + 14 * tiny) (lane (pre2 b V M) i) (lane (vecmat (point2 x) m) i).
Proof.
  intros HV HM. pose proof (HM I0) as H0. pose proof (HM I1) as H1. pose proof (HM I3) as H3. clear HM. revert HV H0 H1 H3.
  dq4 V a0 a1 a2 a3; dq4 x x0 x1 x2 x3. destruct M as [[b0 b1 b2 b3] [c0 c1 c2 c3] M2 [d0 d1 d2 d3]], m as [[y0 y1 y2 y3] [z0 z1 z2 z3] [m20 m21 m22 m23] [t0 t1 t2 t3]]. cbn [lane qx qy qz qw]. hyps. geo. rewrite ?Rabs_R0, ?Rabs_R1 in *.
  destruct b as [|s3 s4 [|] av]; destruct i; cbv beta iota zeta delta [pre2]; fl; cbn [lane qx qy qz qw] in *; fin.
Qed.
Lemma vecmat_abs v m i : Rabs (lane (vecmat v m) i) <= lane (vecmat (vabs v) (mabs m)) i.
Proof.
  destruct v as [v0 v1 v2 v3], m as [[y0 y1 y2 y3] [z0 z1 z2 z3] [m20 m21 m22 m23] [t0 t1 t2 t3]].
  assert (T : forall p q r s : R, Rabs (p + q + r + s) <= Rabs p + Rabs q + Rabs r + Rabs s) by (intros; unfold Rabs; repeat destruct Rcase_abs; lra).
  destruct i; geo; rewrite <- ?Rabs_mult; (eapply Rle_trans; [|first [apply T | right; ring]]); right; f_equal; ring.
Qed.
Lemma coord_lane b (R : quad Z) i : lane (XMVectorDivide (L:=FL) b R (splat I3 R)) i = f_div (lane R i) (lane R I3).
Proof. destruct b, i; reflexivity. Qed.
Lemma coord3_err b V M x m i : let h := vecmat (point x) m in let s := vecmat (vabs (point x)) (mabs m) in
  holds3 V x -> holdsM M m -> safe (lane s i) -> safe (qw s) -> pow2 (-100) <= Rabs (qw h) -> 24 * ulp_half * qw s <= Rabs (qw h) -> lane s i / Rabs (qw h) <= pow2 125 ->
  within (ulp_half * (lane s i / Rabs (qw h)) * (10 + 8 * (qw s / Rabs (qw h))) + (20 / Rabs (qw h) + 2) * tiny) (lane (XMVector3TransformCoord (L:=FL) b V M) i) (lane h i / qw h).
Proof.
  intros h s HV HM Hi H3 Hd HC HO. change (XMVector3TransformCoord (L:=FL) b V M) with (XMVectorDivide (L:=FL) b (pre3 b V M) (splat I3 (pre3 b V M))). rewrite coord_lane.
  pose proof (pre3_err b V M x m i HV HM Hi) as A. pose proof (pre3_err b V M x m I3 HV HM H3) as B. fold h s in A, B. rewrite tiny_eta in *. change ulp_half with u24 in *.
  apply quot_err; [exact A|exact B|apply vecmat_abs|exact (vecmat_abs (point x) m I3)|exact Hd|exact HC|exact HO].
Qed.
Lemma coord2_err b V M x m i : let h := vecmat (point2 x) m in let s := vecmat (vabs (point2 x)) (mabs m) in
  holds2 V x -> holdsM M m -> safe (lane s i) -> safe (qw s) -> pow2 (-100) <= Rabs (qw h) -> 24 * ulp_half * qw s <= Rabs (qw h) -> lane s i / Rabs (qw h) <= pow2 125 ->
  within (ulp_half * (lane s i / Rabs (qw h)) * (10 + 8 * (qw s / Rabs (qw h))) + (20 / Rabs (qw h) + 2) * tiny) (lane (XMVector2TransformCoord (L:=FL) b V M) i) (lane h i / qw h).
Proof.
  intros h s HV HM Hi H3 Hd HC HO. change (XMVector2TransformCoord (L:=FL) b V M) with (XMVectorDivide (L:=FL) b (pre2 b V M) (splat I3 (pre2 b V M))). rewrite coord_lane.
  pose proof (pre2_err b V M x m i HV HM Hi) as A. pose proof (pre2_err b V M x m I3 HV HM H3) as B. fold h s in A, B. rewrite tiny_eta in *. change ulp_half with u24 in *.
  apply quot_err; [exact A|exact B|apply vecmat_abs|exact (vecmat_abs (point2 x) m I3)|exact Hd|exact HC|exact HO].
Qed.
