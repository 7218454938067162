(** Rounding errors of the field-of-view projections against the true sine and cosine. *)
From Coq Require Import Reals Lra Lia ZArith Bool.
From Flocq Require Import Core IEEE754.BinarySingleNaN.
From Verif Require Import Base F32 F32Facts Intrin Lane MVec MTrig MQuat MMatrix SpecF32 PF32 PFloat PExp PReal SpecGeom SpecQuat SpecMat SpecRot PTrigPoly PTrig PTrigFn PRotFn SpecErr SpecErrP PErr PTrigF PRotF PErrProj.
Open Scope R_scope.
Local Opaque f_add f_sub f_mul f_div f_sqrt f_fma f_lit f_neg f_eq f_lt f_le XMScalarSin XMScalarCos.

Lemma sin_mid x : 5 / 100 <= x <= 157 / 100 -> 499 / 10000 <= sin x.
Proof.
  intros H. assert (P : 157 / 100 <= PI / 2) by (pose proof PI_close; unfold PI32 in *; lra).
  apply Rle_trans with (sin (5 / 100)).
  - pose proof (sinp_err (5 / 100)) as E. assert (L : Rabs (5 / 100) <= halfPI32) by (rewrite Rabs_pos_eq; unfold halfPI32; lra). specialize (E L). apply Rabs_le_inv in E. unfold sinp, poly_err in E. lra.
  - destruct (proj1 H) as [L|L]; [|rewrite <- L; lra]. left. apply sin_increasing_1; lra.
Qed.
Lemma fov_sc zv v : is32 zv v -> 1 / 10 <= v <= 3 -> exists zs zc s c, XMScalarSinCos (L:=FL) (tmul (half (L:=FL)) zv) = (zs, zc) /\ value zs = Fin s /\ value zc = Fin c /\
  span' 30 s /\ span' 30 c /\ sin (v / 2) <> 0 /\ Rabs (c / s - cos (v / 2) / sin (v / 2)) <= 102 / 1000000 * Rabs (cos (v / 2) / sin (v / 2)).
Proof.
  intros I H. assert (A10 : Rabs v <= 10) by (rewrite Rabs_pos_eq; lra). destruct (half_is32 zv v I A10) as (IH & _ & _). pose proof (half_err v (proj1 (value_fmt _ _ (proj2 I)))) as HE.
  assert (HB : 0 <= RN (v / 2) <= 15001 / 10000) by (apply Rabs_le_inv in HE; lra).
  change (tmul (half (L:=FL)) zv) with (f_mul (f_lit 1 (-1)) zv). set (hz := f_mul (f_lit 1 (-1)) zv) in *. rewrite (sincos_scalar_pair FL hz).
  destruct (scalar_sincos_F hz _ IH) as ((s & Vs & Es) & (c & Vc & Ec)); [unfold amax; rewrite Rabs_pos_eq; lra|].
  destruct (sin_cos_half _ v HE) as (LS & LC). assert (SE : sincos_err (RN (v / 2)) <= 16502 / 10000000000) by (unfold sincos_err; rewrite Rabs_pos_eq; lra).
  assert (Pb : 1570796 / 1000000 <= PI / 2 <= 1570797 / 1000000) by (pose proof PI_close; unfold PI32 in *; lra).
  pose proof (sin_mid (v / 2) ltac:(lra)) as S0. pose proof (sin_mid (PI / 2 - v / 2) ltac:(lra)) as C0. rewrite sin_shift in C0.
  pose proof (SIN_bound (v / 2)) as SB. pose proof (COS_bound (v / 2)) as CB.
  set (S := sin (v / 2)) in *. set (C := cos (v / 2)) in *. set (sh := sin (RN (v / 2))) in *. set (ch := cos (RN (v / 2))) in *. clearbody S C sh ch.
  assert (DS : Rabs (s - S) <= 17 / 10000000) by (apply Rabs_le_inv in Es; apply Rabs_le_inv in LS; apply Rabs_le; lra).
  assert (DC : Rabs (c - C) <= 17 / 10000000) by (apply Rabs_le_inv in Ec; apply Rabs_le_inv in LC; apply Rabs_le; lra).
  destruct (quot_near c s C S (17 / 10000000)) as (c0 & s0 & N); try assumption; try lra.
  exists (XMScalarSin (L:=FL) hz), (XMScalarCos (L:=FL) hz), s, c. split; [reflexivity|]. split; [exact Vs|]. split; [exact Vc|].
  apply Rabs_le_inv in DS. apply Rabs_le_inv in DC. unfold span'. rewrite (Rabs_pos_eq s), (Rabs_pos_eq c) by lra. change (pow2 30) with 1073741824. change (pow2 (- (30))) with (/ 1073741824).
  split; [lra|]. split; [lra|]. split; [lra|]. rewrite Rabs_pos_eq with (x := C / S); [exact N|]. apply Rmult_le_pos; [lra|left; apply Rinv_0_lt_compat; lra].
Qed.
Lemma near_chain v x' x : Rabs (x' - x) <= 102 / 1000000 * Rabs x -> Rabs (v - x') <= 5 * ulp_half * Rabs x' -> Rabs (v - x) <= 1800 * ulp_half * Rabs x.
Proof.
  intros H1 H2. assert (X : Rabs x' <= (1 + 102 / 1000000) * Rabs x) by (replace x' with (x' - x + x) by ring; eapply Rle_trans; [apply Rabs_triang|lra]).
  replace (v - x) with ((v - x') + (x' - x)) by ring. eapply Rle_trans; [apply Rabs_triang|]. pose proof (Rabs_pos x). unfold ulp_half in *. lra.
Qed.
Lemma near_same v x : Rabs (v - x) <= 5 * ulp_half * Rabs x -> Rabs (v - x) <= 1800 * ulp_half * Rabs x.
Proof. intros H. pose proof (Rabs_pos x). unfold ulp_half in *. lra. Qed.
Lemma near_div p q a : Rabs (p - q) <= 102 / 1000000 * Rabs q -> Rabs (p / a - q / a) <= 102 / 1000000 * Rabs (q / a).
Proof.
  intros H. unfold Rdiv. replace (p * / a - q * / a) with ((p - q) * / a) by ring. rewrite !Rabs_mult. replace (102 * / 1000000 * (Rabs q * Rabs (/ a))) with (102 / 1000000 * Rabs q * Rabs (/ a)) by (unfold Rdiv; ring).
  apply Rmult_le_compat_r; [apply Rabs_pos|exact H].
Qed.
Lemma fov_true_lh b zn zf n f M zv za v a : XMMatrixPerspectiveFovLH (L:=FL) b zv za zn zf = Some M -> is32 zv v -> is32 za a -> is32 zn n -> is32 zf f -> 1 / 10 <= v <= 3 ->
  span' 30 a -> span' 30 n -> span' 30 f -> span' 40 (f - n) -> mclose 1800 M (persp_fov_lh (sin (v / 2)) (cos (v / 2)) a n f).
Proof.
  intros HM Iv Ia In If Hv Sa Sn Sf Sd. destruct (fov_sc zv v Iv Hv) as (zs & zc & s & c & E & Vs & Vc & Ss & Sc & _ & N).
  pose proof (fov_lh_err _ _ _ _ _ _ _ _ _ _ _ _ _ HM E Vs Vc Ia In If Ss (span'_span _ _ Sc) Sa Sn Sf Sd) as K.
  intros i j. destruct (K i j) as (r & Vr & Er). exists r. split; [exact Vr|]. revert Er. destruct i, j; unfold entry, persp_fov_lh; cbn [lane qx qy qz qw]; try apply near_same; apply near_chain; [apply near_div|]; exact N.
Qed.
Lemma fov_true_rh b zn zf n f M zv za v a : XMMatrixPerspectiveFovRH (L:=FL) b zv za zn zf = Some M -> is32 zv v -> is32 za a -> is32 zn n -> is32 zf f -> 1 / 10 <= v <= 3 ->
  span' 30 a -> span' 30 n -> span' 30 f -> span' 40 (n - f) -> mclose 1800 M (persp_fov_rh (sin (v / 2)) (cos (v / 2)) a n f).
Proof.
  intros HM Iv Ia In If Hv Sa Sn Sf Sd. destruct (fov_sc zv v Iv Hv) as (zs & zc & s & c & E & Vs & Vc & Ss & Sc & _ & N).
  pose proof (fov_rh_err _ _ _ _ _ _ _ _ _ _ _ _ _ HM E Vs Vc Ia In If Ss (span'_span _ _ Sc) Sa Sn Sf Sd) as K.
  intros i j. destruct (K i j) as (r & Vr & Er). exists r. split; [exact Vr|]. revert Er. destruct i, j; unfold entry, persp_fov_rh; cbn [lane qx qy qz qw]; try apply near_same; apply near_chain; [apply near_div|]; exact N.
Qed.
