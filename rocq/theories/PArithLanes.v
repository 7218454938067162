(** The lanes of the element-wise arithmetic functions, and XMVectorMod outside the exact case. *)
From Coq Require Import Reals Lra Lia ZArith Bool.
From Flocq Require Import Core IEEE754.BinarySingleNaN Relative.
From Verif Require Import Base F32 F32Facts Intrin Lane MVec MTrig SpecF32 PF32 PFloat PExp PReal SpecErr PErr PFix PTrigF PArcF PHyp SpecArith PArith PMod.
Open Scope R_scope.

Ltac flr := lazy beta iota zeta delta [XMVectorAdd XMVectorSubtract XMVectorMultiply XMVectorDivide XMVectorScale XMVectorReciprocal XMVectorSqrt XMVectorReciprocalSqrt
  XMVectorMultiplyAdd XMVectorNegativeMultiplySubtract FMADD FNMADD vadd vsub vmul vdiv vsqrt vone one qrep lane qx qy qz qw qmap qmap2 qmap3 T tadd tsub tmul tdiv tneg tsqrt tfma tlit FL].
Ltac dv V := let a := fresh in let b := fresh in let c := fresh in let d := fresh in destruct V as [a b c d].
Ltac db b := let s := fresh in destruct b as [|? ? s ?]; [|destruct s].
Lemma lane_add b V1 V2 k : lane (XMVectorAdd (L:=FL) b V1 V2) k = f_add (lane V1 k) (lane V2 k).
Proof. dv V1; dv V2; destruct b, k; flr; reflexivity. Qed.
Lemma lane_sub b V1 V2 k : lane (XMVectorSubtract (L:=FL) b V1 V2) k = f_sub (lane V1 k) (lane V2 k).
Proof. dv V1; dv V2; destruct b, k; flr; reflexivity. Qed.
Lemma lane_mul b V1 V2 k : lane (XMVectorMultiply (L:=FL) b V1 V2) k = f_mul (lane V1 k) (lane V2 k).
Proof. dv V1; dv V2; destruct b, k; flr; reflexivity. Qed.
Lemma lane_div b V1 V2 k : lane (XMVectorDivide (L:=FL) b V1 V2) k = f_div (lane V1 k) (lane V2 k).
Proof. dv V1; dv V2; destruct b, k; flr; reflexivity. Qed.
Lemma lane_scale b V s k : lane (XMVectorScale (L:=FL) b V s) k = f_mul (lane V k) s.
Proof. dv V; destruct b, k; flr; first [reflexivity | apply f_mul_comm]. Qed.
Lemma lane_recip b V k : lane (XMVectorReciprocal (L:=FL) b V) k = f_div (f_lit 1 0) (lane V k).
Proof. dv V; destruct b, k; flr; reflexivity. Qed.
Lemma lane_sqrt b V k : lane (XMVectorSqrt (L:=FL) b V) k = f_sqrt (lane V k).
Proof. dv V; destruct b, k; flr; reflexivity. Qed.
Lemma lane_rsqrt b V k : lane (XMVectorReciprocalSqrt (L:=FL) b V) k = f_div (f_lit 1 0) (f_sqrt (lane V k)).
Proof. dv V; destruct b, k; flr; reflexivity. Qed.
Definition no_fma (b : backend) : Prop := match b with SSE _ _ true _ => False | _ => True end.
Lemma lane_madd b V1 V2 V3 k : no_fma b -> lane (XMVectorMultiplyAdd (L:=FL) b V1 V2 V3) k = f_add (f_mul (lane V1 k) (lane V2 k)) (lane V3 k) /\
  lane (XMVectorNegativeMultiplySubtract (L:=FL) b V1 V2 V3) k = f_sub (lane V3 k) (f_mul (lane V1 k) (lane V2 k)).
Proof. intros H. dv V1; dv V2; dv V3; destruct b as [|s3 s4 [|] av]; try contradiction; destruct k; flr; split; reflexivity. Qed.
Lemma lane_madd_fma s3 s4 av V1 V2 V3 k : lane (XMVectorMultiplyAdd (L:=FL) (SSE s3 s4 true av) V1 V2 V3) k = f_fma (lane V1 k) (lane V2 k) (lane V3 k) /\
  lane (XMVectorNegativeMultiplySubtract (L:=FL) (SSE s3 s4 true av) V1 V2 V3) k = f_fma (f_neg (lane V1 k)) (lane V2 k) (lane V3 k).
Proof. dv V1; dv V2; dv V3; destruct k; flr; split; reflexivity. Qed.

Lemma lanes_add_sub b V1 V2 k :
  is_add (value (lane V1 k)) (value (lane V2 k)) (value (lane (XMVectorAdd (L:=FL) b V1 V2) k)) /\
  is_sub (value (lane V1 k)) (value (lane V2 k)) (value (lane (XMVectorSubtract (L:=FL) b V1 V2) k)).
Proof. rewrite lane_add, lane_sub. split; [apply add_is|apply sub_is]. Qed.
Lemma lanes_mul_div b V1 V2 k :
  is_mul (value (lane V1 k)) (value (lane V2 k)) (value (lane (XMVectorMultiply (L:=FL) b V1 V2) k)) /\
  is_div (bit_sign (lane V1 k)) (bit_sign (lane V2 k)) (value (lane V1 k)) (value (lane V2 k)) (value (lane (XMVectorDivide (L:=FL) b V1 V2) k)).
Proof. rewrite lane_mul, lane_div. split; [apply mul_is|apply div_is]. Qed.
Lemma one_div z : is_div false (bit_sign z) (Fin 1) (value z) (value (f_div (f_lit 1 0) z)).
Proof. pose proof (div_is (f_lit 1 0) z) as H. rewrite val_one in H. replace (bit_sign (f_lit 1 0)) with false in H by (vm_compute; reflexivity). exact H. Qed.
Lemma lanes_scale b V s k :
  is_mul (value (lane V k)) (value s) (value (lane (XMVectorScale (L:=FL) b V s) k)) /\
  is_div false (bit_sign (lane V k)) (Fin 1) (value (lane V k)) (value (lane (XMVectorReciprocal (L:=FL) b V) k)) /\
  is_sqrt (value (lane V k)) (value (lane (XMVectorSqrt (L:=FL) b V) k)).
Proof. rewrite lane_scale, lane_recip, lane_sqrt. split; [apply mul_is|]. split; [apply one_div|apply sqrt_is]. Qed.
Lemma lanes_rsqrt b V k : exists s : Z,
  is_sqrt (value (lane V k)) (value s) /\ is_div false (bit_sign s) (Fin 1) (value s) (value (lane (XMVectorReciprocalSqrt (L:=FL) b V) k)).
Proof. exists (f_sqrt (lane V k)). rewrite lane_rsqrt. split; [apply sqrt_is|apply one_div]. Qed.
Lemma lanes_fma s3 s4 av V1 V2 V3 k : word (lane V1 k) ->
  is_fma (value (lane V1 k)) (value (lane V2 k)) (value (lane V3 k)) (value (lane (XMVectorMultiplyAdd (L:=FL) (SSE s3 s4 true av) V1 V2 V3) k)) /\
  is_fma (xneg (value (lane V1 k))) (value (lane V2 k)) (value (lane V3 k)) (value (lane (XMVectorNegativeMultiplySubtract (L:=FL) (SSE s3 s4 true av) V1 V2 V3) k)).
Proof. intros W. destruct (lane_madd_fma s3 s4 av V1 V2 V3 k) as (-> & ->). rewrite <- value_neg by exact W. split; apply fma_is. Qed.
Lemma lanes_fma_plain b V1 V2 V3 k : no_fma b -> exists p,
  is_mul (value (lane V1 k)) (value (lane V2 k)) p /\
  is_add p (value (lane V3 k)) (value (lane (XMVectorMultiplyAdd (L:=FL) b V1 V2 V3) k)) /\
  is_sub (value (lane V3 k)) p (value (lane (XMVectorNegativeMultiplySubtract (L:=FL) b V1 V2 V3) k)).
Proof.
  intros H. destruct (lane_madd b V1 V2 V3 k H) as (-> & ->). exists (value (f_mul (lane V1 k) (lane V2 k))).
  split; [apply mul_is|]. split; [apply add_is|apply sub_is].
Qed.

(** ** the rounded value is unique *)
Lemma even_prop x r : last_even r -> NE_prop radix2 fx32 x r.
Proof.
  intros (m & e & (Hm & He & Hn & Ev) & E). rewrite pow2_bpow in E. destruct (Z.eq_dec m 0) as [Z0|N0].
  - exists (Float radix2 0 (cexp radix2 fx32 0)). subst m. rewrite Rmult_0_l in E. rewrite E. unfold canonical. rewrite F2R_0. repeat split.
  - exists (Float radix2 m e). split; [exact E|]. split; [|exact Ev]. unfold canonical. cbn [Fexp].
    unfold cexp, FLT_exp. rewrite mag_F2R_Zdigits by exact N0. destruct Hn as [Hn|Hn].
    + rewrite (Zdigits_unique radix2 m 24); [lia|]. change (radix2 ^ (24 - 1))%Z with (2 ^ 23)%Z. change (radix2 ^ 24)%Z with (2 ^ 24)%Z. lia.
    + assert (D : (Zdigits radix2 m <= 24)%Z) by (apply Zdigits_le_Zpower; exact Hm). lia.
Qed.
Lemma nearest_unique x r : nearest32 x r -> r = RN x.
Proof.
  intros (R1 & R2 & R3). destruct (nearest_RN x) as (S1 & S2 & _). destruct (Req_dec r (RN x)) as [|N]; [assumption|].
  assert (E : Rabs (RN x - x) = Rabs (r - x)) by (apply Rle_antisym; auto).
  pose proof (even_prop x r (R3 _ S1 (not_eq_sym N) E)) as A.
  apply (round_unique (Rnd_NE_pt radix2 fx32) (Rnd_NE_pt_monotone radix2 fx32) x).
  - split; [|left; exact A]. split; [apply single_fmt; exact R1|]. intros g G. apply R2, single_fmt, G.
  - apply round_NE_pt; typeclasses eauto.
Qed.
Lemma rounded_unique x v w : rounded x v -> rounded x w -> v = w.
Proof.
  intros (r & R & A) (s & S & B). apply nearest_unique in R, S. subst r s.
  destruct A as [(A1 & ->)|(A1 & a & -> & A2)], B as [(B1 & ->)|(B1 & b & -> & B2)]; try reflexivity; try lra.
  f_equal. destruct a, b; try reflexivity; exfalso; intuition discriminate.
Qed.

Lemma RN_rel x : bpow radix2 (-126) <= Rabs x -> Rabs (RN x - x) <= u24 * Rabs x.
Proof.
  intros H. pose proof (relative_error_N_FLT radix2 (-149) 24 eq_refl (fun x => negb (Z.even x)) x H) as R.
  change (/ 2 * bpow radix2 (- (24) + 1)) with (/ 2 * / 8388608) in R. unfold u24. change (round radix2 (FLT_exp (-149) 24) (Znearest (fun x => negb (Z.even x))) x) with (RN x) in R. lra.
Qed.
(** ** the reciprocal square root and the horizontal sum *)
Lemma rsqrt_word z x : is32 z x -> 0 < x -> within (3 * ulp_half * / sqrt x) (f_div (f_lit 1 0) (f_sqrt z)) (/ sqrt x).
Proof.
  intros (W & E) Hx. pose proof (sqrt_lt_R0 x Hx) as SP.
  destruct (value_fmt _ _ E) as (Fx & Hh). rewrite Rabs_pos_eq in Hh by lra.
  assert (XL : bpow radix2 (-149) <= x).
  { destruct (Rle_or_lt (bpow radix2 (-149)) x) as [|K]; [assumption|]. apply single_fmt in Fx. destruct Fx as (m & e & (Hm & He) & EX). rewrite pow2_bpow in EX.
    assert (1 <= m)%Z. { destruct (Z_lt_le_dec m 1) as [C|C]; [|exact C]. assert (IZR m <= 0) by (apply IZR_le; lia). pose proof (bpow_gt_0 radix2 e). nra. }
    assert (1 <= IZR m) by (apply IZR_le; assumption). pose proof (bpow_le radix2 _ _ He). pose proof (bpow_gt_0 radix2 e). nra. }
  assert (SL : bpow radix2 (-75) <= sqrt x).
  { rewrite <- (sqrt_Rsqr (bpow radix2 (-75))) by apply bpow_ge_0. apply sqrt_le_1_alt. unfold Rsqr. rewrite <- bpow_plus. eapply Rle_trans; [|exact XL]. apply bpow_le. lia. }
  assert (SU : sqrt x < bpow radix2 64).
  { rewrite <- (sqrt_Rsqr (bpow radix2 64)) by apply bpow_ge_0. apply sqrt_lt_1_alt. split; [lra|]. unfold Rsqr. rewrite <- bpow_plus. exact Hh. }
  assert (R1 : Rabs (RN (sqrt x) - sqrt x) <= u24 * sqrt x).
  { rewrite <- (Rabs_pos_eq (sqrt x)) at 3 by lra. apply RN_rel. rewrite Rabs_pos_eq by lra. eapply Rle_trans; [|exact SL]. apply bpow_le. lia. }
  assert (G : exists s, value (f_sqrt z) = Fin s /\ Rabs (s - sqrt x) <= u24 * sqrt x).
  { exists (RN (sqrt x)). split; [|exact R1]. apply sqrt_val; [exact E|lra]. }
  destruct G as (s & Vs & Hs). apply Rabs_le_inv in Hs.
  assert (U : u24 = / 16777216) by (unfold u24; lra). assert (sqrt x * (1 - u24) <= s <= sqrt x * (1 + u24)) by lra.
  assert (S0 : 0 < s) by (rewrite U in *; nra).
  assert (I1 : bpow radix2 (-65) <= / s).
  { change (-65)%Z with (- (65))%Z. rewrite bpow_opp. apply Rinv_le; [exact S0|]. change 65%Z with (64 + 1)%Z. rewrite bpow_plus. change (bpow radix2 1) with 2. rewrite U in *. lra. }
  assert (I2 : / s <= bpow radix2 76).
  { change 76%Z with (- (- (76)))%Z. rewrite bpow_opp. apply Rinv_le; [apply bpow_gt_0|]. change (-(76))%Z with (-75 + -1)%Z. rewrite bpow_plus. change (bpow radix2 (-1)) with (/ 2). rewrite U in *. pose proof (bpow_gt_0 radix2 (-75)). lra. }
  assert (R2 : Rabs (RN (1 / s) - 1 / s) <= u24 * / s).
  { replace (1 / s) with (/ s) by (field; lra). rewrite <- (Rabs_pos_eq (/ s)) at 3 by (left; apply Rinv_0_lt_compat; exact S0). apply RN_rel. rewrite Rabs_pos_eq by (left; apply Rinv_0_lt_compat; exact S0). eapply Rle_trans; [|exact I1]. apply bpow_le. lia. }
  exists (RN (1 / s)). split.
  - apply div_val; [exact val_one|exact Vs|lra|]. replace (RN (1 / s)) with ((RN (1 / s) - 1 / s) + / s) by (field; lra). eapply Rle_lt_trans; [apply Rabs_triang|].
    rewrite (Rabs_pos_eq (/ s)) by (left; apply Rinv_0_lt_compat; exact S0). unfold huge. apply Rle_lt_trans with (bpow radix2 76 * 2); [rewrite U in *; pose proof (Rinv_0_lt_compat _ S0); lra|].
    change 2 with (bpow radix2 1). rewrite <- bpow_plus. apply bpow_lt. lia.
  - assert (I3 : Rabs (/ s - / sqrt x) <= 3 / 2 * u24 * / sqrt x).
    { replace (/ s - / sqrt x) with ((sqrt x - s) * / s * / sqrt x) by (field; lra). rewrite 2 Rabs_mult. rewrite (Rabs_pos_eq (/ sqrt x)), (Rabs_pos_eq (/ s)) by (left; apply Rinv_0_lt_compat; assumption).
      apply Rmult_le_compat_r; [left; apply Rinv_0_lt_compat; exact SP|]. apply Rmult_le_reg_r with s; [exact S0|]. rewrite Rmult_assoc, Rinv_l, Rmult_1_r by lra.
      apply Rabs_le. rewrite U in *. lra. }
    assert (I4 : / s <= 11 / 10 * / sqrt x).
    { apply Rmult_le_reg_r with s; [exact S0|]. rewrite Rinv_l by lra. apply Rmult_le_reg_l with (sqrt x); [exact SP|]. replace (sqrt x * (11 / 10 * / sqrt x * s)) with (11 / 10 * s) by (field; lra). rewrite U in *. lra. }
    replace (RN (1 / s) - / sqrt x) with ((RN (1 / s) - 1 / s) + (/ s - / sqrt x)) by (field; lra). eapply Rle_trans; [apply Rabs_triang|].
    replace ulp_half with u24 by (unfold ulp_half, u24; lra). rewrite U in *. pose proof (Rinv_0_lt_compat _ SP). lra.
Qed.
Lemma rsqrt_err b V k x : is32 (lane V k) x -> 0 < x ->
  within (3 * ulp_half * / sqrt x) (lane (XMVectorReciprocalSqrt (L:=FL) b V) k) (/ sqrt x).
Proof. rewrite lane_rsqrt. apply rsqrt_word. Qed.
Lemma sum_err b V x k : holds4 V x -> safe (Rabs (qx x) + Rabs (qy x) + Rabs (qz x) + Rabs (qw x)) ->
  within (4 * ulp_half * (Rabs (qx x) + Rabs (qy x) + Rabs (qz x) + Rabs (qw x)) + 6 * tiny) (lane (XMVectorSum (L:=FL) b V) k) (qx x + qy x + qz x + qw x).
Proof.
  dq4 V a0 a1 a2 a3; dq4 x x0 x1 x2 x3. hyps.
  destruct b as [|[|] s4 f av]; destruct k; cbv beta iota zeta delta [XMVectorSum]; fl; fin.
Qed.

(** ** XMVectorMod *)
Lemma cut_RN x y z w : is32 z x -> is32 w y -> y <> 0 -> exists q, nearest32 (x / y) q /\ q = RN (x / y).
Proof. intros _ _ _. exists (RN (x / y)). split; [apply nearest_RN|reflexivity]. Qed.
Lemma cut_trunc q : IZR (Z.abs (Ztrunc q)) <= Rabs q < IZR (Z.abs (Ztrunc q)) + 1 /\ 0 <= IZR (Ztrunc q) * q.
Proof.
  rewrite <- Ztrunc_abs. split; [|].
  - rewrite Ztrunc_floor by apply Rabs_pos. split; [apply Zfloor_lb|apply Zfloor_ub].
  - destruct (Rle_or_lt 0 q) as [P|P].
    + rewrite Ztrunc_floor by exact P. assert (0 <= Zfloor q)%Z by (apply Zfloor_lub; exact P). assert (0 <= IZR (Zfloor q)) by (apply IZR_le; assumption). nra.
    + rewrite Ztrunc_ceil by lra. assert (Zceil q <= 0)%Z by (apply Zceil_glb; lra). assert (IZR (Zceil q) <= 0) by (apply IZR_le; assumption). nra.
Qed.
Lemma cut_ok x y : cut_quotient x y (Ztrunc (RN (x / y))).
Proof. exists (RN (x / y)). split; [apply nearest_RN|apply cut_trunc]. Qed.
Lemma mod_fused_lane s3 s4 av V W k x y : is32 (lane V k) x -> is32 (lane W k) y -> y <> 0 -> Rabs x < 16777216 * Rabs y ->
  exists n, cut_quotient x y n /\ let r := x - IZR n * y in
  value (lane (XMVectorMod (L:=FL) (SSE s3 s4 true av) V W) k) = Fin r /\ Rabs r <= Rabs y /\ Rabs r <= Rabs x /\
  ((0 <= r * x /\ Rabs r < Rabs y) \/ Rabs r <= ulp_half * Rabs x).
Proof.
  intros HV HW H0 HQ. exists (Ztrunc (RN (x / y))). split; [apply cut_ok|]. cbv zeta. rewrite mod_lane_eq.
  split; [apply mod_fused; assumption|]. destruct (rem_sizes _ _ H0 HQ) as (_ & A & B & C). split; [exact A|]. split; [exact B|].
  replace ulp_half with u24 by (unfold ulp_half, u24; lra). exact C.
Qed.
Lemma mod_plain_lane b V W k x y : no_fma b -> is32 (lane V k) x -> is32 (lane W k) y -> y <> 0 -> Rabs x < 16777216 * Rabs y -> safe (Rabs x) ->
  exists n, cut_quotient x y n /\ let r := x - IZR n * y in
  within (4 * ulp_half * Rabs x + 3 * tiny) (lane (XMVectorMod (L:=FL) b V W) k) r /\
  ((0 <= r * x /\ Rabs r < Rabs y) \/ Rabs r <= ulp_half * Rabs x).
Proof.
  intros HB HV HW H0 HQ HS. exists (Ztrunc (RN (x / y))). split; [apply cut_ok|]. cbv zeta. rewrite mod_lane_eq.
  assert (UH : ulp_half = u24) by (unfold ulp_half, u24; lra). rewrite UH, tiny_eta. unfold safe in HS. rewrite pow2_bpow in HS. split.
  - exact (mod_plain _ _ _ _ HV HW H0 HQ b HB HS).
  - apply (rem_sizes _ _ H0 HQ).
Qed.
Lemma tr_special b q : word q -> (value q = NaN -> value (tr_lane b q) = NaN) /\ (forall s, value q = Inf s -> value (tr_lane b q) = Inf s).
Proof.
  intros W. assert (T : (value q = NaN -> value (f_trunc q) = NaN) /\ (forall s, value q = Inf s -> value (f_trunc q) = Inf s)).
  { unfold f_trunc. rewrite value_enc, value_dec. destruct (dec q); split; intros; try discriminate; cbn [Bnearbyint xof] in *; assumption. }
  destruct b; [|exact T]. unfold tr_lane. split.
  - intros E. replace (f_isnan q) with true by (symmetry; apply f_isnan_spec; exact E). vm_compute. reflexivity.
  - intros s E. replace (f_isnan q) with false by (symmetry; apply not_true_is_false; intros K; apply f_isnan_spec in K; congruence).
    replace (f_lt (f_abs q) (f_lit 8388608 0)) with false; [exact E|]. symmetry. apply not_true_is_false. intros K. apply f_lt_spec in K.
    rewrite value_abs in K by exact W. rewrite E in K. rewrite (lit_exact 8388608 0) in K by lia. exact K.
Qed.
Lemma word_tr b q : word q -> word (tr_lane b q).
Proof. intros H. unfold tr_lane. destruct b; [|apply enc_word]. destruct (f_isnan _); [split; [discriminate|reflexivity]|]. destruct (f_lt _ _); [apply enc_word|exact H]. Qed.
Lemma add_nan a b v : a = NaN \/ b = NaN -> is_add a b v -> v = NaN.
Proof. intros [-> | ->]; [destruct b|destruct a]; cbn [is_add]; auto. Qed.
Lemma prod_nan a b v : a = NaN \/ b = NaN -> is_prod a b v -> v = NaN.
Proof. intros [-> | ->]; [destruct b|destruct a]; cbn [is_prod]; auto. Qed.
Lemma mod_nan b z w : word z -> word w -> (forall p, is_prod (value (tr_lane b (f_div z w))) (value w) p -> p = NaN) \/ value z = NaN ->
  value (mod_q b z w) = NaN.
Proof.
  intros Wz Ww H. assert (WT : word (tr_lane b (f_div z w))) by (apply word_tr, enc_word). set (t := tr_lane b (f_div z w)) in *.
  assert (SUB : value (f_sub z (f_mul t w)) = NaN).
  { pose proof (sub_is z (f_mul t w)) as S. unfold is_sub in S. eapply add_nan; [|exact S]. destruct H as [H|H]; [right|left; exact H].
    destruct (mul_is t w) as (p & P & Q). apply H in P. subst p. rewrite Q. reflexivity. }
  unfold mod_q. destruct b as [|s3 s4 [|] av]; fold t; [rewrite f_mul_comm; exact SUB| |exact SUB].
  destruct (fma_is (f_neg t) w z) as (p & P & Q). eapply add_nan; [|exact Q]. destruct H as [H|H]; [left|right; exact H].
  rewrite value_neg in P by exact WT. clear - P H. clearbody t. destruct (value t) as [|s|x], (value w) as [|s'|y]; cbn [xneg is_prod] in P, H; try exact P.
  - specialize (H (Inf (xorb s s')) eq_refl). discriminate.
  - destruct (Req_dec y 0) as [Y|Y]; [destruct P as [P|P]; [apply P|lra]|]. exfalso. destruct (Rlt_or_le y 0) as [L|L].
    + specialize (H (Inf (negb s)) (or_intror (or_introl (conj L eq_refl)))). discriminate.
    + assert (L' : 0 < y) by lra. specialize (H (Inf s) (or_intror (or_intror (conj L' eq_refl)))). discriminate.
  - destruct (Req_dec x 0) as [Y|Y]; [destruct P as [P|P]; [apply P|lra]|]. exfalso. destruct (Rlt_or_le x 0) as [L|L].
    + specialize (H (Inf (negb s')) (or_intror (or_introl (conj L eq_refl)))). discriminate.
    + assert (L' : 0 < x) by lra. specialize (H (Inf s') (or_intror (or_intror (conj L' eq_refl)))). discriminate.
  - specialize (H (Fin (x * y)) eq_refl). discriminate.
Qed.
Lemma fin_sign w y : value w = Fin y -> (y < 0 -> bit_sign w = true) /\ (0 < y -> bit_sign w = false).
Proof.
  intros H. unfold value in H. 
  assert (P : forall n e, (0 <= n)%Z -> 0 <= IZR n * pow2 e) by (intros n e N; rewrite pow2_bpow; apply Rmult_le_pos; [apply IZR_le; exact N|apply bpow_ge_0]).
  assert (0 <= bit_frac w)%Z by (unfold bit_frac; apply Z.mod_pos_bound; reflexivity).
  destruct (bit_exp w =? 255)%Z; [destruct (bit_frac w =? 0)%Z; discriminate|].
  assert (S : forall r, 0 <= r -> Fin (signed (bit_sign w) r) = Fin y -> (y < 0 -> bit_sign w = true) /\ (0 < y -> bit_sign w = false)).
  { intros r Hr E. apply fin_inj in E. destruct (bit_sign w); cbn [signed] in E; split; intros; try reflexivity; exfalso; lra. }
  destruct (bit_exp w =? 0)%Z; (eapply S; [|exact H]; apply P; lia).
Qed.
Lemma mod_inf_top b z w s : word z -> word w -> value z = Inf s -> value (mod_q b z w) = NaN.
Proof.
  intros Wz Ww Vz. pose proof (div_is z w) as D. rewrite Vz in D. destruct (tr_special b (f_div z w) (enc_word _)) as (T1 & T2).
  destruct (value w) as [|s'|y] eqn:Vw; cbn [is_div] in D.
  1, 2: apply mod_nan; [exact Wz|exact Ww|left; intros p P; rewrite (T1 D) in P; exact P].
  assert (TV := T2 _ D). destruct (fin_sign w y Vw) as (S1 & S2). assert (WT : word (tr_lane b (f_div z w))) by (apply word_tr, enc_word).
  destruct (Req_dec y 0) as [Y|Y]. { apply mod_nan; [exact Wz|exact Ww|left; intros p P]. rewrite TV, Vw in P. cbn [is_prod] in P. destruct P as [P|P]; [apply P|lra]. }
  assert (PR : forall p, is_prod (Inf (xorb s (bit_sign w))) (Fin y) p -> p = Inf s).
  { intros p [P|[P|P]]; [lra| |]; destruct P as (P & ->); [rewrite S1 by exact P|rewrite S2 by exact P]; destruct s; reflexivity. }
  assert (PN : forall p, is_prod (xneg (Inf (xorb s (bit_sign w)))) (Fin y) p -> p = Inf (negb s)).
  { intros p [P|[P|P]]; [lra| |]; destruct P as (P & ->); [rewrite S1 by exact P|rewrite S2 by exact P]; destruct s; reflexivity. }
  set (t := tr_lane b (f_div z w)) in *.
  assert (SUB : value (f_sub z (f_mul t w)) = NaN).
  { pose proof (sub_is z (f_mul t w)) as S. unfold is_sub in S. destruct (mul_is t w) as (p & P & Q). rewrite TV, Vw in P. apply PR in P. subst p. rewrite Q, Vz in S. cbn [xneg is_add] in S. rewrite S. destruct s; reflexivity. }
  unfold mod_q. destruct b as [|s3 s4 [|] av]; fold t; [rewrite f_mul_comm; exact SUB| |exact SUB].
  destruct (fma_is (f_neg t) w z) as (p & P & Q). rewrite value_neg, TV, Vw in P by exact WT. apply PN in P. subst p. rewrite Vz in Q. cbn [is_add] in Q. rewrite Q. destruct s; reflexivity.
Qed.
Lemma mod_invalid_w b z w : word z -> word w ->
  value z = NaN \/ value w = NaN \/ value w = Fin 0 \/ (exists s, value z = Inf s) -> value (mod_q b z w) = NaN.
Proof.
  intros Wz Ww H.
  destruct H as [H|[H|[H|(s & H)]]]; [apply mod_nan; auto|apply mod_nan; [exact Wz|exact Ww|left]|apply mod_nan; [exact Wz|exact Ww|left]|apply mod_inf_top with s; auto]; intros p P.
  - eapply prod_nan; [|exact P]. right. exact H.
  - pose proof (div_is z w) as D. rewrite H in D. destruct (tr_special b (f_div z w) (enc_word _)) as (T1 & T2).
    destruct (value z) as [|s|x]; cbn [is_div] in D.
    + rewrite (T1 D) in P. exact P.
    + rewrite (T2 _ D), H in P. cbn [is_prod] in P. destruct P as [P|P]; [apply P|lra].
    + destruct D as [D|[D|D]]; [lra| |].
      * destruct D as (_ & _ & D). rewrite (T2 _ D), H in P. cbn [is_prod] in P. destruct P as [P|P]; [apply P|lra].
      * destruct D as (_ & _ & D). rewrite (T1 D) in P. exact P.
Qed.
Lemma mod_invalid b V W k : word (lane V k) -> word (lane W k) ->
  value (lane V k) = NaN \/ value (lane W k) = NaN \/ value (lane W k) = Fin 0 \/ (exists s, value (lane V k) = Inf s) ->
  value (lane (XMVectorMod (L:=FL) b V W) k) = NaN.
Proof. rewrite mod_lane_eq. apply mod_invalid_w. Qed.
Lemma mod_inf_w b z w x s : word z -> word w -> value z = Fin x -> value w = Inf s -> value (mod_q b z w) = NaN.
Proof.
  intros Wz Ww Vz Vw. apply mod_nan; [exact Wz|exact Ww|].
  left. intros p P. pose proof (div_is z w) as D. rewrite Vz, Vw in D. cbn [is_div] in D. rewrite (tr_val b (f_div z w) _ (enc_word _) D), Vw in P. rewrite Ztrunc_IZR in P.
  cbn [is_prod] in P. destruct P as [P|P]; [apply P|lra].
Qed.
Lemma mod_inf b V W k x s : word (lane V k) -> word (lane W k) -> value (lane V k) = Fin x -> value (lane W k) = Inf s ->
  value (lane (XMVectorMod (L:=FL) b V W) k) = NaN.
Proof. rewrite mod_lane_eq. apply mod_inf_w. Qed.
Lemma mod_range : lane (XMVectorMod (L:=FL) (SSE true true true AVX2) (qrep 0x3f800000%Z) (qrep 0x3dcccccd%Z)) I0 = 0xb2800000%Z /\
  (forall b, no_fma b -> value (lane (XMVectorMod (L:=FL) b (qrep 0x3f800000%Z) (qrep 0x3dcccccd%Z)) I0) = Fin 0).
Proof.
  split; [vm_compute; reflexivity|]. intros b H. rewrite mod_lane_eq. destruct b as [|s3 s4 [|] av]; [|contradiction|];
  (match goal with |- value ?z = _ => replace z with 0%Z by (vm_compute; reflexivity) end); change (Fin (IZR 0 * pow2 (-149)) = Fin 0); f_equal; apply Rmult_0_l.
Qed.
Lemma mod_large b : value (lane (XMVectorMod (L:=FL) b (qrep 0x7149f2ca%Z) (qrep 0x0da24260%Z)) I0) = Inf true.
Proof. rewrite mod_lane_eq. destruct b as [|s3 s4 [|] av]; vm_compute; reflexivity. Qed.
