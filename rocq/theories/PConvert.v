(** Conversions between integers and binary32 lanes. *)
From Coq Require Import Reals Lra Lia ZArith.
From Flocq Require Import Core IEEE754.BinarySingleNaN.
From Verif Require Import Base F32 F32Facts Intrin SpecF32 PF32 SpecRound PFloat MRound PRound PRoundAll SpecConvert MConvert.
Open Scope R_scope.

#[global] Instance fx32_mono : Monotone_exp fx32. Proof. apply FLT_exp_monotone. Qed.
#[global] Instance fx32_NE : Exists_NE radix2 fx32. Proof. apply exists_NE_FLT. right. reflexivity. Qed.

(** a finite lane holds a canonical float whose last bit is the last bit of the fraction *)
Lemma value_canonical z x : value z = Fin x -> x = 0 \/ exists g : float radix2, x = F2R g /\ canonical radix2 fx32 g /\ Z.even (Fnum g) = Z.even (bit_frac z).
Proof.
  intros (F & E)%value_fin. pose proof (dec_sf z) as S. destruct (dec z) as [s|s| |s m e B]; try discriminate; [left; rewrite <- E; reflexivity|right].
  exists (Float radix2 (cond_Zopp s (Z.pos m)) e). split; [rewrite <- E; reflexivity|]. split; [exact (canonical_canonical_mantissa 24 128 s m e (proj1 (andb_prop _ _ B)))|].
  cbn [Fnum]. transitivity (Z.even (Z.pos m)); [destruct s; cbn [cond_Zopp]; [apply Z.even_opp|reflexivity]|].
  change (bit_frac z) with (ffrac z). cbn [B2SF] in S. unfold sf_of in S. pose proof (ffrac_range z) as Fr.
  destruct (fexpo z =? 0)%Z.
  - destruct (ffrac z) as [|p|p]; try discriminate. injection S as _ E1 _. rewrite E1. reflexivity.
  - destruct (fexpo z =? 255)%Z; [destruct (ffrac z); discriminate|]. destruct (ffrac z + 2 ^ 23)%Z as [|p|p] eqn:P; try discriminate. injection S as _ E1 _.
    rewrite E1, <- P, Z.even_add. change (Z.even (2 ^ 23)) with true. destruct (Z.even (ffrac z)); reflexivity.
Qed.
Lemma zero_even z : value z = Fin 0 -> Z.even (bit_frac z) = true.
Proof.
  intros (F & E)%value_fin. pose proof (dec_sf z) as S. destruct (dec z) as [s|s| |s m e B]; try discriminate.
  - change (bit_frac z) with (ffrac z). cbn [B2SF] in S. unfold sf_of in S. pose proof (ffrac_range z) as Fr.
    destruct (fexpo z =? 0)%Z; [destruct (ffrac z) as [|p|p]; try discriminate; [reflexivity|lia]|]. destruct (fexpo z =? 255)%Z; [destruct (ffrac z); discriminate|]. destruct (ffrac z + 2 ^ 23)%Z; discriminate.
  - exfalso. cbn [B2R] in E. apply eq_0_F2R in E. destruct s; discriminate.
Qed.
(** a lane holding [RN x] is the nearest one *)
Lemma RN_nearest x z : value z = Fin (RN x) -> nearest32 x z.
Proof.
  intros H. exists (RN x). split; [exact H|].
  pose proof (round_NE_pt radix2 fx32 x) as (N & T). fold (RN x) in N, T. destruct N as (NF & N). split.
  - intros z' v' (Fv & _)%value_fmt. specialize (N v' Fv). rewrite (Rabs_minus_sym x), (Rabs_minus_sym x v'). exact N.
  - intros z' v' (Fv & _)%value_fmt D. destruct T as [(g & G1 & G2 & G3)|T].
    + right. destruct (value_canonical z _ H) as [E|(g' & G1' & G2' & G3')]; [apply zero_even; rewrite H, E; reflexivity|].
      rewrite <- G3'. rewrite G1' in G1. rewrite (canonical_unique radix2 fx32 g' g G2' G2 G1). exact G3.
    + left. apply T. split; [exact Fv|]. intros g Hg. specialize (N g Hg). rewrite (Rabs_minus_sym v'), <- D, Rabs_minus_sym. exact N.
Qed.

(** numbers with a common exponent *)
Lemma fmt_grid y e : (-126 <= e)%Z -> fmt y -> bpow radix2 e <= y < bpow radix2 (e + 1) -> exists m, y = IZR m * bpow radix2 (e - 23).
Proof.
  intros He F B. exists (Ztrunc (scaled_mantissa radix2 fx32 y)). unfold fmt, generic_format in F. etransitivity; [exact F|]. unfold F2R; cbn [Fnum Fexp]. f_equal. f_equal. unfold cexp.
  rewrite (mag_unique_pos radix2 y (e + 1)) by (replace (e + 1 - 1)%Z with e by lia; exact B). unfold FLT_exp. lia.
Qed.
Lemma above_max_int y : fmt y -> IZR (2 ^ 31 - 128) < y -> IZR (2 ^ 31) <= y.
Proof.
  intros F H. destruct (Rle_dec (IZR (2 ^ 31)) y) as [K|K]; [exact K|exfalso]. apply Rnot_le_lt in K.
  destruct (fmt_grid y 30) as (m & E); [lia|exact F|split; [change (bpow radix2 30) with (IZR (2 ^ 30)); assert (IZR (2 ^ 30) < IZR (2 ^ 31 - 128)) by (apply IZR_lt; reflexivity); lra|exact K]|].
  change (bpow radix2 (30 - 23)) with (IZR 128) in E. rewrite E, <- mult_IZR in H, K. apply lt_IZR in H, K. lia.
Qed.
Lemma above_max_uint y : fmt y -> IZR (2 ^ 32 - 256) < y -> IZR (2 ^ 32) <= y.
Proof.
  intros F H. destruct (Rle_dec (IZR (2 ^ 32)) y) as [K|K]; [exact K|exfalso]. apply Rnot_le_lt in K.
  destruct (fmt_grid y 31) as (m & E); [lia|exact F|split; [change (bpow radix2 31) with (IZR (2 ^ 31)); assert (IZR (2 ^ 31) < IZR (2 ^ 32 - 256)) by (apply IZR_lt; reflexivity); lra|exact K]|].
  change (bpow radix2 (31 - 23)) with (IZR 256) in E. rewrite E, <- mult_IZR in H, K. apply lt_IZR in H, K. lia.
Qed.

(** scaling by a power of two *)
Lemma RN_scale n k : (0 <= k <= 100)%Z -> RN (IZR n * bpow radix2 (- k)) = RN (IZR n) * bpow radix2 (- k).
Proof.
  intros Hk. destruct (Z.eq_dec n 0) as [->|Hn]; [rewrite Rmult_0_l; unfold RN; rewrite round_0, Rmult_0_l by apply valid_rnd_N; reflexivity|].
  assert (N0 : IZR n <> 0) by (apply not_0_IZR; exact Hn).
  assert (M : (1 <= mag radix2 (IZR n))%Z).
  { apply mag_ge_bpow. change (bpow radix2 (1 - 1)) with 1. rewrite <- abs_IZR. apply IZR_le. lia. }
  unfold RN, round, F2R; cbn [Fnum Fexp].
  assert (C : cexp radix2 fx32 (IZR n * bpow radix2 (- k)) = (cexp radix2 fx32 (IZR n) - k)%Z).
  { unfold cexp. rewrite mag_mult_bpow by exact N0. unfold FLT_exp. lia. }
  unfold scaled_mantissa. rewrite C, Rmult_assoc, <- bpow_plus. replace (- k + - (cexp radix2 fx32 (IZR n) - k))%Z with (- cexp radix2 fx32 (IZR n))%Z by lia.
  rewrite Rmult_assoc, <- bpow_plus. reflexivity.
Qed.
Lemma fmt_up x k : (0 <= k)%Z -> fmt x -> fmt (x * bpow radix2 k).
Proof.
  intros Hk F. apply FLT_format_generic in F; [|reflexivity]. destruct F as [[m e] E1 E2 E3]. cbn [Fnum Fexp] in *.
  rewrite E1. unfold F2R; cbn [Fnum Fexp]. rewrite Rmult_assoc, <- bpow_plus. apply fmt_scaled; [change (radix2 ^ 24)%Z with (2 ^ 24)%Z in E2; lia|lia].
Qed.
Lemma RN_int_bound n : (Z.abs n <= 2 ^ 32)%Z -> Rabs (RN (IZR n)) < huge.
Proof.
  intros H. assert (B : Rabs (RN (IZR n)) <= bpow radix2 32).
  { apply abs_round_le_generic; [apply fx32_valid|apply valid_rnd_N|apply fmt_pow; lia|]. rewrite <- abs_IZR. change (bpow radix2 32) with (IZR (2 ^ 32)). apply IZR_le, H. }
  apply Rle_lt_trans with (1 := B). unfold huge. apply bpow_lt. reflexivity.
Qed.
Lemma scale_val k : (0 <= k < 32)%Z -> value (uScale k) = Fin (bpow radix2 (- k)).
Proof.
  intros Hk. pose proof (field_of false (127 - k) 0 ltac:(lia) ltac:(lia) ltac:(lia) ltac:(lia)) as E.
  assert (U : uScale k = (0 + (127 - k) * 2 ^ 23 + 0)%Z) by (unfold uScale; rewrite Z.shiftl_mul_pow2 by lia; lia).
  rewrite U. etransitivity; [exact E|]. f_equal. unfold signed. rewrite pow2_bpow. change (2 ^ 23 + 0)%Z with (2 ^ 23)%Z. change (IZR (2 ^ 23)) with (bpow radix2 23). rewrite <- bpow_plus. f_equal. lia.
Qed.
Lemma pow_val k : (0 <= k < 32)%Z -> value (f_of_Z (Z.shiftl 1 k)) = Fin (bpow radix2 k).
Proof.
  intros Hk. rewrite Z.shiftl_mul_pow2, Z.mul_1_l by lia. assert (E : IZR (2 ^ k) = bpow radix2 k) by (rewrite <- (IZR_Zpower radix2) by lia; reflexivity).
  assert (F : RN (IZR (2 ^ k)) = bpow radix2 k) by (rewrite E; apply RN_fmt, fmt_pow; lia).
  rewrite of_Z_val, F; [reflexivity|]. rewrite F, Rabs_pos_eq by apply bpow_ge_0. apply bpow_lt. lia.
Qed.
Lemma bpow_le_1 k : (0 <= k)%Z -> 0 < bpow radix2 (- k) <= 1.
Proof. intros H. split; [apply bpow_gt_0|]. change 1 with (bpow radix2 0). apply bpow_le. lia. Qed.
(** [n as f32 * 2^-k] is correctly rounded *)
Lemma int_scaled n s k : (Z.abs n <= 2 ^ 32)%Z -> (0 <= k < 32)%Z -> value s = Fin (bpow radix2 (- k)) -> from_integer n k (f_mul (f_of_Z n) s).
Proof.
  intros Hn Hk S. unfold from_integer. rewrite pow2_bpow. apply RN_nearest. pose proof (RN_int_bound n Hn) as B.
  assert (P : RN (RN (IZR n) * bpow radix2 (- k)) = RN (IZR n * bpow radix2 (- k))).
  { rewrite <- RN_scale by lia. apply RN_fmt, RN_is_fmt. }
  rewrite (mul_val _ _ (RN (IZR n)) (bpow radix2 (- k))); [rewrite P; reflexivity|apply of_Z_val, B|exact S|].
  rewrite P, RN_scale, Rabs_mult by lia. apply Rle_lt_trans with (2 := B). pose proof (bpow_le_1 k ltac:(lia)) as (b0 & b1). rewrite (Rabs_pos_eq (bpow _ _)) by lra.
  pose proof (Rabs_pos (RN (IZR n))) as A. rewrite <- (Rmult_1_r (Rabs (RN (IZR n)))) at 2. apply Rmult_le_compat_l; assumption.
Qed.
Lemma sint_signed z : sint z = signed32 z.
Proof. unfold sint, signed32. destruct (Z.leb_spec (2 ^ 31) z), (Z.ltb_spec z (2 ^ 31)); lia. Qed.
Lemma signed_bound z : word z -> (- 2 ^ 31 <= signed32 z < 2 ^ 31)%Z.
Proof. unfold word, signed32. destruct (Z.ltb_spec z (2 ^ 31)); lia. Qed.

Lemma int_to_float_sse V k : wordq V -> (0 <= k < 32)%Z -> exists r, XMConvertVectorIntToFloat_sse V k = Some r /\ forall i, from_integer (signed32 (lane V i)) k (lane r i).
Proof.
  intros W Hk. unfold XMConvertVectorIntToFloat_sse, asserting. rewrite (proj2 (Z.ltb_lt k 32)) by lia. eexists. split; [reflexivity|]. intros i.
  assert (L : forall z, word z -> from_integer (signed32 z) k (f_mul (f_of_Z (sint z)) (uScale k))).
  { intros z Wz. rewrite sint_signed. pose proof (signed_bound z Wz). apply int_scaled; [lia|exact Hk|apply scale_val, Hk]. }
  pose proof (L _ (wordq_lane V i W)) as H. destruct i; exact H.
Qed.
Lemma recip_val k : (0 <= k < 32)%Z -> value (f_div 0x3F800000 (f_of_Z (Z.shiftl 1 k))) = Fin (bpow radix2 (- k)).
Proof.
  intros Hk. assert (E : 1 / bpow radix2 k = bpow radix2 (- k)) by (rewrite bpow_opp; unfold Rdiv; ring).
  rewrite (div_exact _ _ 1 (bpow radix2 k)), E; [reflexivity|apply val_1|apply pow_val, Hk|apply Rgt_not_eq, bpow_gt_0|rewrite E; apply fmt_pow; lia|].
  rewrite E, Rabs_pos_eq by apply bpow_ge_0. apply bpow_lt. lia.
Qed.
Lemma uint_to_float_scalar V k : wordq V -> (0 <= k < 32)%Z -> exists r, XMConvertVectorUIntToFloat_scalar V k = Some r /\ forall i, from_integer (lane V i) k (lane r i).
Proof.
  intros W Hk. unfold XMConvertVectorUIntToFloat_scalar, asserting. rewrite (proj2 (Z.ltb_lt k 32)) by lia. eexists. split; [reflexivity|]. intros i.
  pose proof (wordq_lane V i W) as Wi. unfold word in Wi.
  assert (H := int_scaled (lane V i) _ k ltac:(lia) Hk (recip_val k Hk)). destruct i; exact H.
Qed.
