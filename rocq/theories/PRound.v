(** Rounding functions on bit patterns (C10). *)
From Coq Require Import Reals Lra Lia ZArith Bool.
From Flocq Require Import Core IEEE754.BinarySingleNaN.
From Verif Require Import Base F32 F32Facts Intrin SpecF32 PF32 SpecRound PFloat MRound.
Open Scope R_scope.

(** ** Bits *)
Lemma Fin_inj x y : Fin x = Fin y -> x = y. Proof. intros H. injection H. auto. Qed.
Lemma mag_pos n : (0 <= n)%Z -> 0 <= IZR n. Proof. intros; apply IZR_le; assumption. Qed.
Lemma pow2_pos e : 0 < pow2 e. Proof. rewrite pow2_bpow. apply bpow_gt_0. Qed.
Lemma sign_val z x : value z = Fin x -> (fsgn z = true -> x <= 0) /\ (fsgn z = false -> 0 <= x).
Proof.
  unfold value. pose proof (ffrac_range z) as HF. change (bit_exp z) with (fexpo z). change (bit_frac z) with (ffrac z). change (bit_sign z) with (fsgn z).
  assert (A : forall n e, (0 <= n)%Z -> 0 <= IZR n * pow2 e) by (intros; apply Rmult_le_pos; [apply mag_pos; assumption|apply Rlt_le, pow2_pos]).
  destruct (fexpo z =? 255)%Z; [destruct (ffrac z =? 0)%Z; discriminate|]. destruct (fexpo z =? 0)%Z; intros H%Fin_inj; rewrite <- H.
  - pose proof (A (ffrac z) (-149)%Z ltac:(lia)). destruct (fsgn z); cbn [signed]; split; intros; try discriminate; lra.
  - pose proof (A (2 ^ 23 + ffrac z)%Z (fexpo z - 150)%Z ltac:(lia)). destruct (fsgn z); cbn [signed]; split; intros; try discriminate; lra.
Qed.
Lemma land_sign z : word z -> Z.land z 0x80000000 = if fsgn z then 0x80000000%Z else 0%Z.
Proof.
  intros Hw. unfold fsgn. apply Z.bits_inj'. intros n Hn. rewrite Z.land_spec. change 0x80000000%Z with (2 ^ 31)%Z. rewrite Z.pow2_bits_eqb by lia.
  destruct (Z.eqb_spec 31 n) as [<-|E].
  - rewrite andb_true_r. destruct (Z.leb_spec (2 ^ 31) z) as [G|G].
    + rewrite Z.pow2_bits_eqb, Z.eqb_refl by lia. apply Z.testbit_true; [lia|]. destruct Hw. replace (z / 2 ^ 31)%Z with 1%Z; [reflexivity|]. apply Z.div_unique with (z - 2 ^ 31)%Z; lia.
    + rewrite Z.bits_0. apply Z.testbit_false; [lia|]. destruct Hw. rewrite Z.div_small by lia. reflexivity.
  - rewrite andb_false_r. destruct (2 ^ 31 <=? z)%Z; [rewrite Z.pow2_bits_eqb by lia; symmetry; apply Z.eqb_neq, E|symmetry; apply Z.bits_0].
Qed.
Lemma magic z : word z -> Z.lor 0x4B000000 (Z.land z 0x80000000) = if fsgn z then 0xCB000000%Z else 0x4B000000%Z.
Proof. intros H. rewrite land_sign by exact H. destruct (fsgn z); reflexivity. Qed.
Lemma land_ones32 z : word z -> Z.land z ones = z.
Proof. intros H. change ones with (Z.ones 32). rewrite Z.land_ones by lia. apply Z.mod_small, H. Qed.
Lemma bnot_ones : bnot ones = 0%Z. Proof. reflexivity. Qed.
Lemma bnot_0 : bnot 0 = ones. Proof. reflexivity. Qed.
(** selecting by a mask *)
Lemma sel_xor r z c : word z -> word r -> Z.lxor (Z.land r (mask c)) (Z.land (bnot (mask c)) z) = if c then r else z.
Proof.
  intros Hz Hr. destruct c; cbn [mask].
  - rewrite bnot_ones, Z.land_0_l, Z.lxor_0_r. apply land_ones32, Hr.
  - rewrite bnot_0, Z.land_0_r, Z.lxor_0_l, Z.land_comm. apply land_ones32, Hz.
Qed.
Lemma sel_or r z c : word z -> word r -> Z.lor (Z.land r (mask c)) (Z.land (bnot (mask c)) z) = if c then r else z.
Proof.
  intros Hz Hr. destruct c; cbn [mask].
  - rewrite bnot_ones, Z.land_0_l, Z.lor_0_r. apply land_ones32, Hr.
  - rewrite bnot_0, Z.land_0_r, Z.lor_0_l, Z.land_comm. apply land_ones32, Hz.
Qed.
Lemma val_2_23 : value 0x4B000000 = Fin (IZR (2 ^ 23)).
Proof. change (value 0x4B000000) with (Fin (IZR 8388608 * 1)). rewrite Rmult_1_r. reflexivity. Qed.
Lemma val_m2_23 : value 0xCB000000 = Fin (- IZR (2 ^ 23)).
Proof. change (value 0xCB000000) with (Fin (- (IZR 8388608 * 1))). rewrite Rmult_1_r. reflexivity. Qed.
Lemma val_1 : value 0x3F800000 = Fin 1.
Proof. change (value 0x3F800000) with (Fin (IZR 8388608 * / IZR 8388608)). f_equal. field. Qed.
Lemma val_half : value 0x3F000000 = Fin (1 / 2).
Proof. change (value 0x3F000000) with (Fin (IZR 8388608 * / IZR 16777216)). f_equal. field. Qed.
Lemma val_2 : value 0x40000000 = Fin 2.
Proof. change (value 0x40000000) with (Fin (IZR 8388608 * / IZR 4194304)). f_equal. field. Qed.

(** ** Values of magnitude 2^23 and above are integers *)
Lemma large_int z x : value z = Fin x -> IZR (2 ^ 23) <= Rabs x -> exists n, x = IZR n.
Proof.
  intros (F & _)%value_fmt H. unfold fmt, generic_format in F. set (e := cexp radix2 fx32 x) in *.
  assert (He : (0 <= e)%Z).
  { unfold e, cexp, FLT_exp. assert (24 <= mag radix2 x)%Z by (apply mag_ge_bpow; exact H). lia. }
  rewrite F. unfold F2R; cbn [Fnum Fexp]. rewrite <- IZR_Zpower by exact He. rewrite <- mult_IZR. eexists; reflexivity.
Qed.
Lemma near_int n : nearest_even (IZR n) n /\ toward_zero (IZR n) n /\ floor_of (IZR n) n /\ ceiling_of (IZR n) n.
Proof. unfold nearest_even, toward_zero, floor_of, ceiling_of. rewrite Rminus_diag_eq, Rabs_R0 by reflexivity. repeat split; intros; lra. Qed.
Lemma keep_rounds (rnd : R -> Z -> Prop) z : (forall n, rnd (IZR n) n) -> (forall x, value z = Fin x -> IZR (2 ^ 23) <= Rabs x) -> rounds rnd z z.
Proof.
  intros H K. unfold rounds. destruct (value z) as [|s|x] eqn:E; try reflexivity. destruct (large_int z x E (K x eq_refl)) as (n & ->). exists n. split; [reflexivity|apply H].
Qed.

(** ** Round, SSE2: adding and subtracting 2^23 *)
Lemma RN_unit y : IZR (2 ^ 23) <= y <= IZR (2 ^ 24) -> RN y = IZR (ZnearestE y).
Proof.
  intros (H1 & H2). destruct (Req_dec y (IZR (2 ^ 24))) as [->|E].
  - rewrite RN_fmt by (apply fmt_int; reflexivity). rewrite Zrnd_IZR by apply valid_rnd_N. reflexivity.
  - assert (M : cexp radix2 fx32 y = 0%Z).
    { unfold cexp. rewrite (mag_unique_pos radix2 y 24). reflexivity. change (bpow radix2 (24 - 1)) with (IZR (2 ^ 23)). change (bpow radix2 24) with (IZR (2 ^ 24)). lra. }
    unfold RN, round, scaled_mantissa. rewrite M. unfold F2R; cbn [Fnum Fexp]. change (bpow radix2 (- 0)) with 1. change (bpow radix2 0) with 1. rewrite !Rmult_1_r. reflexivity.
Qed.
Lemma RN_opp x : RN (- x) = - RN x.
Proof. apply round_NE_opp. Qed.
Lemma magic_pos z x : value z = Fin x -> 0 <= x <= IZR (2 ^ 23) -> exists n, value (f_sub (f_add z 0x4B000000) 0x4B000000) = Fin (IZR n) /\ nearest_even x n.
Proof.
  intros E (H1 & H2). pose proof (nearE (x + IZR (2 ^ 23))) as (N1 & N2). set (m := ZnearestE (x + IZR (2 ^ 23))) in *.
  assert (ER : RN (x + IZR (2 ^ 23)) = IZR m) by (apply RN_unit; change (IZR (2 ^ 24)) with (2 * IZR (2 ^ 23)); lra).
  assert (B : (2 ^ 23 <= m <= 2 ^ 24)%Z).
  { assert (h : IZR (2 ^ 23) <= x + IZR (2 ^ 23) <= IZR (2 ^ 24)) by (change (IZR (2 ^ 24)) with (2 * IZR (2 ^ 23)); lra).
    destruct h as (h%RN_le & h'%RN_le). rewrite ER in h, h'. rewrite RN_fmt in h, h' by (apply fmt_int; lia). split; apply le_IZR; assumption. }
  assert (EA : value (f_add z 0x4B000000) = Fin (IZR m)) by (rewrite (add_val _ _ _ _ E val_2_23), ER; [reflexivity|rewrite ER; apply huge_int; lia]).
  exists (m - 2 ^ 23)%Z. split.
  - rewrite (sub_exact _ _ _ _ EA val_2_23); rewrite <- minus_IZR; [reflexivity|apply fmt_int; lia|apply huge_int; lia].
  - unfold nearest_even. rewrite minus_IZR. replace (x - (IZR m - IZR (2 ^ 23))) with (x + IZR (2 ^ 23) - IZR m) by ring. split; [exact N1|]. intros T. specialize (N2 T). rewrite Z.even_sub, N2. reflexivity.
Qed.
Lemma magic_neg z x : value z = Fin x -> - IZR (2 ^ 23) <= x <= 0 -> exists n, value (f_sub (f_add z 0xCB000000) 0xCB000000) = Fin (IZR n) /\ nearest_even x n.
Proof.
  intros E (H1 & H2). pose proof (nearE (- x + IZR (2 ^ 23))) as (N1 & N2). set (m := ZnearestE (- x + IZR (2 ^ 23))) in *.
  assert (ER : RN (- x + IZR (2 ^ 23)) = IZR m) by (apply RN_unit; change (IZR (2 ^ 24)) with (2 * IZR (2 ^ 23)); lra).
  assert (ER' : RN (x + - IZR (2 ^ 23)) = IZR (- m)).
  { replace (x + - IZR (2 ^ 23)) with (- (- x + IZR (2 ^ 23))) by ring. rewrite RN_opp, ER, opp_IZR. reflexivity. }
  assert (B : (2 ^ 23 <= m <= 2 ^ 24)%Z).
  { assert (h : IZR (2 ^ 23) <= - x + IZR (2 ^ 23) <= IZR (2 ^ 24)) by (change (IZR (2 ^ 24)) with (2 * IZR (2 ^ 23)); lra).
    destruct h as (h%RN_le & h'%RN_le). rewrite ER in h, h'. rewrite RN_fmt in h, h' by (apply fmt_int; lia). split; apply le_IZR; assumption. }
  assert (EA : value (f_add z 0xCB000000) = Fin (IZR (- m))) by (rewrite (add_val _ _ _ _ E val_m2_23), ER'; [reflexivity|rewrite ER'; apply huge_int; lia]).
  assert (EQ : IZR (- m) - - IZR (2 ^ 23) = IZR (- m + 2 ^ 23)) by (rewrite plus_IZR; ring).
  exists (- m + 2 ^ 23)%Z. split.
  - rewrite (sub_exact _ _ _ _ EA val_m2_23); rewrite EQ; [reflexivity|apply fmt_int; lia|apply huge_int; lia].
  - unfold nearest_even. rewrite plus_IZR, opp_IZR. replace (x - (- IZR m + IZR (2 ^ 23))) with (- (- x + IZR (2 ^ 23) - IZR m)) by ring. rewrite Rabs_Ropp. split; [exact N1|].
    intros T. specialize (N2 T). rewrite Z.even_add, Z.even_opp, N2. reflexivity.
Qed.
Lemma round_sse2_lane z : word z -> rounds nearest_even z (lane (XMVectorRound_sse2 (qrep z)) I0).
Proof.
  intros Hw. unfold XMVectorRound_sse2, xor_ps, and_ps, or_ps, andnot_ps, add_ps, sub_ps, cmple_ps, gNoFraction, gNegativeZero, gAbsMask. cbn [qmap2 qrep lane qx]. cbv beta zeta.
  rewrite magic by exact Hw. change (Z.land z 0x7FFFFFFF) with (f_abs z). rewrite sel_xor by (exact Hw || apply enc_word).
  destruct (f_le (f_abs z) 0x4B000000) eqn:C.
  - apply f_le_spec in C. rewrite value_abs, val_2_23 in C by exact Hw. unfold rounds.
    destruct (value z) as [|s|x] eqn:E; cbn [xabs] in C; unfold xle, xlt, xeq in C; try tauto. assert (A : Rabs x <= IZR (2 ^ 23)) by (destruct C; lra).
    destruct (sign_val z x E) as (S1 & S2). apply Rabs_le_inv in A. destruct (fsgn z).
    + apply magic_neg; [exact E|]. specialize (S1 eq_refl). lra.
    + apply magic_pos; [exact E|]. specialize (S2 eq_refl). lra.
  - apply keep_rounds; [apply near_int|]. intros x E. destruct (Rle_or_lt (IZR (2 ^ 23)) (Rabs x)) as [G|G]; [exact G|].
    assert (K : f_le (f_abs z) 0x4B000000 = true) by (apply f_le_spec; rewrite value_abs, val_2_23, E by exact Hw; left; exact G). congruence.
Qed.

(** ** Truncation through integers *)
Lemma below z : word z -> (sint (f_abs z) <? sint 0x4B000000)%Z = true <-> exists x, value z = Fin x /\ Rabs x < IZR (2 ^ 23).
Proof.
  intros Hw. destruct (word_abs z Hw) as (W & S & E & F). pose proof (ffrac_range z) as HF. pose proof (fexpo_range z) as HE.
  pose proof (word_fields _ W) as D. rewrite S, E, F in D.
  assert (HS : sint (f_abs z) = (fexpo z * 2 ^ 23 + ffrac z)%Z).
  { unfold sint. change (2 ^ 31 <=? f_abs z)%Z with (fsgn (f_abs z)). rewrite S, D. lia. }
  rewrite HS. change (sint 0x4B000000) with (150 * 2 ^ 23)%Z. rewrite Z.ltb_lt.
  assert (P : forall s n e, (0 <= n)%Z -> Rabs (signed s (IZR n * pow2 e)) = IZR n * pow2 e).
  { intros s n e Hn. assert (0 <= IZR n * pow2 e) by (apply Rmult_le_pos; [apply mag_pos, Hn|apply Rlt_le, pow2_pos]). destruct s; cbn [signed]; [rewrite Rabs_Ropp|]; apply Rabs_pos_eq; assumption. }
  unfold value. change (bit_exp z) with (fexpo z). change (bit_frac z) with (ffrac z). change (bit_sign z) with (fsgn z).
  destruct (Z.eqb_spec (fexpo z) 255) as [E1|E1]; [|destruct (Z.eqb_spec (fexpo z) 0) as [E2|E2]].
  - split; [lia|]. intros (x & H & _). destruct (ffrac z =? 0)%Z; discriminate.
  - split; [|lia]. intros _. eexists; split; [reflexivity|]. rewrite P by lia. rewrite pow2_bpow.
    apply Rlt_trans with (bpow radix2 23 * bpow radix2 (-149)); [apply Rmult_lt_compat_r; [apply bpow_gt_0|apply (IZR_lt _ (2 ^ 23)); lia]|]. rewrite <- bpow_plus. change (IZR (2 ^ 23)) with (bpow radix2 23). apply bpow_lt. reflexivity.
  - split.
    + intros H. eexists; split; [reflexivity|]. rewrite P by lia. rewrite pow2_bpow.
      apply Rlt_le_trans with (bpow radix2 24 * bpow radix2 (fexpo z - 150)); [apply Rmult_lt_compat_r; [apply bpow_gt_0|apply (IZR_lt _ (2 ^ 24)); lia]|]. rewrite <- bpow_plus. change (IZR (2 ^ 23)) with (bpow radix2 23). apply bpow_le. lia.
    + intros (x & H & L). apply Fin_inj in H. rewrite <- H, P in L by lia. rewrite pow2_bpow in L. destruct (Z_lt_le_dec (fexpo z * 2 ^ 23 + ffrac z) (150 * 2 ^ 23)) as [G|G]; [exact G|]. exfalso.
      assert (150 <= fexpo z)%Z by lia. apply (Rlt_irrefl (IZR (2 ^ 23))). eapply Rle_lt_trans; [|exact L].
      apply Rle_trans with (bpow radix2 23 * bpow radix2 (fexpo z - 150)); [|apply Rmult_le_compat_r; [apply bpow_ge_0|apply (IZR_le (2 ^ 23)); lia]]. rewrite <- bpow_plus. change (IZR (2 ^ 23)) with (bpow radix2 23). apply bpow_le. lia.
Qed.
Lemma trunc_bound x : Rabs x < IZR (2 ^ 23) -> (Z.abs (Ztrunc x) <= 2 ^ 23)%Z.
Proof.
  intros H. apply Rabs_lt_inv in H. assert (Ztrunc (- IZR (2 ^ 23)) <= Ztrunc x <= Ztrunc (IZR (2 ^ 23)))%Z by (split; apply Ztrunc_le; lra).
  rewrite <- opp_IZR, !Ztrunc_IZR in H0. lia.
Qed.
Lemma btrunc_val z x : value z = Fin x -> Btrunc (dec z) = Ztrunc x.
Proof. intros (_ & <-)%value_fin. apply (eq_IZR). rewrite (Btrunc_correct 24 128 prec_lt_128). unfold round, F2R, scaled_mantissa, cexp, FIX_exp; cbn [Fnum Fexp]. change (bpow radix2 (- 0)) with 1. change (bpow radix2 0) with 1. rewrite !Rmult_1_r. reflexivity. Qed.
Lemma cvtt_small z x : value z = Fin x -> Rabs x < IZR (2 ^ 23) -> f_of_Z (sint (cvtt_lane z)) = f_of_Z (Ztrunc x) /\ f_to_i32 z = Ztrunc x.
Proof.
  intros E H. pose proof (trunc_bound x H) as B. pose proof (btrunc_val z x E) as T. destruct (value_fin z x E) as (F & _). unfold cvtt_lane, f_to_i32.
  assert (SW : sint (wrap32 (Ztrunc x)) = Ztrunc x).
  { unfold sint, wrap32. destruct (Z_lt_le_dec (Ztrunc x) 0).
    - replace (Ztrunc x mod 2 ^ 32)%Z with (Ztrunc x + 2 ^ 32)%Z by (apply Z.mod_unique with (-1)%Z; lia). destruct (Z.leb_spec (2 ^ 31) (Ztrunc x + 2 ^ 32)); lia.
    - rewrite Z.mod_small by lia. destruct (Z.leb_spec (2 ^ 31) (Ztrunc x)); lia. }
  assert (R1 : ((- 2 ^ 31 <=? Ztrunc x) && (Ztrunc x <? 2 ^ 31))%bool%Z = true) by (rewrite andb_true_iff, Z.leb_le, Z.ltb_lt; lia).
  destruct (dec z); try discriminate; rewrite T, ?R1, ?SW; split; try reflexivity; lia.
Qed.
Lemma keep_lane z t : word z -> word t -> lane (keep_large (qrep z) (below_no_fraction (qrep z)) (qrep t)) I0 = if (sint (f_abs z) <? sint 0x4B000000)%Z then t else z.
Proof. intros Hz Ht. unfold keep_large, below_no_fraction, cmplt_epi32, or_ps, and_ps, andnot_ps, gAbsMask, gNoFraction. cbn [qmap2 qrep lane qx]. cbv beta. change (Z.land z 0x7FFFFFFF) with (f_abs z). apply sel_or; assumption. Qed.
Lemma keep_round (rnd : R -> Z -> Prop) z t : word z -> word t -> (forall n, rnd (IZR n) n) -> (forall x, value z = Fin x -> Rabs x < IZR (2 ^ 23) -> exists n, value t = Fin (IZR n) /\ rnd x n) ->
  rounds rnd z (lane (keep_large (qrep z) (below_no_fraction (qrep z)) (qrep t)) I0).
Proof.
  intros Hz Ht HI HT. rewrite keep_lane by assumption. destruct (sint (f_abs z) <? sint 0x4B000000)%Z eqn:C.
  - apply (below z Hz) in C as (x & E & L). unfold rounds. rewrite E. apply HT; assumption.
  - apply keep_rounds; [exact HI|]. intros x E. destruct (Rle_or_lt (IZR (2 ^ 23)) (Rabs x)) as [G|G]; [exact G|].
    assert (K : (sint (f_abs z) <? sint 0x4B000000)%Z = true) by (apply below; [exact Hz|exists x; auto]). congruence.
Qed.
Lemma trunc_sse2_lane z : word z -> rounds toward_zero z (lane (XMVectorTruncate_sse2 (qrep z)) I0).
Proof.
  intros Hw. apply (keep_round toward_zero z (f_of_Z (sint (cvtt_lane z)))); [exact Hw|apply enc_word|apply near_int|].
  intros x E L. destruct (cvtt_small z x E L) as (-> & _). exists (Ztrunc x). split; [apply of_Z_exact; pose proof (trunc_bound x L); lia|apply truncE].
Qed.
Lemma mask_val c : value (f_of_Z (sint (mask c))) = Fin (if c then -1 else 0).
Proof. destruct c; [apply (of_Z_exact (-1))|apply (of_Z_exact 0)]; cbn; lia. Qed.
Lemma floor_trunc x : Zfloor x = if Rlt_bool x (IZR (Ztrunc x)) then (Ztrunc x - 1)%Z else Ztrunc x.
Proof.
  pose proof (truncE x) as (T1 & T2). destruct (Rlt_bool_spec x (IZR (Ztrunc x))) as [G|G]; apply Zfloor_imp; rewrite ?plus_IZR, ?minus_IZR.
  - destruct (Rle_or_lt 0 x); [specialize (T1 H); lra|]. assert (h : x <= 0) by lra. specialize (T2 h). lra.
  - destruct (Rle_or_lt 0 x); [specialize (T1 H); lra|]. assert (h : x <= 0) by lra. specialize (T2 h). lra.
Qed.
Lemma ceil_trunc x : Zceil x = if Rlt_bool (IZR (Ztrunc x)) x then (Ztrunc x + 1)%Z else Ztrunc x.
Proof.
  pose proof (truncE x) as (T1 & T2). destruct (Rlt_bool_spec (IZR (Ztrunc x)) x) as [G|G]; apply Zceil_imp; rewrite ?minus_IZR, ?plus_IZR.
  - destruct (Rle_or_lt 0 x); [specialize (T1 H); lra|]. assert (h : x <= 0) by lra. specialize (T2 h). lra.
  - destruct (Rle_or_lt 0 x); [specialize (T1 H); lra|]. assert (h : x <= 0) by lra. specialize (T2 h). lra.
Qed.
Lemma lt_val a b x y : value a = Fin x -> value b = Fin y -> f_lt a b = Rlt_bool x y.
Proof.
  intros Ha Hb. apply eq_true_iff_eq. rewrite f_lt_spec, Ha, Hb. cbn [xlt]. destruct (Rlt_bool_spec x y); split; intros; try discriminate; auto; lra.
Qed.
Lemma floor_sse2_lane z : word z -> rounds floor_of z (lane (XMVectorFloor_sse2 (qrep z)) I0).
Proof.
  intros Hw. apply (keep_round floor_of z (f_add (f_of_Z (sint (cvtt_lane z))) (f_of_Z (sint (mask (f_lt z (f_of_Z (sint (cvtt_lane z))))))))); [exact Hw|apply enc_word|apply near_int|].
  intros x E L. destruct (cvtt_small z x E L) as (-> & _). pose proof (trunc_bound x L) as B. assert (ET : value (f_of_Z (Ztrunc x)) = Fin (IZR (Ztrunc x))) by (apply of_Z_exact; lia).
  rewrite (lt_val _ _ _ _ E ET). exists (Zfloor x). split; [|apply floorE]. rewrite floor_trunc.
  assert (EQ : IZR (Ztrunc x) + (if Rlt_bool x (IZR (Ztrunc x)) then -1 else 0) = IZR (if Rlt_bool x (IZR (Ztrunc x)) then (Ztrunc x - 1)%Z else Ztrunc x)) by (destruct (Rlt_bool _ _); rewrite ?minus_IZR; ring).
  rewrite (add_exact _ _ _ _ ET (mask_val _)); rewrite EQ; [reflexivity|apply fmt_int|apply huge_int]; destruct (Rlt_bool _ _); lia.
Qed.
Lemma ceil_sse2_lane z : word z -> rounds ceiling_of z (lane (XMVectorCeiling_sse2 (qrep z)) I0).
Proof.
  intros Hw. apply (keep_round ceiling_of z (f_sub (f_of_Z (sint (cvtt_lane z))) (f_of_Z (sint (mask (f_lt (f_of_Z (sint (cvtt_lane z))) z)))))); [exact Hw|apply enc_word|apply near_int|].
  intros x E L. destruct (cvtt_small z x E L) as (-> & _). pose proof (trunc_bound x L) as B. assert (ET : value (f_of_Z (Ztrunc x)) = Fin (IZR (Ztrunc x))) by (apply of_Z_exact; lia).
  rewrite (lt_val _ _ _ _ ET E). exists (Zceil x). split; [|apply ceilE]. rewrite ceil_trunc.
  assert (EQ : IZR (Ztrunc x) - (if Rlt_bool (IZR (Ztrunc x)) x then -1 else 0) = IZR (if Rlt_bool (IZR (Ztrunc x)) x then (Ztrunc x + 1)%Z else Ztrunc x)) by (destruct (Rlt_bool _ _); rewrite ?plus_IZR; ring).
  rewrite (sub_exact _ _ _ _ ET (mask_val _)); rewrite EQ; [reflexivity|apply fmt_int|apply huge_int]; destruct (Rlt_bool _ _); lia.
Qed.
Lemma trunc_scalar_lane z : word z -> rounds toward_zero z (lane (XMVectorTruncate_scalar (qrep z)) I0).
Proof.
  intros Hw. unfold XMVectorTruncate_scalar. cbn [qmap qrep lane qx]. destruct (f_isnan z) eqn:N.
  - apply f_isnan_spec in N. unfold rounds. rewrite N. reflexivity.
  - destruct (f_lt (f_abs z) 0x4B000000) eqn:C.
    + apply f_lt_spec in C. rewrite value_abs, val_2_23 in C by exact Hw. unfold rounds. destruct (value z) as [|s|x] eqn:E; cbn [xabs xlt] in C; try tauto.
      destruct (cvtt_small z x E C) as (_ & ->). exists (Ztrunc x). split; [apply of_Z_exact; pose proof (trunc_bound x C); lia|apply truncE].
    + apply keep_rounds; [apply near_int|]. intros x E. destruct (Rle_or_lt (IZR (2 ^ 23)) (Rabs x)) as [G|G]; [exact G|].
      assert (K : f_lt (f_abs z) 0x4B000000 = true) by (apply f_lt_spec; rewrite value_abs, val_2_23, E by exact Hw; exact G). congruence.
Qed.

(** ** modff *)
Lemma field_of s e m : (0 <= e < 256)%Z -> (0 <= m < 2 ^ 23)%Z -> e <> 255%Z -> e <> 0%Z ->
  value ((if s : bool then 2 ^ 31 else 0) + e * 2 ^ 23 + m) = Fin (signed s (IZR (2 ^ 23 + m) * pow2 (e - 150))).
Proof.
  intros He Hm h1 h2. destruct (fields_unique s e m He Hm) as (_ & F1 & F2 & F3). unfold value.
  change (bit_exp ?z) with (fexpo z). change (bit_frac ?z) with (ffrac z). change (bit_sign ?z) with (fsgn z). rewrite F1, F2, F3.
  rewrite (proj2 (Z.eqb_neq e 255)), (proj2 (Z.eqb_neq e 0)) by assumption. reflexivity.
Qed.
Lemma land_low u k : (0 <= k)%Z -> Z.land u (2 ^ k - 1) = (u mod 2 ^ k)%Z.
Proof. intros. rewrite <- Z.land_ones by assumption. rewrite Z.ones_equiv. f_equal. Qed.
Lemma land_bnot u m : word u -> Z.land u (bnot m) = Z.ldiff u m.
Proof.
  intros Hu. apply Z.bits_inj'. intros n Hn. unfold bnot. rewrite Z.land_spec, Z.ldiff_spec, Z.lxor_spec. change ones with (Z.ones 32). destruct (Z_lt_le_dec n 32) as [G|G].
  - rewrite Z.ones_spec_low by lia. destruct (Z.testbit m n); reflexivity.
  - rewrite <- (land_ones32 u Hu). change ones with (Z.ones 32). rewrite Z.land_spec, Z.ones_spec_high by lia. rewrite andb_false_r. reflexivity.
Qed.
Lemma land_high u k : word u -> (0 <= k)%Z -> Z.land u (bnot (2 ^ k - 1)) = (u / 2 ^ k * 2 ^ k)%Z.
Proof.
  intros Hu Hk. rewrite land_bnot by exact Hu. replace (2 ^ k - 1)%Z with (Z.ones k) by (rewrite Z.ones_equiv; lia).
  rewrite Z.ldiff_ones_r, Z.shiftl_mul_pow2, Z.shiftr_div_pow2 by exact Hk. reflexivity.
Qed.
Lemma zero_val : value 0 = Fin 0 /\ value 0x80000000 = Fin 0.
Proof.
  split; [change (value 0) with (Fin (0 * pow2 (-149)))|change (value 0x80000000) with (Fin (- (0 * pow2 (-149))))]; f_equal; ring.
Qed.
Lemma trunc_signed s y : Ztrunc (signed s y) = if s then (- Ztrunc y)%Z else Ztrunc y.
Proof. destruct s; cbn [signed]; [apply Ztrunc_opp|reflexivity]. Qed.
Lemma modff_val u x : word u -> value u = Fin x -> value (modff_int u) = Fin (IZR (Ztrunc x)).
Proof.
  intros Hu Hx. unfold modff_int. cbv zeta. change 0xFF%Z with (Z.ones 8). rewrite Z.land_ones, Z.shiftr_div_pow2 by lia. change ((u / 2 ^ 23) mod 2 ^ 8)%Z with (fexpo u).
  pose proof (fexpo_range u) as HE. pose proof (ffrac_range u) as HF. pose proof (word_fields u Hu) as HW.
  assert (HX : value u = Fin x) by exact Hx. unfold value in HX. change (bit_exp u) with (fexpo u) in HX. change (bit_frac u) with (ffrac u) in HX. change (bit_sign u) with (fsgn u) in HX.
  destruct (Z.eqb_spec (fexpo u) 255) as [E1|E1]; [destruct (ffrac u =? 0)%Z; discriminate|].
  assert (HI : forall n, x = IZR n -> value u = Fin (IZR (Ztrunc x))) by (intros n ->; rewrite Ztrunc_IZR; exact Hx).
  destruct (Z.leb_spec 23 (fexpo u - 0x7F)) as [G|G].
  - destruct (large_int u x Hx) as (n & En); [|apply (HI n En)].
    destruct (Rle_or_lt (IZR (2 ^ 23)) (Rabs x)) as [G'|G']; [exact G'|]. assert (K : (sint (f_abs u) <? sint 0x4B000000)%Z = true) by (apply below; [exact Hu|exists x; auto]).
    destruct (word_abs u Hu) as (W & S & E & F). unfold sint in K. change (2 ^ 31 <=? f_abs u)%Z with (fsgn (f_abs u)) in K. rewrite S in K. pose proof (word_fields _ W) as D. rewrite S, E, F in D. cbn in K. apply Z.ltb_lt in K. lia.
  - assert (PP : forall e, 0 < pow2 e) by apply pow2_pos.
    destruct (Z.ltb_spec (fexpo u - 0x7F) 0) as [G2|G2].
    + assert (T : Ztrunc x = 0%Z).
      { assert (B : exists y, x = signed (fsgn u) y /\ 0 <= y < 1).
        { destruct (Z.eqb_spec (fexpo u) 0) as [E2|E2]; apply Fin_inj in HX; rewrite <- HX; eexists; (split; [reflexivity|]); (split; [apply Rmult_le_pos; [apply mag_pos; lia|apply Rlt_le, PP]|]); rewrite pow2_bpow.
          - apply Rlt_trans with (bpow radix2 23 * bpow radix2 (-149)); [apply Rmult_lt_compat_r; [apply bpow_gt_0|apply (IZR_lt _ (2 ^ 23)); lia]|]. rewrite <- bpow_plus. apply (bpow_lt radix2 _ 0). reflexivity.
          - apply Rlt_le_trans with (bpow radix2 24 * bpow radix2 (fexpo u - 150)); [apply Rmult_lt_compat_r; [apply bpow_gt_0|apply (IZR_lt _ (2 ^ 24)); lia]|]. rewrite <- bpow_plus. apply (bpow_le radix2 _ 0). lia. }
        destruct B as (y & -> & Hy). rewrite trunc_signed, (Ztrunc_floor y), (Zfloor_imp 0 y) by (cbn; lra). destruct (fsgn u); reflexivity. }
      rewrite T, land_sign by exact Hu. destruct (fsgn u); apply zero_val.
    + set (k := (150 - fexpo u)%Z). assert (Hk : (1 <= k <= 23)%Z) by (unfold k; lia).
      assert (EM : Z.shiftr 0x007FFFFF (fexpo u - 0x7F) = (2 ^ k - 1)%Z).
      { change 0x007FFFFF%Z with (Z.ones 23). rewrite Z.shiftr_div_pow2, Z.ones_div_pow2 by lia. rewrite Z.ones_equiv. replace (23 - (fexpo u - 0x7F))%Z with k by (unfold k; lia). lia. }
      rewrite EM, land_low, land_high by (exact Hu || lia).
      destruct (Z.eqb_spec (fexpo u) 0) as [E2|E2]; [lia|]. apply Fin_inj in HX. set (m := ffrac u) in *. set (s := fsgn u) in *.
      assert (P23 : (2 ^ 23 = 2 ^ (23 - k) * 2 ^ k)%Z) by (rewrite <- Z.pow_add_r by lia; f_equal; lia).
      assert (Pk : (0 < 2 ^ k)%Z) by (apply Z.pow_pos_nonneg; lia).
      assert (EY : forall n, IZR n * pow2 (fexpo u - 150) = IZR n / IZR (2 ^ k)).
      { intros n. unfold pow2. destruct (Z.leb_spec 0 (fexpo u - 150)); [unfold k in *; lia|]. replace (- (fexpo u - 150))%Z with k by (unfold k; lia). reflexivity. }
      assert (D31 : ((if s then 2 ^ 31 else 0) = (if s then 2 ^ 31 else 0) / 2 ^ k * 2 ^ k)%Z).
      { destruct s; [|reflexivity]. replace (2 ^ 31)%Z with (2 ^ (31 - k) * 2 ^ k)%Z by (rewrite <- Z.pow_add_r by lia; f_equal; lia). rewrite Z.div_mul by lia. reflexivity. }
      assert (DU : (u / 2 ^ k * 2 ^ k = (if s then 2 ^ 31 else 0) + fexpo u * 2 ^ 23 + m / 2 ^ k * 2 ^ k)%Z).
      { rewrite HW at 1. rewrite P23. rewrite D31 at 1.
        replace ((if s then 2 ^ 31 else 0) / 2 ^ k * 2 ^ k + fexpo u * (2 ^ (23 - k) * 2 ^ k) + m)%Z with (m + ((if s then 2 ^ 31 else 0) / 2 ^ k + fexpo u * 2 ^ (23 - k)) * 2 ^ k)%Z by ring.
        rewrite Z.div_add by lia. rewrite D31 at 2. ring. }
      assert (DM : (m = 2 ^ k * (m / 2 ^ k) + m mod 2 ^ k)%Z) by (apply Z.div_mod; lia). pose proof (Z.mod_pos_bound m (2 ^ k) Pk) as MB.
      assert (DB : (0 <= m / 2 ^ k * 2 ^ k <= m)%Z) by (split; [apply Z.mul_nonneg_nonneg; [apply Z.div_pos; lia|lia]|lia]).
      assert (VT : value (u / 2 ^ k * 2 ^ k) = Fin (IZR (Ztrunc x))).
      { rewrite DU, field_of; try lia. rewrite EY, <- HX, trunc_signed, EY. rewrite Ztrunc_floor by (apply Rle_mult_inv_pos; [apply mag_pos; lia|apply IZR_lt, Pk]).
        replace (2 ^ 23 + m)%Z with ((2 ^ (23 - k) + m / 2 ^ k) * 2 ^ k + m mod 2 ^ k)%Z by (rewrite P23; lia). replace (2 ^ 23 + m / 2 ^ k * 2 ^ k)%Z with ((2 ^ (23 - k) + m / 2 ^ k) * 2 ^ k)%Z by (rewrite P23; ring).
        set (w := (2 ^ (23 - k) + m / 2 ^ k)%Z). assert (PK : 0 < IZR (2 ^ k)) by (apply IZR_lt, Pk).
        assert (EF : Zfloor (IZR (w * 2 ^ k + m mod 2 ^ k) / IZR (2 ^ k)) = w).
        { apply Zfloor_imp. rewrite plus_IZR, mult_IZR. assert (0 <= IZR (m mod 2 ^ k) < IZR (2 ^ k)) by (split; [apply IZR_le|apply IZR_lt]; lia).
          rewrite plus_IZR. unfold Rdiv. rewrite Rmult_plus_distr_r, Rmult_assoc, Rinv_r, Rmult_1_r by lra. assert (0 < / IZR (2 ^ k)) by (apply Rinv_0_lt_compat; lra).
          assert (/ IZR (2 ^ k) * IZR (2 ^ k) = 1) by (apply Rinv_l; lra). split; nra. }
        rewrite EF. rewrite mult_IZR. unfold Rdiv. rewrite Rmult_assoc, Rinv_r, Rmult_1_r by lra. destruct s; cbn [signed]; rewrite ?opp_IZR; reflexivity. }
      destruct (Z.eqb_spec (u mod 2 ^ k) 0) as [Z0|Z0]; [|exact VT]. rewrite <- VT. f_equal. rewrite (Z.div_mod u (2 ^ k)) at 1 by lia. rewrite Z0. ring.
Qed.

(** ** Round, scalar: floor, then compare the rest with 1/2 *)
Lemma rest_exact z x : value z = Fin x -> ~ (- (1 / 2) < x < 0) -> fmt (x - IZR (Zfloor x)).
Proof.
  intros E H. pose proof (floorE x) as (L & U). destruct (value_fmt z x E) as (F & _).
  destruct (Rle_or_lt 0 x) as [P|P]; [destruct (Rlt_or_le x 1) as [P1|P1]|].
  - rewrite (Zfloor_imp 0 x) by (cbn; lra). rewrite Rminus_0_r. exact F.
  - assert (B : 1 / 2 <= Rabs x) by (rewrite Rabs_pos_eq; lra). revert B. clear P P1 H. intros B. unfold fmt, generic_format in F. set (e := cexp radix2 fx32 x) in *. set (m := Ztrunc (scaled_mantissa radix2 fx32 x)) in *.
    assert (He : (-24 <= e)%Z). { unfold e, cexp, FLT_exp. assert (0 <= mag radix2 x)%Z by (apply mag_ge_bpow; cbn; lra). lia. }
    unfold F2R in F; cbn [Fnum Fexp] in F. destruct (Z_le_gt_dec 0 e) as [G|G].
    + rewrite <- IZR_Zpower in F by exact G. rewrite <- mult_IZR in F. rewrite F, Zfloor_IZR, Rminus_diag_eq by reflexivity. apply fmt_0.
    + set (i := Zfloor x) in *. assert (EQ : x - IZR i = IZR (m - i * 2 ^ (- e)) * bpow radix2 e).
      { change (2 ^ (- e))%Z with (radix2 ^ (- e))%Z. rewrite minus_IZR, mult_IZR, (IZR_Zpower radix2 (- e)) by lia. rewrite Rmult_minus_distr_r, Rmult_assoc, <- bpow_plus. replace (- e + e)%Z with 0%Z by lia. change (bpow radix2 0) with 1. rewrite Rmult_1_r, <- F. reflexivity. }
      rewrite EQ. apply fmt_scaled; [|lia]. apply le_IZR. rewrite abs_IZR. apply (Rmult_le_reg_r (bpow radix2 e)); [apply bpow_gt_0|].
      rewrite <- (Rabs_pos_eq (bpow radix2 e)) at 1 by apply bpow_ge_0. rewrite <- Rabs_mult, <- EQ. rewrite Rabs_pos_eq by lra. apply Rle_trans with 1; [lra|]. change (IZR (2 ^ 24)) with (bpow radix2 24). rewrite <- bpow_plus. apply (bpow_le radix2 0). lia.
  - assert (B : 1 / 2 <= Rabs x) by (rewrite Rabs_left; lra). revert B. clear P H. intros B. unfold fmt, generic_format in F. set (e := cexp radix2 fx32 x) in *. set (m := Ztrunc (scaled_mantissa radix2 fx32 x)) in *.
    assert (He : (-24 <= e)%Z). { unfold e, cexp, FLT_exp. assert (0 <= mag radix2 x)%Z by (apply mag_ge_bpow; cbn; lra). lia. }
    unfold F2R in F; cbn [Fnum Fexp] in F. destruct (Z_le_gt_dec 0 e) as [G|G].
    + rewrite <- IZR_Zpower in F by exact G. rewrite <- mult_IZR in F. rewrite F, Zfloor_IZR, Rminus_diag_eq by reflexivity. apply fmt_0.
    + set (i := Zfloor x) in *. assert (EQ : x - IZR i = IZR (m - i * 2 ^ (- e)) * bpow radix2 e).
      { change (2 ^ (- e))%Z with (radix2 ^ (- e))%Z. rewrite minus_IZR, mult_IZR, (IZR_Zpower radix2 (- e)) by lia. rewrite Rmult_minus_distr_r, Rmult_assoc, <- bpow_plus. replace (- e + e)%Z with 0%Z by lia. change (bpow radix2 0) with 1. rewrite Rmult_1_r, <- F. reflexivity. }
      rewrite EQ. apply fmt_scaled; [|lia]. apply le_IZR. rewrite abs_IZR. apply (Rmult_le_reg_r (bpow radix2 e)); [apply bpow_gt_0|].
      rewrite <- (Rabs_pos_eq (bpow radix2 e)) at 1 by apply bpow_ge_0. rewrite <- Rabs_mult, <- EQ. rewrite Rabs_pos_eq by lra. apply Rle_trans with 1; [lra|]. change (IZR (2 ^ 24)) with (bpow radix2 24). rewrite <- bpow_plus. apply (bpow_le radix2 0). lia.
Qed.
Lemma rtn_lane z : word z -> rounds nearest_even z (round_to_nearest z).
Proof.
  intros Hw. unfold rounds. destruct (value z) as [|s|x] eqn:E.
  - rewrite value_dec in E. assert (D : dec z = B754_nan) by (destruct (dec z); (discriminate || reflexivity)).
    unfold round_to_nearest, f_floor, f_sub. cbv zeta. rewrite D. vm_compute. reflexivity.
  - rewrite value_dec in E. assert (D : dec z = B754_infinity s) by (destruct (dec z); try discriminate; injection E as ->; reflexivity).
    unfold round_to_nearest, f_floor, f_sub. cbv zeta. rewrite D. destruct s; vm_compute; reflexivity.
  - unfold round_to_nearest. cbv zeta. pose proof (floorE x) as (L & U). pose proof (near_val mode_DN z x E) as VI. change (enc (Bnearbyint mode_DN (dec z))) with (f_floor z) in VI. change (round_mode mode_DN x) with (Zfloor x) in VI.
    set (i := Zfloor x) in *.
    assert (RB : 0 <= RN (x - IZR i) <= 1).
    { pose proof (RN_le 0 (x - IZR i)) as r0. pose proof (RN_le (x - IZR i) 1) as r1. rewrite (RN_fmt 0) in r0 by apply fmt_0. rewrite (RN_fmt 1) in r1 by (apply (fmt_int 1); lia). split; [apply r0|apply r1]; lra. }
    assert (H1 : 1 < huge) by (pose proof (huge_int 1 ltac:(lia)) as h; rewrite Rabs_pos_eq in h by lra; exact h).
    assert (VD : value (f_sub z (f_floor z)) = Fin (RN (x - IZR i))) by (apply (sub_val _ _ _ _ E VI); rewrite Rabs_pos_eq by lra; lra).
    rewrite (lt_val _ _ _ _ VD val_half), (lt_val _ _ _ _ val_half VD).
    assert (SM : x <> IZR i -> (Z.abs i <= 2 ^ 23)%Z).
    { intros NI. assert (Rabs x < IZR (2 ^ 23)). { destruct (Rle_or_lt (IZR (2 ^ 23)) (Rabs x)) as [G|G]; [|exact G]. destruct (large_int z x E G) as (n & En). elim NI. unfold i. rewrite En, Zfloor_IZR. reflexivity. }
      apply Rabs_lt_inv in H. assert (Zfloor (IZR (- 2 ^ 23)) <= i <= Zfloor (IZR (2 ^ 23)))%Z by (split; apply Zfloor_le; rewrite ?opp_IZR; lra). rewrite !Zfloor_IZR in H0. lia. }
    assert (PLUS : x <> IZR i -> value (f_add (f_floor z) 0x3F800000) = Fin (IZR (i + 1))).
    { intros NI. specialize (SM NI). rewrite (add_exact _ _ _ _ VI val_1); rewrite <- (plus_IZR i 1); [reflexivity|apply fmt_int; lia|apply huge_int; lia]. }
    assert (HALF : x <> IZR i -> value (modff_int (f_div (f_floor z) 0x40000000)) = Fin (IZR (Ztrunc (IZR i / 2))) /\ value (f_mul 0x40000000 (modff_int (f_div (f_floor z) 0x40000000))) = Fin (IZR (2 * Ztrunc (IZR i / 2)))).
    { intros NI. specialize (SM NI). assert (FH : fmt (IZR i / 2)) by (replace (IZR i / 2) with (IZR i * bpow radix2 (-1)) by (cbn; lra); apply fmt_scaled; lia).
      assert (BH : Rabs (IZR i / 2) < IZR (2 ^ 24)).
      { unfold Rdiv. rewrite Rabs_mult, (Rabs_pos_eq (/ 2)) by lra. rewrite <- abs_IZR. assert (IZR (Z.abs i) <= IZR (2 ^ 23)) by (apply IZR_le; lia). change (IZR (2 ^ 24)) with (2 * IZR (2 ^ 23)). lra. }
      assert (VH : value (f_div (f_floor z) 0x40000000) = Fin (IZR i / 2)).
      { apply (div_exact _ _ _ _ VI val_2); [lra|exact FH|]. eapply Rlt_trans; [exact BH|]. rewrite <- (Rabs_pos_eq (IZR (2 ^ 24))) by (apply mag_pos; lia). apply huge_int. lia. }
      assert (VM : value (modff_int (f_div (f_floor z) 0x40000000)) = Fin (IZR (Ztrunc (IZR i / 2)))) by (apply modff_val; [apply enc_word|exact VH]).
      assert (TB : (Z.abs (2 * Ztrunc (IZR i / 2)) <= 2 ^ 24)%Z).
      { assert (Z.abs (Ztrunc (IZR i / 2)) <= 2 ^ 23)%Z; [|lia]. apply trunc_bound. unfold Rdiv. rewrite Rabs_mult, (Rabs_pos_eq (/ 2)) by lra. rewrite <- abs_IZR. assert (IZR (Z.abs i) <= IZR (2 ^ 23)) by (apply IZR_le; lia). assert (0 < IZR (2 ^ 23)) by (apply IZR_lt; lia). lra. }
      split; [exact VM|]. rewrite (mul_exact _ _ _ _ val_2 VM); rewrite <- (mult_IZR 2); [reflexivity|apply fmt_int, TB|apply huge_int, TB]. }
    assert (EVEN : (2 * Ztrunc (IZR i / 2))%Z = i <-> Z.even i = true).
    { split.
      - intros <-. rewrite Z.even_mul. reflexivity.
      - intros (j & ->)%Z.even_spec. rewrite mult_IZR. replace (2 * IZR j / 2) with (IZR j) by field. rewrite Ztrunc_IZR. reflexivity. }
    destruct (Rle_or_lt x (- (1 / 2))) as [A1|A1]; [|destruct (Rlt_or_le x 0) as [A2|A2]].
    1,3: assert (ER : RN (x - IZR i) = x - IZR i) by (apply RN_fmt, (rest_exact z x E); lra); rewrite ER;
      (destruct (Rlt_bool_spec (x - IZR i) (1 / 2)) as [B|B];
        [exists i; split; [exact VI|]; unfold nearest_even; rewrite Rabs_pos_eq by lra; lra|]);
      assert (NI : x <> IZR i) by lra; specialize (PLUS NI); destruct (HALF NI) as (_ & HM);
      (destruct (Rlt_bool_spec (1 / 2) (x - IZR i)) as [B'|B'];
        [exists (i + 1)%Z; split; [exact PLUS|]; unfold nearest_even; rewrite plus_IZR, Rabs_left by lra; lra|]);
      assert (TIE : x - IZR i = 1 / 2) by lra;
      destruct (f_eq _ _) eqn:Q;
      [apply f_eq_spec in Q; rewrite HM, VI in Q; cbn [xeq] in Q; apply eq_IZR in Q; exists i; split; [exact VI|]; unfold nearest_even; rewrite TIE, Rabs_pos_eq by lra; split; [lra|]; intros _; apply EVEN, Q
      |exists (i + 1)%Z; split; [exact PLUS|]; unfold nearest_even; rewrite plus_IZR; replace (x - (IZR i + 1)) with (- (1 / 2)) by lra; rewrite Rabs_Ropp, Rabs_pos_eq by lra; split; [lra|]; intros _;
       rewrite Z.even_add; destruct (Z.even i) eqn:EI; [|reflexivity]; exfalso; assert (K : f_eq (f_mul 0x40000000 (modff_int (f_div (f_floor z) 0x40000000))) (f_floor z) = true) by (apply f_eq_spec; rewrite HM, VI; cbn [xeq]; f_equal; apply EVEN; reflexivity); congruence].
    assert (Ei : i = (-1)%Z) by (apply Zfloor_imp; cbn; lra).
    assert (NI : x <> IZR i) by (rewrite Ei; lra). specialize (PLUS NI). destruct (HALF NI) as (_ & HM).
    assert (GE : 1 / 2 <= RN (x - IZR i)).
    { replace (1 / 2) with (RN (1 / 2)); [apply RN_le; rewrite Ei; lra|]. apply RN_fmt. replace (1 / 2) with (bpow radix2 (-1)) by (cbn; lra). apply fmt_pow. lia. }
    rewrite (Rlt_bool_false (RN (x - IZR i)) (1 / 2)) by exact GE.
    assert (ANS : value (f_add (f_floor z) 0x3F800000) = Fin (IZR 0) /\ nearest_even x 0) by (rewrite PLUS, Ei; split; [reflexivity|]; unfold nearest_even; rewrite Rminus_0_r, Rabs_left by lra; lra).
    exists 0%Z. destruct (Rlt_bool (1 / 2) (RN (x - IZR i))); [exact ANS|].
    destruct (f_eq _ _) eqn:Q; [|exact ANS]. apply f_eq_spec in Q. rewrite HM, VI in Q. cbn [xeq] in Q. apply eq_IZR in Q. apply EVEN in Q. rewrite Ei in Q. discriminate.
Qed.
