(** The binary32 layer meets the bit-field specification. *)
From Coq Require Import Reals Lra.
From Flocq Require Import Core IEEE754.BinarySingleNaN.
From Verif Require Import Base F32 F32Facts SpecF32.
Open Scope Z_scope.

Definition xof (f : bf32) : xreal :=
  match f with B754_nan => NaN | B754_infinity s => Inf s | f => Fin (B2R f) end.

Lemma pow2_bpow e : pow2 e = bpow radix2 e.
Proof.
  unfold pow2. destruct (Z.leb_spec 0 e).
  - rewrite <- IZR_Zpower by assumption. reflexivity.
  - replace e with (- (- e)) at 2 by lia. rewrite bpow_opp. rewrite <- IZR_Zpower by lia. reflexivity.
Qed.
Lemma F2R_signed s p e : F2R (Float radix2 (cond_Zopp s (Z.pos p)) e) = signed s (IZR (Z.pos p) * pow2 e).
Proof.
  unfold F2R. cbn [Fnum Fexp]. rewrite <- pow2_bpow. destruct s; cbn [cond_Zopp signed].
  - rewrite opp_IZR. ring.
  - reflexivity.
Qed.

Lemma value_dec z : value z = xof (dec z).
Proof.
  pose proof (dec_sf z) as H. unfold sf_of in H. unfold value.
  change (bit_exp z) with (fexpo z). change (bit_frac z) with (ffrac z). change (bit_sign z) with (fsgn z).
  pose proof (ffrac_range z).
  destruct (Z.eqb_spec (fexpo z) 0) as [E|E].
  - rewrite E. cbn [Z.eqb].
    destruct (ffrac z) eqn:F; [| |lia]; destruct (dec z); try discriminate H; injection H; intros; subst; cbn [xof B2R].
    + f_equal. destruct (fsgn z); cbn [signed]; ring.
    + f_equal. symmetry. apply F2R_signed.
  - destruct (Z.eqb_spec (fexpo z) 255) as [E'|E'].
    + destruct (ffrac z) eqn:F; destruct (dec z); try discriminate H; try reflexivity.
      injection H; intros; subst; reflexivity.
    + rewrite (Z.add_comm (2 ^ 23)). destruct (ffrac z + 2 ^ 23) eqn:F; try lia.
      destruct (dec z); try discriminate H. injection H; intros; subst; cbn [xof B2R].
      f_equal. symmetry. apply F2R_signed.
Qed.
Lemma value_enc f : value (enc f) = xof f.
Proof. now rewrite value_dec, dec_enc. Qed.

Lemma f_lt_spec a b : f_lt a b = true <-> xlt (value a) (value b).
Proof.
  rewrite !value_dec. unfold f_lt.
  destruct (is_finite (dec a)) eqn:Fa, (is_finite (dec b)) eqn:Fb.
  - rewrite Bltb_correct by assumption.
    assert (Ha : xof (dec a) = Fin (B2R (dec a))) by (destruct (dec a); (discriminate || reflexivity)).
    assert (Hb : xof (dec b) = Fin (B2R (dec b))) by (destruct (dec b); (discriminate || reflexivity)).
    rewrite Ha, Hb. cbn [xlt]. destruct (Rlt_bool_spec (B2R (dec a)) (B2R (dec b))); split; intros; try discriminate; auto. lra.
  - destruct (dec a) as [|sa| |sa], (dec b) as [|sb| |sb]; try discriminate; try destruct sa; try destruct sb; cbn; intuition discriminate.
  - destruct (dec a) as [|sa| |sa], (dec b) as [|sb| |sb]; try discriminate; try destruct sa; try destruct sb; cbn; intuition discriminate.
  - destruct (dec a) as [|sa| |sa], (dec b) as [|sb| |sb]; try discriminate; try destruct sa; try destruct sb; cbn; intuition discriminate.
Qed.
Lemma f_eq_spec a b : f_eq a b = true <-> xeq (value a) (value b).
Proof.
  rewrite !value_dec. unfold f_eq.
  destruct (is_finite (dec a)) eqn:Fa, (is_finite (dec b)) eqn:Fb.
  - rewrite Beqb_correct by assumption.
    assert (Ha : xof (dec a) = Fin (B2R (dec a))) by (destruct (dec a); (discriminate || reflexivity)).
    assert (Hb : xof (dec b) = Fin (B2R (dec b))) by (destruct (dec b); (discriminate || reflexivity)).
    rewrite Ha, Hb. cbn [xeq]. destruct (Req_bool_spec (B2R (dec a)) (B2R (dec b))); split; intros; try discriminate; auto.
  - destruct (dec a) as [|sa| |sa], (dec b) as [|sb| |sb]; try discriminate; try destruct sa; try destruct sb; cbn; intuition discriminate.
  - destruct (dec a) as [|sa| |sa], (dec b) as [|sb| |sb]; try discriminate; try destruct sa; try destruct sb; cbn; intuition discriminate.
  - destruct (dec a) as [|sa| |sa], (dec b) as [|sb| |sb]; try discriminate; try destruct sa; try destruct sb; cbn; intuition discriminate.
Qed.
Lemma f_le_spec a b : f_le a b = true <-> xle (value a) (value b).
Proof.
  rewrite !value_dec. unfold f_le, xle.
  destruct (is_finite (dec a)) eqn:Fa, (is_finite (dec b)) eqn:Fb.
  - rewrite Bleb_correct by assumption.
    assert (Ha : xof (dec a) = Fin (B2R (dec a))) by (destruct (dec a); (discriminate || reflexivity)).
    assert (Hb : xof (dec b) = Fin (B2R (dec b))) by (destruct (dec b); (discriminate || reflexivity)).
    rewrite Ha, Hb. cbn [xeq xlt]. destruct (Rle_bool_spec (B2R (dec a)) (B2R (dec b))); split; intros; try discriminate; auto; lra.
  - destruct (dec a) as [|sa| |sa], (dec b) as [|sb| |sb]; try discriminate; try destruct sa; try destruct sb; cbn; intuition discriminate.
  - destruct (dec a) as [|sa| |sa], (dec b) as [|sb| |sb]; try discriminate; try destruct sa; try destruct sb; cbn; intuition discriminate.
  - destruct (dec a) as [|sa| |sa], (dec b) as [|sb| |sb]; try discriminate; try destruct sa; try destruct sb; cbn; intuition discriminate.
Qed.

Lemma f_isnan_spec a : f_isnan a = true <-> value a = NaN.
Proof. rewrite value_dec. unfold f_isnan. destruct (dec a); cbn; intuition discriminate. Qed.

(** order facts on the extended reals *)
Lemma xle_refl a : a <> NaN -> xle a a.
Proof. destruct a; cbn; intros; [contradiction|right; reflexivity|right; reflexivity]. Qed.
Lemma xlt_trichotomy a b : a <> NaN -> b <> NaN -> xlt a b \/ xeq a b \/ xlt b a.
Proof. destruct a as [|[]|], b as [|[]|]; cbn; intros; try tauto. lra. Qed.
Lemma xle_not_lt a b : a <> NaN -> b <> NaN -> (xle a b <-> ~ xlt b a).
Proof. unfold xle. destruct a as [|[]|], b as [|[]|]; cbn; intros; try tauto; try (intuition discriminate). lra. Qed.
Lemma xle_trans a b c : xle a b -> xle b c -> xle a c.
Proof.
  unfold xle. destruct a as [|[]|], b as [|[]|], c as [|[]|]; cbn; try tauto; try (intuition discriminate).
  intros; lra.
Qed.
Lemma xle_nan_l b : ~ xle NaN b. Proof. unfold xle; cbn; tauto. Qed.
Lemma xle_nan_r a : ~ xle a NaN. Proof. unfold xle; destruct a as [|[]|]; cbn; tauto. Qed.

(** negation and absolute value of words *)
Lemma word_neg z : word z -> word (f_neg z) /\ fsgn (f_neg z) = negb (fsgn z) /\ fexpo (f_neg z) = fexpo z /\ ffrac (f_neg z) = ffrac z.
Proof.
  intros Hw. pose proof (word_fields z Hw) as Hz. pose proof (ffrac_range z). pose proof (fexpo_range z).
  assert (Hn : f_neg z = (if negb (fsgn z) then 2 ^ 31 else 0) + fexpo z * 2 ^ 23 + ffrac z).
  { unfold f_neg. set (lo := fexpo z * 2 ^ 23 + ffrac z).
    assert (0 <= lo < 2 ^ 31) by (unfold lo; lia).
    assert (Hb : Z.testbit lo 31 = false) by (rewrite <- (Z.mod_small lo (2 ^ 31)) by lia; apply Z.mod_pow2_bits_high; lia).
    assert (Hl : Z.land lo (2 ^ 31) = 0).
    { apply Z.bits_inj'. intros n Hn. rewrite Z.land_spec, Z.bits_0, Z.pow2_bits_eqb by lia.
      destruct (Z.eqb_spec 31 n) as [<-|]; [rewrite Hb|rewrite andb_false_r]; reflexivity. }
    change 0x80000000 with (2 ^ 31).
    destruct (fsgn z) eqn:Sz; cbn [negb].
    - replace z with (2 ^ 31 + lo) at 1 by (unfold lo; lia).
      rewrite (Z.add_comm (2 ^ 31)), (Z.add_nocarry_lxor lo (2 ^ 31)) by assumption.
      rewrite Z.lxor_assoc, Z.lxor_nilpotent, Z.lxor_0_r. unfold lo; lia.
    - replace z with lo at 1 by (unfold lo; lia). rewrite <- (Z.add_nocarry_lxor lo (2 ^ 31)) by assumption. unfold lo; lia. }
  rewrite Hn. apply fields_unique; assumption.
Qed.
Lemma word_abs z : word z -> word (f_abs z) /\ fsgn (f_abs z) = false /\ fexpo (f_abs z) = fexpo z /\ ffrac (f_abs z) = ffrac z.
Proof.
  intros Hw. pose proof (word_fields z Hw) as Hz. pose proof (ffrac_range z). pose proof (fexpo_range z).
  assert (Hn : f_abs z = (if false then 2 ^ 31 else 0) + fexpo z * 2 ^ 23 + ffrac z).
  { unfold f_abs. change 0x7FFFFFFF with (Z.ones 31). rewrite Z.land_ones by lia.
    symmetry. apply Z.mod_unique with (if fsgn z then 1 else 0); destruct (fsgn z) eqn:Sz; lia. }
  rewrite Hn. exact (fields_unique false (fexpo z) (ffrac z) ltac:(assumption) ltac:(assumption)).
Qed.
Lemma dec_neg z : word z -> dec (f_neg z) = Bopp (dec z).
Proof.
  intros Hw. destruct (word_neg z Hw) as (_ & Hs & He & Hf).
  apply B2SF_inj. rewrite dec_sf. replace (B2SF (Bopp (dec z))) with (SpecFloat.SFopp (B2SF (dec z))) by (destruct (dec z); reflexivity).
  rewrite dec_sf. unfold sf_of. rewrite Hs, He, Hf.
  destruct (fexpo z =? 0); [destruct (ffrac z); reflexivity|].
  destruct (fexpo z =? 255); [destruct (ffrac z); reflexivity|].
  destruct (ffrac z + 2 ^ 23); reflexivity.
Qed.
Lemma dec_abs z : word z -> dec (f_abs z) = Babs (dec z).
Proof.
  intros Hw. destruct (word_abs z Hw) as (_ & Hs & He & Hf).
  apply B2SF_inj. rewrite dec_sf. replace (B2SF (Babs (dec z))) with (SpecFloat.SFabs (B2SF (dec z))) by (destruct (dec z); reflexivity).
  rewrite dec_sf. unfold sf_of. rewrite Hs, He, Hf.
  destruct (fexpo z =? 0); [destruct (ffrac z); reflexivity|].
  destruct (fexpo z =? 255); [destruct (ffrac z); reflexivity|].
  destruct (ffrac z + 2 ^ 23); reflexivity.
Qed.
Lemma value_neg z : word z -> value (f_neg z) = xneg (value z).
Proof.
  intros Hw. rewrite !value_dec, dec_neg by assumption. destruct (dec z); cbn [Bopp xof xneg]; try reflexivity.
  - f_equal. cbn. ring.
  - f_equal. cbn [B2R]. unfold F2R; cbn [Fnum Fexp]. rewrite cond_Zopp_negb, opp_IZR. ring.
Qed.
Lemma value_abs z : word z -> value (f_abs z) = xabs (value z).
Proof.
  intros Hw. rewrite !value_dec, dec_abs by assumption. 
  destruct (dec z) as [| | |s m e H] eqn:E; cbn [Babs xof xabs]; try reflexivity.
  - f_equal. cbn. now rewrite Rabs_R0.
  - f_equal. cbn [B2R]. rewrite <- F2R_Zabs, abs_cond_Zopp. reflexivity.
Qed.

(** multiplication by -1 *)
Definition fm1 : bf32 := dec 0xBF800000.
Lemma xof_fin f : is_finite f = true -> xof f = Fin (B2R f).
Proof. destruct f; (discriminate || reflexivity). Qed.
Lemma fm1_eq : B2R fm1 = (-1)%R.
Proof.
  assert (H : Fin (B2R fm1) = Fin (-1)); [|now injection H].
  rewrite <- xof_fin by reflexivity. unfold fm1. rewrite <- value_dec.
  change (value 0xBF800000) with (Fin (- (IZR 8388608 * / IZR 8388608))). f_equal. field.
Qed.
Lemma Bmult_m1 (x : bf32) : is_nan x = false -> Bmult mode_NE x fm1 = Bopp x.
Proof.
  intros Hn. destruct (is_finite x) eqn:Hf.
  - pose proof (Bmult_correct 24 128 _ _ mode_NE x fm1) as H.
    rewrite fm1_eq in H. replace (B2R x * -1)%R with (- B2R x)%R in H by ring.
    assert (Hr : round radix2 (SpecFloat.fexp 24 128) (round_mode mode_NE) (- B2R x) = (- B2R x)%R).
    { apply round_generic; [apply valid_rnd_round_mode|]. apply generic_format_opp, generic_format_B2R. }
    rewrite Hr in H. rewrite Rabs_Ropp, Rlt_bool_true in H by apply abs_B2R_lt_emax.
    destruct H as (H1 & H2 & H3).
    assert (Hfin : is_finite (Bmult mode_NE x fm1) = true) by (rewrite H2, Hf; reflexivity).
    apply B2R_Bsign_inj.
    + exact Hfin.
    + rewrite is_finite_Bopp. exact Hf.
    + rewrite H1, B2R_Bopp. reflexivity.
    + rewrite H3.
      * rewrite Bsign_Bopp by exact Hn. change (Bsign fm1) with true. apply xorb_true_r.
      * destruct (Bmult mode_NE x fm1); (reflexivity || discriminate).
  - destruct x as [|s| |]; try discriminate. cbn. now destruct s.
Qed.
Lemma dec_mul_m1 b : word b -> f_isnan b = false -> f_mul b 0xBF800000 = f_neg b.
Proof.
  intros Hw Hn. unfold f_mul. change (dec 0xBF800000) with fm1. rewrite Bmult_m1 by exact Hn.
  rewrite <- dec_neg by assumption. apply enc_dec; [apply word_neg; assumption|].
  unfold f_isnan. rewrite dec_neg by assumption. now rewrite is_nan_Bopp.
Qed.
Lemma value_mul_m1 b : word b -> value (f_mul b 0xBF800000) = xneg (value b).
Proof.
  intros Hw. destruct (f_isnan b) eqn:Hn.
  - unfold f_mul. rewrite value_enc, value_dec. unfold f_isnan in Hn. destruct (dec b); try discriminate. reflexivity.
  - rewrite dec_mul_m1, value_neg by assumption. reflexivity.
Qed.

(** 0 - x *)
Lemma f_sub0 z : word z -> f_sub 0 z =
  if f_isnan z then qnan else if f_eq z 0 then 0 else f_neg z.
Proof.
  intros Hw. unfold f_sub. change (dec 0) with (@B754_zero 24 128 false).
  destruct (f_isnan z) eqn:Hn.
  - unfold f_isnan in Hn. destruct (dec z); try discriminate; reflexivity.
  - assert (E : enc (Bopp (dec z)) = f_neg z).
    { rewrite <- dec_neg by assumption. apply enc_dec; [apply word_neg; assumption|].
      unfold f_isnan. rewrite dec_neg by assumption. now rewrite is_nan_Bopp. }
    unfold f_eq. change (dec 0) with (@B754_zero 24 128 false).
    unfold f_isnan in Hn. destruct (dec z) as [s|s| |s m e H]; try discriminate.
    + destruct s; reflexivity.
    + rewrite <- E. destruct s; reflexivity.
    + rewrite <- E. destruct s; reflexivity.
Qed.
Lemma value_sub0 z : word z -> value (f_sub 0 z) = xneg (value z).
Proof.
  intros Hw. rewrite f_sub0 by assumption.
  destruct (f_isnan z) eqn:Hn.
  - apply f_isnan_spec in Hn. rewrite Hn. reflexivity.
  - destruct (f_eq z 0) eqn:Ez; [|now apply value_neg].
    apply f_eq_spec in Ez. change (value 0) with (Fin (0 * pow2 (-149))) in *. rewrite Rmult_0_l in *.
    destruct (value z); cbn in Ez; try tauto. subst. cbn. f_equal. ring.
Qed.
