(** Facts about the binary32 layer used by the proofs. *)
From Coq Require Import ZArith Bool Lia Reals.
From Flocq Require Import Core IEEE754.BinarySingleNaN.
From Flocq Require IEEE754.Binary IEEE754.Bits.
From Verif Require Import Base F32.
Open Scope Z_scope.

Definition fsgn (z : Z) : bool := 2 ^ 31 <=? z.
Definition fexpo (z : Z) : Z := (z / 2 ^ 23) mod 256.
Definition ffrac (z : Z) : Z := z mod 2 ^ 23.

Definition sf_of (z : Z) : SpecFloat.spec_float :=
  if fexpo z =? 0 then
    match ffrac z with Z.pos p => SpecFloat.S754_finite (fsgn z) p (-149) | _ => SpecFloat.S754_zero (fsgn z) end
  else if fexpo z =? 255 then
    match ffrac z with 0 => SpecFloat.S754_infinity (fsgn z) | _ => SpecFloat.S754_nan end
  else
    match ffrac z + 2 ^ 23 with
    | Z.pos p => SpecFloat.S754_finite (fsgn z) p (fexpo z - 150) | _ => SpecFloat.S754_nan end.

Lemma ffrac_range z : 0 <= ffrac z < 2 ^ 23.
Proof. unfold ffrac. apply Z.mod_pos_bound. lia. Qed.
Lemma fexpo_range z : 0 <= fexpo z < 256.
Proof. unfold fexpo. apply Z.mod_pos_bound. lia. Qed.

Lemma dec_sf z : B2SF (dec z) = sf_of z.
Proof.
  unfold dec. rewrite Binary.B2SF_B2BSN.
  unfold Bits.b32_of_bits, Bits.binary_float_of_bits.
  rewrite Binary.B2SF_FF2B.
  unfold Bits.binary_float_of_bits_aux, Bits.split_bits, sf_of.
  rewrite !Zeq_is_eq_bool || idtac.
  change (2 ^ 23 * 2 ^ 8) with (2 ^ 31).
  change (2 ^ 8) with 256. fold (fsgn z) (fexpo z) (ffrac z).
  pose proof (ffrac_range z).
  unfold SpecFloat.emin.
  change (256 - 1) with 255.
  replace (Zeq_bool (fexpo z) 0) with (fexpo z =? 0)
    by (rewrite <- Z.eqb_eq || idtac; unfold Zeq_bool, Z.eqb; destruct (fexpo z); reflexivity).
  destruct (fexpo z =? 0).
  - destruct (ffrac z); try reflexivity. lia.
  - replace (Zeq_bool (fexpo z) 255) with (fexpo z =? 255)
      by (apply eq_true_iff_eq; rewrite Z.eqb_eq, <- Zeq_is_eq_bool; reflexivity).
    destruct (fexpo z =? 255).
    + destruct (ffrac z); try reflexivity.
    + destruct (ffrac z + 2 ^ 23) eqn:E; try reflexivity.
      cbn [Binary.FF2SF]. f_equal. change (2 ^ (8 - 1)) with 128. lia.
Qed.

(** fields of a word *)
Lemma word_fields z : word z ->
  z = (if fsgn z then 2 ^ 31 else 0) + fexpo z * 2 ^ 23 + ffrac z.
Proof.
  unfold word, fsgn, fexpo, ffrac; intros H.
  assert (z = 2 ^ 23 * (z / 2 ^ 23) + z mod 2 ^ 23) by (apply Z.div_mod; lia).
  assert (0 <= z mod 2 ^ 23 < 2 ^ 23) by (apply Z.mod_pos_bound; lia).
  set (q := z / 2 ^ 23) in *. set (r := z mod 2 ^ 23) in *.
  assert (0 <= q < 512) by lia.
  destruct (Z.leb_spec (2 ^ 31) z).
  - assert (q mod 256 = q - 256) by (symmetry; apply Z.mod_unique with 1; lia). lia.
  - rewrite Z.mod_small by lia. lia.
Qed.

Lemma fields_unique (s : bool) e m : 0 <= e < 256 -> 0 <= m < 2 ^ 23 ->
  let z := (if s then 2 ^ 31 else 0) + e * 2 ^ 23 + m in
  word z /\ fsgn z = s /\ fexpo z = e /\ ffrac z = m.
Proof.
  intros He Hm z.
  assert (word z) by (unfold word, z; destruct s; lia).
  assert (Hq : z / 2 ^ 23 = (if s then 256 else 0) + e).
  { symmetry. apply Z.div_unique with m; unfold z; destruct s; lia. }
  assert (Hr : z mod 2 ^ 23 = m).
  { symmetry. apply Z.mod_unique with ((if s then 256 else 0) + e); unfold z; destruct s; lia. }
  repeat split; try apply H; unfold fsgn, fexpo, ffrac; rewrite ?Hq, ?Hr; auto.
  - apply eq_true_iff_eq. rewrite Z.leb_le. unfold z. destruct s; split; intros; try lia; auto.
  - destruct s; [symmetry; apply Z.mod_unique with 1; lia | apply Z.mod_small; lia].
Qed.

Lemma enc_word f : word (enc f).
Proof.
  destruct f as [s|s| |s m e Hb]; unfold enc, word, qnan; try destruct s; try lia.
  all: pose proof Hb as Hb'; unfold SpecFloat.bounded in Hb';
    apply andb_true_iff in Hb'; destruct Hb' as [H1 H2];
    apply Z.leb_le in H2; unfold SpecFloat.canonical_mantissa in H1;
    apply Zeq_bool_eq in H1; unfold SpecFloat.fexp, SpecFloat.emin in H1;
    rewrite Digits.Zpos_digits2_pos in H1;
    pose proof (Digits.Zdigits_correct radix2 (Z.pos m)) as Hd;
    set (d := Digits.Zdigits radix2 (Z.pos m)) in *;
    assert (0 <= d) by apply Digits.Zdigits_ge_0;
    rewrite (Z.abs_eq (Z.pos m)) in Hd by lia;
    assert (d <= 24) by lia;
    assert (Z.pos m < 2 ^ 24) by
      (apply Z.lt_le_trans with (radix2 ^ d); [apply Hd | change (radix2 : Z) with 2; apply Z.pow_le_mono_r; lia]);
    destruct (Z.ltb_spec (Z.pos m) (2 ^ 23)); lia.
Qed.

Lemma dec_enc f : dec (enc f) = f.
Proof.
  apply B2SF_inj. rewrite dec_sf.
  destruct f as [s|s| |s m e Hb]; try (destruct s; reflexivity); try reflexivity.
  pose proof Hb as Hb'; unfold SpecFloat.bounded in Hb';
    apply andb_true_iff in Hb'; destruct Hb' as [H1 H2];
    apply Z.leb_le in H2; unfold SpecFloat.canonical_mantissa in H1;
    apply Zeq_bool_eq in H1; unfold SpecFloat.fexp, SpecFloat.emin in H1;
    rewrite Digits.Zpos_digits2_pos in H1;
    pose proof (Digits.Zdigits_correct radix2 (Z.pos m)) as Hd;
    set (d := Digits.Zdigits radix2 (Z.pos m)) in *;
    assert (0 <= d) by apply Digits.Zdigits_ge_0;
    rewrite (Z.abs_eq (Z.pos m)) in Hd by lia;
    assert (d <= 24) by lia;
    assert (Z.pos m < 2 ^ 24) by
      (apply Z.lt_le_trans with (radix2 ^ d); [apply Hd | change (radix2 : Z) with 2; apply Z.pow_le_mono_r; lia]).
  cbn [enc B2SF].
  destruct (Z.ltb_spec (Z.pos m) (2 ^ 23)).
  - assert (d <= 23).
    { destruct (Z_le_gt_dec d 23); [assumption|exfalso].
      assert (radix2 ^ 23 <= radix2 ^ (d - 1)) by (change (radix2 : Z) with 2; apply Z.pow_le_mono_r; lia).
      change (radix2 ^ 23) with (2 ^ 23) in *. lia. }
    assert (e = -149) by lia. subst e.
    destruct (fields_unique s 0 (Z.pos m)) as (_ & Hs & He & Hm); [lia|lia|].
    replace ((if s then 0x80000000 else 0) + Z.pos m)
      with ((if s then 2 ^ 31 else 0) + 0 * 2 ^ 23 + Z.pos m) by (destruct s; lia).
    unfold sf_of. rewrite Hs, He, Hm. reflexivity.
  - assert (d = 24).
    { destruct (Z_le_gt_dec d 23) as [Hle|]; [exfalso|lia].
      assert (radix2 ^ d <= radix2 ^ 23) by (change (radix2 : Z) with 2; apply Z.pow_le_mono_r; lia).
      change (radix2 ^ 23) with (2 ^ 23) in *. lia. }
    destruct (fields_unique s (e + 150) (Z.pos m - 2 ^ 23)) as (_ & Hs & He & Hm); [lia|lia|].
    replace ((if s then 0x80000000 else 0) + ((e + 150) * 2 ^ 23 + (Z.pos m - 2 ^ 23)))
      with ((if s then 2 ^ 31 else 0) + (e + 150) * 2 ^ 23 + (Z.pos m - 2 ^ 23)) by (destruct s; lia).
    unfold sf_of. rewrite Hs, He, Hm.
    replace (e + 150 =? 0) with false by (symmetry; apply Z.eqb_neq; lia).
    replace (e + 150 =? 255) with false by (symmetry; apply Z.eqb_neq; lia).
    replace (Z.pos m - 2 ^ 23 + 2 ^ 23) with (Z.pos m) by lia.
    replace (e + 150 - 150) with e by lia. reflexivity.
Qed.

Lemma f_isnan_iff z : f_isnan z = (fexpo z =? 255) && negb (ffrac z =? 0).
Proof.
  unfold f_isnan. rewrite <- is_nan_SF_B2SF, dec_sf. unfold sf_of.
  pose proof (ffrac_range z).
  destruct (Z.eqb_spec (fexpo z) 0) as [E|].
  - rewrite E. destruct (ffrac z); reflexivity.
  - destruct (Z.eqb_spec (fexpo z) 255).
    + destruct (ffrac z); try reflexivity.
    + destruct (ffrac z + 2 ^ 23) eqn:E; try reflexivity; lia.
Qed.

(** enc after dec is the identity on non-NaN words *)
Lemma enc_dec z : word z -> f_isnan z = false -> enc (dec z) = z.
Proof.
  intros Hw Hn. rewrite f_isnan_iff in Hn.
  pose proof (word_fields z Hw) as Hz. pose proof (ffrac_range z). pose proof (fexpo_range z).
  pose proof (dec_sf z) as Hd. unfold sf_of in Hd.
  change 0x80000000 with (2 ^ 31) in *.
  destruct (Z.eqb_spec (fexpo z) 0) as [E|E].
  - destruct (ffrac z) eqn:F; [| |lia]; destruct (dec z) eqn:D; try discriminate Hd; injection Hd; intros; subst; cbn [enc].
    + change 0x80000000 with (2 ^ 31) in *. destruct (fsgn z); lia.
    + destruct (Z.ltb_spec (Z.pos p) (2 ^ 23)); destruct (fsgn z); lia.
  - destruct (Z.eqb_spec (fexpo z) 255) as [E'|E'].
    + destruct (ffrac z) eqn:F; [|discriminate Hn|lia].
      destruct (dec z) eqn:D; try discriminate Hd; injection Hd; intros; subst; cbn [enc].
      destruct (fsgn z); lia.
    + destruct (ffrac z + 2 ^ 23) eqn:F; try lia.
      destruct (dec z) eqn:D; try discriminate Hd; injection Hd; intros; subst; cbn [enc].
      destruct (Z.ltb_spec (Z.pos p) (2 ^ 23)); destruct (fsgn z); lia.
Qed.

Lemma enc_dec_gen z : word z -> enc (dec z) = if f_isnan z then qnan else z.
Proof.
  intros Hw. destruct (f_isnan z) eqn:E; [|now apply enc_dec].
  unfold f_isnan in E. destruct (dec z); try discriminate; reflexivity.
Qed.

Lemma enc_inj f g : enc f = enc g -> f = g.
Proof. intros H. rewrite <- (dec_enc f), <- (dec_enc g), H. reflexivity. Qed.

(** commutativity *)
Lemma Bplus_comm (x y : bf32) : Bplus mode_NE x y = Bplus mode_NE y x.
Proof.
  destruct x as [s|s| |s m e H], y as [s'|s'| |s' m' e' H']; try reflexivity.
  - cbn. destruct s, s'; reflexivity.
  - cbn. destruct s, s'; reflexivity.
  - unfold Bplus. cbv zeta. rewrite (Z.min_comm e e'). f_equal. unfold Fplus_naive. apply Z.add_comm.
Qed.

Lemma Bmult_comm (x y : bf32) : Bmult mode_NE x y = Bmult mode_NE y x.
Proof.
  destruct x as [s|s| |s m e H], y as [s'|s'| |s' m' e' H']; try reflexivity;
    try (cbn; destruct s, s'; reflexivity).
  apply B2SF_inj. unfold Bmult. rewrite !B2SF_SF2B.
  rewrite xorb_comm, Pos.mul_comm, Z.add_comm. reflexivity.
Qed.

Lemma f_add_comm a b : f_add a b = f_add b a.
Proof. unfold f_add. now rewrite Bplus_comm. Qed.
Lemma f_mul_comm a b : f_mul a b = f_mul b a.
Proof. unfold f_mul. now rewrite Bmult_comm. Qed.
