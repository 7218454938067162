(** Float to half: the three ranges of packed_vector.rs 78-105 round to nearest even. *)
From Coq Require Import Reals Lra Lia ZArith.
From Flocq Require Import Core.
From Verif Require Import Base F32 F32Facts SpecF32 PF32 SpecRound PFloat PRound SpecHalf MHalf PHalf.
Open Scope R_scope.

Lemma land_1 x : Z.land x 1 = (x mod 2)%Z.
Proof. exact (land_low x 1 ltac:(lia)). Qed.
Lemma rne_of n r b q : (0 < b)%Z -> (0 <= r < 2 * b)%Z -> q = (if r <? b then n else if b <? r then n + 1 else if Z.even n then n else n + 1)%Z -> rne n (IZR r / IZR (2 * b)) q.
Proof.
  intros Hb Hr ->. assert (B : 0 < IZR b) by (apply IZR_lt; lia). rewrite mult_IZR. unfold rne.
  assert (C : forall x, x / (2 * IZR b) * (2 * IZR b) = x) by (intros; field; lra).
  destruct (Z.ltb_spec r b) as [L|L].
  - left. split; [|reflexivity]. apply IZR_lt in L. apply Rmult_lt_reg_r with (2 * IZR b); [lra|]. rewrite C. lra.
  - destruct (Z.ltb_spec b r) as [G|G].
    + right; left. split; [|reflexivity]. apply IZR_lt in G. apply Rmult_lt_reg_r with (2 * IZR b); [lra|]. rewrite C. lra.
    + right; right. split; [|reflexivity]. assert (r = b) by lia. subst r. field. lra.
Qed.
Lemma frac_range r b : (0 < b)%Z -> (0 <= r < b)%Z -> 0 <= IZR r / IZR b < 1.
Proof.
  intros Hb Hr. assert (B : 0 < IZR b) by (apply IZR_lt; lia). assert (R0 : 0 <= IZR r) by (apply IZR_le; lia). assert (R1 : IZR r < IZR b) by (apply IZR_lt; lia).
  split; [apply Rle_mult_inv_pos; assumption|]. apply Rmult_lt_reg_r with (IZR b); [exact B|]. unfold Rdiv. rewrite Rmult_assoc, Rinv_l, Rmult_1_r, Rmult_1_l by lra. exact R1.
Qed.

(** the magnitude of a finite word *)
Definition mag_of (E f : Z) : R := if (E =? 0)%Z then IZR f * bpow radix2 (-149) else IZR (2 ^ 23 + f) * bpow radix2 (E - 150).
Lemma value_mag z : word z -> fexpo z <> 255%Z -> value z = Fin (signed (fsgn z) (mag_of (fexpo z) (ffrac z))).
Proof.
  intros W N. unfold value, mag_of. change (bit_exp z) with (fexpo z). change (bit_frac z) with (ffrac z). change (bit_sign z) with (fsgn z). rewrite (proj2 (Z.eqb_neq _ 255)) by exact N. rewrite !pow2_bpow.
  destruct (fexpo z =? 0)%Z; reflexivity.
Qed.

(** ** Normal range *)
Lemma normal_case E f : (113 <= E < 143)%Z -> (0 <= f < 2 ^ 23)%Z ->
  let w := ((E - 112) * 2 ^ 23 + f)%Z in
  rne (w / 8192) (IZR (w mod 8192) / 8192) ((w + 0xFFF + (w / 8192) mod 2) / 8192) /\
  mag_of E f = hv (w / 8192) + IZR (w mod 8192) / 8192 * (hv (w / 8192 + 1) - hv (w / 8192)) /\ (1024 <= w / 8192 <= 0x7BFF)%Z.
Proof.
  intros HE Hf w. pose proof (Z.div_mod w 8192 ltac:(lia)) as D. pose proof (Z.mod_pos_bound w 8192 ltac:(lia)) as B.
  assert (Fd := Z.div_mod f 8192 ltac:(lia)). assert (Fb := Z.mod_pos_bound f 8192 ltac:(lia)). set (m := (f / 8192)%Z) in *.
  assert (Hm : (0 <= m < 1024)%Z) by (unfold m; split; [apply Z.div_pos; lia|apply Z.div_lt_upper_bound; lia]).
  assert (N : (w / 8192 = 1024 * (E - 112) + m)%Z) by (symmetry; apply Z.div_unique with (f mod 8192)%Z; unfold w; lia).
  assert (R : (w mod 8192 = f mod 8192)%Z) by lia. set (n := (w / 8192)%Z) in *. set (r := (w mod 8192)%Z) in *. split; [|split].
  - change 8192 with (IZR (2 * 4096)). apply rne_of; [lia|lia|]. rewrite D. pose proof (Z.mod_pos_bound n 2 ltac:(lia)) as P. rewrite Zmod_even in *.
    destruct (Z.ltb_spec r 4096); [symmetry; apply Z.div_unique with (r + 4095 + (if Z.even n then 0 else 1))%Z; destruct (Z.even n); lia|].
    destruct (Z.ltb_spec 4096 r); [symmetry; apply Z.div_unique with (r + 4095 + (if Z.even n then 0 else 1) - 8192)%Z; destruct (Z.even n); lia|].
    destruct (Z.even n); [symmetry; apply Z.div_unique with (r + 4095)%Z; lia|symmetry; apply Z.div_unique with (r + 4095 + 1 - 8192)%Z; lia].
  - rewrite hv_step by lia. replace (n / 1024)%Z with (E - 112)%Z by (rewrite N; symmetry; apply (divmod (E - 112) m Hm)). rewrite Z.max_r by lia. rewrite N, hv_of by lia.
    unfold mag_of. rewrite (proj2 (Z.eqb_neq E 0)) by lia. replace (E - 150)%Z with (-13 + (E - 112 - 25))%Z by lia. rewrite bpow_plus. change (bpow radix2 (-13)) with (/ IZR 8192).
    rewrite Fd, <- R. replace (2 ^ 23 + (8192 * m + r))%Z with (8192 * (1024 + m) + r)%Z by lia. rewrite (plus_IZR (8192 * _)), (mult_IZR 8192). field.
  - lia.
Qed.
(** ** Denormal range *)
Lemma denormal_case E f : (102 <= E < 113)%Z -> (0 <= f < 2 ^ 23)%Z ->
  let M := (2 ^ 23 + f)%Z in let sh := (125 - E)%Z in let n := (M / 2 ^ (sh + 1))%Z in
  let s := (if negb (M mod 2 ^ sh =? 0) then 1 else 0)%Z in
  rne n (IZR (M mod 2 ^ (sh + 1)) / IZR (2 ^ (sh + 1))) (n + Z.land (Z.lor n s) ((M / 2 ^ sh) mod 2)) /\
  mag_of E f = hv n + IZR (M mod 2 ^ (sh + 1)) / IZR (2 ^ (sh + 1)) * (hv (n + 1) - hv n) /\ (0 <= n < 1024)%Z /\ (0 <= M mod 2 ^ (sh + 1) < 2 ^ (sh + 1))%Z.
Proof.
  intros HE Hf M sh n s. assert (P : (0 < 2 ^ sh)%Z) by (apply Z.pow_pos_nonneg; lia). assert (P1 : (2 ^ (sh + 1) = 2 * 2 ^ sh)%Z) by (rewrite Z.pow_add_r by lia; lia).
  pose proof (Z.div_mod M (2 ^ (sh + 1)) ltac:(lia)) as D. pose proof (Z.mod_pos_bound M (2 ^ (sh + 1)) ltac:(lia)) as B. set (r := (M mod 2 ^ (sh + 1))%Z) in *.
  change (M / 2 ^ (sh + 1))%Z with n in D.
  assert (Pm : (2 ^ 14 <= 2 ^ (sh + 1))%Z) by (apply Z.pow_le_mono_r; lia).
  assert (Hn : (0 <= n < 1024)%Z) by (unfold n; split; [apply Z.div_pos; lia|apply Z.div_lt_upper_bound; unfold M; lia]).
  split; [|split; [|split; [exact Hn|exact B]]].
  - rewrite P1. apply rne_of; [exact P|lia|].
    (* the guard bit and the sticky part *)
    assert (G : exists g l, (M / 2 ^ sh = 2 * n + g /\ r = g * 2 ^ sh + l /\ 0 <= g < 2 /\ 0 <= l < 2 ^ sh /\ M mod 2 ^ sh = l)%Z).
    { exists (r / 2 ^ sh)%Z, (r mod 2 ^ sh)%Z. pose proof (Z.div_mod r (2 ^ sh) ltac:(lia)) as D2. pose proof (Z.mod_pos_bound r (2 ^ sh) ltac:(lia)) as B2.
      assert (0 <= r / 2 ^ sh < 2)%Z by (split; [apply Z.div_pos; lia|apply Z.div_lt_upper_bound; lia]).
      split; [symmetry; apply Z.div_unique with (r mod 2 ^ sh)%Z; lia|]. split; [lia|]. split; [assumption|]. split; [assumption|].
      symmetry. apply Z.mod_unique with (2 * n + r / 2 ^ sh)%Z; lia. }
    destruct G as (g & l & G1 & G2 & G3 & G4 & G5). unfold s. rewrite G1, G5.
    assert (Gm : ((2 * n + g) mod 2 = g)%Z) by (symmetry; apply Z.mod_unique with n; lia). rewrite Gm.
    assert (g = 0 \/ g = 1)%Z as [-> | ->] by lia.
    + rewrite Z.land_0_r, Z.add_0_r. rewrite (proj2 (Z.ltb_lt _ _)) by lia. reflexivity.
    + rewrite land_1, <- Z.bit0_mod, Z.lor_spec. rewrite (proj2 (Z.ltb_ge _ _)) by lia. destruct (Z.eqb_spec l 0) as [L|L]; cbn [negb].
      * rewrite (proj2 (Z.ltb_ge _ r)) by lia. change (Z.testbit 0 0) with false. rewrite Bool.orb_false_r, Z.bit0_odd, <- Z.negb_even. destruct (Z.even n); cbn [negb Z.b2z]; lia.
      * rewrite (proj2 (Z.ltb_lt _ r)) by lia. change (Z.testbit 1 0) with true. rewrite Bool.orb_true_r. reflexivity.
  - rewrite hv_step by lia. rewrite (Z.div_small n) by lia. change (Z.max 1 0 - 25)%Z with (-24)%Z. assert (Hv : hv n = IZR n * bpow radix2 (-24)) by (unfold hv; rewrite (proj2 (Z.ltb_lt n 1024)) by lia; reflexivity). rewrite Hv.
    unfold mag_of. rewrite (proj2 (Z.eqb_neq E 0)) by lia. change (2 ^ 23 + f)%Z with M. replace (E - 150)%Z with (- (sh + 1) + -24)%Z by lia. rewrite bpow_plus, bpow_opp.
    assert (Q : IZR (2 ^ (sh + 1)) = bpow radix2 (sh + 1)) by (rewrite <- (IZR_Zpower radix2) by lia; reflexivity). rewrite <- Q.
    assert (Q0 : 0 < IZR (2 ^ (sh + 1))) by (apply IZR_lt; lia). rewrite D at 1. rewrite plus_IZR, mult_IZR. field. lra.
Qed.
(** ** Range reduced to zero *)
Lemma tiny_case E f : (0 <= E)%Z -> (0 <= f < 2 ^ 23)%Z -> (E * 2 ^ 23 + f <= 0x33000000)%Z ->
  rne 0 (mag_of E f * bpow radix2 24) 0 /\ mag_of E f = hv 0 + mag_of E f * bpow radix2 24 * (hv (0 + 1) - hv 0) /\ 0 <= mag_of E f * bpow radix2 24 < 1.
Proof.
  intros HE Hf Hw. assert (H1 : hv (0 + 1) - hv 0 = bpow radix2 (-24)) by (rewrite hv_step by lia; change (Z.max 1 (0 / 1024) - 25)%Z with (-24)%Z; ring).
  assert (B24 : bpow radix2 24 * bpow radix2 (-24) = 1) by (rewrite <- bpow_plus; reflexivity).
  assert (M0 : 0 <= mag_of E f) by (unfold mag_of; destruct (E =? 0)%Z; apply Rmult_le_pos; try apply bpow_ge_0; apply IZR_le; lia).
  assert (M1 : mag_of E f <= bpow radix2 (-25)).
  { unfold mag_of. destruct (Z.eqb_spec E 0) as [->|N].
    - apply Rle_trans with (bpow radix2 23 * bpow radix2 (-149)); [apply Rmult_le_compat_r; [apply bpow_ge_0|change (bpow radix2 23) with (IZR (2 ^ 23)); apply IZR_le; lia]|rewrite <- bpow_plus; apply bpow_le; lia].
    - destruct (Z.eq_dec E 102) as [->|N2].
      + assert (f = 0)%Z by lia. subst f. change (IZR (2 ^ 23 + 0)) with (bpow radix2 23). rewrite <- bpow_plus. apply bpow_le. lia.
      + apply Rle_trans with (bpow radix2 24 * bpow radix2 (E - 150)); [apply Rmult_le_compat_r; [apply bpow_ge_0|change (bpow radix2 24) with (IZR (2 ^ 24)); apply IZR_le; lia]|rewrite <- bpow_plus; apply bpow_le; lia]. }
  assert (T : mag_of E f * bpow radix2 24 <= 1 / 2).
  { apply Rle_trans with (bpow radix2 (-25) * bpow radix2 24); [apply Rmult_le_compat_r; [apply bpow_ge_0|exact M1]|]. rewrite <- bpow_plus. change (bpow radix2 (-25 + 24)) with (/ 2). lra. }
  assert (T0 : 0 <= mag_of E f * bpow radix2 24) by (apply Rmult_le_pos; [exact M0|apply bpow_ge_0]).
  split; [|split; [rewrite H1, hv_0, Rmult_assoc, B24; ring|lra]].
  destruct (Rle_lt_or_eq_dec _ _ T) as [L|L]; [left; split; [exact L|reflexivity]|right; right; split; [exact L|reflexivity]].
Qed.

(** ** The conversion *)
Lemma with_sign s q : (0 <= q < 2 ^ 15)%Z -> Z.lor q (Z.shiftr (if s : bool then 0x80000000 else 0) 16) = ((if s then 1 else 0) * 2 ^ 15 + q)%Z.
Proof. intros H. rewrite Z.lor_comm. rewrite <- lor_add by lia. f_equal. destruct s; reflexivity. Qed.
Lemma inf_half s : hvalue ((if s : bool then 1 else 0) * 2 ^ 15 + 0x7C00) = Inf s.
Proof. destruct s; reflexivity. Qed.
Lemma mag_le E f E' f' : (1 <= E)%Z -> (1 <= E')%Z -> (0 <= f < 2 ^ 23)%Z -> (0 <= f' < 2 ^ 23)%Z -> (E * 2 ^ 23 + f <= E' * 2 ^ 23 + f')%Z -> mag_of E f <= mag_of E' f'.
Proof.
  intros H1 H2 Hf Hf' L. unfold mag_of. rewrite !(proj2 (Z.eqb_neq _ 0)) by lia. destruct (Z.eq_dec E E') as [->|N].
  - apply Rmult_le_compat_r; [apply bpow_ge_0|apply IZR_le; lia].
  - apply Rle_trans with (bpow radix2 24 * bpow radix2 (E - 150)); [apply Rmult_le_compat_r; [apply bpow_ge_0|change (bpow radix2 24) with (IZR (2 ^ 24)); apply IZR_le; lia]|].
    rewrite <- bpow_plus. apply Rle_trans with (bpow radix2 (23 + (E' - 150))); [apply bpow_le; lia|]. rewrite bpow_plus. apply Rmult_le_compat_r; [apply bpow_ge_0|change (bpow radix2 23) with (IZR (2 ^ 23)); apply IZR_le; lia].
Qed.
(** a rounded magnitude gives the nearest half, or infinity from 65520 on *)
Lemma finish s E f n t q z : (0 <= n <= 0x7BFF)%Z -> 0 <= t < 1 -> rne n t q -> mag_of E f = hv n + t * (hv (n + 1) - hv n) -> value z = Fin (signed s (mag_of E f)) -> bit_sign z = s ->
  to_half z ((if s : bool then 1 else 0) * 2 ^ 15 + q).
Proof.
  intros Hn Ht HR Hm V S. unfold to_half. rewrite V, S.
  assert (A : Rabs (signed s (mag_of E f)) = mag_of E f).
  { assert (0 <= mag_of E f). { rewrite Hm. pose proof (hv_le 0 n ltac:(lia)) as h0. rewrite hv_0 in h0. pose proof (hv_lt n (n + 1) ltac:(lia)). assert (0 <= t * (hv (n + 1) - hv n)) by (apply Rmult_le_pos; lra). lra. }
    destruct s; cbn [signed]; rewrite ?Rabs_Ropp; apply Rabs_pos_eq; assumption. }
  rewrite A. assert (Top : n = 0x7BFF%Z -> hv n = 65504 /\ hv (n + 1) = 65536) by (intros ->; split; [exact hv_last|exact hv_max]).
  assert (Q : (q <= 0x7C00)%Z) by (destruct HR as [(_ & ->)|[(_ & ->)|(_ & ->)]]; [lia|lia|destruct (Z.even n); lia]).
  destruct (Rlt_dec (mag_of E f) 65520) as [L|L].
  - apply (rne_nearest16 s n t q (mag_of E f)); try assumption; try lia. destruct (Z.eq_dec q 0x7C00) as [X|X]; [exfalso|lia].
    assert (n = 0x7BFF)%Z by (destruct HR as [(_ & ->)|[(_ & ->)|(_ & ->)]]; [lia|lia|destruct (Z.even n); lia]). destruct (Top H) as (T1 & T2). rewrite Hm, T1, T2 in L. subst n.
    destruct HR as [(h & e)|[(h & e)|(h & e)]]; [lia|lra|lra].
  - apply Rnot_lt_le in L. assert (n = 0x7BFF)%Z.
    { destruct (Z.eq_dec n 0x7BFF) as [e|e]; [exact e|exfalso]. pose proof (hv_le (n + 1) 0x7BFF ltac:(lia)) as h. rewrite hv_last in h. pose proof (hv_lt n (n + 1) ltac:(lia)).
      assert (t * (hv (n + 1) - hv n) <= 1 * (hv (n + 1) - hv n)) by (apply Rmult_le_compat_r; lra). lra. }
    destruct (Top H) as (T1 & T2). rewrite Hm, T1, T2 in L. subst n. assert (q = 0x7C00)%Z by (destruct HR as [(h & e)|[(h & e)|(h & e)]]; [lra|lia|rewrite e; reflexivity]). subst q. apply inf_half.
Qed.
Lemma nan_or i : exists m, (0 < m < 2 ^ 10)%Z /\ Z.lor 0x7C00 (Z.lor 0x200 (Z.land i 0x3FF)) = (31 * 2 ^ 10 + m)%Z.
Proof.
  change (Z.land i 0x3FF) with (Z.land i (2 ^ 10 - 1)). rewrite land_low by lia. pose proof (Z.mod_pos_bound i (2 ^ 10) ltac:(lia)) as B. set (r := (i mod 2 ^ 10)%Z) in *.
  exists (Z.lor 0x200 r). assert (P : (0 <= Z.lor 0x200 r)%Z) by (apply Z.lor_nonneg; lia).
  assert (N : Z.lor 0x200 r <> 0%Z) by (intros h; apply Z.lor_eq_0_iff in h; lia).
  assert (U : (Z.lor 0x200 r < 2 ^ 10)%Z).
  { apply Z.log2_lt_pow2; [lia|]. rewrite Z.log2_lor by lia. change (Z.log2 0x200) with 9%Z. destruct (Z.eq_dec r 0) as [->|]; [reflexivity|]. apply Z.max_lub_lt; [lia|apply Z.log2_lt_pow2; lia]. }
  split; [lia|]. change 0x7C00%Z with (31 * 2 ^ 10)%Z. apply lor_add; lia.
Qed.
Lemma f2h_full z : word z -> (half (XMConvertFloatToHalf z) /\ h_sign (XMConvertFloatToHalf z) = fsgn z) /\ to_half z (XMConvertFloatToHalf z).
Proof.
  intros W. destruct (word_abs z W) as (Wa & Sa & Ea & Fa). pose proof (word_fields _ Wa) as I. rewrite Sa, Ea, Fa in I. unfold f_abs in I. pose proof (ffrac_range z) as Hf. pose proof (fexpo_range z) as He.
  set (E := fexpo z) in *. set (f := ffrac z) in *.
  unfold XMConvertFloatToHalf. cbv zeta. rewrite (land_sign z W). set (J := Z.land z 0x7FFFFFFF) in *. set (s := fsgn z) in *.
  assert (HalfOf : forall q, (0 <= q < 2 ^ 15)%Z -> half ((if s then 1 else 0) * 2 ^ 15 + q)%Z /\ h_sign ((if s then 1 else 0) * 2 ^ 15 + q)%Z = s) by (intros q Hq; unfold half, h_sign; destruct s; (split; [lia|]); [apply Z.leb_le|apply Z.leb_gt]; lia).
  assert (Sb : bit_sign z = s) by reflexivity.
  assert (WS := with_sign s). set (Sg := Z.shiftr (if s then 0x80000000 else 0)%Z 16) in *. clearbody Sg.
  destruct (Z.leb_spec 0x47800000 J) as [Big|Big].
  - destruct (Z.ltb_spec 0x7F800000 J) as [Nan|Fin_].
    + assert (E = 255%Z) by lia. assert (f <> 0%Z) by lia. destruct (nan_or (Z.shiftr J 13)) as (m & Hm & ->). rewrite WS by lia. split; [apply HalfOf; lia|].
      unfold to_half. assert (V : value z = NaN). { unfold value. change (bit_exp z) with E. change (bit_frac z) with f. rewrite H. rewrite (proj2 (Z.eqb_neq f 0)) by assumption. reflexivity. } rewrite V.
      destruct (half_unique (if s then 1 else 0) 31 m ltac:(destruct s; lia) ltac:(lia) ltac:(lia)) as (_ & _ & U2 & U3). unfold hvalue. rewrite <- Z.add_assoc in U2, U3. rewrite U2, U3. rewrite (proj2 (Z.eqb_neq m 0)) by lia. reflexivity.
    + rewrite Z.lor_0_r. rewrite WS by lia. split; [apply HalfOf; lia|]. unfold to_half. destruct (Z.eq_dec E 255) as [X|X].
      * assert (V : value z = Inf s). { unfold value. change (bit_exp z) with E. change (bit_frac z) with f. change (bit_sign z) with s. rewrite X. assert (f0 : f = 0%Z) by lia. rewrite f0. reflexivity. } rewrite V. apply inf_half.
      * rewrite (value_mag z W X). fold E f s. destruct (Rlt_dec _ _) as [L|L]; [exfalso|rewrite Sb; apply inf_half].
        assert (M : mag_of 143 0 <= mag_of E f) by (apply mag_le; lia). assert (M0 : mag_of 143 0 = 65536) by (unfold mag_of; change (143 =? 0)%Z with false; cbn iota; change (bpow radix2 (143 - 150)) with (/ IZR 128); change (IZR (2 ^ 23 + 0)) with (IZR (65536 * 128)); rewrite mult_IZR; field).
        assert (A : Rabs (signed s (mag_of E f)) = mag_of E f) by (destruct s; cbn [signed]; rewrite ?Rabs_Ropp; apply Rabs_pos_eq; lra). lra.
  - assert (X : E <> 255%Z) by lia. pose proof (value_mag z W X) as V. fold E f s in V. destruct (Z.leb_spec J 0x33000000) as [Ti|Ti].
    + rewrite WS by lia. split; [apply HalfOf; lia|]. destruct (tiny_case E f ltac:(lia) Hf ltac:(lia)) as (h1 & h2 & h3). apply (finish s E f 0 (mag_of E f * bpow radix2 24) 0 z); (lia || assumption).
    + destruct (Z.ltb_spec J 0x38800000) as [Den|Nor].
      * assert (SE : Z.shiftr J 23 = E) by (rewrite Z.shiftr_div_pow2 by lia; symmetry; apply Z.div_unique with f; lia). rewrite SE.
        assert (SM : Z.lor 0x800000 (Z.land J 0x7FFFFF) = (2 ^ 23 + f)%Z).
        { change (Z.land J 0x7FFFFF) with (Z.land J (2 ^ 23 - 1)). rewrite land_low by lia. assert (Hj : (J mod 2 ^ 23 = f)%Z) by (symmetry; apply Z.mod_unique with E; lia). rewrite Hj. change 0x800000%Z with (1 * 2 ^ 23)%Z. apply lor_add; lia. }
        rewrite SM. assert (Hsh : (13 <= 125 - E <= 23)%Z) by lia.
        assert (W1 : wrap32 (125 - E + 1) = (125 - E + 1)%Z) by (unfold wrap32; apply Z.mod_small; lia).
        assert (P23 : (0 < 2 ^ (125 - E) <= 2 ^ 23)%Z) by (split; [apply Z.pow_pos_nonneg; lia|apply Z.pow_le_mono_r; lia]).
        assert (W2 : wrap32 (Z.shiftl 1 (125 - E) - 1) = (2 ^ (125 - E) - 1)%Z) by (unfold wrap32; rewrite Z.shiftl_mul_pow2, Z.mul_1_l by lia; apply Z.mod_small; lia).
        rewrite W1, W2, land_low, land_1, !Z.shiftr_div_pow2 by lia. destruct (denormal_case E f ltac:(lia) Hf) as (h1 & h2 & h3 & h4). cbv zeta in h1, h2, h3, h4.
        set (q := (_ + Z.land _ _)%Z) in *. assert (Q : (0 <= q <= 1024)%Z).
        { destruct h1 as [(_ & ->)|[(_ & ->)|(_ & ->)]]; [lia|lia|destruct (Z.even _); lia]. }
        rewrite WS by lia. split; [apply HalfOf; lia|]. eapply finish; [| |exact h1|exact h2|exact V|exact Sb]; [lia|apply frac_range; [lia|exact h4]].
      * assert (WJ : wrap32 (J + 0xC8000000) = ((E - 112) * 2 ^ 23 + f)%Z) by (unfold wrap32; symmetry; apply Z.mod_unique with 1%Z; lia). rewrite WJ, land_1, !Z.shiftr_div_pow2 by lia.
        destruct (normal_case E f ltac:(lia) Hf) as (h1 & h2 & h3). cbv zeta in h1, h2, h3. change (2 ^ 13)%Z with 8192%Z.
        set (w := ((E - 112) * 2 ^ 23 + f)%Z) in *. set (q := ((w + 0xFFF + (w / 8192) mod 2) / 8192)%Z) in *. assert (Q : (0 <= q <= 0x7C00)%Z).
        { destruct h1 as [(_ & e)|[(_ & e)|(_ & e)]]; [lia|lia|destruct (Z.even _); lia]. }
        change (Z.land q 0x7FFF) with (Z.land q (2 ^ 15 - 1)). rewrite land_low, Z.mod_small by lia. rewrite WS by lia. split; [apply HalfOf; lia|].
        eapply finish; [| |exact h1|exact h2|exact V|exact Sb]; [lia|]. apply (frac_range _ 8192); [lia|apply Z.mod_pos_bound; lia].
Qed.
Lemma f2h z : word z -> half (XMConvertFloatToHalf z) /\ to_half z (XMConvertFloatToHalf z).
Proof. intros W. destruct (f2h_full z W) as ((h1 & _) & h2). auto. Qed.

(** ** There and back *)
Lemma hv_inj p q : (0 <= p)%Z -> (0 <= q)%Z -> hv p = hv q -> p = q.
Proof. intros Hp Hq E. destruct (Z_lt_ge_dec p q); [pose proof (hv_lt p q ltac:(lia)); lra|]. destruct (Z_lt_ge_dec q p); [pose proof (hv_lt q p ltac:(lia)); lra|]. lia. Qed.
Lemma hvalue_inj h h' : half h -> half h' -> h_sign h = h_sign h' -> hvalue h = hvalue h' -> hvalue h <> NaN -> h = h'.
Proof.
  intros H H' S V N. rewrite !hsign in S by assumption. destruct (half_fields h H) as (E & a & b & c), (half_fields h' H') as (E' & a' & b' & c').
  assert (Hs : hs h = hs h') by (destruct (Z.eqb_spec (hs h) 1), (Z.eqb_spec (hs h') 1); try discriminate; lia).
  assert (Q : h_exp h = 31%Z -> hvalue h = if (h_frac h =? 0)%Z then Inf (h_sign h) else NaN) by (intros X; unfold hvalue; rewrite X; reflexivity).
  assert (Q' : h_exp h' = 31%Z -> hvalue h' = if (h_frac h' =? 0)%Z then Inf (h_sign h') else NaN) by (intros X; unfold hvalue; rewrite X; reflexivity).
  destruct (Z.eq_dec (h_exp h) 31) as [X|X], (Z.eq_dec (h_exp h') 31) as [Y|Y].
  - specialize (Q X). specialize (Q' Y). destruct (Z.eqb_spec (h_frac h) 0); [|congruence]. destruct (Z.eqb_spec (h_frac h') 0); [|congruence]. lia.
  - rewrite (Q X), hvalue_hv in V by assumption. destruct (h_frac h =? 0)%Z; discriminate V.
  - rewrite (Q' Y), hvalue_hv in V by assumption. destruct (h_frac h' =? 0)%Z; discriminate V.
  - rewrite !hvalue_hv in V by assumption. apply Fin_inj in V. rewrite !hsign, S in V by assumption.
    assert (P : hv (h_exp h * 2 ^ 10 + h_frac h) = hv (h_exp h' * 2 ^ 10 + h_frac h')) by (destruct (hs h' =? 1)%Z; cbn [signed] in V; lra). apply hv_inj in P; lia.
Qed.
Lemma half_bound h v : half h -> hvalue h = Fin v -> Rabs v <= 65504.
Proof.
  intros H V. destruct (half_fields h H) as (E & a & b & c). destruct (Z.eq_dec (h_exp h) 31) as [X|X]; [unfold hvalue in V; rewrite X in V; cbn [Z.eqb Pos.eqb] in V; destruct (_ =? _)%Z; discriminate|].
  rewrite hvalue_hv in V by assumption. apply Fin_inj in V. subst v. assert (B : 0 <= hv (h_exp h * 2 ^ 10 + h_frac h) <= 65504) by (rewrite <- hv_last, <- hv_0 at 1; split; apply hv_le; lia).
  destruct (h_sign h); cbn [signed]; rewrite ?Rabs_Ropp, Rabs_pos_eq; lra.
Qed.
Lemma round_trip h : half h -> ~ h_denormal h -> hvalue h <> NaN -> exists r, XMConvertHalfToFloat h = Some r /\ XMConvertFloatToHalf r = h.
Proof.
  intros H D N. destruct (h2f_full h H D) as (r & h1 & h2 & h3 & h4). exists r. split; [exact h1|]. destruct (f2h_full r h3) as ((k1 & k2) & k3).
  apply hvalue_inj; [exact k1|exact H|congruence| |]; unfold to_half in k3; rewrite h2 in k3; destruct (hvalue h) as [|s|v] eqn:V; try congruence;
    destruct (Rlt_dec (Rabs v) 65520) as [L|L]; try (exfalso; pose proof (half_bound h v H V); lra); destruct k3 as (w & w1 & w2 & _); specialize (w2 h v H V); replace (v - v) with 0 in w2 by ring; rewrite Rabs_R0 in w2;
    pose proof (Rabs_pos (v - w)) as P; assert (Z0 : Rabs (v - w) = 0) by lra; assert (Z1 : v - w = 0) by (destruct (Req_dec (v - w) 0) as [e|e]; [exact e|apply Rabs_no_R0 in e; lra]); replace w with v in w1 by lra; congruence.
Qed.
Lemma round_trip_denormal : exists h r, half h /\ hvalue h <> NaN /\ XMConvertHalfToFloat h = Some r /\ XMConvertFloatToHalf r <> h.
Proof. exists 1%Z, 0x38004000%Z. split; [unfold half; lia|]. split; [discriminate|]. split; [vm_compute; reflexivity|]. vm_compute. discriminate. Qed.
Lemma f2h_sign z : word z -> h_sign (XMConvertFloatToHalf z) = bit_sign z.
Proof. intros W. destruct (f2h_full z W) as ((_ & h) & _). exact h. Qed.
Lemma half_to_float_refuted : exists h r, half h /\ XMConvertHalfToFloat h = Some r /\ value r <> hvalue h.
Proof. exists 0x0200%Z. assert (H : half 0x0200) by (unfold half; lia). assert (D : h_denormal 0x0200) by (split; [reflexivity|discriminate]). destruct (h2f_denormal _ H D) as (r & h1 & h2). exists r. auto. Qed.
