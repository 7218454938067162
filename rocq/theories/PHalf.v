(** Half-precision conversions. *)
From Coq Require Import Reals Lra Lia ZArith.
From Flocq Require Import Core.
From Verif Require Import Base F32 F32Facts SpecF32 PF32 SpecRound PFloat PRound SpecHalf MHalf.
Open Scope R_scope.

(** ** Fields *)
Lemma lor_add a b k : (0 <= k)%Z -> (0 <= b < 2 ^ k)%Z -> Z.lor (a * 2 ^ k) b = (a * 2 ^ k + b)%Z.
Proof.
  intros Hk Hb. rewrite <- Z.lxor_lor; [symmetry; apply Z.add_nocarry_lxor|]; apply Z.bits_inj'; intros i Hi; rewrite Z.land_spec, Z.bits_0;
    (destruct (Z.ltb_spec i k); [rewrite Z.mul_pow2_bits_low by lia; reflexivity|]); apply Bool.andb_false_intro2;
    (destruct (Z.eq_dec b 0) as [->|]; [apply Z.bits_0|]); (apply Z.bits_above_log2; [lia|]); apply Z.log2_lt_pow2; try lia; apply Z.lt_le_trans with (2 ^ k)%Z; try lia; apply Z.pow_le_mono_r; lia.
Qed.
Definition hs (h : Z) : Z := (h / 2 ^ 15)%Z.
Lemma half_fields h : half h -> (h = hs h * 2 ^ 15 + h_exp h * 2 ^ 10 + h_frac h /\ 0 <= hs h < 2 /\ 0 <= h_exp h < 32 /\ 0 <= h_frac h < 2 ^ 10)%Z.
Proof.
  unfold half, hs, h_exp, h_frac. intros H. pose proof (Z.div_mod h (2 ^ 10) ltac:(lia)) as D. pose proof (Z.mod_pos_bound h (2 ^ 10) ltac:(lia)).
  pose proof (Z.div_mod (h / 2 ^ 10) 32 ltac:(lia)) as D2. pose proof (Z.mod_pos_bound (h / 2 ^ 10) 32 ltac:(lia)).
  rewrite Z.div_div in D2 by lia. change (2 ^ 10 * 32)%Z with (2 ^ 15)%Z in D2.
  assert (0 <= h / 2 ^ 15 < 2)%Z by (split; [apply Z.div_pos; lia|apply Z.div_lt_upper_bound; lia]). lia.
Qed.
Lemma half_unique s e m : (0 <= s < 2)%Z -> (0 <= e < 32)%Z -> (0 <= m < 2 ^ 10)%Z -> let h := (s * 2 ^ 15 + e * 2 ^ 10 + m)%Z in half h /\ hs h = s /\ h_exp h = e /\ h_frac h = m.
Proof.
  intros Hs He Hm h. assert (half h) by (unfold half, h; lia). split; [assumption|].
  assert (E : (h / 2 ^ 10 = s * 32 + e)%Z) by (symmetry; apply Z.div_unique with m; unfold h; lia).
  split; [|split].
  - unfold hs. symmetry. apply Z.div_unique with (e * 2 ^ 10 + m)%Z; unfold h; lia.
  - unfold h_exp. rewrite E. symmetry. apply Z.mod_unique with s; lia.
  - unfold h_frac. symmetry. apply Z.mod_unique with (s * 32 + e)%Z; unfold h; lia.
Qed.
Lemma hsign h : half h -> h_sign h = (hs h =? 1)%Z.
Proof. intros H. destruct (half_fields h H) as (E & a & b & c). unfold h_sign. apply Bool.eq_true_iff_eq. rewrite Z.leb_le, Z.eqb_eq. lia. Qed.
Lemma land_exp h : half h -> Z.land h 0x7C00 = (h_exp h * 2 ^ 10)%Z.
Proof.
  intros H. change 0x7C00%Z with (Z.shiftl (Z.ones 5) 10). rewrite <- (Z.shiftl_mul_pow2 _ 10) by lia. apply Z.bits_inj'. intros i Hi.
  rewrite Z.land_spec, !Z.shiftl_spec by lia. destruct (Z_lt_dec i 10) as [L|L]; [rewrite !(Z.testbit_neg_r _ (i - 10)) by lia; apply Bool.andb_false_r|].
  unfold h_exp. change 32%Z with (2 ^ 5)%Z. rewrite Z.testbit_ones_nonneg by lia. destruct (Z.ltb_spec (i - 10) 5).
  - rewrite Z.mod_pow2_bits_low, Z.div_pow2_bits by lia. replace (i - 10 + 10)%Z with i by lia. apply Bool.andb_true_r.
  - rewrite Z.mod_pow2_bits_high by lia. apply Bool.andb_false_r.
Qed.
Lemma land_hsign h : half h -> Z.land h 0x8000 = (hs h * 2 ^ 15)%Z.
Proof.
  intros H. change 0x8000%Z with (2 ^ 15)%Z. apply Z.bits_inj'. intros i Hi. rewrite Z.land_spec, Z.pow2_bits_eqb by lia. destruct (Z.ltb_spec i 15) as [L|L].
  - rewrite Z.mul_pow2_bits_low by lia. rewrite (proj2 (Z.eqb_neq 15 i)) by lia. apply Bool.andb_false_r.
  - rewrite Z.mul_pow2_bits by lia. unfold hs. rewrite Z.div_pow2_bits by lia. replace (i - 15 + 15)%Z with i by lia. destruct (Z.eqb_spec 15 i) as [<-|N]; [apply Bool.andb_true_r|].
    rewrite Bool.andb_false_r. symmetry. destruct (Z.eq_dec h 0) as [->|]; [apply Z.bits_0|]. unfold half in H. apply Z.bits_above_log2; [lia|]. apply Z.log2_lt_pow2; [lia|]. apply Z.lt_le_trans with (2 ^ 16)%Z; [lia|apply Z.pow_le_mono_r; lia].
Qed.
(** the packing of the three parts *)
Lemma pack s e m : (0 <= s < 2)%Z -> (0 <= e < 256)%Z -> (0 <= m < 2 ^ 10)%Z ->
  Z.lor (Z.lor (Z.shiftl (s * 2 ^ 15) 16) (wrap32 (Z.shiftl e 23))) (wrap32 (Z.shiftl m 13)) = ((if (s =? 1)%Z then 2 ^ 31 else 0) + e * 2 ^ 23 + m * 2 ^ 13)%Z.
Proof.
  intros Hs He Hm. rewrite !Z.shiftl_mul_pow2 by lia. unfold wrap32. rewrite !Z.mod_small by lia.
  replace (s * 2 ^ 15 * 2 ^ 16)%Z with (s * 2 ^ 31)%Z by lia. rewrite lor_add by lia.
  replace (s * 2 ^ 31 + e * 2 ^ 23)%Z with ((s * 2 ^ 8 + e) * 2 ^ 23)%Z by lia. rewrite lor_add by lia. destruct (Z.eqb_spec s 1); lia.
Qed.

(** ** Half to float *)
Lemma signed_word (s : bool) e m b X : (0 <= e < 256)%Z -> (0 <= m < 2 ^ 23)%Z -> b = s ->
  value ((if s then 2 ^ 31 else 0) + e * 2 ^ 23 + m) = X -> value ((if s then 2 ^ 31 else 0) + e * 2 ^ 23 + m) = X /\ word ((if s then 2 ^ 31 else 0) + e * 2 ^ 23 + m) /\ fsgn ((if s then 2 ^ 31 else 0) + e * 2 ^ 23 + m) = b.
Proof. intros He Hm -> H. destruct (fields_unique s e m He Hm) as (h1 & h2 & _). auto. Qed.
Lemma h2f_full h : half h -> ~ h_denormal h -> exists r, XMConvertHalfToFloat h = Some r /\ value r = hvalue h /\ word r /\ fsgn r = h_sign h.
Proof.
  intros H D. destruct (half_fields h H) as (E & Hs & He & Hm). unfold XMConvertHalfToFloat.
  assert (M : Z.land h 0x03FF = h_frac h) by exact (land_low h 10 ltac:(lia)). rewrite M, land_exp, land_hsign by exact H. cbv zeta.
  assert (S : h_sign h = (hs h =? 1)%Z) by (apply hsign, H). unfold hvalue.
  change 0x7C00%Z with (31 * 2 ^ 10)%Z. destruct (Z.eqb_spec (h_exp h * 2 ^ 10) (31 * 2 ^ 10)) as [X|X].
  - eexists. split; [reflexivity|]. change (wrap32 (0x8f + 112)) with 255%Z. rewrite pack by lia. apply (signed_word (hs h =? 1)%Z); [lia|lia|exact S|]. assert (Y : h_exp h = 31%Z) by lia. rewrite Y. cbn [Z.eqb Pos.eqb].
    destruct (fields_unique (hs h =? 1)%Z 255 (h_frac h * 2 ^ 13) ltac:(lia) ltac:(lia)) as (_ & F1 & F2 & F3). unfold value.
    change (bit_exp ?z) with (fexpo z). change (bit_frac ?z) with (ffrac z). change (bit_sign ?z) with (fsgn z). rewrite F1, F2, F3, S. cbn [Z.eqb Pos.eqb].
    destruct (Z.eqb_spec (h_frac h) 0) as [->|N]; [reflexivity|]. rewrite (proj2 (Z.eqb_neq _ _)) by lia. reflexivity.
  - rewrite (proj2 (Z.eqb_neq (h_exp h) 31)) by lia. destruct (Z.eqb_spec (h_exp h * 2 ^ 10) 0) as [Y|Y]; cbn [negb].
    + assert (Z0 : h_exp h = 0%Z) by lia. destruct (Z.eqb_spec (h_frac h) 0) as [W|W]; [|exfalso; apply D; split; assumption]. cbn [negb]. eexists. split; [reflexivity|].
      change (wrap32 (wrap32 (-112) + 112)) with 0%Z. rewrite pack by lia. apply (signed_word (hs h =? 1)%Z); [lia|lia|exact S|]. rewrite W, Z0, S. cbn [Z.eqb]. change (0 * 2 ^ 23)%Z with 0%Z. change (0 * 2 ^ 13)%Z with 0%Z.
      destruct (hs h =? 1)%Z; cbn [signed]; rewrite Rmult_0_l, ?Ropp_0; [exact (proj2 zero_val)|exact (proj1 zero_val)].
    + assert (K : Z.land (Z.shiftr h 10) 0x1F = h_exp h).
      { rewrite Z.shiftr_div_pow2 by lia. exact (land_low (h / 2 ^ 10) 5 ltac:(lia)). }
      rewrite K. eexists. split; [reflexivity|]. assert (W112 : wrap32 (h_exp h + 112) = (h_exp h + 112)%Z) by (unfold wrap32; apply Z.mod_small; lia). rewrite W112. rewrite pack by lia. apply (signed_word (hs h =? 1)%Z); [lia|lia|exact S|]. rewrite field_of by lia.
      rewrite (proj2 (Z.eqb_neq (h_exp h) 0)), S by lia. f_equal. f_equal. rewrite !pow2_bpow. replace (2 ^ 23 + h_frac h * 2 ^ 13)%Z with ((2 ^ 10 + h_frac h) * 2 ^ 13)%Z by lia.
      rewrite mult_IZR. change (IZR (2 ^ 13)) with (bpow radix2 13). rewrite Rmult_assoc, <- bpow_plus. f_equal. f_equal. lia.
Qed.

Lemma h2f_normal h : half h -> ~ h_denormal h -> exists r, XMConvertHalfToFloat h = Some r /\ value r = hvalue h.
Proof. intros H D. destruct (h2f_full h H D) as (r & h1 & h2 & _). exists r. auto. Qed.
(** ** Denormal halves: the loop leaves too early or too late *)
Definition loop_ok (m : Z) : bool :=
  match half_loop 12 1 m with
  | Some (e, m') => (if m <? 512 then (e =? 0) && (m' =? 2 * m) else (2 ^ 32 - 10 <=? e) && (e <? 2 ^ 32) && (0 <=? m'))%Z
  | None => false
  end.
Fixpoint below_all (n : nat) (m : Z) : bool := match n with O => true | S n => (loop_ok m && below_all n (m + 1))%bool end.
Lemma below_all_spec n : forall m, below_all n m = true -> forall i, (m <= i < m + Z.of_nat n)%Z -> loop_ok i = true.
Proof.
  induction n as [|n IH]; intros m H i Hi; [lia|]. cbn [below_all] in H. apply andb_prop in H. destruct H as (h1 & h2).
  destruct (Z.eq_dec i m) as [->|N]; [exact h1|]. apply (IH (m + 1)%Z h2). lia.
Qed.
Lemma half_loop_done m : (1 <= m < 2 ^ 10)%Z -> loop_ok m = true.
Proof. intros H. apply (below_all_spec 1023 1); [vm_compute; reflexivity|]. cbn. lia. Qed.
Lemma h2f_total h : half h -> exists r, XMConvertHalfToFloat h = Some r.
Proof.
  intros H. destruct (half_fields h H) as (E & Hs & He & Hm). unfold XMConvertHalfToFloat.
  assert (M : Z.land h 0x03FF = h_frac h) by exact (land_low h 10 ltac:(lia)). rewrite M. cbv zeta.
  destruct (_ =? 0x7C00)%Z; [eexists; reflexivity|]. destruct (negb (_ =? 0)%Z); [eexists; reflexivity|]. destruct (Z.eqb_spec (h_frac h) 0) as [W|W]; cbn [negb]; [eexists; reflexivity|].
  pose proof (half_loop_done (h_frac h) ltac:(lia)) as L. unfold loop_ok in L. destruct (half_loop 12 1 (h_frac h)) as [(e, m)|]; [eexists; reflexivity|discriminate].
Qed.
Lemma h2f_denormal h : half h -> h_denormal h -> exists r, XMConvertHalfToFloat h = Some r /\ value r <> hvalue h.
Proof.
  intros H (D1 & D2). destruct (half_fields h H) as (E & Hs & He & Hm). unfold XMConvertHalfToFloat.
  assert (M : Z.land h 0x03FF = h_frac h) by exact (land_low h 10 ltac:(lia)). rewrite M, land_exp, land_hsign by exact H. cbv zeta.
  assert (S : h_sign h = (hs h =? 1)%Z) by (apply hsign, H). unfold hvalue. rewrite D1, S. cbn [Z.eqb Z.mul negb]. rewrite (proj2 (Z.eqb_neq (h_frac h) 0)) by exact D2. cbn [negb].
  pose proof (half_loop_done (h_frac h) ltac:(lia)) as L. unfold loop_ok in L. destruct (half_loop 12 1 (h_frac h)) as [(e, m)|]; [|discriminate]. eexists. split; [reflexivity|].
  change (Z.land m 0x03FF) with (Z.land m (2 ^ 10 - 1)). rewrite land_low by lia. pose proof (Z.mod_pos_bound m (2 ^ 10) ltac:(lia)) as B. set (g := (m mod 2 ^ 10)%Z) in *.
  assert (P : forall x y : R, 0 < x -> 0 < y -> x <> y -> forall s : bool, Fin (signed s x) <> Fin (signed s y)).
  { intros x y hx hy N s F. apply Fin_inj in F. apply N. destruct s; cbn [signed] in F; lra. }
  destruct (Z.ltb_spec (h_frac h) 512) as [C|C].
  - apply andb_prop in L. destruct L as (l1 & l2). apply Z.eqb_eq in l1, l2. subst e. change (wrap32 (0 + 112)) with 112%Z. rewrite pack by lia. rewrite field_of by lia. apply P.
    + apply Rmult_lt_0_compat; [apply IZR_lt; lia|apply pow2_pos].
    + apply Rmult_lt_0_compat; [apply IZR_lt; lia|apply pow2_pos].
    + rewrite !pow2_bpow. apply Rgt_not_eq. apply Rlt_le_trans with (bpow radix2 (-15)).
      * change (bpow radix2 (-15)) with (bpow radix2 (9 + -24)). rewrite bpow_plus. apply Rmult_lt_compat_r; [apply bpow_gt_0|]. change (bpow radix2 9) with (IZR 512). apply IZR_lt. lia.
      * change (-15)%Z with (23 + (112 - 150))%Z. rewrite bpow_plus. apply Rmult_le_compat_r; [apply bpow_ge_0|]. change (bpow radix2 23) with (IZR (2 ^ 23)). apply IZR_le. lia.
  - apply andb_prop in L. destruct L as (L & _). apply andb_prop in L. destruct L as (l1 & l2). apply Z.leb_le in l1. apply Z.ltb_lt in l2.
    assert (W : wrap32 (e + 112) = (e + 112 - 2 ^ 32)%Z) by (unfold wrap32; symmetry; apply Z.mod_unique with 1%Z; lia). rewrite W. rewrite pack by lia. rewrite field_of by lia. apply P.
    + apply Rmult_lt_0_compat; [apply IZR_lt; lia|apply pow2_pos].
    + apply Rmult_lt_0_compat; [apply IZR_lt; lia|apply pow2_pos].
    + rewrite !pow2_bpow. apply Rlt_not_eq. apply Rlt_le_trans with (bpow radix2 (-15)).
      * apply Rlt_le_trans with (bpow radix2 (24 + (e + 112 - 2 ^ 32 - 150))); [|apply bpow_le; lia]. rewrite bpow_plus. apply Rmult_lt_compat_r; [apply bpow_gt_0|]. change (bpow radix2 24) with (IZR (2 ^ 24)). apply IZR_lt. lia.
      * change (bpow radix2 (-15)) with (bpow radix2 (9 + -24)). rewrite bpow_plus. apply Rmult_le_compat_r; [apply bpow_ge_0|]. change (bpow radix2 9) with (IZR 512). apply IZR_le. lia.
Qed.

(** ** Magnitudes of halves *)
Definition hv (q : Z) : R := if (q <? 1024)%Z then IZR q * bpow radix2 (-24) else IZR (1024 + q mod 1024) * bpow radix2 (q / 1024 - 25).
Lemma divmod e m : (0 <= m < 1024)%Z -> ((1024 * e + m) / 1024 = e /\ (1024 * e + m) mod 1024 = m)%Z.
Proof. intros H. split; [symmetry; apply Z.div_unique with m; lia|symmetry; apply Z.mod_unique with e; lia]. Qed.
Lemma hv_of e m : (1 <= e)%Z -> (0 <= m < 1024)%Z -> hv (1024 * e + m) = IZR (1024 + m) * bpow radix2 (e - 25).
Proof. intros He Hm. unfold hv. destruct (divmod e m Hm) as (-> & ->). rewrite (proj2 (Z.ltb_ge _ _)) by lia. reflexivity. Qed.
Lemma hv_step q : (0 <= q)%Z -> hv (q + 1) = hv q + bpow radix2 (Z.max 1 (q / 1024) - 25).
Proof.
  intros Hq. destruct (Z_lt_dec q 1024) as [L|L].
  - rewrite (Z.div_small q) by lia. change (Z.max 1 0 - 25)%Z with (-24)%Z. destruct (Z.eq_dec q 1023) as [->|N].
    + change (1023 + 1)%Z with (1024 * 1 + 0)%Z. rewrite hv_of by lia. unfold hv. change (1023 <? 1024)%Z with true. cbn iota. change (1 - 25)%Z with (-24)%Z. change (1024 + 0)%Z with (1023 + 1)%Z. rewrite plus_IZR. ring.
    + unfold hv. rewrite !(proj2 (Z.ltb_lt _ _)) by lia. rewrite plus_IZR. ring.
  - pose proof (Z.div_mod q 1024 ltac:(lia)) as D. pose proof (Z.mod_pos_bound q 1024 ltac:(lia)) as B. set (e := (q / 1024)%Z) in *. set (m := (q mod 1024)%Z) in *. rewrite Z.max_r by lia. rewrite D. rewrite hv_of by lia.
    destruct (Z.eq_dec m 1023) as [X|X].
    + replace (1024 * e + m + 1)%Z with (1024 * (e + 1) + 0)%Z by lia. rewrite hv_of, X by lia. replace (e + 1 - 25)%Z with (1 + (e - 25))%Z by lia. rewrite bpow_plus. change (bpow radix2 1) with 2. change (IZR (1024 + 0)) with 1024. change (IZR (1024 + 1023)) with 2047. ring.
    + replace (1024 * e + m + 1)%Z with (1024 * e + (m + 1))%Z by lia. rewrite hv_of by lia. replace (1024 + (m + 1))%Z with (1024 + m + 1)%Z by lia. rewrite (plus_IZR (1024 + m)). ring.
Qed.
Lemma hv_lt p q : (0 <= p < q)%Z -> hv p < hv q.
Proof.
  intros H. replace q with (p + (1 + (q - p - 1)))%Z by lia. assert (K : forall d, (0 <= d)%Z -> hv p < hv (p + (1 + d))); [|apply K; lia].
  apply natlike_ind.
  - rewrite Z.add_0_r. rewrite hv_step by lia. pose proof (bpow_gt_0 radix2 (Z.max 1 (p / 1024) - 25)). lra.
  - intros d Hd IH. replace (p + (1 + Z.succ d))%Z with (p + (1 + d) + 1)%Z by lia. rewrite hv_step by lia. pose proof (bpow_gt_0 radix2 (Z.max 1 ((p + (1 + d)) / 1024) - 25)). lra.
Qed.
Lemma hv_le p q : (0 <= p <= q)%Z -> hv p <= hv q.
Proof. intros H. destruct (Z.eq_dec p q) as [->|]; [lra|]. apply Rlt_le, hv_lt. lia. Qed.
Lemma hv_0 : hv 0 = 0. Proof. unfold hv. change (0 <? 1024)%Z with true. cbn iota. ring. Qed.
Lemma hv_max : hv 0x7C00 = 65536. Proof. change 0x7C00%Z with (1024 * 31 + 0)%Z. rewrite hv_of by lia. change (31 - 25)%Z with 6%Z. change (bpow radix2 6) with (IZR 64). rewrite <- mult_IZR. reflexivity. Qed.
Lemma hv_last : hv 0x7BFF = 65504. Proof. change 0x7BFF%Z with (1024 * 30 + 1023)%Z. rewrite hv_of by lia. change (30 - 25)%Z with 5%Z. change (bpow radix2 5) with (IZR 32). rewrite <- mult_IZR. reflexivity. Qed.
(** [n] and the fraction [t] of the step above it, rounded to nearest even *)
Definition rne (n : Z) (t : R) (q : Z) : Prop := (t < 1 / 2 /\ q = n) \/ (1 / 2 < t /\ q = (n + 1)%Z) \/ (t = 1 / 2 /\ q = if Z.even n then n else (n + 1)%Z).
Lemma rne_near n t q a : (0 <= n)%Z -> 0 <= t < 1 -> rne n t q -> a = hv n + t * (hv (n + 1) - hv n) ->
  forall p, (0 <= p)%Z -> Rabs (a - hv q) <= Rabs (a - hv p) /\ (Rabs (a - hv q) = Rabs (a - hv p) -> p = q \/ Z.even q = true).
Proof.
  intros Hn Ht HR -> p Hp. pose proof (hv_lt n (n + 1) ltac:(lia)) as St. set (d := hv (n + 1) - hv n) in *. assert (Hd : 0 < d) by (unfold d; lra). assert (Hd1 : hv (n + 1) = hv n + d) by (unfold d; ring).
  assert (T : 0 <= t * d < d) by (split; [apply Rmult_le_pos; lra|rewrite <- (Rmult_1_l d) at 2; apply Rmult_lt_compat_r; lra]).
  assert (EO : Z.even n = true \/ Z.even (n + 1) = true) by (rewrite Z.even_add; destruct (Z.even n); auto).
  assert (cases : (p < n \/ p = n \/ p = n + 1 \/ n + 1 < p)%Z) by lia.
  assert (dn : t < 1 / 2 -> t * d < d / 2) by (intros; replace (d / 2) with (1 / 2 * d) by field; apply Rmult_lt_compat_r; assumption).
  assert (up : 1 / 2 < t -> d / 2 < t * d) by (intros; replace (d / 2) with (1 / 2 * d) by field; apply Rmult_lt_compat_r; assumption).
  assert (tie : t = 1 / 2 -> t * d = d / 2) by (intros ->; field).
  set (u := t * d) in *. clearbody u.
  assert (A : forall r : Z, r = n -> Rabs (hv n + u - hv r) = u) by (intros r ->; rewrite Rabs_pos_eq; lra).
  assert (B : forall r : Z, r = (n + 1)%Z -> Rabs (hv n + u - hv r) = d - u) by (intros r ->; rewrite Rabs_left1; lra).
  assert (C : (p < n)%Z -> u < Rabs (hv n + u - hv p)) by (intros L; pose proof (hv_lt p n ltac:(lia)); rewrite Rabs_pos_eq; lra).
  assert (D : (n + 1 < p)%Z -> d - u < Rabs (hv n + u - hv p)) by (intros L; pose proof (hv_lt (n + 1) p ltac:(lia)); rewrite Rabs_left1; lra).
  destruct HR as [(h & ->)|[(h & ->)|(h & E)]].
  - specialize (dn h). rewrite (A n eq_refl). destruct cases as [L|[L|[L|L]]]; [specialize (C L)|rewrite (A p L)|rewrite (B p L)|specialize (D L)]; (split; [lra|]); intros; try lra; left; assumption.
  - specialize (up h). rewrite (B (n + 1)%Z eq_refl). destruct cases as [L|[L|[L|L]]]; [specialize (C L)|rewrite (A p L)|rewrite (B p L)|specialize (D L)]; (split; [lra|]); intros; try lra; left; assumption.
  - specialize (tie h). assert (Q : Z.even q = true) by (destruct (Z.even n) eqn:X; subst q; [exact X|destruct EO; [discriminate|assumption]]).
    assert (R : Rabs (hv n + u - hv q) = d / 2) by (destruct (Z.even n); subst q; [rewrite (A n eq_refl)|rewrite (B (n + 1)%Z eq_refl)]; lra). rewrite R.
    destruct cases as [L|[L|[L|L]]]; [specialize (C L)|rewrite (A p L)|rewrite (B p L)|specialize (D L)]; (split; [lra|]); intros; right; exact Q.
Qed.
Lemma hvalue_hv h : half h -> h_exp h <> 31%Z -> hvalue h = Fin (signed (h_sign h) (hv (h_exp h * 2 ^ 10 + h_frac h))).
Proof.
  intros H N. destruct (half_fields h H) as (E & Hs & He & Hm). unfold hvalue. rewrite (proj2 (Z.eqb_neq _ _)) by exact N. destruct (Z.eqb_spec (h_exp h) 0) as [X|X].
  - rewrite X. unfold hv. change (0 * 2 ^ 10 + h_frac h)%Z with (h_frac h). rewrite (proj2 (Z.ltb_lt _ _)) by lia. rewrite pow2_bpow. reflexivity.
  - replace (h_exp h * 2 ^ 10 + h_frac h)%Z with (1024 * h_exp h + h_frac h)%Z by lia. rewrite hv_of, pow2_bpow by lia. reflexivity.
Qed.
Lemma hvalue_of s q : (0 <= q < 0x7C00)%Z -> let h := ((if s : bool then 1 else 0) * 2 ^ 15 + q)%Z in half h /\ hvalue h = Fin (signed s (hv q)).
Proof.
  intros Hq h. pose proof (Z.div_mod q 1024 ltac:(lia)) as D. pose proof (Z.mod_pos_bound q 1024 ltac:(lia)) as B.
  assert (B2 : (0 <= q / 1024 < 31)%Z) by (split; [apply Z.div_pos; lia|apply Z.div_lt_upper_bound; lia]).
  destruct (half_unique (if s then 1 else 0) (q / 1024) (q mod 1024)) as (U1 & U2 & U3 & U4); [destruct s; lia|lia|lia|].
  replace ((if s then 1 else 0) * 2 ^ 15 + q / 1024 * 2 ^ 10 + q mod 1024)%Z with h in * by (unfold h; lia). split; [exact U1|]. rewrite hvalue_hv by (try exact U1; lia). rewrite hsign, U2, U3, U4 by exact U1.
  replace (q / 1024 * 2 ^ 10 + q mod 1024)%Z with q by lia. destruct s; reflexivity.
Qed.
Lemma rne_nearest16 s n t q a : (0 <= n)%Z -> 0 <= t < 1 -> rne n t q -> a = hv n + t * (hv (n + 1) - hv n) -> (q < 0x7C00)%Z -> nearest16 (signed s a) ((if s : bool then 1 else 0) * 2 ^ 15 + q).
Proof.
  intros Hn Ht HR Ha Hq. assert (Hq0 : (0 <= q)%Z) by (destruct HR as [(_ & ->)|[(_ & ->)|(_ & ->)]]; [lia|lia|destruct (Z.even n); lia]).
  destruct (hvalue_of s q ltac:(lia)) as (Hh & V). exists (signed s (hv q)). split; [exact V|].
  assert (A0 : 0 <= a). { rewrite Ha. pose proof (hv_le 0 n ltac:(lia)) as h0. rewrite hv_0 in h0. pose proof (hv_lt n (n + 1) ltac:(lia)). assert (0 <= t * (hv (n + 1) - hv n)) by (apply Rmult_le_pos; lra). lra. }
  assert (R : Rabs (signed s a - signed s (hv q)) = Rabs (a - hv q)) by (destruct s; cbn [signed]; [rewrite <- Rabs_Ropp; f_equal; ring|reflexivity]). rewrite R.
  assert (Other : forall h' v', half h' -> hvalue h' = Fin v' -> exists p s', (0 <= p)%Z /\ v' = signed s' (hv p)).
  { intros h' v' Hh' V'. destruct (Z.eq_dec (h_exp h') 31) as [X|X]; [unfold hvalue in V'; rewrite X in V'; cbn [Z.eqb Pos.eqb] in V'; destruct (_ =? _)%Z; discriminate|].
    rewrite hvalue_hv in V' by assumption. apply Fin_inj in V'. destruct (half_fields h' Hh') as (_ & _ & b & c). exists (h_exp h' * 2 ^ 10 + h_frac h')%Z, (h_sign h'). split; [lia|symmetry; exact V']. }
  assert (Tri : forall s' p, (0 <= p)%Z -> Rabs (a - hv p) <= Rabs (signed s a - signed s' (hv p)) /\ (Rabs (a - hv p) = Rabs (signed s a - signed s' (hv p)) -> s = s' \/ a = 0 \/ hv p = 0)).
  { intros s' p Hp. pose proof (hv_le 0 p ltac:(lia)) as P0. rewrite hv_0 in P0. destruct s, s'; cbn [signed].
    - replace (- a - - hv p) with (- (a - hv p)) by ring. rewrite Rabs_Ropp. split; [lra|auto].
    - replace (- a - hv p) with (- (a + hv p)) by ring. rewrite Rabs_Ropp, (Rabs_pos_eq (a + hv p)) by lra. split; [unfold Rabs; destruct (Rcase_abs _); lra|]. intros e. right. unfold Rabs in e. destruct (Rcase_abs _); lra.
    - replace (a - - hv p) with (a + hv p) by ring. rewrite (Rabs_pos_eq (a + hv p)) by lra. split; [unfold Rabs; destruct (Rcase_abs _); lra|]. intros e. right. unfold Rabs in e. destruct (Rcase_abs _); lra.
    - split; [lra|auto]. }
  pose proof (rne_near n t q a Hn Ht HR Ha) as N. split.
  - intros h' v' Hh' V'. destruct (Other h' v' Hh' V') as (p & s' & Hp & ->). destruct (N p Hp) as (n1 & _). destruct (Tri s' p Hp) as (t1 & _). lra.
  - intros h' v' Hh' V' E. destruct (Other h' v' Hh' V') as (p & s' & Hp & ->). destruct (N p Hp) as (n1 & n2). destruct (Tri s' p Hp) as (t1 & t2).
    assert (E1 : Rabs (a - hv q) = Rabs (a - hv p)) by lra. specialize (t2 ltac:(lra)). destruct (n2 E1) as [->|Ev].
    + destruct t2 as [->|[Z0|Z0]]; [left; reflexivity| |].
      * left. assert (hv q = 0). { destruct (N 0%Z ltac:(lia)) as (m1 & _). rewrite hv_0, Z0 in m1. pose proof (hv_le 0 q ltac:(lia)) as P0. rewrite hv_0 in P0. replace (0 - 0) with 0 in m1 by ring. rewrite Rabs_R0 in m1. rewrite Rabs_left1 in m1; lra. }
        rewrite H. destruct s, s'; cbn [signed]; ring.
      * left. rewrite Z0. destruct s, s'; cbn [signed]; ring.
    + right. rewrite Z.even_add, Ev. destruct s; reflexivity.
Qed.
