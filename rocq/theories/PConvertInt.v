(** Conversions from binary32 lanes to integers, the unsigned fix-up and the constant builders. *)
From Coq Require Import Reals Lra Lia ZArith.
From Flocq Require Import Core IEEE754.BinarySingleNaN.
From Verif Require Import Base F32 F32Facts Intrin SpecF32 PF32 SpecRound PFloat MRound PRound PRoundAll SpecConvert MConvert PConvert.
Open Scope R_scope.

(** ** Scaling a lane by [2^k], exactly or to infinity *)
Definition scaled (k : Z) (z t : Z) : Prop :=
  match value z with
  | Fin x => value t = Fin (x * bpow radix2 k) \/ (huge <= x * bpow radix2 k /\ value t = Inf false) \/ (x * bpow radix2 k <= - huge /\ value t = Inf true)
  | Inf s => value t = Inf s
  | NaN => value t = NaN
  end.
Lemma pow_dec k : (0 <= k < 32)%Z -> exists m e B, dec (f_of_Z (Z.shiftl 1 k)) = B754_finite false m e B.
Proof.
  intros Hk. destruct (value_fin _ _ (pow_val k Hk)) as (F & E). pose proof (bpow_gt_0 radix2 k) as P.
  destruct (dec (f_of_Z (Z.shiftl 1 k))) as [s|s| |[] m e B]; try discriminate.
  - cbn [B2R] in E. lra.
  - exfalso. rewrite <- E in P. cbn [B2R cond_Zopp] in P. apply gt_0_F2R in P. discriminate.
  - exists m, e, B. reflexivity.
Qed.
Lemma scaled_mul k z : (0 <= k < 32)%Z -> scaled k z (f_mul z (f_of_Z (Z.shiftl 1 k))).
Proof.
  intros Hk. unfold scaled. destruct (value z) as [|s|x] eqn:V.
  - unfold f_mul. rewrite value_enc. rewrite value_dec in V. destruct (dec z); try discriminate V. reflexivity.
  - unfold f_mul. rewrite value_enc. rewrite value_dec in V. destruct (pow_dec k Hk) as (m & e & B & ->). destruct (dec z); try discriminate V. injection V as <-. cbn [Bmult xof]. f_equal. destruct s0; reflexivity.
  - destruct (value_fmt z x V) as (Fx & _). assert (Fy : fmt (x * bpow radix2 k)) by (apply fmt_up; [lia|exact Fx]).
    destruct (Rlt_dec (Rabs (x * bpow radix2 k)) huge) as [L|L].
    + left. apply mul_exact; [exact V|apply pow_val, Hk|exact Fy|exact L].
    + right. apply Rnot_lt_le in L. destruct (value_fin _ _ V) as (Ff & Ex). destruct (value_fin _ _ (pow_val k Hk)) as (Fp & Ep).
      pose proof (Bmult_correct 24 128 _ _ mode_NE (dec z) (dec (f_of_Z (Z.shiftl 1 k)))) as K. rewrite Ex, Ep in K. change (round _ _ _ (x * bpow radix2 k)) with (RN (x * bpow radix2 k)) in K.
      rewrite RN_fmt, Rlt_bool_false in K by assumption.
      assert (S : xof (Bmult mode_NE (dec z) (dec (f_of_Z (Z.shiftl 1 k)))) = Inf (Bsign (dec z))).
      { destruct (pow_dec k Hk) as (m & e & B & E). rewrite E in *. cbn [Bsign] in K. unfold binary_overflow in K. cbn [overflow_to_inf] in K. rewrite Bool.xorb_false_r in K.
        set (f := Bmult _ _ _) in *. destruct f; cbn [B2SF] in K; try discriminate K. injection K as ->. reflexivity. }
      unfold f_mul. rewrite value_enc, S. pose proof (bpow_gt_0 radix2 k) as P. pose proof (bpow_gt_0 radix2 128) as Hh. fold huge in Hh.
      assert (N0 : x <> 0) by (intros ->; rewrite Rmult_0_l, Rabs_R0 in L; lra).
      assert (Sg : Bsign (dec z) = Rlt_bool x 0).
      { rewrite <- Ex. destruct (dec z) as [s|s| |s m e B]; try discriminate Ff; [exfalso; apply N0; rewrite <- Ex; reflexivity|]. cbn [Bsign B2R]. symmetry. destruct s.
        - apply Rlt_bool_true, F2R_lt_0. reflexivity.
        - apply Rlt_bool_false, F2R_ge_0. discriminate. }
      rewrite Sg. destruct (Rlt_bool_spec x 0) as [C|C]; [right|left]; (split; [|reflexivity]).
      * rewrite Rabs_left1 in L; [lra|]. apply Rlt_le. rewrite <- (Rmult_0_l (bpow radix2 k)). apply Rmult_lt_compat_r; assumption.
      * rewrite Rabs_pos_eq in L; [lra|]. apply Rmult_le_pos; lra.
Qed.

(** ** Comparison with a finite lane *)
Lemma le_c t c y : value c = Fin y -> f_le t c = match value t with Fin x => Rle_bool x y | Inf s => s | NaN => false end.
Proof.
  intros Hc. apply Bool.eq_true_iff_eq. rewrite f_le_spec, Hc. unfold xle. destruct (value t) as [|[]|x]; cbn [xlt xeq]; try intuition congruence.
  destruct (Rle_bool_spec x y); split; intros; try congruence; try lra.
Qed.
Lemma ge_c t c y : value c = Fin y -> f_le c t = match value t with Fin x => Rle_bool y x | Inf s => negb s | NaN => false end.
Proof.
  intros Hc. apply Bool.eq_true_iff_eq. rewrite f_le_spec, Hc. unfold xle. destruct (value t) as [|[]|x]; cbn [xlt xeq negb]; try intuition congruence.
  destruct (Rle_bool_spec y x); split; intros; try congruence; try lra.
Qed.
Lemma gt_c t c y : value c = Fin y -> f_lt c t = match value t with Fin x => Rlt_bool y x | Inf s => negb s | NaN => false end.
Proof.
  intros Hc. apply Bool.eq_true_iff_eq. rewrite f_lt_spec, Hc. destruct (value t) as [|[]|x]; cbn [xlt negb]; try intuition congruence.
  destruct (Rlt_bool_spec y x); split; intros; try congruence; try lra.
Qed.
Lemma val_int c s e m n : c = ((if s : bool then 2 ^ 31 else 0) + e * 2 ^ 23 + m)%Z -> (150 <= e < 255)%Z -> (0 <= m < 2 ^ 23)%Z -> n = ((2 ^ 23 + m) * 2 ^ (e - 150))%Z -> value c = Fin (IZR (if s then - n else n)).
Proof.
  intros -> He Hm ->. rewrite field_of by lia. f_equal. unfold pow2. rewrite (proj2 (Z.leb_le 0 (e - 150))) by lia. rewrite <- mult_IZR. destruct s; cbn [signed]; [rewrite opp_IZR|]; reflexivity.
Qed.
Lemma val_min_int : value 0xCF000000 = Fin (IZR (- 2 ^ 31)). Proof. apply (val_int _ true 158 0); reflexivity || lia. Qed.
Lemma val_max_int : value 0x4EFFFFFF = Fin (IZR (2 ^ 31 - 128)). Proof. apply (val_int _ false 157 (2 ^ 23 - 1)); reflexivity || lia. Qed.
Lemma val_2_31 : value 0x4F000000 = Fin (IZR (2 ^ 31)). Proof. apply (val_int _ false 158 0); reflexivity || lia. Qed.
Lemma val_2_32 : value 0x4F800000 = Fin (IZR (2 ^ 32)). Proof. apply (val_int _ false 159 0); reflexivity || lia. Qed.
Lemma val_max_uint : value 0x4F7FFFFF = Fin (IZR (2 ^ 32 - 256)). Proof. apply (val_int _ false 158 (2 ^ 23 - 1)); reflexivity || lia. Qed.

(** ** Integer parts *)
Lemma trunc_ge n y : IZR n <= y -> (0 <= n)%Z -> (n <= Ztrunc y)%Z.
Proof. intros H Hn. rewrite <- (Ztrunc_IZR n). apply Ztrunc_le, H. Qed.
Lemma trunc_le n y : y <= IZR n -> (Ztrunc y <= n)%Z.
Proof. intros H. rewrite <- (Ztrunc_IZR n). apply Ztrunc_le, H. Qed.
Lemma trunc_gt n y : IZR n < y -> (n <= Ztrunc y)%Z.
Proof. intros H. rewrite <- (Ztrunc_IZR n). apply Ztrunc_le. lra. Qed.
Lemma huge_2_32 : IZR (2 ^ 32) <= huge.
Proof. unfold huge. change (IZR (2 ^ 32)) with (bpow radix2 32). apply bpow_le. lia. Qed.
(** the saturated truncation of the scaled lane [t], given what [r] is in terms of [value t] *)
Lemma saturate read lo hi k z t r : (lo <= 0)%Z -> (0 <= hi < 2 ^ 32)%Z -> (- 2 ^ 32 <= lo)%Z -> scaled k z t ->
  (forall y, value t = Fin y -> fmt y -> read r = clamp lo hi (Ztrunc y)) -> (value t = Inf true -> read r = lo) -> (value t = Inf false -> read r = hi) -> to_integer read lo hi k z r.
Proof.
  intros Hlo Hhi Hlo' S HF HT HI. unfold to_integer. unfold scaled in S. destruct (value z) as [|[]|x] eqn:V; [exact I|exact (HT S)|exact (HI S)|].
  exists (Ztrunc (x * bpow radix2 k)). rewrite pow2_bpow. split; [apply truncE|]. pose proof huge_2_32 as H2.
  destruct S as [S|[(h & S)|(h & S)]].
  - apply HF; [exact S|]. exact (proj1 (value_fmt t _ S)).
  - rewrite (HI S). assert (B := trunc_ge (2 ^ 32) (x * bpow radix2 k) ltac:(lra) ltac:(lia)). unfold clamp. lia.
  - rewrite (HT S). assert (B := trunc_le (- 2 ^ 32) (x * bpow radix2 k) ltac:(rewrite opp_IZR; lra)). unfold clamp. lia.
Qed.
Lemma signed_wrap n : (- 2 ^ 31 <= n < 2 ^ 31)%Z -> signed32 (wrap32 n) = n.
Proof.
  intros H. unfold signed32, wrap32. destruct (Z_le_dec 0 n).
  - rewrite Z.mod_small by lia. destruct (Z.ltb_spec n (2 ^ 31)); lia.
  - replace (n mod 2 ^ 32)%Z with (n + 2 ^ 32)%Z by (apply Z.mod_unique with (-1)%Z; lia). destruct (Z.ltb_spec (n + 2 ^ 32) (2 ^ 31)); lia.
Qed.
Lemma to_i32_val t y : value t = Fin y -> f_to_i32 t = clamp (- 2 ^ 31) (2 ^ 31 - 1) (Ztrunc y).
Proof. intros V. pose proof (btrunc_val t y V) as E. apply value_fin in V. destruct V as (F & _). unfold f_to_i32, clamp. rewrite <- E. destruct (dec t); try discriminate F; reflexivity. Qed.
Lemma to_u32_val t y : value t = Fin y -> f_to_u32 t = clamp 0 (2 ^ 32 - 1) (Ztrunc y).
Proof. intros V. pose proof (btrunc_val t y V) as E. apply value_fin in V. destruct V as (F & _). unfold f_to_u32, clamp. rewrite <- E. destruct (dec t); try discriminate F; reflexivity. Qed.
Lemma cvtt_val t y : value t = Fin y -> cvtt_lane t = if (- 2 ^ 31 <=? Ztrunc y)%Z && (Ztrunc y <? 2 ^ 31)%Z then wrap32 (Ztrunc y) else 0x80000000%Z.
Proof. intros V. pose proof (btrunc_val t y V) as E. apply value_fin in V. destruct V as (F & _). unfold cvtt_lane. rewrite <- E. destruct (dec t); try discriminate F; reflexivity. Qed.
Lemma cvtt_inf t s : value t = Inf s -> cvtt_lane t = 0x80000000%Z.
Proof. rewrite value_dec. unfold cvtt_lane. destruct (dec t); intros H; try discriminate H. reflexivity. Qed.
Lemma cvtt_word t : word (cvtt_lane t).
Proof.
  unfold cvtt_lane, wrap32. pose proof (Z.mod_pos_bound (Btrunc (dec t)) (2 ^ 32) ltac:(lia)) as B. unfold word.
  destruct (dec t); try lia; destruct (_ && _)%bool; lia.
Qed.

Definition f2i_scalar (k v : Z) : Z :=
  let t := f_mul v (f_of_Z (Z.shiftl 1 k)) in wrap32 (if f_le t 0xCF000000 then -0x7FFFFFFF - 1 else if f_lt 0x4EFFFFFF t then 0x7FFFFFFF else f_to_i32 t).
Lemma f2i_scalar_ok k z : (0 <= k < 32)%Z -> to_int32 k z (f2i_scalar k z).
Proof.
  intros Hk. apply (saturate _ _ _ k z _ _) with (4 := scaled_mul k z Hk); try lia; unfold f2i_scalar; set (t := f_mul _ _); cbv zeta; rewrite (le_c t _ _ val_min_int), (gt_c t _ _ val_max_int).
  - intros y V F. rewrite V, (to_i32_val t y V). destruct (Rle_bool_spec y (IZR (- 2 ^ 31))) as [C|C]; [|destruct (Rlt_bool_spec (IZR (2 ^ 31 - 128)) y) as [D|D]].
    + rewrite signed_wrap by lia. apply trunc_le in C. unfold clamp. lia.
    + rewrite signed_wrap by lia. apply above_max_int in D; [|exact F]. apply trunc_ge in D; [|lia]. unfold clamp. lia.
    + apply signed_wrap. unfold clamp. lia.
  - intros ->. reflexivity.
  - intros ->. reflexivity.
Qed.
Definition f2i_sse (k v : Z) : Z :=
  let t := f_mul (f_of_Z (Z.shiftl 1 k)) v in let o := mask (f_lt 0x4EFFFFFF t) in Z.lor (Z.land (bnot o) (cvtt_lane t)) (Z.land o 0x7FFFFFFF).
Lemma sel_abs c w : word w -> Z.lor (Z.land (bnot (mask c)) w) (Z.land (mask c) 0x7FFFFFFF) = if c then 0x7FFFFFFF%Z else w.
Proof.
  intros W. destruct c; cbn [mask].
  - rewrite bnot_ones, Z.land_0_l, Z.lor_0_l. reflexivity.
  - rewrite bnot_0, Z.land_0_l, Z.lor_0_r, Z.land_comm. apply land_ones32, W.
Qed.
Lemma f2i_sse_ok k z : (0 <= k < 32)%Z -> to_int32 k z (f2i_sse k z).
Proof.
  intros Hk. apply (saturate _ _ _ k z _ _) with (4 := scaled_mul k z Hk); try lia; unfold f2i_sse; rewrite (f_mul_comm (f_of_Z _)); set (t := f_mul _ _); cbv zeta; rewrite sel_abs by apply cvtt_word; rewrite (gt_c t _ _ val_max_int).
  - intros y V F. rewrite V, (cvtt_val t y V). destruct (Rlt_bool_spec (IZR (2 ^ 31 - 128)) y) as [D|D].
    + change (signed32 0x7FFFFFFF) with (2 ^ 31 - 1)%Z. apply above_max_int in D; [|exact F]. apply trunc_ge in D; [|lia]. unfold clamp. lia.
    + apply trunc_le in D. destruct (Z.leb_spec (- 2 ^ 31) (Ztrunc y)), (Z.ltb_spec (Ztrunc y) (2 ^ 31)); cbn [andb]; try lia.
      * rewrite signed_wrap by lia. unfold clamp. lia.
      * change (signed32 0x80000000) with (- 2 ^ 31)%Z. unfold clamp. lia.
  - intros V. rewrite V, (cvtt_inf t _ V). reflexivity.
  - intros V. rewrite V. reflexivity.
Qed.

Definition f2u_scalar (k v : Z) : Z :=
  let t := f_mul v (f_of_Z (Z.shiftl 1 k)) in if f_le t 0 then 0 else if f_le 0x4F800000 t then 0xFFFFFFFF else f_to_u32 t.
Lemma f2u_scalar_ok k z : (0 <= k < 32)%Z -> to_uint32 k z (f2u_scalar k z).
Proof.
  intros Hk. apply (saturate _ _ _ k z _ _) with (4 := scaled_mul k z Hk); try lia; unfold f2u_scalar; set (t := f_mul _ _); cbv zeta; rewrite (le_c t _ _ (proj1 zero_val)), (ge_c t _ _ val_2_32).
  - intros y V F. rewrite V, (to_u32_val t y V). destruct (Rle_bool_spec y 0) as [C|C]; [|destruct (Rle_bool_spec (IZR (2 ^ 32)) y) as [D|D]].
    + apply (trunc_le 0) in C. unfold clamp. lia.
    + apply trunc_ge in D; [|lia]. unfold clamp. lia.
    + reflexivity.
  - intros ->. reflexivity.
  - intros ->. reflexivity.
Qed.
Definition f2u_sse (k v : Z) : Z :=
  let t := f_mul (f_of_Z (Z.shiftl 1 k)) v in
  let t := if f_lt 0 t then t else 0%Z in
  let o := mask (f_lt 0x4F7FFFFF t) in
  let g := mask (f_le 0x4F000000 t) in
  Z.lor (Z.lxor (cvtt_lane (f_sub t (Z.land 0x4F000000 g))) (Z.land g 0x80000000)) o.
Lemma sub_zero t y : value t = Fin y -> value (f_sub t 0) = Fin y.
Proof. intros V. destruct (value_fmt t y V) as (F & B). rewrite (sub_exact t 0 y 0 V (proj1 zero_val)); [f_equal; ring|rewrite Rminus_0_r; exact F|rewrite Rminus_0_r; exact B]. Qed.
Lemma high_exact t y : value t = Fin y -> IZR (2 ^ 31) <= y <= IZR (2 ^ 32 - 256) -> value (f_sub t 0x4F000000) = Fin (y - IZR (2 ^ 31)).
Proof.
  intros V (B1 & B2). destruct (value_fmt t y V) as (F & _). destruct (fmt_grid y 31) as (m & E); [lia|exact F|split; [exact B1|change (bpow radix2 (31 + 1)) with (IZR (2 ^ 32)); assert (IZR (2 ^ 32 - 256) < IZR (2 ^ 32)) by (apply IZR_lt; reflexivity); lra]|].
  assert (Q : y - IZR (2 ^ 31) = IZR (m - 2 ^ 23) * bpow radix2 8).
  { rewrite E. change (bpow radix2 (31 - 23)) with (IZR 256). change (bpow radix2 8) with (IZR 256). rewrite minus_IZR. change (IZR (2 ^ 31)) with (IZR (2 ^ 23 * 256)). rewrite mult_IZR. ring. }
  change (bpow radix2 (31 - 23)) with (IZR 256) in E. rewrite E, <- mult_IZR in B1, B2. apply le_IZR in B1, B2.
  apply sub_exact; [exact V|exact val_2_31| |].
  - rewrite Q. apply fmt_scaled; lia.
  - rewrite E, <- mult_IZR, <- minus_IZR. rewrite Rabs_pos_eq by (apply IZR_le; lia). pose proof huge_2_32 as Hh. apply Rlt_le_trans with (2 := Hh). apply IZR_lt. lia.
Qed.
Lemma lxor_high n : (0 <= n < 2 ^ 31)%Z -> Z.lxor n 0x80000000 = (n + 2 ^ 31)%Z.
Proof.
  intros H. rewrite Z.add_nocarry_lxor; [reflexivity|]. apply Z.bits_inj'. intros i Hi. rewrite Z.land_spec, Z.bits_0. change (2 ^ 31)%Z with (2 ^ 31)%Z. rewrite Z.pow2_bits_eqb by lia.
  destruct (Z.eqb_spec 31 i) as [<-|]; [|apply Bool.andb_false_r]. rewrite Z.bits_above_log2; [reflexivity|lia|].
  destruct (Z.eq_dec n 0) as [->|]; [reflexivity|]. apply Z.log2_lt_pow2; lia.
Qed.
Lemma lor_ones w : word w -> Z.lor w ones = ones.
Proof. intros W. rewrite Z.lor_comm. apply Z.bits_inj'. intros i Hi. rewrite Z.lor_spec. change ones with (Z.ones 32). rewrite Z.testbit_ones_nonneg by lia.
  destruct (Z.ltb_spec i 32); cbn [orb]; [reflexivity|]. destruct (Z.eq_dec w 0) as [->|]; [apply Z.bits_0|]. apply Z.bits_above_log2; unfold word in W; [lia|]. apply Z.log2_lt_pow2; [lia|]. apply Z.lt_le_trans with (2 ^ 32)%Z; [lia|]. apply Z.pow_le_mono_r; lia. Qed.
Lemma lxor_word a b : word a -> word b -> word (Z.lxor a b).
Proof.
  unfold word. intros A B. split; [apply Z.lxor_nonneg; lia|]. destruct (Z.eq_dec (Z.lxor a b) 0) as [->|N]; [lia|]. assert (P : (0 <= Z.lxor a b)%Z) by (apply Z.lxor_nonneg; lia).
  apply Z.log2_lt_pow2; [lia|]. apply Z.le_lt_trans with (1 := Z.log2_lxor a b ltac:(lia) ltac:(lia)).
  assert (L : forall c, (0 <= c < 2 ^ 32)%Z -> (Z.log2 c < 32)%Z) by (intros c Hc; destruct (Z.eq_dec c 0) as [->|]; [reflexivity|apply Z.log2_lt_pow2; lia]).
  pose proof (L a A). pose proof (L b B). lia.
Qed.
Lemma f2u_sse_ok k z : (0 <= k < 32)%Z -> to_uint32 k z (f2u_sse k z).
Proof.
  intros Hk. apply (saturate _ _ _ k z _ _) with (4 := scaled_mul k z Hk); try lia; unfold f2u_sse; rewrite (f_mul_comm (f_of_Z _)); set (t := f_mul _ _); cbv zeta; rewrite (gt_c t _ _ (proj1 zero_val)).
  - intros y V F. rewrite V. destruct (Rlt_bool_spec 0 y) as [P|P].
    + rewrite (gt_c t _ _ val_max_uint), (ge_c t _ _ val_2_31), V. destruct (Rlt_bool_spec (IZR (2 ^ 32 - 256)) y) as [O|O].
      * apply above_max_uint in O; [|exact F]. apply trunc_ge in O; [|lia]. cbn [mask]. rewrite lor_ones; [unfold clamp, ones; lia|]. apply lxor_word; [apply cvtt_word|]. destruct (Rle_bool _ _); cbn [mask]; unfold word; cbn; lia.
      * cbn [mask]. rewrite Z.lor_0_r. destruct (Rle_bool_spec (IZR (2 ^ 31)) y) as [G|G]; cbn [mask].
        -- change (Z.land 0x4F000000 ones) with 0x4F000000%Z. change (Z.land ones 0x80000000) with 0x80000000%Z.
           pose proof (high_exact t y V (conj G O)) as H. rewrite (cvtt_val _ _ H). assert (E : Ztrunc (y - IZR (2 ^ 31)) = (Ztrunc y - 2 ^ 31)%Z).
           { rewrite !Ztrunc_floor by lra. rewrite <- (Zfloor_imp (Zfloor y - 2 ^ 31) (y - IZR (2 ^ 31))); [reflexivity|]. pose proof (Zfloor_lb y). pose proof (Zfloor_ub y). rewrite plus_IZR, minus_IZR. lra. }
           apply trunc_ge in G; [|lia]. apply trunc_le in O. rewrite E. destruct (Z.leb_spec (- 2 ^ 31) (Ztrunc y - 2 ^ 31)), (Z.ltb_spec (Ztrunc y - 2 ^ 31) (2 ^ 31)); cbn [andb]; try lia.
           unfold wrap32. rewrite Z.mod_small by lia. rewrite lxor_high by lia. unfold clamp. lia.
        -- rewrite Z.land_0_r, Z.land_0_l, Z.lxor_0_r. rewrite (cvtt_val _ _ (sub_zero t y V)). assert (T1 := trunc_gt 0 y P).
           assert (T2 : (Ztrunc y < 2 ^ 31)%Z) by (apply lt_IZR; rewrite Ztrunc_floor by lra; pose proof (Zfloor_lb y); lra).
           destruct (Z.leb_spec (- 2 ^ 31) (Ztrunc y)), (Z.ltb_spec (Ztrunc y) (2 ^ 31)); cbn [andb]; try lia. unfold wrap32. rewrite Z.mod_small by lia. unfold clamp. lia.
    + apply (trunc_le 0) in P. transitivity 0%Z; [vm_compute; reflexivity|unfold clamp; lia].
  - intros V. rewrite V. cbn [negb]. vm_compute. reflexivity.
  - intros V. rewrite V. cbn [negb]. rewrite (gt_c t _ _ val_max_uint), V. cbn [negb mask]. rewrite lor_ones; [reflexivity|]. apply lxor_word; [apply cvtt_word|]. rewrite (ge_c t _ _ val_2_31), V. cbn. unfold word. lia.
Qed.

(** ** All four lanes *)
Lemma lanes4 (f : Z -> Z -> Z) (P : Z -> Z -> Z -> Prop) (F : quad Z -> Z -> option (quad Z)) V k : (0 <= k < 32)%Z ->
  F V k = asserting (k <? 32)%Z (qmap (f k) V) -> (forall z, P k z (f k z)) -> exists r, F V k = Some r /\ forall i, P k (lane V i) (lane r i).
Proof.
  intros Hk E H. rewrite E. unfold asserting. rewrite (proj2 (Z.ltb_lt k 32)) by lia. eexists. split; [reflexivity|]. intros i. pose proof (H (lane V i)) as h. destruct i; exact h.
Qed.
Definition u2f_sse (k u : Z) : Z :=
  let m := Z.land u 0x80000000 in f_mul (f_add (f_of_Z (sint (Z.lxor u m))) (Z.land (mask (2 ^ 31 <=? m)) 0x4F000000)) (uScale k).
Ltac four := intros V k; destruct V as [vx vy vz vw]; cbv beta iota zeta delta [XMConvertVectorFloatToInt_scalar XMConvertVectorFloatToInt_sse XMConvertVectorFloatToUInt_scalar XMConvertVectorFloatToUInt_sse XMConvertVectorUIntToFloat_sse
  f2i_scalar f2i_sse f2u_scalar f2u_sse u2f_sse qmap qmap2 qrep mul_ps add_ps sub_ps max_ps and_ps or_ps xor_ps andnot_ps cmpgt_ps cmpge_ps cvttps_epi32 cvtepi32_ps srai31 gMaxInt gMaxUInt gUnsignedFix gFixUnsigned gNegativeZero gAbsMask qx qy qz qw]; reflexivity.
Lemma four1 : forall V k, XMConvertVectorFloatToInt_scalar V k = asserting (k <? 32)%Z (qmap (f2i_scalar k) V). Proof. four. Qed.
Lemma four2 : forall V k, XMConvertVectorFloatToInt_sse V k = asserting (k <? 32)%Z (qmap (f2i_sse k) V). Proof. four. Qed.
Lemma four3 : forall V k, XMConvertVectorFloatToUInt_scalar V k = asserting (k <? 32)%Z (qmap (f2u_scalar k) V). Proof. four. Qed.
Lemma four4 : forall V k, XMConvertVectorFloatToUInt_sse V k = asserting (k <? 32)%Z (qmap (f2u_sse k) V). Proof. four. Qed.
Lemma float_to_int_scalar V k : (0 <= k < 32)%Z -> exists r, XMConvertVectorFloatToInt_scalar V k = Some r /\ forall i, to_int32 k (lane V i) (lane r i).
Proof. intros Hk. apply (lanes4 f2i_scalar); [exact Hk|apply four1|]. intros z. apply f2i_scalar_ok, Hk. Qed.
Lemma float_to_int_sse V k : (0 <= k < 32)%Z -> exists r, XMConvertVectorFloatToInt_sse V k = Some r /\ forall i, to_int32 k (lane V i) (lane r i).
Proof. intros Hk. apply (lanes4 f2i_sse); [exact Hk|apply four2|]. intros z. apply f2i_sse_ok, Hk. Qed.
Lemma float_to_uint_scalar V k : (0 <= k < 32)%Z -> exists r, XMConvertVectorFloatToUInt_scalar V k = Some r /\ forall i, to_uint32 k (lane V i) (lane r i).
Proof. intros Hk. apply (lanes4 f2u_scalar); [exact Hk|apply four3|]. intros z. apply f2u_scalar_ok, Hk. Qed.
Lemma float_to_uint_sse V k : (0 <= k < 32)%Z -> exists r, XMConvertVectorFloatToUInt_sse V k = Some r /\ forall i, to_uint32 k (lane V i) (lane r i).
Proof. intros Hk. apply (lanes4 f2u_sse); [exact Hk|apply four4|]. intros z. apply f2u_sse_ok, Hk. Qed.

(** ** The backends on the same input *)
Lemma mul_nan z s : value z = NaN -> value (f_mul z s) = NaN /\ value (f_mul s z) = NaN.
Proof. intros V. rewrite (f_mul_comm s z). unfold f_mul. rewrite value_enc. rewrite value_dec in V. destruct (dec z); try discriminate V. split; reflexivity. Qed.
Lemma cvtt_nan t : value t = NaN -> cvtt_lane t = 0x80000000%Z.
Proof. rewrite value_dec. unfold cvtt_lane. destruct (dec t); intros H; try discriminate H. reflexivity. Qed.
Lemma f2i_nan k z : value z = NaN -> f2i_scalar k z = 0%Z /\ f2i_sse k z = 0x80000000%Z.
Proof.
  intros V. destruct (mul_nan z (f_of_Z (Z.shiftl 1 k)) V) as (h1 & h2). unfold f2i_scalar, f2i_sse. cbv zeta. rewrite (le_c _ _ _ val_min_int), !(gt_c _ _ _ val_max_int), h1, h2, (cvtt_nan _ h2). split; [|reflexivity].
  unfold f_to_i32. rewrite value_dec in h1. destruct (dec _); try discriminate h1. reflexivity.
Qed.
Lemma f2u_nan k z : value z = NaN -> f2u_scalar k z = 0%Z /\ f2u_sse k z = 0%Z.
Proof.
  intros V. destruct (mul_nan z (f_of_Z (Z.shiftl 1 k)) V) as (h1 & h2). unfold f2u_scalar, f2u_sse. cbv zeta. rewrite (le_c _ _ _ (proj1 zero_val)), (ge_c _ _ _ val_2_32), (gt_c _ _ _ (proj1 zero_val)), h1, h2. split; [|vm_compute; reflexivity].
  unfold f_to_u32. rewrite value_dec in h1. destruct (dec _); try discriminate h1. reflexivity.
Qed.
Lemma to_integer_agree read lo hi k z r r' : (forall a b, word a -> word b -> read a = read b -> a = b) -> value z <> NaN -> word r -> word r' ->
  to_integer read lo hi k z r -> to_integer read lo hi k z r' -> r = r'.
Proof.
  intros I N Wr Wr'. unfold to_integer. destruct (value z) as [|[]|x]; [congruence|intros; apply I; congruence|intros; apply I; congruence|].
  intros (n & h1 & h2) (m & k1 & k2). rewrite (trunc_single _ _ _ h1 k1) in h2. apply I; congruence.
Qed.
Lemma signed_inj a b : word a -> word b -> signed32 a = signed32 b -> a = b.
Proof. unfold word, signed32. destruct (Z.ltb_spec a (2 ^ 31)), (Z.ltb_spec b (2 ^ 31)); lia. Qed.
Lemma wrap_word n : word (wrap32 n).
Proof. unfold word, wrap32. apply Z.mod_pos_bound. lia. Qed.
Lemma f2i_sse_word k z : word (f2i_sse k z).
Proof. unfold f2i_sse. cbv zeta. rewrite sel_abs by apply cvtt_word. destruct (f_lt _ _); [unfold word; lia|apply cvtt_word]. Qed.
Lemma to_u32_word t : word (f_to_u32 t).
Proof. unfold f_to_u32, word. destruct (dec t) as [s|s| |s m e B]; try destruct s; lia. Qed.
Lemma f2u_scalar_word k z : word (f2u_scalar k z).
Proof. unfold f2u_scalar. cbv zeta. destruct (f_le _ _); [unfold word; lia|]. destruct (f_le _ _); [unfold word; lia|apply to_u32_word]. Qed.
Lemma f2u_sse_word k z : word (f2u_sse k z).
Proof.
  unfold f2u_sse. cbv zeta. assert (W : forall a c d, word a -> word (Z.lor (Z.lxor a (Z.land (mask d) 0x80000000)) (mask c))).
  { intros a c d Wa. assert (W : word (Z.lxor a (Z.land (mask d) 0x80000000))) by (apply lxor_word; [exact Wa|destruct d; cbn; unfold word; lia]).
    destruct c; cbn [mask]; [rewrite lor_ones by exact W; unfold word, ones; lia|rewrite Z.lor_0_r; exact W]. }
  apply W, cvtt_word.
Qed.
Lemma f2i_agree k z : (0 <= k < 32)%Z -> value z <> NaN -> f2i_scalar k z = f2i_sse k z.
Proof. intros Hk N. exact (to_integer_agree _ _ _ _ _ _ _ signed_inj N (wrap_word _) (f2i_sse_word k z) (f2i_scalar_ok k z Hk) (f2i_sse_ok k z Hk)). Qed.
Lemma f2u_agree k z : (0 <= k < 32)%Z -> f2u_scalar k z = f2u_sse k z.
Proof.
  intros Hk. destruct (value z) as [|s|x] eqn:V; [destruct (f2u_nan k z V) as (-> & ->); reflexivity| |];
    apply (to_integer_agree (fun r => r) 0 (2 ^ 32 - 1) k z); try (intros; assumption); try congruence; try apply f2u_scalar_word; try apply f2u_sse_word; try (apply f2u_scalar_ok, Hk); apply f2u_sse_ok, Hk.
Qed.
Lemma float_to_int_agree V k : (0 <= k < 32)%Z -> (forall i, value (lane V i) <> NaN) -> XMConvertVectorFloatToInt_scalar V k = XMConvertVectorFloatToInt_sse V k.
Proof.
  intros Hk N. rewrite four1, four2. unfold qmap. f_equal.
  rewrite (f2i_agree k (qx V) Hk (N I0)), (f2i_agree k (qy V) Hk (N I1)), (f2i_agree k (qz V) Hk (N I2)), (f2i_agree k (qw V) Hk (N I3)). reflexivity.
Qed.
Lemma float_to_uint_agree V k : (0 <= k < 32)%Z -> XMConvertVectorFloatToUInt_scalar V k = XMConvertVectorFloatToUInt_sse V k.
Proof.
  intros Hk. rewrite four3, four4. unfold qmap. f_equal. rewrite !(f2u_agree k _ Hk). reflexivity.
Qed.
Lemma float_to_int_nan V k : (0 <= k < 32)%Z -> (forall i, value (lane V i) = NaN) ->
  XMConvertVectorFloatToInt_scalar V k = Some (qrep 0%Z) /\ XMConvertVectorFloatToInt_sse V k = Some (qrep 0x80000000%Z).
Proof.
  intros Hk N. rewrite four1, four2.
  unfold asserting. rewrite (proj2 (Z.ltb_lt k 32)) by lia. unfold qmap.
  destruct (f2i_nan k _ (N I0)) as (a0 & b0), (f2i_nan k _ (N I1)) as (a1 & b1), (f2i_nan k _ (N I2)) as (a2 & b2), (f2i_nan k _ (N I3)) as (a3 & b3).
  cbn [lane] in *. rewrite a0, a1, a2, a3, b0, b1, b2, b3. split; reflexivity.
Qed.

(** ** Unsigned to float on SSE *)
Lemma u2f_low k u : (0 <= k < 32)%Z -> (0 <= u < 2 ^ 31)%Z -> from_integer u k (u2f_sse k u).
Proof.
  intros Hk Hu. assert (Wu : word u) by (unfold word; lia). unfold u2f_sse. cbv zeta. rewrite (land_sign u Wu). assert (S : fsgn u = false) by (unfold fsgn; apply Z.leb_gt; lia). rewrite S.
  rewrite Z.lxor_0_r. change (Z.land (mask (2 ^ 31 <=? 0)) 0x4F000000) with 0%Z. assert (E : sint u = u) by (unfold sint; rewrite (proj2 (Z.leb_gt _ _)) by lia; reflexivity). rewrite E.
  unfold from_integer. rewrite pow2_bpow. apply RN_nearest. pose proof (RN_int_bound u ltac:(lia)) as B.
  assert (V : value (f_add (f_of_Z u) 0) = Fin (RN (IZR u))).
  { rewrite (add_exact _ _ (RN (IZR u)) 0 (of_Z_val u B) (proj1 zero_val)); rewrite Rplus_0_r; [reflexivity|apply RN_is_fmt|exact B]. }
  assert (P : RN (RN (IZR u) * bpow radix2 (- k)) = RN (IZR u * bpow radix2 (- k))) by (rewrite <- RN_scale by lia; apply RN_fmt, RN_is_fmt).
  rewrite (mul_val _ _ (RN (IZR u)) (bpow radix2 (- k)) V (scale_val k Hk)); [rewrite P; reflexivity|].
  rewrite P, RN_scale, Rabs_mult by lia. apply Rle_lt_trans with (2 := B). pose proof (bpow_le_1 k ltac:(lia)) as (b0 & b1). rewrite (Rabs_pos_eq (bpow _ _)) by lra.
  pose proof (Rabs_pos (RN (IZR u))) as A. rewrite <- (Rmult_1_r (Rabs (RN (IZR u)))) at 2. apply Rmult_le_compat_l; assumption.
Qed.
Lemma RN_near y e : (0 <= e)%Z -> Rabs y <= bpow radix2 (e + 24) -> Rabs (RN y - y) <= bpow radix2 e / 2.
Proof.
  intros He B. destruct (Rlt_dec (Rabs y) (bpow radix2 (e + 24))) as [L|L].
  - destruct (Req_dec y 0) as [->|N0].
    + unfold RN. rewrite round_0, Rminus_0_r, Rabs_R0 by apply valid_rnd_N. pose proof (bpow_gt_0 radix2 e). lra.
    + apply Rle_trans with (1 := error_le_half_ulp radix2 fx32 (fun n => negb (Z.even n)) y). rewrite ulp_neq_0 by exact N0.
      assert (cexp radix2 fx32 y <= e)%Z. { unfold cexp, FLT_exp. assert (M : (mag radix2 y <= e + 24)%Z) by (apply mag_le_bpow; assumption). lia. }
      assert (bpow radix2 (cexp radix2 fx32 y) <= bpow radix2 e) by (apply bpow_le; assumption). lra.
  - assert (E : Rabs y = bpow radix2 (e + 24)) by lra. assert (F : fmt y).
    { unfold Rabs in E. destruct (Rcase_abs y); [replace y with (- bpow radix2 (e + 24)) by lra; apply fmt_opp|rewrite E]; apply fmt_pow; lia. }
    rewrite RN_fmt by exact F. unfold Rminus. rewrite Rplus_opp_r, Rabs_R0. pose proof (bpow_gt_0 radix2 e). lra.
Qed.
(** within one unit in the last place above 2^31: the sum rounds a second time *)
Lemma u2f_high k u : (0 <= k < 32)%Z -> (2 ^ 31 <= u < 2 ^ 32)%Z -> exists v, value (u2f_sse k u) = Fin (v * pow2 (- k)) /\ Rabs (v - IZR u) < 256.
Proof.
  intros Hk Hu. assert (Wu : word u) by (unfold word; lia). unfold u2f_sse. cbv zeta. rewrite (land_sign u Wu). assert (S : fsgn u = true) by (unfold fsgn; apply Z.leb_le; lia). rewrite S.
  assert (X : Z.lxor u 0x80000000 = (u - 2 ^ 31)%Z).
  { replace u with ((u - 2 ^ 31) + 2 ^ 31)%Z at 1 by lia. rewrite <- lxor_high by lia. rewrite Z.lxor_assoc, Z.lxor_nilpotent, Z.lxor_0_r. reflexivity. }
  rewrite X. change (Z.land (mask (2 ^ 31 <=? 0x80000000)) 0x4F000000) with 0x4F000000%Z. assert (E : sint (u - 2 ^ 31) = (u - 2 ^ 31)%Z) by (unfold sint; rewrite (proj2 (Z.leb_gt _ _)) by lia; reflexivity). rewrite E.
  set (n := (u - 2 ^ 31)%Z). pose proof (RN_int_bound n ltac:(unfold n; lia)) as B. set (a := RN (IZR n)) in *.
  assert (Ha : 0 <= a <= IZR (2 ^ 31)).
  { split.
    - assert (h := RN_le 0 (IZR n)). rewrite (RN_fmt 0 fmt_0) in h. apply h, IZR_le. unfold n; lia.
    - assert (h := RN_le (IZR n) (IZR (2 ^ 31))). rewrite (RN_fmt (IZR (2 ^ 31))) in h by (change (IZR (2 ^ 31)) with (bpow radix2 31); apply fmt_pow; lia). apply h, IZR_le. unfold n; lia. }
  assert (Hs : IZR (2 ^ 31) <= a + IZR (2 ^ 31) <= IZR (2 ^ 32)) by (change (IZR (2 ^ 32)) with (IZR (2 ^ 31 + 2 ^ 31)); rewrite plus_IZR; lra).
  assert (Hb : IZR (2 ^ 31) <= RN (a + IZR (2 ^ 31)) <= IZR (2 ^ 32)).
  { split.
    - assert (h := RN_le (IZR (2 ^ 31)) (a + IZR (2 ^ 31)) (proj1 Hs)). rewrite (RN_fmt (IZR (2 ^ 31))) in h by (change (IZR (2 ^ 31)) with (bpow radix2 31); apply fmt_pow; lia). exact h.
    - assert (h := RN_le (a + IZR (2 ^ 31)) (IZR (2 ^ 32)) (proj2 Hs)). rewrite (RN_fmt (IZR (2 ^ 32))) in h by (change (IZR (2 ^ 32)) with (bpow radix2 32); apply fmt_pow; lia). exact h. }
  assert (H31 : 0 < IZR (2 ^ 31)) by (apply IZR_lt; lia). assert (Hh : IZR (2 ^ 32) < huge) by (unfold huge; change (IZR (2 ^ 32)) with (bpow radix2 32); apply bpow_lt; lia).
  assert (V : value (f_add (f_of_Z n) 0x4F000000) = Fin (RN (a + IZR (2 ^ 31)))).
  { apply add_val; [apply of_Z_val, B|exact val_2_31|]. rewrite Rabs_pos_eq; lra. }
  exists (RN (a + IZR (2 ^ 31))). split.
  - rewrite pow2_bpow. pose proof (bpow_le_1 k ltac:(lia)) as (b0 & b1). set (w := RN (a + IZR (2 ^ 31))) in *.
    assert (F : fmt (w * bpow radix2 (- k))).
    { destruct (Rlt_dec w (IZR (2 ^ 32))) as [L|L].
      - destruct (fmt_grid w 31) as (m & Em); [lia|apply RN_is_fmt|split; [exact (proj1 Hb)|exact L]|].
        rewrite Em, Rmult_assoc, <- bpow_plus. apply fmt_scaled; [|lia]. rewrite Em in Hb, L. change (bpow radix2 (31 - 23)) with (IZR 256) in Hb, L. rewrite <- mult_IZR in Hb, L. destruct Hb as (q1 & q2). apply lt_IZR in L. apply le_IZR in q1. lia.
      - replace w with (bpow radix2 32) by (change (bpow radix2 32) with (IZR (2 ^ 32)); lra). rewrite <- bpow_plus. apply fmt_pow. lia. }
    apply mul_exact; [exact V|apply scale_val, Hk|exact F|]. rewrite Rabs_pos_eq by (apply Rmult_le_pos; lra). apply Rle_lt_trans with w; [|lra]. rewrite <- (Rmult_1_r w) at 2. apply Rmult_le_compat_l; lra.
  - assert (E1 : Rabs (a - IZR n) <= 128 / 2).
    { change 128 with (bpow radix2 7). apply RN_near; [lia|]. change (bpow radix2 (7 + 24)) with (IZR (2 ^ 31)). rewrite <- abs_IZR. apply IZR_le. unfold n. lia. }
    assert (E2 : Rabs (RN (a + IZR (2 ^ 31)) - (a + IZR (2 ^ 31))) <= 256 / 2).
    { change 256 with (bpow radix2 8). apply RN_near; [lia|]. change (bpow radix2 (8 + 24)) with (IZR (2 ^ 32)). rewrite Rabs_pos_eq; lra. }
    assert (En : IZR n = IZR u - IZR (2 ^ 31)) by (unfold n; apply minus_IZR). revert E1 E2. rewrite En. generalize (RN (a + IZR (2 ^ 31))). intros w.
    unfold Rabs. repeat destruct (Rcase_abs _); lra.
Qed.
Lemma four5 : forall V k, XMConvertVectorUIntToFloat_sse V k = asserting (k <? 32)%Z (qmap (u2f_sse k) V). Proof. four. Qed.
Lemma uint_to_float_sse_low V k : (0 <= k < 32)%Z -> (forall i, (0 <= lane V i < 2 ^ 31)%Z) -> exists r, XMConvertVectorUIntToFloat_sse V k = Some r /\ forall i, from_integer (lane V i) k (lane r i).
Proof.
  intros Hk Hu. rewrite four5.
  unfold asserting. rewrite (proj2 (Z.ltb_lt k 32)) by lia. eexists. split; [reflexivity|]. intros i. pose proof (u2f_low k _ Hk (Hu i)) as h. destruct i; exact h.
Qed.
Lemma uint_to_float_sse_ulp V k : (0 <= k < 32)%Z -> wordq V -> exists r, XMConvertVectorUIntToFloat_sse V k = Some r /\
  forall i, (2 ^ 31 <= lane V i)%Z -> exists v, value (lane r i) = Fin (v * pow2 (- k)) /\ Rabs (v - IZR (lane V i)) < 256.
Proof.
  intros Hk W. rewrite four5.
  unfold asserting. rewrite (proj2 (Z.ltb_lt k 32)) by lia. eexists. split; [reflexivity|]. intros i Hi. pose proof (wordq_lane V i W) as Wi. unfold word in Wi.
  pose proof (u2f_high k (lane V i) Hk ltac:(lia)) as h. destruct i; exact h.
Qed.
Lemma not_nearest z z' v v' x : value z = Fin v -> value z' = Fin v' -> Rabs (x - v') < Rabs (x - v) -> ~ nearest32 x z.
Proof. intros Hz Hz' L (w & Hw & N & _). rewrite Hz in Hw. apply Fin_inj in Hw. subst w. specialize (N z' v' Hz'). lra. Qed.
Lemma uint_to_float_sse_refuted : exists V r, wordq V /\ XMConvertVectorUIntToFloat_sse V 0 = Some r /\ ~ from_integer (qx V) 0 (qx r).
Proof.
  exists (qrep 0xC0000081%Z), (qrep 0x4F400000%Z). split; [repeat split; cbn; lia|]. split; [vm_compute; reflexivity|]. cbn [qx qrep].
  assert (V1 : value 0x4F400000 = Fin (IZR 3221225472)) by (apply (val_int _ false 158 (2 ^ 22)); reflexivity || lia).
  assert (V2 : value 0x4F400001 = Fin (IZR 3221225728)) by (apply (val_int _ false 158 (2 ^ 22 + 1)); reflexivity || lia).
  unfold from_integer. apply (not_nearest _ _ _ _ _ V1 V2). change (pow2 (- 0)) with 1. rewrite Rmult_1_r, <- !minus_IZR, <- !abs_IZR. apply IZR_lt. reflexivity.
Qed.
(** the scalar signed conversion: a negative lane is read as unsigned, and any positive exponent divides by zero *)
Lemma int_to_float_scalar_negative : exists V r, wordq V /\ XMConvertVectorIntToFloat_scalar V 0 = Some r /\ ~ from_integer (signed32 (qx V)) 0 (qx r).
Proof.
  exists (qrep 0xFFFFFFFF%Z), (qrep 0x4F800000%Z). split; [repeat split; cbn; lia|]. split; [vm_compute; reflexivity|]. cbn [qx qrep].
  unfold from_integer. apply (not_nearest _ _ _ _ _ val_2_32 (proj1 zero_val)). change (pow2 (- 0)) with 1. rewrite Rmult_1_r. change (signed32 0xFFFFFFFF) with (-1)%Z. rewrite <- !minus_IZR, <- !abs_IZR. apply IZR_lt. reflexivity.
Qed.
Lemma int_to_float_scalar_exponent V k : (1 <= k < 32)%Z -> wordq V -> exists r, XMConvertVectorIntToFloat_scalar V k = Some r /\
  forall i, value (lane r i) = if (lane V i =? 0)%Z then NaN else Inf false.
Proof.
  intros Hk W. unfold XMConvertVectorIntToFloat_scalar, asserting. rewrite (proj2 (Z.ltb_lt k 32)) by lia. eexists. split; [reflexivity|]. intros i.
  assert (S : f_div 0x3F800000 (f_of_Z (Z.shiftr 1 k)) = 0x7F800000%Z).
  { rewrite Z.shiftr_div_pow2 by lia. rewrite Z.div_small; [vm_compute; reflexivity|]. split; [lia|]. apply Z.pow_gt_1; lia. }
  assert (L : forall z, word z -> value (f_mul (f_of_Z z) (f_div 0x3F800000 (f_of_Z (Z.shiftr 1 k)))) = if (z =? 0)%Z then NaN else Inf false).
  { intros z Wz. rewrite S. destruct (Z.eqb_spec z 0) as [->|N]; [vm_compute; reflexivity|]. unfold word in Wz. pose proof (RN_int_bound z ltac:(lia)) as B.
    destruct (value_fin _ _ (of_Z_val z B)) as (F & E). assert (P : 0 < RN (IZR z)).
    { assert (h := RN_le 1 (IZR z) ltac:(apply IZR_le; lia)). rewrite (RN_fmt 1) in h by (change 1 with (bpow radix2 0); apply fmt_pow; lia). lra. }
    unfold f_mul. rewrite value_enc. change (dec 0x7F800000) with (dec (enc (B754_infinity false))). rewrite dec_enc.
    destruct (dec (f_of_Z z)) as [s|s| |[] m e Bd]; try discriminate F; cbn [B2R] in E; [rewrite <- E in P; lra| |reflexivity].
    exfalso. rewrite <- E in P. cbn [cond_Zopp] in P. apply gt_0_F2R in P. discriminate. }
  pose proof (L _ (wordq_lane V i W)) as h. destruct i; exact h.
Qed.
Lemma int_to_float_scalar_k0 V : (forall i, (0 <= lane V i < 2 ^ 31)%Z) -> exists r, XMConvertVectorIntToFloat_scalar V 0 = Some r /\ forall i, from_integer (signed32 (lane V i)) 0 (lane r i).
Proof.
  intros H. unfold XMConvertVectorIntToFloat_scalar, asserting. change (0 <? 32)%Z with true. eexists. split; [reflexivity|]. intros i.
  assert (S : f_div 0x3F800000 (f_of_Z (Z.shiftr 1 0)) = uScale 0) by (vm_compute; reflexivity).
  assert (h : from_integer (signed32 (lane V i)) 0 (f_mul (f_of_Z (lane V i)) (f_div 0x3F800000 (f_of_Z (Z.shiftr 1 0))))).
  { rewrite S. specialize (H i). unfold signed32. rewrite (proj2 (Z.ltb_lt _ _)) by lia. apply int_scaled; [lia|lia|apply scale_val; lia]. }
  destruct i; exact h.
Qed.

(** ** Constant builders *)
Lemma splat_sse I E : (-16 <= I <= 15)%Z -> (0 <= E < 32)%Z -> exists r, XMVectorSplatConstant_sse I E = Some r /\ forall i, value (lane r i) = Fin (IZR I * pow2 (- E)).
Proof.
  intros HI HE. unfold XMVectorSplatConstant_sse, asserting. rewrite (proj2 (Z.leb_le (-16) I)), (proj2 (Z.leb_le I 15)), (proj2 (Z.ltb_lt E 32)) by lia. cbn [andb]. eexists. split; [reflexivity|]. intros i.
  assert (L : value (f_mul (f_of_Z (sint (wrap32 I))) (uScale E)) = Fin (IZR I * pow2 (- E))).
  { rewrite sint_signed, signed_wrap, pow2_bpow by lia. apply mul_exact; [apply of_Z_exact; lia|apply scale_val, HE|apply fmt_scaled; lia|].
    apply Rle_lt_trans with (Rabs (IZR I) * 1).
    - rewrite Rabs_mult. apply Rmult_le_compat_l; [apply Rabs_pos|]. pose proof (bpow_le_1 E ltac:(lia)). rewrite Rabs_pos_eq; lra.
    - rewrite Rmult_1_r. apply huge_int. lia. }
  destruct i; exact L.
Qed.
Lemma splat_scalar_k0 I : (0 <= I <= 15)%Z -> exists r, XMVectorSplatConstant_scalar I 0 = Some r /\ forall i, value (lane r i) = Fin (IZR I).
Proof.
  intros HI. unfold XMVectorSplatConstant_scalar. rewrite (proj2 (Z.leb_le (-16) I)), (proj2 (Z.leb_le I 15)) by lia. cbn [andb Z.ltb Z.compare]. unfold XMConvertVectorIntToFloat_scalar, asserting. change (0 <? 32)%Z with true. eexists. split; [reflexivity|]. intros i.
  assert (S : f_div 0x3F800000 (f_of_Z (Z.shiftr 1 0)) = uScale 0) by (vm_compute; reflexivity).
  assert (L : value (f_mul (f_of_Z (wrap32 I)) (f_div 0x3F800000 (f_of_Z (Z.shiftr 1 0)))) = Fin (IZR I)).
  { rewrite S. unfold wrap32. rewrite Z.mod_small by lia. rewrite <- (Rmult_1_r (IZR I)). change 1 with (bpow radix2 (- 0)). apply mul_exact; [apply of_Z_exact; lia|apply scale_val; lia|apply fmt_scaled; lia|].
    change (bpow radix2 (- 0)) with 1. rewrite Rmult_1_r. apply huge_int. lia. }
  destruct i; exact L.
Qed.
Lemma splat_scalar_refuted : exists I E r, (-16 <= I <= 15)%Z /\ (0 <= E < 32)%Z /\ XMVectorSplatConstant_scalar I E = Some r /\ value (qx r) <> Fin (IZR I * pow2 (- E)).
Proof.
  exists 1%Z, 1%Z, (qrep 0x7F800000%Z). split; [lia|]. split; [lia|]. split; [vm_compute; reflexivity|]. change (value (qx (qrep 0x7F800000%Z))) with (Inf false). discriminate.
Qed.
Lemma splat_scalar_negative : exists I r, (-16 <= I <= 15)%Z /\ XMVectorSplatConstant_scalar I 0 = Some r /\ value (qx r) <> Fin (IZR I).
Proof.
  exists (-1)%Z, (qrep 0x4F800000%Z). split; [lia|]. split; [vm_compute; reflexivity|]. cbn [qx qrep]. pose proof val_2_32 as V. intros H. rewrite V in H. apply Fin_inj in H. apply eq_IZR in H. discriminate.
Qed.
Lemma splat_int I : (-16 <= I <= 15)%Z -> exists r, XMVectorSplatConstantInt I = Some r /\ forall i, word (lane r i) /\ signed32 (lane r i) = I.
Proof.
  intros H. unfold XMVectorSplatConstantInt, asserting. rewrite (proj2 (Z.leb_le (-16) I)), (proj2 (Z.leb_le I 15)) by lia. cbn [andb]. eexists. split; [reflexivity|].
  intros i. assert (L : word (wrap32 I) /\ signed32 (wrap32 I) = I) by (split; [apply wrap_word|apply signed_wrap; lia]). destruct i; exact L.
Qed.
Lemma splat_assert I E : ~ (-16 <= I <= 15 /\ E < 32)%Z -> XMVectorSplatConstant_scalar I E = None /\ XMVectorSplatConstant_sse I E = None.
Proof.
  intros H. unfold XMVectorSplatConstant_scalar, XMVectorSplatConstant_sse, asserting.
  destruct (Z.leb_spec (-16) I), (Z.leb_spec I 15), (Z.ltb_spec E 32); cbn [andb]; try (split; reflexivity). exfalso. apply H. lia.
Qed.
