(** XMVectorExp2 on bit patterns: special values, powers of two and the error bound with every rounding counted. *)
From Coq Require Import Reals Lra Lia ZArith Bool.
From Flocq Require Import Core Relative IEEE754.BinarySingleNaN.
From Verif Require Import Base F32 F32Facts Intrin MRound MExp SpecF32 PF32 SpecRound PFloat PRound PHalfRound PConvertInt PExpPoly.
Open Scope R_scope.

(** ** rounding *)
Lemma fma_val a b c x y z : value a = Fin x -> value b = Fin y -> value c = Fin z -> Rabs (RN (x * y + z)) < huge -> value (f_fma a b c) = Fin (RN (x * y + z)).
Proof.
  intros (Fa & Ea)%value_fin (Fb & Eb)%value_fin (Fc & Ec)%value_fin H. pose proof (Bfma_correct 24 128 _ _ mode_NE (dec a) (dec b) (dec c) Fa Fb Fc) as K.
  cbv zeta in K. rewrite Ea, Eb, Ec in K. change (round _ _ _ (x * y + z)) with (RN (x * y + z)) in K. rewrite Rlt_bool_true in K by exact H. destruct K as (K1 & K2 & _).
  unfold f_fma. rewrite fin_value by exact K2. rewrite K1. reflexivity.
Qed.
Definition u24 : R := / 16777216.
Definition eta : R := bpow radix2 (-150).
Lemma eta_pos : 0 < eta. Proof. apply bpow_gt_0. Qed.
Lemma eta_small : eta <= / 1000000000000000000000000000000000000000000.
Proof.
  apply Rle_trans with (bpow radix2 (-140)); [apply bpow_le; lia|]. change (-140)%Z with (- (140))%Z. rewrite bpow_opp. apply Rinv_le_contravar; [lra|].
  change (bpow radix2 140) with (IZR (2 ^ 140)). apply IZR_le. vm_compute. discriminate.
Qed.
Lemma RN_err x : Rabs (RN x - x) <= u24 * Rabs x + eta.
Proof.
  destruct (Rle_or_lt (bpow radix2 (-126)) (Rabs x)) as [H|H].
  - pose proof (relative_error_N_FLT radix2 (-149) 24 eq_refl (fun n => negb (Z.even n)) x H) as E. change (- (24) + 1)%Z with (-23)%Z in E.
    change (round _ _ _ x) with (RN x) in E. pose proof eta_pos. replace (/ 2 * bpow radix2 (-23)) with u24 in E; [lra|].
    unfold u24. change (bpow radix2 (-23)) with (/ 8388608). lra.
  - assert (E : Rabs (RN x - x) <= eta).
    { unfold RN. eapply Rle_trans; [apply error_le_half_ulp; apply fx32_valid|]. rewrite ulp_FLT_small; [|reflexivity|eapply Rlt_le_trans; [exact H|apply bpow_le; lia]].
      unfold eta. change (-149)%Z with (1 + -150)%Z. rewrite bpow_plus. change (bpow radix2 1) with 2. lra. }
    pose proof (Rabs_pos x). unfold u24. lra.
Qed.
Lemma small_huge x : Rabs x <= 100 -> Rabs (RN x) < huge.
Proof.
  intros H. pose proof (RN_err x) as E. pose proof eta_small. unfold u24 in E.
  assert (huge > 1000) by (unfold huge; apply Rlt_le_trans with (bpow radix2 10); [change (bpow radix2 10) with 1024; lra|apply bpow_le; lia]).
  replace (RN x) with (RN x - x + x) by ring. eapply Rle_lt_trans; [apply Rabs_triang|]. lra.
Qed.
Lemma RN_abs x : Rabs (RN x) <= Rabs x + u24 * Rabs x + eta.
Proof. pose proof (RN_err x). replace (RN x) with (RN x - x + x) by ring. eapply Rle_trans; [apply Rabs_triang|]. lra. Qed.
(** one step of Horner's rule *)
Lemma fmadd_gen fma p y c P Y C A : value p = Fin P -> value y = Fin Y -> value c = Fin C -> Rabs (P * Y) <= A -> 2 * (A + Rabs C) + 1 < huge ->
  exists r, value (fmadd fma p y c) = Fin r /\ Rabs (r - (P * Y + C)) <= u24 * (101 / 100 * (2 * A + Rabs C)) + 3 * eta.
Proof.
  intros Vp Vy Vc HA HH. pose proof eta_pos as E0. pose proof eta_small as ES. pose proof (Rabs_pos (P * Y)) as PA. pose proof (Rabs_pos C) as PC.
  pose proof (Rabs_triang (P * Y) C) as TR. destruct fma; cbn [fmadd].
  - exists (RN (P * Y + C)). pose proof (RN_abs (P * Y + C)). split; [apply fma_val; auto; unfold u24 in *; lra|]. pose proof (RN_err (P * Y + C)). unfold u24 in *. lra.
  - pose proof (RN_err (P * Y)) as E1. pose proof (RN_abs (P * Y)) as Hm. set (m := RN (P * Y)) in *. exists (RN (m + C)).
    pose proof (Rabs_triang m C) as TM. pose proof (RN_abs (m + C)) as Hs. split.
    + apply add_val; [apply mul_val; auto; fold m; unfold u24 in *; lra|exact Vc|]. unfold u24 in *. lra.
    + pose proof (RN_err (m + C)) as E2. replace (RN (m + C) - (P * Y + C)) with ((RN (m + C) - (m + C)) + (m - P * Y)) by ring.
      eapply Rle_trans; [apply Rabs_triang|]. unfold u24 in *. lra.
Qed.
Lemma huge_big : 1000 < huge.
Proof. unfold huge. apply Rlt_le_trans with (bpow radix2 10); [change (bpow radix2 10) with 1024; lra|apply bpow_le; lia]. Qed.
Lemma fmadd_step fma p y c P Y C A : value p = Fin P -> value y = Fin Y -> value c = Fin C -> Rabs (P * Y) <= A -> A <= 10 -> Rabs C <= 10 ->
  exists r, value (fmadd fma p y c) = Fin r /\ Rabs (r - (P * Y + C)) <= u24 * (101 / 100 * (2 * A + Rabs C)) + 3 * eta.
Proof. intros Vp Vy Vc HA A10 C10. pose proof huge_big. apply fmadd_gen; auto. lra. Qed.
Lemma fmadd_zero fma p y c P C : value p = Fin P -> value y = Fin 0 -> value c = Fin C -> value (fmadd fma p y c) = Fin C.
Proof.
  intros Vp Vy Vc. destruct (value_fmt _ _ Vc) as [FC HC]. destruct fma; cbn [fmadd].
  - rewrite (fma_val p y c P 0 C Vp Vy Vc); replace (P * 0 + C) with C by ring; rewrite (RN_fmt C FC); auto.
  - assert (M : value (f_mul p y) = Fin 0).
    { rewrite (mul_val p y P 0 Vp Vy); rewrite Rmult_0_r, (RN_fmt 0 fmt_0); [reflexivity|]. rewrite Rabs_R0. apply bpow_gt_0. }
    rewrite (add_val _ c 0 C M Vc); rewrite Rplus_0_l, (RN_fmt C FC); auto.
Qed.

(** ** the lane function *)
Definition exp_y (v : Z) : Z := f_sub v (f_of_Z (sint (cvtt_lane v))).
Definition exp_poly (fma : bool) (y : Z) : Z :=
  fmadd fma (fmadd fma (fmadd fma (fmadd fma (fmadd fma (fmadd fma (fmadd fma 0xB7364261 y 0x391AA7D7) y 0xBAAE1854) y 0x3C1D8C54) y 0xBD6357CA) y 0x3E75FDED) y 0xBF317218) y 0x3F800000.
Definition exp_biased (n k : Z) : Z := wrap32 (Z.shiftl (wrap32 (n + k)) 23).
Definition exp_r0 fma v := f_div (exp_biased (cvtt_lane v) 127) (exp_poly fma (exp_y v)).
Definition exp_r1 fma v := f_mul 0x00800000 (f_div (exp_biased (cvtt_lane v) 253) (exp_poly fma (exp_y v))).
Definition exp_lane (fma : bool) (v : Z) : Z :=
  let r0 := exp_r0 fma v in let r1 := exp_r1 fma v in
  let c2 := mask (sint v <? sint 0x43000000)%Z in
  let r2 := Z.lor (Z.land c2 r0) (Z.land (bnot c2) 0x7F800000) in
  let c3 := mask (sint (cvtt_lane v) <? sint 0xFFFFFF82)%Z in
  let r3 := Z.lor (Z.land (bnot c3) r0) (Z.land c3 r1) in
  let c4 := mask (sint v <? sint 0xC3160000)%Z in
  let r4 := Z.lor (Z.land c4 r3) (Z.land (bnot c4) 0) in
  let c5 := mask (Z.land v 0x80000000 =? 0x80000000)%Z in
  let r5 := Z.lor (Z.land c5 r4) (Z.land (bnot c5) r2) in
  let nn := Z.land (bnot (mask (Z.land v 0x007FFFFF =? 0)%Z)) (mask (Z.land v 0x7F800000 =? 0x7F800000)%Z) in
  Z.lor (Z.land nn 0x7FC00000) (Z.land (bnot nn) r5).
Lemma exp_four fma V : XMVectorExp2_sse fma V = qmap (exp_lane fma) V.
Proof.
  destruct V as [vx vy vz vw].
  cbv beta iota zeta delta [XMVectorExp2_sse exp_lane exp_r0 exp_r1 exp_biased exp_poly exp_y FMADD_PS qmap qmap2 qmap3 qrep mul_ps div_ps sub_ps and_ps or_ps andnot_ps cmplt_epi32 cmpeq_epi32 add_epi32 slli23 cvttps_epi32 cvtepi32_ps
    gExpEst1 gExpEst2 gExpEst3 gExpEst4 gExpEst5 gExpEst6 gExpEst7 gOne gExponentBias g253 gMinNormal gBin128 gBinNeg150 gSubnormalExponent gInfinity gQNaN gQNaNTest gZero gNegativeZero qx qy qz qw]. reflexivity.
Qed.
Lemma sel_a c a b : word a -> word b -> Z.lor (Z.land (mask c) a) (Z.land (bnot (mask c)) b) = if c then a else b.
Proof. intros Ha Hb. rewrite (Z.land_comm (mask c)). apply sel_or; assumption. Qed.
Lemma sel_b c a b : word a -> word b -> Z.lor (Z.land (bnot (mask c)) b) (Z.land (mask c) a) = if c then a else b.
Proof. intros Ha Hb. rewrite Z.lor_comm. apply sel_a; assumption. Qed.
Lemma andnot_mask c d : Z.land (bnot (mask c)) (mask d) = mask (negb c && d).
Proof. destruct c, d; reflexivity. Qed.
Lemma land_fexpo v : Z.land v 0x7F800000 = (fexpo v * 2 ^ 23)%Z.
Proof.
  change 0x7F800000%Z with (Z.shiftl (Z.ones 8) 23). rewrite <- (Z.shiftl_mul_pow2 _ 23) by lia. apply Z.bits_inj'. intros i Hi.
  rewrite Z.land_spec, !Z.shiftl_spec by lia. destruct (Z_lt_dec i 23) as [L|L]; [rewrite !(Z.testbit_neg_r _ (i - 23)) by lia; apply Bool.andb_false_r|].
  unfold fexpo. change 256%Z with (2 ^ 8)%Z. rewrite Z.testbit_ones_nonneg by lia. destruct (Z.ltb_spec (i - 23) 8).
  - rewrite Z.mod_pow2_bits_low, Z.div_pow2_bits by lia. replace (i - 23 + 23)%Z with i by lia. apply Bool.andb_true_r.
  - rewrite Z.mod_pow2_bits_high by lia. apply Bool.andb_false_r.
Qed.
Lemma exp_sel fma v : word v -> exp_lane fma v =
  if f_isnan v then 0x7FC00000%Z
  else if fsgn v then (if sint v <? sint 0xC3160000 then (if sint (cvtt_lane v) <? -126 then exp_r1 fma v else exp_r0 fma v) else 0)%Z
  else (if sint v <? 0x43000000 then exp_r0 fma v else 0x7F800000)%Z.
Proof.
  intros W. unfold exp_lane. cbv zeta.
  assert (W0 : word (exp_r0 fma v)) by apply enc_word. assert (W1 : word (exp_r1 fma v)) by apply enc_word.
  assert (K : forall c a b, word a -> word b -> word (if c : bool then a else b)) by (intros [] **; assumption).
  assert (Z0 : word 0) by (unfold word; lia). assert (I0 : word 0x7F800000) by (unfold word; lia). assert (N0 : word 0x7FC00000) by (unfold word; lia).
  rewrite andnot_mask, (sel_b _ (exp_r1 fma v) (exp_r0 fma v)), (sel_a _ (exp_r0 fma v) 0x7F800000) by assumption.
  rewrite (sel_a _ (if (_ <? _)%Z then exp_r1 fma v else _) 0) by (repeat apply K; assumption).
  set (r4 := if (sint v <? sint 0xC3160000)%Z then _ else 0%Z). assert (W4 : word r4) by (repeat apply K; assumption).
  rewrite (sel_a _ r4) by (repeat apply K; assumption). unfold r4.
  rewrite sel_a by (repeat apply K; assumption).
  rewrite f_isnan_iff. change (Z.land v 0x007FFFFF) with (Z.land v (2 ^ 23 - 1)). rewrite land_low by lia. fold (ffrac v). rewrite land_fexpo, andb_comm.
  replace (fexpo v * 2 ^ 23 =? 0x7F800000)%Z with (fexpo v =? 255)%Z by (apply eq_true_iff_eq; rewrite !Z.eqb_eq; lia).
  rewrite land_sign by exact W. change (sint 0x43000000) with 0x43000000%Z. change (sint 0xFFFFFF82) with (-126)%Z.
  destruct (fsgn v); reflexivity.
Qed.

(** ** the comparisons *)
Lemma mag_lt E f E' f' : (0 <= E)%Z -> (1 <= E')%Z -> (0 <= f < 2 ^ 23)%Z -> (0 <= f' < 2 ^ 23)%Z -> (E * 2 ^ 23 + f < E' * 2 ^ 23 + f')%Z -> mag_of E f < mag_of E' f'.
Proof.
  intros H1 H2 Hf Hf' L. unfold mag_of. rewrite (proj2 (Z.eqb_neq E' 0)) by lia.
  assert (M : bpow radix2 (23 + (E' - 150)) <= IZR (2 ^ 23 + f') * bpow radix2 (E' - 150)).
  { rewrite bpow_plus. apply Rmult_le_compat_r; [apply bpow_ge_0|]. change (bpow radix2 23) with (IZR (2 ^ 23)). apply IZR_le. lia. }
  destruct (Z.eqb_spec E 0) as [->|N].
  - eapply Rlt_le_trans; [|exact M]. apply Rlt_le_trans with (bpow radix2 (23 + -149)); [|apply bpow_le; lia].
    rewrite bpow_plus. apply Rmult_lt_compat_r; [apply bpow_gt_0|]. change (bpow radix2 23) with (IZR (2 ^ 23)). apply IZR_lt. lia.
  - destruct (Z.eq_dec E E') as [->|N'].
    + apply Rmult_lt_compat_r; [apply bpow_gt_0|apply IZR_lt; lia].
    + eapply Rlt_le_trans; [|exact M]. apply Rlt_le_trans with (bpow radix2 (24 + (E - 150))); [|apply bpow_le; lia].
      rewrite bpow_plus. apply Rmult_lt_compat_r; [apply bpow_gt_0|]. change (bpow radix2 24) with (IZR (2 ^ 24)). apply IZR_lt. lia.
Qed.
Lemma mag_0 E f : (0 <= f)%Z -> (0 <= E)%Z -> 0 <= mag_of E f.
Proof. intros H1 H2. unfold mag_of. destruct (E =? 0)%Z; apply Rmult_le_pos; try apply bpow_ge_0; apply IZR_le; lia. Qed.
Lemma mag_128 : mag_of 134 0 = 128.
Proof. unfold mag_of. change (134 =? 0)%Z with false. cbn iota. change (134 - 150)%Z with (-16)%Z. change (bpow radix2 (-16)) with (/ 65536). change (2 ^ 23 + 0)%Z with 8388608%Z. lra. Qed.
Lemma mag_150 : mag_of 134 0x160000 = 150.
Proof. unfold mag_of. change (134 =? 0)%Z with false. cbn iota. change (134 - 150)%Z with (-16)%Z. change (bpow radix2 (-16)) with (/ 65536). change (2 ^ 23 + 0x160000)%Z with 9830400%Z. lra. Qed.
Lemma mag_cmp E f E' f' : (0 <= E)%Z -> (1 <= E')%Z -> (0 <= f < 2 ^ 23)%Z -> (0 <= f' < 2 ^ 23)%Z -> (E * 2 ^ 23 + f <? E' * 2 ^ 23 + f')%Z = Rlt_bool (mag_of E f) (mag_of E' f').
Proof.
  intros H1 H2 Hf Hf'. destruct (Z.ltb_spec (E * 2 ^ 23 + f) (E' * 2 ^ 23 + f')) as [L|L].
  - rewrite Rlt_bool_true; [reflexivity|]. apply mag_lt; assumption.
  - rewrite Rlt_bool_false; [reflexivity|]. apply mag_le; try assumption. lia.
Qed.
Lemma fin_expo v x : value v = Fin x -> fexpo v <> 255%Z.
Proof. intros V E. unfold value in V. change (bit_exp v) with (fexpo v) in V. rewrite E in V. change (255 =? 255)%Z with true in V. cbn iota in V. destruct (bit_frac v =? 0)%Z; discriminate V. Qed.
Lemma trunc_val v x : value v = Fin x -> Rabs x < 1000 -> cvtt_lane v = wrap32 (Ztrunc x) /\ sint (cvtt_lane v) = Ztrunc x /\ (-1000 <= Ztrunc x <= 1000)%Z.
Proof.
  intros V H. apply Rabs_lt_inv in H.
  assert (T : (-1000 <= Ztrunc x <= 1000)%Z).
  { split; [|apply trunc_le; lra]. destruct (Rle_or_lt 0 x) as [P|P]; [pose proof (trunc_ge 0 x P ltac:(lia)); lia|].
    rewrite Ztrunc_ceil by lra. apply le_IZR. pose proof (Zceil_ub x). lra. }
  rewrite (cvtt_val v x V). destruct (Z.leb_spec (- 2 ^ 31) (Ztrunc x)), (Z.ltb_spec (Ztrunc x) (2 ^ 31)); cbn [andb]; try lia.
  split; [reflexivity|]. split; [|exact T]. unfold sint, wrap32. destruct (Z_le_dec 0 (Ztrunc x)).
  - rewrite Z.mod_small by lia. destruct (Z.leb_spec (2 ^ 31) (Ztrunc x)); lia.
  - replace (Ztrunc x mod 2 ^ 32)%Z with (Ztrunc x + 2 ^ 32)%Z by (apply Z.mod_unique with (-1)%Z; lia). destruct (Z.leb_spec (2 ^ 31) (Ztrunc x + 2 ^ 32)); lia.
Qed.
Lemma exp_nan fma v : word v -> value v = NaN -> exp_lane fma v = 0x7FC00000%Z.
Proof. intros W V. rewrite exp_sel by exact W. apply f_isnan_spec in V. rewrite V. reflexivity. Qed.
Lemma exp_inf fma v s : word v -> value v = Inf s -> exp_lane fma v = if s then 0%Z else 0x7F800000%Z.
Proof.
  intros W V. rewrite exp_sel by exact W. destruct (f_isnan v) eqn:N; [apply f_isnan_spec in N; rewrite N in V; discriminate V|].
  assert (F : fexpo v = 255%Z /\ ffrac v = 0%Z /\ fsgn v = s).
  { unfold value in V. change (bit_exp v) with (fexpo v) in V. change (bit_frac v) with (ffrac v) in V. change (bit_sign v) with (fsgn v) in V.
    destruct (Z.eqb_spec (fexpo v) 255); [|destruct (fexpo v =? 0)%Z; discriminate V]. destruct (Z.eqb_spec (ffrac v) 0); [|discriminate V]. injection V as V. auto. }
  destruct F as (F1 & F2 & F3). pose proof (word_fields v W) as E. rewrite F1, F2, F3 in E. rewrite F3, E. destruct s; reflexivity.
Qed.
Lemma exp_case fma v x : word v -> value v = Fin x ->
  (128 <= x -> exp_lane fma v = 0x7F800000%Z) /\ (x <= -150 -> exp_lane fma v = 0%Z) /\
  (-150 < x < 128 -> exp_lane fma v = if (Ztrunc x <? -126)%Z then exp_r1 fma v else exp_r0 fma v).
Proof.
  intros W V. rewrite exp_sel by exact W. destruct (f_isnan v) eqn:N; [apply f_isnan_spec in N; rewrite N in V; discriminate V|].
  pose proof (fin_expo v x V) as E255. pose proof (word_fields v W) as E. pose proof (fexpo_range v) as RE. pose proof (ffrac_range v) as RF.
  pose proof V as M. rewrite (value_mag v W E255) in M. apply Fin_inj in M. pose proof (mag_0 (fexpo v) (ffrac v) ltac:(lia) ltac:(lia)) as M0.
  set (e := fexpo v) in *. set (f := ffrac v) in *. destruct (fsgn v) eqn:S; cbn [signed] in M.
  - assert (C : (sint v <? sint 0xC3160000)%Z = Rlt_bool (mag_of e f) 150).
    { rewrite <- mag_150, <- mag_cmp by lia. change (sint 0xC3160000) with (0x43160000 - 2 ^ 31)%Z. unfold sint. destruct (Z.leb_spec (2 ^ 31) v); [|lia].
      apply eq_true_iff_eq. rewrite !Z.ltb_lt. lia. }
    rewrite C. split; [intros H; lra|]. split; intros H; [rewrite Rlt_bool_false by lra; reflexivity|].
    rewrite Rlt_bool_true by lra. destruct (trunc_val v x V) as (_ & T & _); [apply Rabs_lt; lra|]. rewrite T. reflexivity.
  - assert (C : (sint v <? 0x43000000)%Z = Rlt_bool (mag_of e f) 128).
    { rewrite <- mag_128, <- mag_cmp by lia. unfold sint. destruct (Z.leb_spec (2 ^ 31) v); [lia|]. apply eq_true_iff_eq. rewrite !Z.ltb_lt. lia. }
    rewrite C. split; [intros H; rewrite Rlt_bool_false by lra; reflexivity|]. split; intros H; [lra|]. rewrite Rlt_bool_true by lra.
    pose proof (trunc_ge 0 x ltac:(lra) ltac:(lia)) as T. destruct (Z.ltb_spec (Ztrunc x) (-126)); [lia|reflexivity].
Qed.

(** ** the parts *)
Lemma trunc_abs x : Rabs (x - IZR (Ztrunc x)) <= Rabs x /\ Rabs (x - IZR (Ztrunc x)) < 1 /\ (0 <= x -> 0 <= x - IZR (Ztrunc x)) /\ (x <= 0 -> x - IZR (Ztrunc x) <= 0).
Proof.
  destruct (truncE x) as [T1 T2]. destruct (Rle_or_lt 0 x) as [P|P].
  - specialize (T1 P). pose proof (trunc_ge 0 x P ltac:(lia)) as N. apply IZR_le in N. rewrite (Rabs_pos_eq x), Rabs_pos_eq by lra.
    split; [lra|]. split; [lra|]. split; intros H; [lra|]. specialize (T2 H). lra.
  - specialize (T2 ltac:(lra)). assert (N : (Ztrunc x <= 0)%Z) by (apply trunc_le; lra). apply IZR_le in N. rewrite (Rabs_left1 x), Rabs_left1 by lra.
    split; [lra|]. split; [lra|]. split; intros H; lra.
Qed.
Lemma frac_fmt v x : value v = Fin x -> fmt (x - IZR (Ztrunc x)).
Proof.
  intros V. destruct (value_fmt v x V) as [F _]. apply FLT_format_generic in F; [|reflexivity]. destruct F as [[m e] E1 E2 E3]. cbn [Fnum Fexp] in *. unfold F2R in E1; cbn [Fnum Fexp] in E1.
  destruct (Z_le_dec 0 e) as [P|P].
  - assert (I : x = IZR (m * 2 ^ e)) by (rewrite mult_IZR, E1; f_equal; rewrite <- (IZR_Zpower radix2) by exact P; reflexivity).
    rewrite I, Ztrunc_IZR, Rminus_diag_eq by reflexivity. apply fmt_0.
  - assert (B : bpow radix2 (- e) * bpow radix2 e = 1) by (rewrite <- bpow_plus; replace (- e + e)%Z with 0%Z by lia; reflexivity).
    assert (I : x - IZR (Ztrunc x) = IZR (m - Ztrunc x * 2 ^ (- e)) * bpow radix2 e).
    { rewrite minus_IZR, mult_IZR, Rmult_minus_distr_r, Rmult_assoc. replace (IZR (2 ^ - e)) with (bpow radix2 (- e)) by (rewrite <- (IZR_Zpower radix2) by lia; reflexivity). rewrite B. lra. }
    rewrite I. apply fmt_scaled; [|exact E3]. destruct (trunc_abs x) as [A _]. rewrite I, E1, !Rabs_mult in A. apply Rmult_le_reg_r in A; [|apply Rabs_pos_lt; pose proof (bpow_gt_0 radix2 e); lra].
    rewrite <- !abs_IZR in A. apply le_IZR in A. change (radix2 ^ 24)%Z with (2 ^ 24)%Z in E2. rewrite <- E1 in A. lia.
Qed.
Lemma exp_y_val v x : value v = Fin x -> Rabs x < 1000 -> value (exp_y v) = Fin (x - IZR (Ztrunc x)).
Proof.
  intros V H. destruct (trunc_val v x V H) as (_ & E & T). unfold exp_y. rewrite E. apply sub_exact; [exact V|apply of_Z_exact; lia|apply (frac_fmt v x V)|].
  destruct (trunc_abs x) as (_ & A & _). eapply Rlt_trans; [exact A|]. unfold huge. change 1 with (bpow radix2 0). apply bpow_lt. lia.
Qed.
Lemma exp_biased_val n k : (0 <= k < 1000)%Z -> (-1000 <= n <= 1000)%Z -> (1 <= n + k <= 254)%Z -> value (exp_biased (wrap32 n) k) = Fin (bpow radix2 (n + k - 127)).
Proof.
  intros Hk Hn H. unfold exp_biased. assert (E : wrap32 (wrap32 n + k) = (n + k)%Z) by (unfold wrap32; rewrite Zplus_mod_idemp_l; apply Z.mod_small; lia).
  rewrite E, Z.shiftl_mul_pow2 by lia. unfold wrap32. rewrite Z.mod_small by lia.
  destruct (fields_unique false (n + k) 0 ltac:(lia) ltac:(lia)) as (W & F1 & F2 & F3). cbv zeta in *. rewrite Z.add_0_l, Z.add_0_r in *.
  rewrite (value_mag _ W) by lia. rewrite F1, F2, F3. cbn [signed]. unfold mag_of. rewrite (proj2 (Z.eqb_neq (n + k) 0)) by lia.
  change (IZR (2 ^ 23 + 0)) with (bpow radix2 23). rewrite <- bpow_plus. do 2 f_equal. lia.
Qed.
Lemma ex2_IZR n : ex2 (IZR n) = bpow radix2 n.
Proof. unfold ex2. rewrite bpow_exp. f_equal. Qed.
Lemma hstep fma p y c P Y C h H E c' H' E' : value p = Fin P -> value y = Fin Y -> value c = Fin C -> Rabs (P - h) <= E -> Rabs h <= H -> Rabs Y <= 1 -> Rabs C <= c' ->
  0 <= E -> E <= 1 / 100 -> H <= 2 -> c' <= 2 -> c' + H <= H' -> E + u24 * (101 / 100 * (2 * (H + E) + c')) + / 1000000000000000000000000000000 <= E' ->
  exists r, value (fmadd fma p y c) = Fin r /\ Rabs (r - (C + Y * h)) <= E' /\ Rabs (C + Y * h) <= H'.
Proof.
  intros Vp Vy Vc Hp Hh HY HC E0 E1 H2 c2 HH HE.
  assert (PY : Rabs (P * Y) <= H + E).
  { rewrite Rabs_mult. assert (Rabs P <= H + E) by (replace P with (P - h + h) by ring; eapply Rle_trans; [apply Rabs_triang|lra]). pose proof (Rabs_pos P). pose proof (Rabs_pos Y). nra. }
  destruct (fmadd_step fma p y c P Y C (H + E) Vp Vy Vc PY ltac:(lra) ltac:(lra)) as (r & Vr & Er). exists r. split; [exact Vr|]. pose proof eta_small as ES. split.
  - replace (r - (C + Y * h)) with (r - (P * Y + C) + (P - h) * Y) by ring. eapply Rle_trans; [apply Rabs_triang|].
    assert (Rabs ((P - h) * Y) <= E) by (rewrite Rabs_mult; pose proof (Rabs_pos (P - h)); pose proof (Rabs_pos Y); nra). unfold u24 in *. lra.
  - eapply Rle_trans; [apply Rabs_triang|]. rewrite Rabs_mult. pose proof (Rabs_pos h). pose proof (Rabs_pos Y). nra.
Qed.
Lemma val_normal c s e m x : c = ((if s : bool then 2 ^ 31 else 0) + e * 2 ^ 23 + m)%Z -> (1 <= e < 255)%Z -> (0 <= m < 2 ^ 23)%Z ->
  x = signed s (IZR (2 ^ 23 + m) * bpow radix2 (e - 150)) -> value c = Fin x.
Proof.
  intros -> He Hm ->. destruct (fields_unique s e m ltac:(lia) Hm) as (W & F1 & F2 & F3). cbv zeta in *. rewrite (value_mag _ W) by lia. rewrite F1, F2, F3.
  unfold mag_of. rewrite (proj2 (Z.eqb_neq e 0)) by lia. reflexivity.
Qed.
Lemma val_e1 : value 0xBF317218 = Fin (-1453635 / 2097152).
Proof. apply (val_normal _ true 126 3240472); [reflexivity|lia|lia|]. change (IZR (2 ^ 23 + 3240472)) with 11629080. change (bpow radix2 (126 - 150)) with (/ 16777216). cbn [signed]. lra. Qed.
Lemma val_e2 : value 0x3E75FDED = Fin (16121325 / 67108864).
Proof. apply (val_normal _ false 124 7732717); [reflexivity|lia|lia|]. change (IZR (2 ^ 23 + 7732717)) with 16121325. change (bpow radix2 (124 - 150)) with (/ 67108864). cbn [signed]. lra. Qed.
Lemma val_e3 : value 0xBD6357CA = Fin (-7449573 / 134217728).
Proof. apply (val_normal _ true 122 6510538); [reflexivity|lia|lia|]. change (IZR (2 ^ 23 + 6510538)) with 14899146. change (bpow radix2 (122 - 150)) with (/ 268435456). cbn [signed]. lra. Qed.
Lemma val_e4 : value 0x3C1D8C54 = Fin (2581269 / 268435456).
Proof. apply (val_normal _ false 120 1936468); [reflexivity|lia|lia|]. change (IZR (2 ^ 23 + 1936468)) with 10325076. change (bpow radix2 (120 - 150)) with (/ 1073741824). cbn [signed]. lra. Qed.
Lemma val_e5 : value 0xBAAE1854 = Fin (-2852373 / 2147483648).
Proof. apply (val_normal _ true 117 3020884); [reflexivity|lia|lia|]. change (IZR (2 ^ 23 + 3020884)) with 11409492. change (bpow radix2 (117 - 150)) with (/ 8589934592). cbn [signed]. lra. Qed.
Lemma val_e6 : value 0x391AA7D7 = Fin (10135511 / 68719476736).
Proof. apply (val_normal _ false 114 1746903); [reflexivity|lia|lia|]. change (IZR (2 ^ 23 + 1746903)) with 10135511. change (bpow radix2 (114 - 150)) with (/ 68719476736). cbn [signed]. lra. Qed.
Lemma val_e7 : value 0xB7364261 = Fin (-11944545 / 1099511627776).
Proof. apply (val_normal _ true 110 3555937); [reflexivity|lia|lia|]. change (IZR (2 ^ 23 + 3555937)) with 11944545. change (bpow radix2 (110 - 150)) with (/ 1099511627776). cbn [signed]. lra. Qed.
Ltac absl := apply Rabs_le; lra.
Lemma exp_poly_val fma y Y : value y = Fin Y -> Rabs Y <= 1 -> exists p, value (exp_poly fma y) = Fin p /\ Rabs (p - expp Y) <= 3 / 10000000.
Proof.
  intros Vy HY. unfold exp_poly.
  destruct (hstep fma _ y _ _ Y _ (-11944545 / 1099511627776) (11 / 1000000) 0 (1475 / 10000000) (16 / 100000) (2 / 100000000000) val_e7 Vy val_e6) as (p6 & V6 & E6 & H6); try (unfold u24; lra); try absl.
  destruct (hstep fma _ y _ p6 Y _ _ (16 / 100000) (2 / 100000000000) (13283 / 10000000) (15 / 10000) (2 / 10000000000) V6 Vy val_e5 E6 H6) as (p5 & V5 & E5 & H5); try (unfold u24; lra); try absl.
  destruct (hstep fma _ y _ p5 Y _ _ (15 / 10000) (2 / 10000000000) (962 / 100000) (1112 / 100000) (1 / 1000000000) V5 Vy val_e4 E5 H5) as (p4 & V4 & E4 & H4); try (unfold u24; lra); try absl.
  destruct (hstep fma _ y _ p4 Y _ _ (1112 / 100000) (1 / 1000000000) (5551 / 100000) (6663 / 100000) (6 / 1000000000) V4 Vy val_e3 E4 H4) as (p3 & V3 & E3 & H3); try (unfold u24; lra); try absl.
  destruct (hstep fma _ y _ p3 Y _ _ (6663 / 100000) (6 / 1000000000) (24023 / 100000) (30686 / 100000) (3 / 100000000) V3 Vy val_e2 E3 H3) as (p2 & V2 & E2 & H2); try (unfold u24; lra); try absl.
  destruct (hstep fma _ y _ p2 Y _ _ (30686 / 100000) (3 / 100000000) (69315 / 100000) (100001 / 100000) (11 / 100000000) V2 Vy val_e1 E2 H2) as (p1 & V1 & E1 & H1); try (unfold u24; lra); try absl.
  destruct (hstep fma _ y _ p1 Y _ _ (100001 / 100000) (11 / 100000000) 1 (200001 / 100000) (3 / 10000000) V1 Vy val_1 E1 H1) as (p0 & V0 & E0 & H0); try (unfold u24; lra); try absl.
  exists p0. split; [exact V0|]. exact E0.
Qed.
Lemma exp_poly_one fma y : value y = Fin 0 -> value (exp_poly fma y) = Fin 1.
Proof.
  intros Vy. unfold exp_poly.
  pose proof (fmadd_zero fma _ y _ _ _ val_e7 Vy val_e6) as V6. pose proof (fmadd_zero fma _ y _ _ _ V6 Vy val_e5) as V5. pose proof (fmadd_zero fma _ y _ _ _ V5 Vy val_e4) as V4.
  pose proof (fmadd_zero fma _ y _ _ _ V4 Vy val_e3) as V3. pose proof (fmadd_zero fma _ y _ _ _ V3 Vy val_e2) as V2. pose proof (fmadd_zero fma _ y _ _ _ V2 Vy val_e1) as V1.
  exact (fmadd_zero fma _ y _ _ _ V1 Vy val_1).
Qed.

(** ** the quotient *)
Lemma div_close b p B P E e : value b = Fin B -> value p = Fin P -> 0 < B -> 0 < E -> 0 <= e <= 1 / 10000 -> Rabs (P * E - 1) <= e -> B * E * (1 + 2 * e + 2 * u24) + eta < huge ->
  exists r, value (f_div b p) = Fin r /\ Rabs (r - B * E) <= B * E * (10002 / 10000 * (e + u24)) + eta.
Proof.
  intros Vb Vp HB HE He HP HH. apply Rabs_le_inv in HP. assert (P0 : 0 < P) by nra. pose proof eta_pos as E0.
  assert (BE : 0 < B * E) by (apply Rmult_lt_0_compat; assumption).
  assert (Q : Rabs (B / P - B * E) <= B * E * (10002 / 10000 * e)).
  { assert (I : 0 < P * E) by (apply Rmult_lt_0_compat; assumption).
    replace (B / P - B * E) with (B * E * ((1 - P * E) * / (P * E))) by (field; split; lra).
    rewrite Rabs_mult, (Rabs_pos_eq (B * E)) by lra. apply Rmult_le_compat_l; [lra|]. rewrite Rabs_mult, (Rabs_pos_eq (/ _)) by (left; apply Rinv_0_lt_compat; exact I).
    assert (R1 : Rabs (1 - P * E) <= e) by (apply Rabs_le; lra).
    apply (Rmult_le_reg_r (P * E)); [exact I|]. rewrite Rmult_assoc, Rinv_l, Rmult_1_r by lra. nra. }
  set (X := B * E) in *. assert (QP : 0 < B / P) by (apply Rdiv_lt_0_compat; assumption). pose proof (RN_err (B / P)) as R. rewrite (Rabs_pos_eq (B / P)) in R by lra.
  apply Rabs_le_inv in Q. apply Rabs_le_inv in R. unfold u24 in *.
  assert (K : Rabs (RN (B / P) - X) <= X * (10002 / 10000 * (e + / 16777216)) + eta) by (apply Rabs_le; split; nra).
  exists (RN (B / P)). split; [|exact K]. apply div_val; [exact Vb|exact Vp|lra|]. apply Rabs_le_inv in K.
  apply Rabs_lt. split; nra.
Qed.
Lemma below_128 v x : word v -> value v = Fin x -> x < 128 -> x <= 128 - / 131072.
Proof.
  intros W V H. pose proof (fin_expo v x V) as E255. pose proof (word_fields v W) as E. pose proof (fexpo_range v) as RE. pose proof (ffrac_range v) as RF.
  pose proof V as M. rewrite (value_mag v W E255) in M. apply Fin_inj in M. pose proof (mag_0 (fexpo v) (ffrac v) ltac:(lia) ltac:(lia)) as M0.
  set (e := fexpo v) in *. set (f := ffrac v) in *. destruct (fsgn v); cbn [signed] in M; [lra|].
  assert (C : (e * 2 ^ 23 + f <? 134 * 2 ^ 23 + 0)%Z = true) by (rewrite mag_cmp, mag_128 by lia; apply Rlt_bool_true; lra). apply Z.ltb_lt in C.
  assert (K : mag_of 133 (2 ^ 23 - 1) = 128 - / 131072).
  { unfold mag_of. change (133 =? 0)%Z with false. cbn iota. change (133 - 150)%Z with (-17)%Z. change (bpow radix2 (-17)) with (/ 131072). change (2 ^ 23 + (2 ^ 23 - 1))%Z with 16777215%Z. lra. }
  rewrite <- K, <- M. destruct (Z.eq_dec e 0) as [Z0|Z0].
  - left. apply mag_lt; lia.
  - apply mag_le; lia.
Qed.
Lemma ex2_top x : x <= 128 - / 131072 -> ex2 x * (1 + 5 / 1000000) <= huge.
Proof.
  intros H. apply ex2_le in H. pose proof (ex2_pos x). replace (128 - / 131072) with (IZR 128 + - / 131072) in H by ring. rewrite ex2_plus, ex2_IZR in H. fold huge in H.
  assert (P : 0 < huge) by apply bpow_gt_0.
  assert (S : ex2 (- / 131072) * (1 + 5 / 1000000) <= 1).
  { assert (T : 1 = ex2 (- / 131072) * ex2 (/ 131072)) by (rewrite <- ex2_plus, Rplus_opp_l, ex2_0; reflexivity). apply Rle_trans with (ex2 (- / 131072) * ex2 (/ 131072)); [|right; symmetry; exact T]. apply Rmult_le_compat_l; [left; apply ex2_pos|].
    unfold ex2. pose proof ln2_bounds as L. unfold L2 in L. eapply Rle_trans; [|left; apply exp_ineq1, Rgt_not_eq; lra].
    lra. }
  nra.
Qed.
Lemma poly_close fma v x : value v = Fin x -> Rabs x < 1000 -> let Y := x - IZR (Ztrunc x) in
  exists p, value (exp_poly fma (exp_y v)) = Fin p /\ Rabs (p * ex2 Y - 1) <= 112 / 10000000 /\ (0 <= x -> Rabs (p * ex2 Y - 1) <= 63 / 100000000).
Proof.
  intros V H Y. destruct (trunc_abs x) as (_ & A & A1 & A2). fold Y in A, A1, A2. destruct (exp_poly_val fma _ Y (exp_y_val v x V H) ltac:(lra)) as (p & Vp & Ep).
  exists p. split; [exact Vp|]. apply Rabs_le_inv in Ep. apply Rabs_lt_inv in A. pose proof (ex2_pos Y) as X0.
  assert (P1 : 0 <= x -> Rabs (p * ex2 Y - 1) <= 63 / 100000000).
  { intros P. pose proof (expp_pos Y ltac:(specialize (A1 P); lra)) as K. apply Rabs_le_inv in K. assert (ex2 Y <= 2) by (rewrite <- ex2_1; apply ex2_le; lra). apply Rabs_le. split; nra. }
  split; [|exact P1]. destruct (Rle_or_lt 0 x) as [P|P]; [specialize (P1 P); lra|].
  pose proof (expp_neg Y ltac:(specialize (A2 ltac:(lra)); lra)) as K. apply Rabs_le_inv in K. assert (ex2 Y <= 1) by (rewrite <- ex2_0; apply ex2_le; specialize (A2 ltac:(lra)); lra). apply Rabs_le. split; nra.
Qed.
Lemma exp_r0_val fma v x : word v -> value v = Fin x -> -127 < x < 128 -> (-126 <= Ztrunc x <= 127)%Z ->
  exists r, value (exp_r0 fma v) = Fin r /\ Rabs (r - ex2 x) <= 113 / 10000000 * ex2 x + eta /\ (0 <= x -> Rabs (r - ex2 x) <= 7 / 10000000 * ex2 x + eta).
Proof.
  intros W V Hx Ht. assert (A : Rabs x < 1000) by (apply Rabs_lt; lra). destruct (trunc_val v x V A) as (C & _ & T).
  destruct (poly_close fma v x V A) as (p & Vp & E1 & E2). set (Y := x - IZR (Ztrunc x)) in *.
  assert (X : ex2 x = bpow radix2 (Ztrunc x) * ex2 Y) by (rewrite <- ex2_IZR, <- ex2_plus; f_equal; unfold Y; ring).
  pose proof (exp_biased_val (Ztrunc x) 127 ltac:(lia) T ltac:(lia)) as Vb. replace (Ztrunc x + 127 - 127)%Z with (Ztrunc x) in Vb by lia. rewrite <- C in Vb.
  pose proof (bpow_gt_0 radix2 (Ztrunc x)) as B0. pose proof (ex2_pos Y) as Y0. pose proof eta_small as ES. pose proof huge_big as HB. pose proof (ex2_pos x) as X0. unfold exp_r0.
  destruct (Rle_or_lt 0 x) as [P|P].
  - destruct (div_close _ _ _ _ (ex2 Y) (63 / 100000000) Vb Vp B0 Y0 ltac:(lra) (E2 P)) as (r & Vr & Er).
    { rewrite <- X. pose proof (ex2_top x (below_128 v x W V ltac:(lra))) as K. unfold u24. assert (1 <= ex2 x) by (rewrite <- ex2_0; apply ex2_le; exact P). nra. }
    exists r. split; [exact Vr|]. rewrite <- X in Er. unfold u24 in Er. split; [|intros _]; lra.
  - destruct (div_close _ _ _ _ (ex2 Y) (112 / 10000000) Vb Vp B0 Y0 ltac:(lra) E1) as (r & Vr & Er).
    { rewrite <- X. unfold u24. assert (ex2 x <= 1) by (rewrite <- ex2_0; apply ex2_le; lra). nra. }
    exists r. split; [exact Vr|]. rewrite <- X in Er. unfold u24 in Er. split; [|intros]; lra.
Qed.
Lemma exp_r1_val fma v x : word v -> value v = Fin x -> -150 < x -> (Ztrunc x < -126)%Z ->
  exists r, value (exp_r1 fma v) = Fin r /\ Rabs (r - ex2 x) <= 114 / 10000000 * ex2 x + 2 * eta.
Proof.
  intros W V Hx Ht. assert (N : x < 0).
  { apply Rnot_le_lt. intros P. pose proof (trunc_ge 0 x P ltac:(lia)). lia. }
  assert (A : Rabs x < 1000) by (apply Rabs_lt; lra). destruct (trunc_val v x V A) as (C & _ & T).
  assert (Lo : (-150 < Ztrunc x)%Z) by (apply lt_IZR; rewrite Ztrunc_ceil by lra; pose proof (Zceil_ub x); lra).
  destruct (poly_close fma v x V A) as (p & Vp & E1 & _). set (Y := x - IZR (Ztrunc x)) in *.
  assert (X : ex2 (x + 126) = bpow radix2 (Ztrunc x + 126) * ex2 Y) by (rewrite <- ex2_IZR, <- ex2_plus; f_equal; unfold Y; rewrite plus_IZR; ring).
  pose proof (exp_biased_val (Ztrunc x) 253 ltac:(lia) T ltac:(lia)) as Vb. replace (Ztrunc x + 253 - 127)%Z with (Ztrunc x + 126)%Z in Vb by lia. rewrite <- C in Vb.
  pose proof (bpow_gt_0 radix2 (Ztrunc x + 126)) as B0. pose proof (ex2_pos Y) as Y0. pose proof eta_small as ES. pose proof eta_pos as EP. pose proof huge_big as HB. pose proof (ex2_pos x) as X0. unfold exp_r1.
  assert (Q1 : ex2 (x + 126) <= 1).
  { destruct (trunc_abs x) as (_ & _ & _ & A2). specialize (A2 ltac:(lra)). rewrite <- ex2_0. apply ex2_le. assert (IZR (Ztrunc x) <= -127) by (apply IZR_le; lia). lra. }
  destruct (div_close _ _ _ _ (ex2 Y) (112 / 10000000) Vb Vp B0 Y0 ltac:(lra) E1) as (q & Vq & Eq); [rewrite <- X; unfold u24; nra|]. rewrite <- X in Eq.
  set (m := bpow radix2 (-126)). assert (M0 : 0 < m <= / 1000) by (split; [apply bpow_gt_0|]; unfold m; apply Rle_trans with (bpow radix2 (-10)); [apply bpow_le; lia|change (bpow radix2 (-10)) with (/ 1024); lra]).
  assert (Vm : value 0x00800000 = Fin m) by (apply (val_normal _ false 1 0); [reflexivity|lia|lia|]; cbn [signed]; change (IZR (2 ^ 23 + 0)) with (bpow radix2 23); rewrite <- bpow_plus; reflexivity).
  assert (XX : ex2 x = m * ex2 (x + 126)) by (unfold m; rewrite <- ex2_IZR, <- ex2_plus; f_equal; lra).
  pose proof (ex2_pos (x + 126)) as X1. apply Rabs_le_inv in Eq.
  assert (qb : Rabs (m * q - ex2 x) <= 10002 / 10000 * (112 / 10000000 + u24) * ex2 x + eta / 1000) by (rewrite XX; apply Rabs_le; split; nra).
  assert (mq : Rabs (m * q) <= 2 * ex2 x + eta).
  { replace (m * q) with (m * q - ex2 x + ex2 x) by ring. eapply Rle_trans; [apply Rabs_triang|]. rewrite (Rabs_pos_eq (ex2 x)) by lra. unfold u24 in qb. lra. }
  assert (x1 : ex2 x <= 1) by (rewrite <- ex2_0; apply ex2_le; lra).
  exists (RN (m * q)). split; [apply mul_val; [exact Vm|exact Vq|apply small_huge; lra]|].
  pose proof (RN_err (m * q)) as R.
  assert (mq2 : Rabs (m * q) <= 1001 / 1000 * ex2 x + eta).
  { replace (m * q) with (m * q - ex2 x + ex2 x) by ring. eapply Rle_trans; [apply Rabs_triang|]. rewrite (Rabs_pos_eq (ex2 x)) by lra. unfold u24 in qb. lra. }
  replace (RN (m * q) - ex2 x) with ((RN (m * q) - m * q) + (m * q - ex2 x)) by ring. eapply Rle_trans; [apply Rabs_triang|]. unfold u24 in *. lra.
Qed.
(** ** accuracy *)
Lemma exp_acc fma v x : word v -> value v = Fin x -> -150 < x < 128 ->
  exists r, value (exp_lane fma v) = Fin r /\ Rabs (r - ex2 x) <= 114 / 10000000 * ex2 x + 2 * eta /\ (0 <= x -> Rabs (r - ex2 x) <= 7 / 10000000 * ex2 x + 2 * eta).
Proof.
  intros W V Hx. destruct (exp_case fma v x W V) as (_ & _ & C). rewrite (C Hx). pose proof eta_pos as EP. assert (A : Rabs x < 1000) by (apply Rabs_lt; lra). destruct (trunc_val v x V A) as (_ & _ & T).
  destruct (Z.ltb_spec (Ztrunc x) (-126)) as [L|L].
  - destruct (exp_r1_val fma v x W V ltac:(lra) L) as (r & Vr & Er). exists r. split; [exact Vr|]. split; [exact Er|]. intros P. pose proof (trunc_ge 0 x P ltac:(lia)). lia.
  - assert (U : (Ztrunc x <= 127)%Z).
    { destruct (Rle_or_lt 0 x) as [P|P]; [|assert (Ztrunc x <= 0)%Z by (apply trunc_le; lra); lia]. destruct (truncE x) as [T1 _]. specialize (T1 P). apply Z.lt_succ_r, lt_IZR. change (Z.succ 127) with 128%Z. lra. }
    assert (Lo : -127 < x).
    { destruct (Rle_or_lt 0 x) as [P|P]; [lra|]. destruct (truncE x) as [_ T2]. specialize (T2 ltac:(lra)). apply IZR_le in L. lra. }
    pose proof (ex2_pos x). destruct (exp_r0_val fma v x W V ltac:(lra) ltac:(lia)) as (r & Vr & E1 & E2). exists r. split; [exact Vr|]. split; [lra|]. intros P. specialize (E2 P). lra.
Qed.
(** ** powers of two *)
Lemma exp_pow fma v n : word v -> value v = Fin (IZR n) -> (-149 <= n <= 127)%Z -> value (exp_lane fma v) = Fin (bpow radix2 n).
Proof.
  intros W V Hn. assert (L1 : -149 <= IZR n <= 127) by (split; apply IZR_le; lia). destruct (exp_case fma v _ W V) as (_ & _ & C). rewrite (C ltac:(lra)), Ztrunc_IZR.
  assert (A : Rabs (IZR n) < 1000) by (apply Rabs_lt; lra). destruct (trunc_val v _ V A) as (Ct & _ & T). rewrite Ztrunc_IZR in Ct, T.
  pose proof (exp_y_val v _ V A) as Vy. rewrite Ztrunc_IZR, Rminus_diag_eq in Vy by reflexivity. pose proof (exp_poly_one fma _ Vy) as Vp.
  assert (H : forall k, (-149 <= k <= 127)%Z -> fmt (bpow radix2 k / 1) /\ Rabs (bpow radix2 k / 1) < huge).
  { intros k Hk. unfold Rdiv. rewrite Rinv_1, Rmult_1_r. split; [apply fmt_pow; lia|]. rewrite Rabs_pos_eq by apply bpow_ge_0. apply bpow_lt. lia. }
  assert (D1 : forall k, bpow radix2 k / 1 = bpow radix2 k) by (intros; field).
  destruct (Z.ltb_spec n (-126)) as [L|L].
  - unfold exp_r1. pose proof (exp_biased_val n 253 ltac:(lia) T ltac:(lia)) as Vb. replace (n + 253 - 127)%Z with (n + 126)%Z in Vb by lia. rewrite <- Ct in Vb.
    destruct (H (n + 126)%Z ltac:(lia)) as [H1 H2]. pose proof (div_exact _ _ _ _ Vb Vp ltac:(lra) H1 H2) as Vq. rewrite D1 in Vq.
    assert (Vm : value 0x00800000 = Fin (bpow radix2 (-126))) by (apply (val_normal _ false 1 0); [reflexivity|lia|lia|]; cbn [signed]; change (IZR (2 ^ 23 + 0)) with (bpow radix2 23); rewrite <- bpow_plus; reflexivity).
    assert (E : bpow radix2 (-126) * bpow radix2 (n + 126) = bpow radix2 n) by (rewrite <- bpow_plus; f_equal; lia).
    rewrite <- E. apply mul_exact; [exact Vm|exact Vq| |]; rewrite E, <- (D1 n); apply H; lia.
  - unfold exp_r0. pose proof (exp_biased_val n 127 ltac:(lia) T ltac:(lia)) as Vb. replace (n + 127 - 127)%Z with n in Vb by lia. rewrite <- Ct in Vb.
    destruct (H n ltac:(lia)) as [H1 H2]. pose proof (div_exact _ _ _ _ Vb Vp ltac:(lra) H1 H2) as Vq. rewrite D1 in Vq. exact Vq.
Qed.
(** ** the statements, lane by lane *)
Lemma exp2_lane fma V k : lane (XMVectorExp2_sse fma V) k = exp_lane fma (lane V k).
Proof. rewrite exp_four. destruct k; reflexivity. Qed.
Lemma eta2 : 2 * eta = pow2 (-149).
Proof. rewrite pow2_bpow. unfold eta. change 2 with (bpow radix2 1). rewrite <- bpow_plus. reflexivity. Qed.
Lemma exp2_rel fma v x : word v -> value v = Fin x -> -126 <= x < 128 ->
  exists r, value (exp_lane fma v) = Fin r /\ Rabs (r - ex2 x) <= 12 / 1000000 * ex2 x /\ (0 <= x -> Rabs (r - ex2 x) <= 8 / 10000000 * ex2 x).
Proof.
  intros W V Hx. destruct (exp_acc fma v x W V ltac:(lra)) as (r & Vr & E1 & E2). exists r. split; [exact Vr|].
  assert (L : 2 * eta <= / 8388608 * ex2 x).
  { apply Rle_trans with (/ 8388608 * ex2 (IZR (-126))); [|apply Rmult_le_compat_l; [lra|apply ex2_le; lra]]. rewrite ex2_IZR. change (/ 8388608) with (bpow radix2 (-23)). change 2 with (bpow radix2 1). unfold eta. rewrite <- !bpow_plus. right. reflexivity. }
  pose proof (ex2_pos x). split; [lra|]. intros P. specialize (E2 P). pose proof eta_small. assert (1 <= ex2 x) by (rewrite <- ex2_0; apply ex2_le; exact P). lra.
Qed.
Lemma val_near_one : value 0xBF7FFFFF = Fin (-16777215 / 16777216).
Proof. apply (val_normal _ true 126 8388607); [reflexivity|lia|lia|]. change (IZR (2 ^ 23 + 8388607)) with 16777215. change (bpow radix2 (126 - 150)) with (/ 16777216). cbn [signed]. lra. Qed.
Lemma exp2_near_one fma : exists r, value (qx (XMVectorExp2_sse fma (qrep 0xBF7FFFFF%Z))) = Fin r /\ ~ Rabs (r - Rpower 2 (-16777215 / 16777216)) <= 9 / 1000000 * Rabs (Rpower 2 (-16777215 / 16777216)).
Proof.
  exists (8388693 / 16777216). split.
  - assert (E : qx (XMVectorExp2_sse fma (qrep 0xBF7FFFFF%Z)) = 0x3F000055%Z) by (destruct fma; vm_compute; reflexivity). rewrite E.
    apply (val_normal _ false 126 85); [reflexivity|lia|lia|]. change (IZR (2 ^ 23 + 85)) with 8388693. change (bpow radix2 (126 - 150)) with (/ 16777216). cbn [signed]. lra.
  - change (Rpower 2 (-16777215 / 16777216)) with (ex2 (-16777215 / 16777216)). replace (-16777215 / 16777216) with (IZR (-1) + / 16777216) by lra.
    rewrite ex2_plus, ex2_IZR. change (bpow radix2 (-1)) with (/ 2). set (t := / 16777216).
    assert (B : 1 <= ex2 t <= 1 + / 10000000).
    { split; [rewrite <- ex2_0; apply ex2_le; unfold t; lra|]. pose proof ln2_bounds as L. unfold L2 in L. pose proof (ex2_pos t) as P.
      assert (M : ex2 t * ex2 (- t) = 1) by (rewrite <- ex2_plus, Rplus_opp_r; apply ex2_0).
      assert (N : 1 - t * ln 2 <= ex2 (- t)) by (unfold ex2; left; replace (1 - t * ln 2) with (1 + - t * ln 2) by ring; apply exp_ineq1, Rlt_not_eq; unfold t; lra).
      unfold t in *. assert (9999999 / 10000000 + / 100000000 <= ex2 (- / 16777216)) by lra. nra. }
    rewrite (Rabs_pos_eq (/ 2 * _)) by lra. rewrite Rabs_pos_eq by lra. lra.
Qed.
