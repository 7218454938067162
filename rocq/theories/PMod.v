(** XMVectorMod on bit patterns. *)
From Coq Require Import Reals Lra Lia ZArith Bool.
From Flocq Require Import Core IEEE754.BinarySingleNaN Relative Sterbenz.
From Verif Require Import Base F32 F32Facts Intrin Lane MVec MTrig SpecF32 PF32 PFloat PExp PReal SpecErr PErr PFix PTrigF PConvert PConvertInt.
Open Scope R_scope.

Lemma RNopp x : RN (- x) = - RN x. Proof. apply round_NE_opp. Qed.
(** the rounded quotient is truncated to the true whole quotient, or to the next one when it rounds up to it *)
Lemma quot_pos p : 0 <= p < 16777216 -> let n := Ztrunc (RN p) in (0 <= n <= 2 ^ 24)%Z /\
  (IZR n <= p < IZR n + 1 \/ (RN p = IZR n /\ IZR n - 1 <= p < IZR n /\ 1 <= IZR n)).
Proof.
  intros H. cbv zeta. pose proof (Zfloor_lb p) as L. pose proof (Zfloor_ub p) as U. set (m := Zfloor p) in *.
  assert (M : (0 <= m < 2 ^ 24)%Z) by (split; [apply Zfloor_lub; apply H|apply lt_IZR; change (IZR (2 ^ 24)) with 16777216; lra]).
  assert (A : IZR m <= RN p) by (rewrite <- (RN_fmt (IZR m)) by (apply fmt_int; lia); apply RN_le, L).
  assert (B : RN p <= IZR m + 1) by (rewrite <- plus_IZR; rewrite <- (RN_fmt (IZR (m + 1))) by (apply fmt_int; lia); apply RN_le; rewrite plus_IZR; lra).
  assert (M0 : 0 <= IZR m) by (apply IZR_le; lia).
  destruct (Rle_lt_or_eq_dec _ _ B) as [B'|B'].
  - assert (E : Ztrunc (RN p) = m) by (rewrite Ztrunc_floor by lra; apply Zfloor_imp; rewrite plus_IZR; lra). rewrite E. split; [lia|]. left. lra.
  - assert (E : Ztrunc (RN p) = (m + 1)%Z) by (rewrite B', <- plus_IZR; apply Ztrunc_IZR). rewrite E. split; [lia|]. right. rewrite plus_IZR. repeat split; lra.
Qed.
Lemma rel_err p : 1 / 2 <= Rabs p -> Rabs (RN p - p) <= u24 * Rabs p.
Proof.
  intros H. eapply Rle_trans; [apply (relative_error_N_FLT radix2 (-149) 24 ltac:(lia) (fun t => negb (Z.even t)))|].
  - apply Rle_trans with (bpow radix2 (-1)); [apply bpow_le; lia|change (bpow radix2 (-1)) with (/ 2); lra].
  - right. unfold u24. change (bpow radix2 (- (24) + 1)) with (/ 8388608). lra.
Qed.
Lemma quot_any p : Rabs p < 16777216 -> let n := Ztrunc (RN p) in (Z.abs n <= 2 ^ 24)%Z /\ (Rabs (p - IZR n) <= 1 /\ Rabs (p - IZR n) <= Rabs p) /\
  ((0 <= (p - IZR n) * p /\ Rabs (p - IZR n) < 1) \/ Rabs (p - IZR n) <= u24 * Rabs p).
Proof.
  assert (P : forall p, 0 <= p < 16777216 -> let n := Ztrunc (RN p) in (Z.abs n <= 2 ^ 24)%Z /\ (Rabs (p - IZR n) <= 1 /\ Rabs (p - IZR n) <= Rabs p) /\
    ((0 <= (p - IZR n) * p /\ Rabs (p - IZR n) < 1) \/ Rabs (p - IZR n) <= u24 * Rabs p)).
  { clear p. intros p H. destruct (quot_pos p H) as (N & C). cbv zeta. split; [lia|]. destruct C as [C|(E & C & G)].
    - assert (0 <= IZR (Ztrunc (RN p))) by (apply IZR_le; lia). rewrite !Rabs_pos_eq by lra. split; [lra|left]. split; [nra|lra].
    - split; [rewrite Rabs_left1, (Rabs_pos_eq p) by lra; split; [lra|]|right].
      { destruct (Rle_dec (1 / 2) p) as [K|K]; [pose proof (rel_err p ltac:(rewrite Rabs_pos_eq; lra)) as R1; rewrite E, (Rabs_pos_eq p), Rabs_pos_eq in R1 by lra; unfold u24 in R1; lra|exfalso]. assert (RN p <= 1 / 2) by (rewrite <- (RN_fmt (1 / 2)); [apply RN_le; lra|]; replace (1 / 2) with (IZR 1 * bpow radix2 (-1)) by (change (bpow radix2 (-1)) with (/ 2); lra); apply fmt_scaled; lia). lra. }
       destruct (Rle_dec (1 / 2) p) as [K|K].
      + pose proof (rel_err p ltac:(rewrite Rabs_pos_eq; lra)) as R1. rewrite E in R1. rewrite Rabs_minus_sym. exact R1.
      + exfalso. assert (RN p <= 1 / 2) by (rewrite <- (RN_fmt (1 / 2)); [apply RN_le; lra|]; replace (1 / 2) with (IZR 1 * bpow radix2 (-1)) by (change (bpow radix2 (-1)) with (/ 2); lra); apply fmt_scaled; lia). lra. }
  intros H. destruct (Rle_lt_dec 0 p) as [S|S]; [apply P; rewrite Rabs_pos_eq in H; lra|]. rewrite Rabs_left in H by lra.
  destruct (P (- p) ltac:(lra)) as (N & B & C). cbv zeta in *. rewrite RNopp, Ztrunc_opp, opp_IZR in *. rewrite Z.abs_opp in N.
  replace (- p - - IZR (Ztrunc (RN p))) with (- (p - IZR (Ztrunc (RN p)))) in * by ring. rewrite !Rabs_Ropp in *. split; [exact N|]. split; [exact B|].
  destruct C as [(C1 & C2)|C]; [left; split; [lra|exact C2]|right; exact C].
Qed.
(** the remainder is representable *)
Lemma fmt_at x e : fmt x -> (e <= cexp radix2 fx32 x)%Z -> exists k, x = IZR k * bpow radix2 e.
Proof.
  intros F L. exists (Ztrunc (scaled_mantissa radix2 fx32 x) * 2 ^ (cexp radix2 fx32 x - e))%Z. rewrite mult_IZR.
  change (2 ^ (cexp radix2 fx32 x - e))%Z with (radix_val radix2 ^ (cexp radix2 fx32 x - e))%Z. rewrite IZR_Zpower by lia. rewrite Rmult_assoc, <- bpow_plus.
  replace (cexp radix2 fx32 x - e + e)%Z with (cexp radix2 fx32 x) by lia. exact F.
Qed.
Lemma cexp_lt y : y <> 0 -> Rabs y < bpow radix2 (24 + cexp radix2 fx32 y).
Proof. intros Y. eapply Rlt_le_trans; [apply bpow_mag_gt|]. apply bpow_le. unfold cexp, FLT_exp. lia. Qed.
Lemma cexp_smaller x y : x <> 0 -> y <> 0 -> (cexp radix2 fx32 x < cexp radix2 fx32 y)%Z -> Rabs x < Rabs y.
Proof.
  intros X Y L. eapply Rlt_le_trans; [apply (bpow_mag_gt radix2)|]. eapply Rle_trans; [|apply bpow_mag_le; exact Y]. apply bpow_le. revert L. unfold cexp, FLT_exp. lia.
Qed.
Lemma fmt_half : fmt (1 / 2).
Proof. replace (1 / 2) with (IZR 1 * bpow radix2 (-1)) by (change (bpow radix2 (-1)) with (/ 2); lra). apply fmt_scaled; lia. Qed.
Lemma sterb x y : fmt x -> fmt y -> Rabs y / 2 <= Rabs x <= 2 * Rabs y -> fmt (Rabs x - Rabs y).
Proof. intros Fx Fy H. apply (sterbenz radix2 fx32); [apply generic_format_abs; exact Fx|apply generic_format_abs; exact Fy|exact H]. Qed.
Lemma Ztrunc_small r : Rabs r < 1 -> Ztrunc r = 0%Z.
Proof. intros H. destruct (Rle_lt_dec 0 r). - rewrite Rabs_pos_eq in H by lra. rewrite Ztrunc_floor by lra. apply Zfloor_imp. cbn; lra. - rewrite Rabs_left in H by lra. rewrite Ztrunc_ceil by lra. apply Zceil_imp. cbn; lra. Qed.
Lemma rem_fmt x y : fmt x -> fmt y -> y <> 0 -> Rabs (x / y) < 16777216 -> fmt (x - IZR (Ztrunc (RN (x / y))) * y).
Proof.
  intros Fx Fy Y H. destruct (quot_any _ H) as (N & (B & _) & C). cbv zeta in *.
  assert (AY : 0 < Rabs y) by (apply Rabs_pos_lt; exact Y).
  assert (RB : Rabs (x - IZR (Ztrunc (RN (x / y))) * y) <= Rabs y).
  { replace (x - IZR (Ztrunc (RN (x / y))) * y) with ((x / y - IZR (Ztrunc (RN (x / y)))) * y) by (field; exact Y). rewrite Rabs_mult. nra. }
  destruct (Req_dec x 0) as [X0|X0].
  { assert (E : Ztrunc (RN (x / y)) = 0%Z) by (rewrite X0; unfold Rdiv; rewrite Rmult_0_l, RN_fmt by apply fmt_0; apply (Ztrunc_IZR 0)). rewrite E, Rmult_0_l, Rminus_0_r. exact Fx. }
  destruct (Z_lt_le_dec (cexp radix2 fx32 x) (cexp radix2 fx32 y)) as [K|K].
  - pose proof (cexp_smaller x y X0 Y K) as L. assert (Q1 : Rabs (x / y) < 1) by (unfold Rdiv; rewrite Rabs_mult, Rabs_inv; apply Rmult_lt_reg_r with (Rabs y); [exact AY|]; field_simplify; lra).
    assert (Q2 : Rabs (RN (x / y)) <= 1).
    { apply Rabs_le. apply Raux.Rabs_lt_inv in Q1. rewrite <- (RN_fmt 1) by (apply (fmt_int 1); lia). rewrite <- (RNopp 1). split; apply RN_le; lra. }
    destruct (Rle_lt_or_eq_dec _ _ Q2) as [Q3|Q3]; [rewrite (Ztrunc_small _ Q3), Rmult_0_l, Rminus_0_r; exact Fx|].
    assert (HX : Rabs y / 2 <= Rabs x <= 2 * Rabs y).
    { split; [|lra]. destruct (Rle_dec (Rabs y / 2) (Rabs x)) as [G|G]; [exact G|exfalso]. apply Rnot_le_lt in G.
      assert (P : Rabs (x / y) < 1 / 2) by (unfold Rdiv at 1; rewrite Rabs_mult, Rabs_inv; apply Rmult_lt_reg_r with (Rabs y); [exact AY|]; field_simplify; lra).
      apply Raux.Rabs_lt_inv in P. assert (RN (x / y) <= 1 / 2) by (rewrite <- (RN_fmt _ fmt_half); apply RN_le; lra).
      assert (- (1 / 2) <= RN (x / y)) by (rewrite <- (RN_fmt _ fmt_half), <- RNopp; apply RN_le; lra).
      assert (Rabs (RN (x / y)) <= 1 / 2) by (apply Rabs_le; lra). lra. }
    pose proof (sterb x y Fx Fy HX) as ST. assert (YY : 0 < y * y) by exact (Rsqr_pos_lt y Y).
    destruct (Rcase_abs (RN (x / y))) as [S|S].
    + rewrite Rabs_left in Q3 by exact S. replace (RN (x / y)) with (IZR (-1)) by lra. rewrite Ztrunc_IZR.
      assert (G : x / y < 0) by (destruct (Rle_lt_dec 0 (x / y)) as [G|G]; [exfalso; apply RN_le in G; rewrite (RN_fmt 0 fmt_0) in G; lra|exact G]).
      assert (G2 : x * y < 0) by (replace (x * y) with (x / y * (y * y)) by (field; exact Y); nra).
      destruct (Rle_lt_dec 0 x) as [SX|SX]; destruct (Rle_lt_dec 0 y) as [SY|SY]; try nra.
      * rewrite (Rabs_pos_eq x), (Rabs_left y) in ST by lra. replace (x - -1 * y) with (x - - y) by ring. exact ST.
      * rewrite (Rabs_left x), (Rabs_pos_eq y) in ST by lra. replace (x - -1 * y) with (- (- x - y)) by ring. apply fmt_opp, ST.
    + rewrite Rabs_pos_eq in Q3 by lra. replace (RN (x / y)) with (IZR 1) by lra. rewrite Ztrunc_IZR.
      assert (G : 0 < x / y) by (destruct (Rle_lt_dec (x / y) 0) as [G|G]; [exfalso; apply RN_le in G; rewrite (RN_fmt 0 fmt_0) in G; lra|exact G]).
      assert (G2 : 0 < x * y) by (replace (x * y) with (x / y * (y * y)) by (field; exact Y); nra).
      destruct (Rle_lt_dec 0 x) as [SX|SX]; destruct (Rle_lt_dec 0 y) as [SY|SY]; try nra.
      * rewrite !Rabs_pos_eq in ST by lra. rewrite Rmult_1_l. exact ST.
      * rewrite !Rabs_left in ST by lra. replace (x - 1 * y) with (- (- x - - y)) by ring. apply fmt_opp, ST.
  - destruct (fmt_at x _ Fx K) as (kx & EX). destruct (fmt_at y _ Fy (Z.le_refl _)) as (ky & EY). set (ey := cexp radix2 fx32 y) in *. pose proof (cexp_lt y Y) as LY. fold ey in LY.
    set (n := Ztrunc (RN (x / y))) in *. assert (E : x - IZR n * y = IZR (kx - n * ky) * bpow radix2 ey) by (rewrite minus_IZR, mult_IZR; rewrite EX, EY at 1; ring).
    rewrite E in *. apply fmt_scaled; [|unfold ey, cexp, FLT_exp; lia]. rewrite Rabs_mult, (Rabs_pos_eq (bpow _ _)) in RB by apply bpow_ge_0.
    rewrite bpow_plus in LY. pose proof (bpow_gt_0 radix2 ey). rewrite <- abs_IZR in RB. apply le_IZR. change (IZR (2 ^ 24)) with (bpow radix2 24).
    apply Rmult_le_reg_r with (bpow radix2 ey); [assumption|]. lra.
Qed.
(** ** the lanes *)
Definition tr_lane (b : backend) (q : Z) : Z :=
  match b with Scalar => if f_isnan q then @tqnan FL else if f_lt (f_abs q) (f_lit 8388608 0) then f_of_Z (f_to_i32 q) else q | _ => f_trunc q end.
Definition mod_q (b : backend) (v w : Z) : Z :=
  match b with
  | Scalar => f_sub v (f_mul w (tr_lane b (f_div v w)))
  | SSE _ _ true _ => f_fma (f_neg (tr_lane b (f_div v w))) w v
  | _ => f_sub v (f_mul (tr_lane b (f_div v w)) w)
  end.
Lemma mod_lane_eq b V W k : lane (XMVectorMod (L:=FL) b V W) k = mod_q b (lane V k) (lane W k).
Proof.
  destruct b as [|? ? [] ?]; destruct V as [v0 v1 v2 v3], W as [w0 w1 w2 w3], k; unfold mod_q, tr_lane; lazy beta iota zeta delta [XMVectorMod XMVectorDivide XMVectorTruncate XMVectorNegativeMultiplySubtract FNMADD vsub vmul vdiv
    lane qx qy qz qw qmap qmap2 qmap3 T tadd tsub tmul tdiv tneg tabs tfma tlt ttrunc ttrunc32 tlit is_nan tqnan FL]; reflexivity.
Qed.
Lemma big_int q : fmt q -> 8388608 <= Rabs q -> q = IZR (Ztrunc q).
Proof.
  intros F H. destruct (fmt_at q 0 F) as (k & E).
  - unfold cexp, FLT_exp. assert (G : (24 <= mag radix2 q)%Z); [|lia]. apply mag_ge_bpow. exact H.
  - rewrite Rmult_1_r in E. rewrite E, Ztrunc_IZR. reflexivity.
Qed.
Lemma tr_val b q p : word q -> value q = Fin p -> value (tr_lane b q) = Fin (IZR (Ztrunc p)).
Proof.
  intros W V. assert (S : value (f_trunc q) = Fin (IZR (Ztrunc p))) by exact (near_val mode_ZR q p V).
  destruct b; [|exact S]. unfold tr_lane. replace (f_isnan q) with false by (symmetry; apply not_true_is_false; intros E; apply f_isnan_spec in E; congruence).
  pose proof (f_lt_spec (f_abs q) (f_lit 8388608 0)) as L. rewrite (abs_val q p W V) in L. rewrite (lit_exact 8388608 0) in L by lia. cbn [xlt] in L. change (bpow radix2 0) with 1 in L. rewrite Rmult_1_r in L.
  destruct (f_lt (f_abs q) (f_lit 8388608 0)).
  - apply trunc32_val; [exact V|]. assert (Rabs p < 8388608) by (apply L; reflexivity). lra.
  - rewrite V. f_equal. apply big_int; [apply (value_fmt _ _ V)|]. apply Rnot_lt_le. intros K. apply L in K. discriminate.
Qed.
Section Rem.
Variables (z w : Z) (x y : R).
Hypothesis Hz : is32 z x. Hypothesis Hw : is32 w y. Hypothesis Hy0 : y <> 0. Hypothesis HQ : Rabs x < 16777216 * Rabs y.
Let n := Ztrunc (RN (x / y)).
Lemma rem_sizes : Rabs (x / y) < 16777216 /\ Rabs (x - IZR n * y) <= Rabs y /\ Rabs (x - IZR n * y) <= Rabs x /\
  ((0 <= (x - IZR n * y) * x /\ Rabs (x - IZR n * y) < Rabs y) \/ Rabs (x - IZR n * y) <= u24 * Rabs x).
Proof.
  assert (AY : 0 < Rabs y) by (apply Rabs_pos_lt; exact Hy0). assert (YY : 0 < y * y) by exact (Rsqr_pos_lt y Hy0).
  assert (Q : Rabs (x / y) < 16777216) by (unfold Rdiv; rewrite Rabs_mult, Rabs_inv; apply Rmult_lt_reg_r with (Rabs y); [exact AY|]; field_simplify; lra).
  split; [exact Q|]. destruct (quot_any _ Q) as (N & (B & B') & C). cbv zeta in *. fold n in N, B, B', C.
  assert (E : x - IZR n * y = (x / y - IZR n) * y) by (field; exact Hy0).
  assert (AE : Rabs (x - IZR n * y) = Rabs (x / y - IZR n) * Rabs y) by (rewrite E, Rabs_mult; reflexivity).
  assert (AX : Rabs x = Rabs (x / y) * Rabs y) by (rewrite <- Rabs_mult; f_equal; field; exact Hy0).
  rewrite AE. split; [nra|]. split; [rewrite AX; nra|]. destruct C as [(C1 & C2)|C]; [left|right].
  - split; [|nra]. replace ((x - IZR n * y) * x) with (((x / y - IZR n) * (x / y)) * (y * y)) by (field; exact Hy0). nra.
  - rewrite AX. nra.
Qed.
Lemma quot_tr b : value (tr_lane b (f_div z w)) = Fin (IZR n) /\ word (tr_lane b (f_div z w)).
Proof.
  destruct Hz as (Wz & Vz), Hw as (Ww & Vw). destruct rem_sizes as (Q & _). split.
  - apply tr_val; [apply enc_word|]. apply div_val; try assumption. apply small_huge'. lra.
  - unfold tr_lane. destruct b; [|apply enc_word]. destruct (f_isnan _); [split; [discriminate|reflexivity]|]. destruct (f_lt _ _); apply enc_word.
Qed.
Lemma mod_fused s3 s4 av : value (mod_q (SSE s3 s4 true av) z w) = Fin (x - IZR n * y).
Proof.
  destruct Hz as (Wz & Vz), Hw as (Ww & Vw). destruct rem_sizes as (Q & B & _). destruct (value_fmt _ _ Vz) as (Fx & Hx). destruct (value_fmt _ _ Vw) as (Fy & Hy).
  pose proof (rem_fmt x y Fx Fy Hy0 Q) as FR. fold n in FR. destruct (quot_tr (SSE s3 s4 true av)) as (VT & WT). unfold mod_q.
  assert (E : - IZR n * y + x = x - IZR n * y) by ring.
  rewrite (fma_val _ _ _ (- IZR n) y x); [rewrite E, RN_fmt by exact FR; reflexivity|apply neg_val; assumption|exact Vw|exact Vz|]. rewrite E, RN_fmt by exact FR. lra.
Qed.
Lemma mod_plain b : (match b with SSE _ _ true _ => False | _ => True end) -> Rabs x <= bpow radix2 126 ->
  exists r, value (mod_q b z w) = Fin r /\ Rabs (r - (x - IZR n * y)) <= 4 * u24 * Rabs x + 3 * eta.
Proof.
  intros NB HX. destruct Hz as (Wz & Vz), Hw as (Ww & Vw). destruct rem_sizes as (Q & _ & B & _). destruct (quot_tr b) as (VT & WT).
  pose proof (RN_err (IZR n * y)) as E1. pose proof (RN_err (x - RN (IZR n * y))) as E2. pose proof (Rabs_pos x) as PX.
  assert (N1 : Rabs (IZR n * y) <= 2 * Rabs x) by (replace (IZR n * y) with (x - (x - IZR n * y)) by ring; eapply Rle_trans; [apply Rabs_triang|]; rewrite Rabs_Ropp; lra).
  assert (ET : 0 < eta <= 1) by (unfold eta; split; [apply bpow_gt_0|]; change 1 with (bpow radix2 0); apply bpow_le; lia).
  assert (H4 : bpow radix2 126 * 4 = huge) by (unfold huge; change 4 with (bpow radix2 2); rewrite <- bpow_plus; reflexivity).
  assert (H1 : 1000000 <= bpow radix2 126) by (apply Rle_trans with (bpow radix2 20); [change (bpow radix2 20) with (IZR (2 ^ 20)); apply IZR_le; lia|apply bpow_le; lia]).
  assert (V1 : value (f_mul (tr_lane b (f_div z w)) w) = Fin (RN (IZR n * y))).
  { apply mul_val; [exact VT|exact Vw|]. replace (RN (IZR n * y)) with ((RN (IZR n * y) - IZR n * y) + IZR n * y) by ring. eapply Rle_lt_trans; [apply Rabs_triang|]. unfold u24 in *. lra. }
  assert (D : Rabs (x - RN (IZR n * y)) <= (1 + 2 * u24) * Rabs x + eta).
  { replace (x - RN (IZR n * y)) with ((x - IZR n * y) + - (RN (IZR n * y) - IZR n * y)) by ring. eapply Rle_trans; [apply Rabs_triang|]. rewrite Rabs_Ropp. unfold u24 in *. lra. }
  assert (V2 : value (f_sub z (f_mul (tr_lane b (f_div z w)) w)) = Fin (RN (x - RN (IZR n * y)))).
  { apply sub_val; [exact Vz|exact V1|]. replace (RN (x - RN (IZR n * y))) with ((RN (x - RN (IZR n * y)) - (x - RN (IZR n * y))) + (x - RN (IZR n * y))) by ring. eapply Rle_lt_trans; [apply Rabs_triang|]. unfold u24 in *. lra. }
  exists (RN (x - RN (IZR n * y))). split.
  - destruct b as [|s3 s4 [] av]; [|contradiction|exact V2]. unfold mod_q. rewrite f_mul_comm. exact V2.
  - replace (RN (x - RN (IZR n * y)) - (x - IZR n * y)) with ((RN (x - RN (IZR n * y)) - (x - RN (IZR n * y))) + - (RN (IZR n * y) - IZR n * y)) by ring.
    eapply Rle_trans; [apply Rabs_triang|]. rewrite Rabs_Ropp. unfold u24 in *. lra.
Qed.
End Rem.
