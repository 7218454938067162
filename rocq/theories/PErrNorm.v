(** Error bounds of lengths and normalisations on bit patterns. *)
From Coq Require Import Reals Lra Lia ZArith Bool.
From Flocq Require Import Core Relative IEEE754.BinarySingleNaN.
From Verif Require Import Base F32 F32Facts Intrin Lane MVec SpecF32 PF32 SpecRound PFloat PRound PExp SpecGeom SpecErr PErr.
Open Scope R_scope.

(** ** squared lengths on every path *)
Lemma sq_abs x : Rabs (x * x) = x * x. Proof. apply Rabs_pos_eq. apply (Rle_0_sqr x). Qed.
Ltac sqp := repeat match goal with |- context [?x * ?x] => lazymatch goal with H : 0 <= x * x |- _ => fail | _ => pose proof (Rle_0_sqr x : 0 <= x * x) end end.
Ltac sqside := rewrite ?sq_abs in *; sqp; lra.
Lemma bd_join K M k m z x0 a0 x a : bd k m z x0 a0 -> x0 = x -> a0 <= a -> (k <= K <= 100)%Z -> (m <= M <= 1000)%Z -> bd K M z x a.
Proof. intros H <- HA HK HM. eapply bd_k; [eapply bd_a; eassumption|exact HK|exact HM]. Qed.
Ltac ksidez := split; [kside|kside].
Ltac sfin := eapply bd_join; [bdt; try kside; try sqside|ring|sqside|ksidez|ksidez].
Definition LenSq2 (b : backend) (V : quad Z) : quad Z :=
  match b with
  | SSE _ true _ _ => dp_ps V V mask2
  | SSE true _ _ _ => let l := vmul V V in moveldup (hadd l l)
  | _ => XMVector2Dot b V V
  end.
Lemma lensq2_bd b V x i : holds2 V x -> dot2 x x <= big ->
  bd 4 20 (lane (LenSq2 b V) i) (dot2 x x) (dot2 x x) /\ bd 4 20 (qx (hadd (vmul V V) (vmul V V))) (dot2 x x) (dot2 x x).
Proof.
  dq4 V a0 a1 a2 a3; dq4 x x0 x1 x2 x3. hyps. sqp.
  split; [destruct b as [|[|] [|] f av]; destruct i|]; cbv beta iota zeta delta [LenSq2 XMVector2Dot dot2_sse2 mask2]; fl; sfin.
Qed.
Lemma lensq3_bd b V x i : holds3 V x -> dot3 x x <= big ->
  bd 4 20 (lane (XMVector3Dot b V V) i) (dot3 x x) (dot3 x x) /\ bd 4 20 (lane (lensq3_sse3 V) i) (dot3 x x) (dot3 x x)
  /\ bd 4 20 (lane (lensq3_sse2_xzy V) i) (dot3 x x) (dot3 x x) /\ bd 4 20 (lane (dot3_sse2 V V) i) (dot3 x x) (dot3 x x)
  /\ bd 4 20 (lane (dp_ps V V mask3) i) (dot3 x x) (dot3 x x).
Proof.
  dq4 V a0 a1 a2 a3; dq4 x x0 x1 x2 x3. hyps. sqp.
  refine (conj _ (conj _ (conj _ (conj _ _)))); [destruct b as [|[|] [|] f av]|..]; destruct i; cbv beta iota zeta delta [XMVector3Dot lensq3_sse3 lensq3_sse2_xzy dot3_sse2]; fl; sfin.
Qed.
Lemma lensq4_bd b V x i : holds4 V x -> dot4 x x <= big ->
  bd 4 20 (lane (XMVector4Dot b V V) i) (dot4 x x) (dot4 x x) /\ bd 4 20 (lane (dot4_sse3 V V) i) (dot4 x x) (dot4 x x)
  /\ bd 4 20 (lane (lensq4_sse2 V) i) (dot4 x x) (dot4 x x) /\ bd 4 20 (lane (dp_ps V V mask4) i) (dot4 x x) (dot4 x x).
Proof.
  dq4 V a0 a1 a2 a3; dq4 x x0 x1 x2 x3. hyps. sqp.
  refine (conj _ (conj _ (conj _ _))); [destruct b as [|[|] [|] f av]|..]; destruct i; cbv beta iota zeta delta [XMVector4Dot lensq4_sse2 dot4_sse2 dot4_sse3 mask4]; fl; sfin.
Qed.

(** ** square root of a squared length, and division by it *)
Lemma sqrt_bd z S : bd 4 20 z S S -> bpow radix2 (-96) <= S <= big ->
  exists q v, value z = Fin q /\ 0 < q /\ value (f_sqrt z) = Fin v /\ 0 < v /\ Rabs (v - sqrt S) <= 33 / 10 * u24 * sqrt S.
Proof.
  intros (_ & _ & _ & q & V & E) (HS & HB).
  assert (P96 : 0 < bpow radix2 (-96)) by apply bpow_gt_0.
  assert (Ee : eta <= / 1000000000 * (u24 * S)).
  { apply Rle_trans with (/ 1000000000 * (u24 * bpow radix2 (-96))); [|unfold u24; lra]. replace eta with (bpow radix2 (-54) * bpow radix2 (-96)) by (unfold eta; rewrite <- bpow_plus; reflexivity).
    rewrite <- Rmult_assoc. apply Rmult_le_compat_r; [lra|]. change (bpow radix2 (-54)) with (/ 18014398509481984). unfold u24. lra. }
  assert (S0 : 0 < S) by lra. set (n := sqrt S). assert (N0 : 0 < n) by (apply sqrt_lt_R0, S0). assert (NN : n * n = S) by (apply sqrt_sqrt; lra).
  assert (Eq : Rabs (q - S) <= 402 / 100 * u24 * S) by (unfold w in E; unfold u24 in *; lra).
  assert (Q0 : 9 / 10 * (9 / 10) * S <= q) by (apply Rabs_le_inv in Eq; unfold u24 in *; lra).
  set (s := sqrt q). assert (SS : s * s = q) by (apply sqrt_sqrt; lra). assert (Hs : 9 / 10 * n <= s).
  { apply Rsqr_incr_0; [unfold Rsqr; replace (9 / 10 * n * (9 / 10 * n)) with (9 / 10 * (9 / 10) * (n * n)) by field; rewrite NN, SS; exact Q0|lra|apply sqrt_pos]. }
  assert (Es : Rabs (s - n) <= 22 / 10 * u24 * n).
  { apply Rmult_le_reg_r with (19 / 10 * n); [lra|]. apply Rle_trans with (Rabs (s - n) * (s + n)).
    - apply Rmult_le_compat_l; [apply Rabs_pos|lra].
    - replace (Rabs (s - n) * (s + n)) with (Rabs (q - S)); [|rewrite <- SS, <- NN; replace (s * s - n * n) with ((s - n) * (s + n)) by ring; rewrite Rabs_mult, (Rabs_pos_eq (s + n)) by lra; reflexivity].
      eapply Rle_trans; [exact Eq|]. rewrite <- NN. unfold u24. replace (22 / 10 * / 16777216 * n * (19 / 10 * n)) with (22 / 10 * (19 / 10) * / 16777216 * (n * n)) by field.
      pose proof (Rmult_lt_0_compat _ _ N0 N0). lra. }
  assert (En : eta <= / 1000000000 * (u24 * n)).
  { assert (bpow radix2 (-48) <= n). { replace (bpow radix2 (-48)) with (sqrt (bpow radix2 (-96))); [apply sqrt_le_1_alt; lra|]. change (-96)%Z with (-48 + -48)%Z. rewrite bpow_plus. apply sqrt_square, bpow_ge_0. }
    pose proof eta_small. assert (/ 300000000000000 <= bpow radix2 (-48)) by (change (bpow radix2 (-48)) with (/ 281474976710656); lra). unfold u24. lra. }
  exists q, (RN s). split; [exact V|]. split; [lra|]. pose proof (RN_err s) as RE. rewrite (Rabs_pos_eq s) in RE by lra. apply Rabs_le_inv in Es. apply Rabs_le_inv in RE.
  split; [apply sqrt_val; [exact V|lra]|]. split; [unfold u24 in *; lra|]. apply Rabs_le. unfold u24 in *. lra.
Qed.
Lemma eta_tiny : eta <= / 1000000000000000000000000000000 * u24.
Proof. pose proof eta_small. unfold u24. lra. Qed.
Lemma div_len zx zv x v n : value zx = Fin x -> value zv = Fin v -> 0 < v -> 0 < n -> Rabs (v - n) <= 33 / 10 * u24 * n -> Rabs (x / n) <= 1 ->
  exists r, value (f_div zx zv) = Fin r /\ Rabs (r - x / n) <= 6 * u24 * Rabs (x / n) + 2 * eta.
Proof.
  intros Vx Vv V0 N0 E H1. set (y := x / n) in *. pose proof (Rabs_pos y) as Y0. pose proof eta_tiny as ET. pose proof eta_pos as E0.
  apply Rabs_le_inv in E. assert (Q : Rabs (x / v - y) <= 34 / 10 * u24 * Rabs y).
  { replace (x / v - y) with (y * ((n - v) / v)) by (unfold y; field; lra). rewrite Rabs_mult, Rmult_comm. apply Rmult_le_compat_r; [exact Y0|].
    unfold Rdiv. rewrite Rabs_mult, Rabs_inv, (Rabs_pos_eq v) by lra. apply Rmult_le_reg_r with v; [lra|]. rewrite Rmult_assoc, Rinv_l, Rmult_1_r by lra. apply Rabs_le. unfold u24 in *. lra. }
  pose proof (RN_err (x / v)) as RE. assert (A : Rabs (x / v) <= Rabs y + 34 / 10 * u24 * Rabs y) by (replace (x / v) with ((x / v - y) + y) by ring; eapply Rle_trans; [apply Rabs_triang|lra]).
  exists (RN (x / v)). split.
  - apply div_val; [exact Vx|exact Vv|lra|]. apply small_huge. unfold u24 in *. lra.
  - replace (RN (x / v) - y) with ((RN (x / v) - x / v) + (x / v - y)) by ring. eapply Rle_trans; [apply Rabs_triang|]. unfold u24 in *. lra.
Qed.
Lemma rcp_len zv v n : value zv = Fin v -> 0 < v -> bpow radix2 (-48) <= n <= bpow radix2 63 -> Rabs (v - n) <= 33 / 10 * u24 * n ->
  exists i, value (f_div (f_lit 1 0) zv) = Fin i /\ Rabs (i - / n) <= 45 / 10 * u24 * / n.
Proof.
  intros Vv V0 (NL & NH) E. assert (N0 : 0 < n) by (eapply Rlt_le_trans; [apply bpow_gt_0|exact NL]).
  pose proof eta_pos as E0. apply Rabs_le_inv in E.
  assert (IN : / n <= bpow radix2 48). { apply Rle_trans with (/ bpow radix2 (-48)); [apply Rinv_le_contravar; [apply bpow_gt_0|exact NL]|]. change (-48)%Z with (- (48))%Z. rewrite bpow_opp, Rinv_inv. lra. }
  assert (IL : bpow radix2 (-63) <= / n). { change (-63)%Z with (- (63))%Z. rewrite bpow_opp. apply Rinv_le_contravar; [exact N0|exact NH]. }
  assert (I0 : 0 < / n) by (apply Rinv_0_lt_compat, N0).
  assert (Q : Rabs (1 / v - / n) <= 34 / 10 * u24 * / n).
  { replace (1 / v - / n) with (/ n * ((n - v) / v)) by (field; lra). rewrite Rabs_mult, (Rabs_pos_eq (/ n)), Rmult_comm by lra. apply Rmult_le_compat_r; [lra|].
    unfold Rdiv. rewrite Rabs_mult, Rabs_inv, (Rabs_pos_eq v) by lra. apply Rmult_le_reg_r with v; [lra|]. rewrite Rmult_assoc, Rinv_l, Rmult_1_r by lra. apply Rabs_le. unfold u24 in *. lra. }
  assert (EI : eta <= / 1000000 * (u24 * / n)).
  { apply Rle_trans with (/ 1000000 * (u24 * bpow radix2 (-63))); [|unfold u24; lra]. replace eta with (bpow radix2 (-87) * bpow radix2 (-63)) by (unfold eta; rewrite <- bpow_plus; reflexivity).
    rewrite <- Rmult_assoc. apply Rmult_le_compat_r; [apply bpow_ge_0|]. change (-87)%Z with (-24 + -63)%Z. rewrite bpow_plus. change (bpow radix2 (-24)) with (/ 16777216). change (bpow radix2 (-63)) with (/ 9223372036854775808). unfold u24. lra. }
  pose proof (RN_err (1 / v)) as RE. apply Rabs_le_inv in Q.
  rewrite (Rabs_pos_eq (1 / v)) in RE by (unfold Rdiv; rewrite Rmult_1_l; left; apply Rinv_0_lt_compat, V0).
  set (i := RN (1 / v)) in *. apply Rabs_le_inv in RE. assert (Ei : Rabs (i - / n) <= 45 / 10 * u24 * / n) by (apply Rabs_le; unfold u24 in *; lra).
  assert (Vi : value (f_div (f_lit 1 0) zv) = Fin i).
  { apply div_val; [exact val_one|exact Vv|lra|]. fold i. apply Rle_lt_trans with (bpow radix2 49).
    - apply Rabs_le_inv in Ei. apply Rabs_le. change (bpow radix2 49) with (2 * bpow radix2 48). unfold u24 in *. lra.
    - apply bpow_lt. lia. }
  exists i. split; [exact Vi|exact Ei].
Qed.
Lemma mul_len zx zv x v n : value zx = Fin x -> value zv = Fin v -> 0 < v -> bpow radix2 (-48) <= n <= bpow radix2 63 -> Rabs (v - n) <= 33 / 10 * u24 * n -> Rabs (x / n) <= 1 ->
  exists r, value (f_mul zx (f_div (f_lit 1 0) zv)) = Fin r /\ Rabs (r - x / n) <= 6 * u24 * Rabs (x / n) + 2 * eta.
Proof.
  intros Vx Vv V0 (NL & NH) E H1. assert (N0 : 0 < n) by (eapply Rlt_le_trans; [apply bpow_gt_0|exact NL]).
  set (y := x / n) in *. pose proof (Rabs_pos y) as Y0. pose proof eta_tiny as ET. pose proof eta_pos as E0.
  destruct (rcp_len zv v n Vv V0 (conj NL NH) E) as (i & Vi & Ei).
  assert (Q2 : Rabs (x * i - y) <= 45 / 10 * u24 * Rabs y).
  { replace (x * i - y) with (y * (n * (i - / n))) by (unfold y; field; lra). rewrite Rabs_mult, Rmult_comm. apply Rmult_le_compat_r; [exact Y0|].
    rewrite Rabs_mult, (Rabs_pos_eq n) by lra. apply Rle_trans with (n * (45 / 10 * u24 * / n)); [apply Rmult_le_compat_l; lra|]. right. field. lra. }
  pose proof (RN_err (x * i)) as RE2. assert (A : Rabs (x * i) <= Rabs y + 45 / 10 * u24 * Rabs y) by (replace (x * i) with ((x * i - y) + y) by ring; eapply Rle_trans; [apply Rabs_triang|lra]).
  exists (RN (x * i)). split.
  - apply mul_val; [exact Vx|exact Vi|]. apply small_huge. unfold u24 in *. lra.
  - replace (RN (x * i) - y) with ((RN (x * i) - x * i) + (x * i - y)) by ring. eapply Rle_trans; [apply Rabs_triang|]. unfold u24 in *. lra.
Qed.
(** ** one lane of a normalisation *)
Definition norm_ok (S : R) : Prop := bpow radix2 (-96) <= S <= big.
Lemma tail_lane (V LS : quad Z) x S i : bd 4 20 (lane LS i) S S -> norm_ok S -> value (lane V i) = Fin x -> Rabs (x / sqrt S) <= 1 ->
  exists r, value (lane (normalize_tail V LS) i) = Fin r /\ Rabs (r - x / sqrt S) <= 6 * u24 * Rabs (x / sqrt S) + 2 * eta.
Proof.
  intros B HS Vx H1. destruct (sqrt_bd _ _ B HS) as (q & v & Vq & Q0 & Vv & V0 & E).
  assert (N0 : 0 < sqrt S) by (apply sqrt_lt_R0; destruct HS as (HS & _); eapply Rlt_le_trans; [apply bpow_gt_0|exact HS]).
  destruct (div_len _ _ _ _ _ Vx Vv V0 N0 E H1) as (r & Vr & Er). exists r. split; [|exact Er].
  assert (Z1 : f_eq (f_lit 0 0) (f_sqrt (lane LS i)) = false).
  { apply Bool.not_true_iff_false. intros H. apply f_eq_spec in H. rewrite val_zero, Vv in H. cbn [xeq] in H. lra. }
  assert (Z2 : f_eq (lane LS i) 0x7F800000 = false).
  { apply Bool.not_true_iff_false. intros H. apply f_eq_spec in H. rewrite Vq in H. change (value 0x7F800000) with (Inf false) in H. exact H. }
  clear B Vx Vv Vq. dq4 V a0 a1 a2 a3; destruct LS as [l0 l1 l2 l3]. destruct i; cbn [lane qx qy qz qw] in *; cbv beta iota zeta delta [normalize_tail]; fl; rewrite Z2, Z1; exact Vr.
Qed.
Lemma scalar_lane (V len : quad Z) z x S i : qx len = f_sqrt z -> bd 4 20 z S S -> norm_ok S -> value (lane V i) = Fin x -> Rabs (x / sqrt S) <= 1 ->
  exists r, value (lane (normalize_scalar V len) i) = Fin r /\ Rabs (r - x / sqrt S) <= 6 * u24 * Rabs (x / sqrt S) + 2 * eta.
Proof.
  intros HL B HS Vx H1. destruct (sqrt_bd _ _ B HS) as (q & v & Vq & Q0 & Vv & V0 & E).
  assert (HN : bpow radix2 (-48) <= sqrt S <= bpow radix2 63).
  { destruct HS as (h1 & h2). split.
    - replace (bpow radix2 (-48)) with (sqrt (bpow radix2 (-96))); [apply sqrt_le_1_alt; lra|]. change (-96)%Z with (-48 + -48)%Z. rewrite bpow_plus. apply sqrt_square, bpow_ge_0.
    - replace (bpow radix2 63) with (sqrt big); [apply sqrt_le_1_alt; lra|]. unfold big. change 126%Z with (63 + 63)%Z. rewrite bpow_plus. apply sqrt_square, bpow_ge_0. }
  destruct (mul_len _ _ _ _ _ Vx Vv V0 HN E H1) as (r & Vr & Er). exists r. split; [|exact Er].
  unfold normalize_scalar. cbv beta iota zeta delta [T tgt tlt FL tdiv tmul tlit zero one]. rewrite HL.
  assert (Z1 : f_lt (f_lit 0 0) (f_sqrt z) = true) by (apply f_lt_spec; rewrite val_zero, Vv; exact V0).
  rewrite Z1. rewrite <- Vr. destruct i; reflexivity.
Qed.

(** ** lengths *)
Local Opaque f_add f_sub f_mul f_div f_sqrt f_fma f_lit f_neg f_eq f_lt.
Lemma mid_ok S : mid_range (sqrt S) -> 0 <= S -> norm_ok S.
Proof.
  intros (h1 & h2) H0. change (pow2 (-48)) with (bpow radix2 (-48)) in h1. change (pow2 63) with (bpow radix2 63) in h2. pose proof (sqrt_sqrt S H0) as E. pose proof (bpow_ge_0 radix2 (-48)). split.
  - change (-96)%Z with (-48 + -48)%Z. rewrite bpow_plus, <- E. apply Rmult_le_compat; assumption.
  - unfold big. change 126%Z with (63 + 63)%Z. rewrite bpow_plus, <- E. apply Rmult_le_compat; (assumption || apply sqrt_pos).
Qed.
Lemma dot2_pos x : 0 <= dot2 x x. Proof. dq4 x a b c d. unfold dot2; cbn [qx qy qz qw]. sqp. lra. Qed.
Lemma dot3_pos x : 0 <= dot3 x x. Proof. dq4 x a b c d. unfold dot3; cbn [qx qy qz qw]. sqp. lra. Qed.
Lemma dot4_pos x : 0 <= dot4 x x. Proof. dq4 x a b c d. unfold dot4; cbn [qx qy qz qw]. sqp. lra. Qed.
Lemma sqrt_within z S : bd 4 20 z S S -> norm_ok S -> within (4 * ulp_half * sqrt S) (f_sqrt z) (sqrt S).
Proof. intros B HS. destruct (sqrt_bd _ _ B HS) as (q & v & _ & _ & Vv & _ & E). exists v. split; [exact Vv|]. pose proof (sqrt_pos S). unfold ulp_half. unfold u24 in E. lra. Qed.
Lemma mid_bounds S : norm_ok S -> bpow radix2 (-48) <= sqrt S <= bpow radix2 63.
Proof.
  intros (h1 & h2). split.
  - replace (bpow radix2 (-48)) with (sqrt (bpow radix2 (-96))); [apply sqrt_le_1_alt; lra|]. change (-96)%Z with (-48 + -48)%Z. rewrite bpow_plus. apply sqrt_square, bpow_ge_0.
  - replace (bpow radix2 63) with (sqrt big); [apply sqrt_le_1_alt; lra|]. unfold big. change 126%Z with (63 + 63)%Z. rewrite bpow_plus. apply sqrt_square, bpow_ge_0.
Qed.
Lemma rcp_within z S : bd 4 20 z S S -> norm_ok S -> within (5 * ulp_half * / sqrt S) (f_div (f_lit 1 0) (f_sqrt z)) (/ sqrt S).
Proof.
  intros B HS. destruct (sqrt_bd _ _ B HS) as (q & v & _ & _ & Vv & V0 & E). pose proof (mid_bounds _ HS) as HN.
  destruct (rcp_len _ _ _ Vv V0 HN E) as (i & Vi & Ei). exists i. split; [exact Vi|].
  assert (0 < / sqrt S) by (apply Rinv_0_lt_compat; eapply Rlt_le_trans; [apply bpow_gt_0|apply HN]). unfold ulp_half. unfold u24 in Ei. lra.
Qed.
(** a lane of a square root or reciprocal square root of a whole register *)
Lemma vsqrt_lane (X : quad Z) i : lane (vsqrt X) i = f_sqrt (lane X i). Proof. destruct i; reflexivity. Qed.
Lemma rsqrt_lane (X : quad Z) i : lane (vdiv vone (vsqrt X)) i = f_div (f_lit 1 0) (f_sqrt (lane X i)). Proof. destruct i; reflexivity. Qed.
Lemma xsqrt_lane (X : quad Z) b i : lane (XMVectorSqrt b X) i = f_sqrt (lane X i). Proof. destruct b, i; reflexivity. Qed.
Lemma xrsqrt_lane (X : quad Z) b i : lane (XMVectorReciprocalSqrt b X) i = f_div (f_lit 1 0) (f_sqrt (lane X i)). Proof. destruct b, i; reflexivity. Qed.
Lemma ssqrt_lane (X : quad Z) i : lane (splat I0 (sqrt_ss X)) i = f_sqrt (qx X). Proof. destruct i; reflexivity. Qed.
Lemma srsqrt_lane (X : quad Z) i : lane (splat I0 (div_ss vone (sqrt_ss X))) i = f_div (f_lit 1 0) (f_sqrt (qx X)). Proof. destruct i; reflexivity. Qed.
Lemma length2_err b V x i : holds2 V x -> mid_range (norm2 x) ->
  within (4 * ulp_half * norm2 x) (lane (XMVector2Length b V) i) (norm2 x) /\ within (5 * ulp_half * / norm2 x) (lane (XMVector2ReciprocalLength b V) i) (/ norm2 x).
Proof.
  intros HV HM. pose proof (mid_ok _ HM (dot2_pos x)) as OK. pose proof (fun b => proj1 (lensq2_bd b V x i HV (proj2 OK))) as B1. pose proof (proj2 (lensq2_bd b V x i HV (proj2 OK))) as B2.
  pose proof (B1 Scalar) as B0. pose proof (B1 (SSE false true true NoAVX)) as B4. pose proof (B1 (SSE false false true NoAVX)) as B3. clear B1 HV HM. unfold LenSq2 in *.
  unfold norm2. split; destruct b as [|[|] [|] f av]; unfold XMVector2Length, XMVector2ReciprocalLength, XMVector2LengthSq;
  rewrite ?xsqrt_lane, ?xrsqrt_lane, ?vsqrt_lane, ?rsqrt_lane, ?ssqrt_lane, ?srsqrt_lane.
  all: first [apply sqrt_within; [|exact OK]|apply rcp_within; [|exact OK]]; lazymatch goal with |- bd _ _ (qx (hadd _ _)) _ _ => exact B2 | |- bd _ _ (lane (dp_ps _ _ _) _) _ _ => exact B4 | |- bd _ _ (lane (XMVector2Dot Scalar _ _) _) _ _ => exact B0 | |- bd _ _ (qx (add_ss _ _)) _ _ => destruct i; exact B3 | |- _ => exact B3 end.
Qed.
Lemma length3_err b V x i : holds3 V x -> mid_range (norm3 x) ->
  within (4 * ulp_half * norm3 x) (lane (XMVector3Length b V) i) (norm3 x) /\ within (5 * ulp_half * / norm3 x) (lane (XMVector3ReciprocalLength b V) i) (/ norm3 x).
Proof.
  intros HV HM. pose proof (mid_ok _ HM (dot3_pos x)) as OK. destruct (lensq3_bd Scalar V x i HV (proj2 OK)) as (B0 & B3 & B2 & B2' & B4).
  unfold norm3. split; destruct b as [|[|] [|] f av]; unfold XMVector3Length, XMVector3ReciprocalLength, XMVector3LengthSq;
  rewrite ?xsqrt_lane, ?xrsqrt_lane, ?vsqrt_lane, ?rsqrt_lane; first [apply sqrt_within; [|exact OK]|apply rcp_within; [|exact OK]]; assumption.
Qed.
Lemma length4_err b V x i : holds4 V x -> mid_range (norm4 x) ->
  within (4 * ulp_half * norm4 x) (lane (XMVector4Length b V) i) (norm4 x) /\ within (5 * ulp_half * / norm4 x) (lane (XMVector4ReciprocalLength b V) i) (/ norm4 x).
Proof.
  intros HV HM. pose proof (mid_ok _ HM (dot4_pos x)) as OK. destruct (lensq4_bd Scalar V x i HV (proj2 OK)) as (B0 & B3 & B2 & B4).
  unfold norm4. split; destruct b as [|[|] [|] f av]; unfold XMVector4Length, XMVector4ReciprocalLength, XMVector4LengthSq;
  rewrite ?xsqrt_lane, ?xrsqrt_lane, ?vsqrt_lane, ?rsqrt_lane; first [apply sqrt_within; [|exact OK]|apply rcp_within; [|exact OK]]; assumption.
Qed.
(** ** normalisations *)
Lemma xsqrt_x (X : quad Z) b : qx (XMVectorSqrt b X) = f_sqrt (qx X). Proof. destruct b; reflexivity. Qed.
Definition unit_lane (x n : R) (z : Z) : Prop := exists r, value z = Fin r /\ Rabs (r - x / n) <= 6 * u24 * Rabs (x / n) + 2 * eta.
Lemma component_le x S : x * x <= S -> 0 < S -> Rabs (x / sqrt S) <= 1.
Proof.
  intros H S0. assert (0 < sqrt S) by (apply sqrt_lt_R0, S0). unfold Rdiv. rewrite Rabs_mult, Rabs_inv, (Rabs_pos_eq (sqrt S)) by lra.
  apply Rmult_le_reg_r with (sqrt S); [lra|]. rewrite Rmult_assoc, Rinv_l, Rmult_1_l, Rmult_1_r by lra. rewrite <- sqrt_Rsqr_abs. apply sqrt_le_1_alt. exact H.
Qed.
Lemma normalize2_lane b V x i : holds2 V x -> mid_range (norm2 x) -> value (lane V i) = Fin (lane x i) -> Rabs (lane x i / norm2 x) <= 1 -> unit_lane (lane x i) (norm2 x) (lane (XMVector2Normalize b V) i).
Proof.
  intros HV HM Vi Hi. pose proof (mid_ok _ HM (dot2_pos x)) as OK. pose proof (fun b => proj1 (lensq2_bd b V x i HV (proj2 OK))) as B1.
  pose proof (proj1 (lensq2_bd Scalar V x I0 HV (proj2 OK))) as BS. unfold LenSq2, lane in BS.
  unfold XMVector2Normalize. destruct b as [|[|] [|] f av].
  - eapply scalar_lane; [|exact BS|exact OK|exact Vi|exact Hi]. unfold XMVector2Length, XMVector2LengthSq. apply xsqrt_x.
  - apply tail_lane; [exact (B1 (SSE true true true NoAVX))|exact OK|exact Vi|exact Hi].
  - apply tail_lane; [exact (B1 (SSE true false true NoAVX))|exact OK|exact Vi|exact Hi].
  - apply tail_lane; [exact (B1 (SSE false true true NoAVX))|exact OK|exact Vi|exact Hi].
  - apply tail_lane; [exact (B1 (SSE false false true NoAVX))|exact OK|exact Vi|exact Hi].
Qed.
Lemma normalize3_lane b V x i : holds3 V x -> mid_range (norm3 x) -> value (lane V i) = Fin (lane x i) -> Rabs (lane x i / norm3 x) <= 1 -> unit_lane (lane x i) (norm3 x) (lane (XMVector3Normalize b V) i).
Proof.
  intros HV HM Vi Hi. pose proof (mid_ok _ HM (dot3_pos x)) as OK. destruct (lensq3_bd Scalar V x i HV (proj2 OK)) as (_ & B3 & _ & B2 & B4).
  pose proof (proj1 (lensq3_bd Scalar V x I0 HV (proj2 OK))) as BS. unfold lane in BS.
  unfold XMVector3Normalize. destruct b as [|[|] [|] f av].
  - eapply scalar_lane; [|exact BS|exact OK|exact Vi|exact Hi]. unfold XMVector3Length, XMVector3LengthSq. apply xsqrt_x.
  - apply tail_lane; [exact B4|exact OK|exact Vi|exact Hi].
  - apply tail_lane; [exact B3|exact OK|exact Vi|exact Hi].
  - apply tail_lane; [exact B4|exact OK|exact Vi|exact Hi].
  - apply tail_lane; [exact B2|exact OK|exact Vi|exact Hi].
Qed.
Lemma normalize4_lane b V x i : holds4 V x -> mid_range (norm4 x) -> value (lane V i) = Fin (lane x i) -> Rabs (lane x i / norm4 x) <= 1 -> unit_lane (lane x i) (norm4 x) (lane (XMVector4Normalize b V) i).
Proof.
  intros HV HM Vi Hi. pose proof (mid_ok _ HM (dot4_pos x)) as OK. destruct (lensq4_bd Scalar V x i HV (proj2 OK)) as (_ & B3 & B2 & B4).
  pose proof (proj1 (lensq4_bd Scalar V x I0 HV (proj2 OK))) as BS. unfold lane in BS.
  unfold XMVector4Normalize. destruct b as [|[|] [|] f av].
  - eapply scalar_lane; [|exact BS|exact OK|exact Vi|exact Hi]. unfold XMVector4Length, XMVector4LengthSq. apply xsqrt_x.
  - apply tail_lane; [exact B4|exact OK|exact Vi|exact Hi].
  - apply tail_lane; [exact B3|exact OK|exact Vi|exact Hi].
  - apply tail_lane; [exact B4|exact OK|exact Vi|exact Hi].
  - apply tail_lane; [exact B2|exact OK|exact Vi|exact Hi].
Qed.
(** the squares *)
Lemma unit_sq y r : Rabs y <= 1 -> Rabs (r - y) <= 6 * u24 * Rabs y + 2 * eta -> Rabs (r * r - y * y) <= 122 / 10 * u24 * (y * y) + / 100000000000000000000 * u24.
Proof.
  intros Y E. pose proof (Rabs_pos y) as P. pose proof eta_tiny as ET. pose proof eta_pos as E0.
  replace (r * r - y * y) with ((r - y) * ((r - y) + 2 * y)) by ring. rewrite Rabs_mult.
  assert (H : Rabs ((r - y) + 2 * y) <= 2001 / 1000 * Rabs y + 2 * eta).
  { eapply Rle_trans; [apply Rabs_triang|]. rewrite (Rabs_mult 2), (Rabs_pos_eq 2) by lra. unfold u24 in *. lra. }
  apply Rle_trans with ((6 * u24 * Rabs y + 2 * eta) * (2001 / 1000 * Rabs y + 2 * eta)); [apply Rmult_le_compat; [apply Rabs_pos|apply Rabs_pos|exact E|exact H]|].
  replace (y * y) with (Rabs y * Rabs y) by (rewrite <- Rabs_mult; apply sq_abs). set (a := Rabs y) in *.
  assert (A2 : 0 <= a * a) by (apply Rmult_le_pos; lra). assert (AE : a * eta <= eta) by (rewrite <- (Rmult_1_l eta) at 2; apply Rmult_le_compat_r; lra). assert (AE0 : 0 <= a * eta) by (apply Rmult_le_pos; lra).
  assert (EE : eta * eta <= eta). { rewrite <- (Rmult_1_l eta) at 3. apply Rmult_le_compat_r; [lra|]. unfold u24 in ET. lra. }
  replace ((6 * u24 * a + 2 * eta) * (2001 / 1000 * a + 2 * eta)) with (6 * u24 * (2001 / 1000) * (a * a) + (12 * u24 + 4002 / 1000) * (a * eta) + 4 * (eta * eta)) by field.
  unfold u24 in *. lra.
Qed.
Lemma sqrt_one_err t e : 0 <= t -> Rabs (t - 1) <= e -> Rabs (sqrt t - 1) <= e.
Proof.
  intros T0 H. pose proof (sqrt_pos t) as P. pose proof (sqrt_sqrt t T0) as E. set (s := sqrt t) in *. apply Rle_trans with (Rabs (s - 1) * (s + 1)).
  - pose proof (Rabs_pos (s - 1)). assert (0 <= Rabs (s - 1) * s) by (apply Rmult_le_pos; assumption). lra.
  - rewrite <- (Rabs_pos_eq (s + 1)), <- Rabs_mult by lra. replace ((s - 1) * (s + 1)) with (t - 1) by (rewrite <- E; ring). exact H.
Qed.
(** the result of a normalisation: every lane close to the exact one and the whole close to unit length *)
Lemma unit_norm2 x0 x1 r0 r1 n : 0 < n -> x0 * x0 + x1 * x1 = n * n ->
  Rabs (r0 - x0 / n) <= 6 * u24 * Rabs (x0 / n) + 2 * eta -> Rabs (r1 - x1 / n) <= 6 * u24 * Rabs (x1 / n) + 2 * eta ->
  Rabs (x0 / n) <= 1 -> Rabs (x1 / n) <= 1 -> Rabs (sqrt (r0 * r0 + r1 * r1) - 1) <= / 1000000.
Proof.
  intros N0 HN E0 E1 H0 H1. pose proof (unit_sq _ _ H0 E0) as S0. pose proof (unit_sq _ _ H1 E1) as S1. apply Rabs_le_inv in S0, S1.
  assert (U : x0 / n * (x0 / n) + x1 / n * (x1 / n) = 1) by (replace (x0 / n * (x0 / n) + x1 / n * (x1 / n)) with ((x0 * x0 + x1 * x1) / (n * n)) by (field; lra); rewrite HN; field; lra).
  apply sqrt_one_err; [sqp; lra|]. apply Rabs_le. unfold u24 in *. lra.
Qed.
Lemma unit_norm3 x0 x1 x2 r0 r1 r2 n : 0 < n -> x0 * x0 + x1 * x1 + x2 * x2 = n * n ->
  Rabs (r0 - x0 / n) <= 6 * u24 * Rabs (x0 / n) + 2 * eta -> Rabs (r1 - x1 / n) <= 6 * u24 * Rabs (x1 / n) + 2 * eta -> Rabs (r2 - x2 / n) <= 6 * u24 * Rabs (x2 / n) + 2 * eta ->
  Rabs (x0 / n) <= 1 -> Rabs (x1 / n) <= 1 -> Rabs (x2 / n) <= 1 -> Rabs (sqrt (r0 * r0 + r1 * r1 + r2 * r2) - 1) <= / 1000000.
Proof.
  intros N0 HN E0 E1 E2 H0 H1 H2. pose proof (unit_sq _ _ H0 E0) as S0. pose proof (unit_sq _ _ H1 E1) as S1. pose proof (unit_sq _ _ H2 E2) as S2. apply Rabs_le_inv in S0, S1, S2.
  assert (U : x0 / n * (x0 / n) + x1 / n * (x1 / n) + x2 / n * (x2 / n) = 1) by (replace (x0 / n * (x0 / n) + x1 / n * (x1 / n) + x2 / n * (x2 / n)) with ((x0 * x0 + x1 * x1 + x2 * x2) / (n * n)) by (field; lra); rewrite HN; field; lra).
  apply sqrt_one_err; [sqp; lra|]. apply Rabs_le. unfold u24 in *. lra.
Qed.
Lemma unit_norm4 x0 x1 x2 x3 r0 r1 r2 r3 n : 0 < n -> x0 * x0 + x1 * x1 + x2 * x2 + x3 * x3 = n * n ->
  Rabs (r0 - x0 / n) <= 6 * u24 * Rabs (x0 / n) + 2 * eta -> Rabs (r1 - x1 / n) <= 6 * u24 * Rabs (x1 / n) + 2 * eta -> Rabs (r2 - x2 / n) <= 6 * u24 * Rabs (x2 / n) + 2 * eta ->
  Rabs (r3 - x3 / n) <= 6 * u24 * Rabs (x3 / n) + 2 * eta ->
  Rabs (x0 / n) <= 1 -> Rabs (x1 / n) <= 1 -> Rabs (x2 / n) <= 1 -> Rabs (x3 / n) <= 1 -> Rabs (sqrt (r0 * r0 + r1 * r1 + r2 * r2 + r3 * r3) - 1) <= / 1000000.
Proof.
  intros N0 HN E0 E1 E2 E3 H0 H1 H2 H3. pose proof (unit_sq _ _ H0 E0) as S0. pose proof (unit_sq _ _ H1 E1) as S1. pose proof (unit_sq _ _ H2 E2) as S2. pose proof (unit_sq _ _ H3 E3) as S3. apply Rabs_le_inv in S0, S1, S2, S3.
  assert (U : x0 / n * (x0 / n) + x1 / n * (x1 / n) + x2 / n * (x2 / n) + x3 / n * (x3 / n) = 1)
    by (replace (x0 / n * (x0 / n) + x1 / n * (x1 / n) + x2 / n * (x2 / n) + x3 / n * (x3 / n)) with ((x0 * x0 + x1 * x1 + x2 * x2 + x3 * x3) / (n * n)) by (field; lra); rewrite HN; field; lra).
  apply sqrt_one_err; [sqp; lra|]. apply Rabs_le. unfold u24 in *. lra.
Qed.
Lemma normalize2_err b V x : holds2 V x -> mid_range (norm2 x) -> exists r : rvec,
  value (qx (XMVector2Normalize b V)) = Fin (qx r) /\ value (qy (XMVector2Normalize b V)) = Fin (qy r)
  /\ Rabs (qx r - qx x / norm2 x) <= 6 * ulp_half * Rabs (qx x / norm2 x) + 2 * tiny /\ Rabs (qy r - qy x / norm2 x) <= 6 * ulp_half * Rabs (qy x / norm2 x) + 2 * tiny
  /\ Rabs (norm2 r - 1) <= / 1000000.
Proof.
  intros HV HM. pose proof (mid_ok _ HM (dot2_pos x)) as OK. assert (S0 : 0 < dot2 x x) by (eapply Rlt_le_trans; [apply bpow_gt_0|apply OK]).
  assert (C0 : Rabs (qx x / norm2 x) <= 1) by (apply component_le; [unfold dot2; sqp; lra|exact S0]).
  assert (C1 : Rabs (qy x / norm2 x) <= 1) by (apply component_le; [unfold dot2; sqp; lra|exact S0]).
  destruct (normalize2_lane b V x I0 HV HM (proj2 (proj1 HV)) C0) as (r0 & V0 & E0).
  destruct (normalize2_lane b V x I1 HV HM (proj2 (proj2 HV)) C1) as (r1 & V1 & E1).
  exists (Q r0 r1 0 0). cbn [lane qx qy qz qw] in *. rewrite tiny_eta. change ulp_half with u24. split; [exact V0|]. split; [exact V1|]. split; [exact E0|]. split; [exact E1|].
  unfold norm2 at 1. unfold dot2. cbn [qx qy]. eapply unit_norm2; [|..|exact E0|exact E1|exact C0|exact C1]; [apply sqrt_lt_R0, S0|]. unfold norm2. rewrite sqrt_sqrt by lra. reflexivity.
Qed.
Lemma normalize3_err b V x : holds3 V x -> mid_range (norm3 x) -> exists r : rvec,
  value (qx (XMVector3Normalize b V)) = Fin (qx r) /\ value (qy (XMVector3Normalize b V)) = Fin (qy r) /\ value (qz (XMVector3Normalize b V)) = Fin (qz r)
  /\ Rabs (qx r - qx x / norm3 x) <= 6 * ulp_half * Rabs (qx x / norm3 x) + 2 * tiny /\ Rabs (qy r - qy x / norm3 x) <= 6 * ulp_half * Rabs (qy x / norm3 x) + 2 * tiny
  /\ Rabs (qz r - qz x / norm3 x) <= 6 * ulp_half * Rabs (qz x / norm3 x) + 2 * tiny /\ Rabs (norm3 r - 1) <= / 1000000.
Proof.
  intros HV HM. pose proof (mid_ok _ HM (dot3_pos x)) as OK. assert (S0 : 0 < dot3 x x) by (eapply Rlt_le_trans; [apply bpow_gt_0|apply OK]).
  assert (C0 : Rabs (qx x / norm3 x) <= 1) by (apply component_le; [unfold dot3; sqp; lra|exact S0]).
  assert (C1 : Rabs (qy x / norm3 x) <= 1) by (apply component_le; [unfold dot3; sqp; lra|exact S0]).
  assert (C2 : Rabs (qz x / norm3 x) <= 1) by (apply component_le; [unfold dot3; sqp; lra|exact S0]).
  destruct (normalize3_lane b V x I0 HV HM (proj2 (proj1 HV)) C0) as (r0 & V0 & E0).
  destruct (normalize3_lane b V x I1 HV HM (proj2 (proj1 (proj2 HV))) C1) as (r1 & V1 & E1).
  destruct (normalize3_lane b V x I2 HV HM (proj2 (proj2 (proj2 HV))) C2) as (r2 & V2 & E2).
  exists (Q r0 r1 r2 0). cbn [lane qx qy qz qw] in *. rewrite tiny_eta. change ulp_half with u24. split; [exact V0|]. split; [exact V1|]. split; [exact V2|]. split; [exact E0|]. split; [exact E1|]. split; [exact E2|].
  unfold norm3 at 1. unfold dot3. cbn [qx qy qz]. eapply unit_norm3; [|..|exact E0|exact E1|exact E2|exact C0|exact C1|exact C2]; [apply sqrt_lt_R0, S0|]. unfold norm3. rewrite sqrt_sqrt by lra. reflexivity.
Qed.
Lemma normalize4_err b V x : holds4 V x -> mid_range (norm4 x) -> exists r : rvec,
  (forall i, value (lane (XMVector4Normalize b V) i) = Fin (lane r i) /\ Rabs (lane r i - lane x i / norm4 x) <= 6 * ulp_half * Rabs (lane x i / norm4 x) + 2 * tiny)
  /\ Rabs (norm4 r - 1) <= / 1000000.
Proof.
  intros HV HM. pose proof (mid_ok _ HM (dot4_pos x)) as OK. assert (S0 : 0 < dot4 x x) by (eapply Rlt_le_trans; [apply bpow_gt_0|apply OK]).
  assert (C0 : Rabs (qx x / norm4 x) <= 1) by (apply component_le; [unfold dot4; sqp; lra|exact S0]).
  assert (C1 : Rabs (qy x / norm4 x) <= 1) by (apply component_le; [unfold dot4; sqp; lra|exact S0]).
  assert (C2 : Rabs (qz x / norm4 x) <= 1) by (apply component_le; [unfold dot4; sqp; lra|exact S0]).
  assert (C3 : Rabs (qw x / norm4 x) <= 1) by (apply component_le; [unfold dot4; sqp; lra|exact S0]).
  destruct (normalize4_lane b V x I0 HV HM (proj2 (proj1 HV)) C0) as (r0 & V0 & E0).
  destruct (normalize4_lane b V x I1 HV HM (proj2 (proj1 (proj2 HV))) C1) as (r1 & V1 & E1).
  destruct (normalize4_lane b V x I2 HV HM (proj2 (proj1 (proj2 (proj2 HV)))) C2) as (r2 & V2 & E2).
  destruct (normalize4_lane b V x I3 HV HM (proj2 (proj2 (proj2 (proj2 HV)))) C3) as (r3 & V3 & E3).
  exists (Q r0 r1 r2 r3). rewrite tiny_eta. change ulp_half with u24. split.
  - intros i; destruct i; [split; [exact V0|exact E0]|split; [exact V1|exact E1]|split; [exact V2|exact E2]|split; [exact V3|exact E3]].
  - unfold norm4 at 1. unfold dot4. cbn [lane qx qy qz qw] in *. eapply unit_norm4; [|..|exact E0|exact E1|exact E2|exact E3|exact C0|exact C1|exact C2|exact C3]; [apply sqrt_lt_R0, S0|]. unfold norm4. rewrite sqrt_sqrt by lra. reflexivity.
Qed.
