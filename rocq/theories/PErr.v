(** A calculus of rounding errors on bit patterns, and the error bounds of the vector, quaternion and matrix arithmetic. *)
From Coq Require Import Reals Lra Lia ZArith Bool.
From Flocq Require Import Core Relative IEEE754.BinarySingleNaN.
From Verif Require Import Base F32 F32Facts Intrin Lane MVec SpecF32 PF32 SpecRound PFloat PExp SpecGeom SpecErr.
Open Scope R_scope.

(** one rounding, with room for second-order terms *)
Definition w : R := u24 * (1 + / 1000).
Definition big : R := bpow radix2 126.
Lemma u24_pos : 0 < u24. Proof. unfold u24. lra. Qed.
Lemma big_pos : 1000 < big.
Proof. unfold big. apply Rlt_le_trans with (bpow radix2 10); [change (bpow radix2 10) with 1024; lra|apply bpow_le; lia]. Qed.
Lemma huge_4big : huge = 4 * big.
Proof. unfold huge, big. change 128%Z with (2 + 126)%Z. rewrite bpow_plus. change (bpow radix2 2) with 4. reflexivity. Qed.
Lemma big_pow2 : pow2 126 = big. Proof. reflexivity. Qed.
Lemma tiny_eta : tiny = eta.
Proof. unfold tiny, eta. cbn [pow2 Z.leb Z.compare Z.opp]. reflexivity. Qed.
(** [z] holds a number within [k] roundings relative to [a] and [m] subnormal roundings of [x], and [a] bounds [x] *)
Definition bd (k m : Z) (z : Z) (x a : R) : Prop :=
  (0 <= k <= 100)%Z /\ (0 <= m <= 1000)%Z /\ Rabs x <= a /\ exists v, value z = Fin v /\ Rabs (v - x) <= IZR k * w * a + IZR m * eta.
Lemma bd_exact z x : value z = Fin x -> bd 0 0 z x (Rabs x).
Proof. intros H. split; [lia|]. split; [lia|]. split; [lra|]. exists x. split; [exact H|]. replace (x - x) with 0 by ring. rewrite Rabs_R0. lra. Qed.
Lemma bd_a k m z x a a' : bd k m z x a -> a <= a' -> bd k m z x a'.
Proof.
  intros (K & M & A & v & V & E) H. split; [exact K|]. split; [exact M|]. split; [lra|]. exists v. split; [exact V|].
  assert (0 <= IZR k) by (apply IZR_le; lia). assert (W : 0 < w) by (unfold w, u24; lra).
  assert (IZR k * w * a <= IZR k * w * a'); [|lra]. apply Rmult_le_compat_l; [|exact H]. apply Rmult_le_pos; lra.
Qed.
Lemma bd_x k m z x y a : bd k m z x a -> x = y -> bd k m z y a. Proof. intros H <-; exact H. Qed.
Lemma bd_mag k m x a v : (0 <= k <= 100)%Z -> (0 <= m <= 1000)%Z -> Rabs x <= a -> Rabs (v - x) <= IZR k * w * a + IZR m * eta ->
  Rabs v <= a * (1 + / 10000) + IZR m * eta.
Proof.
  intros K M A E. replace v with (v - x + x) by ring. eapply Rle_trans; [apply Rabs_triang|]. pose proof (Rabs_pos x).
  assert (IZR k * w * a <= / 10000 * a); [|lra]. apply Rmult_le_compat_r; [lra|]. assert (IZR k <= 100) by (apply IZR_le; lia). assert (0 <= IZR k) by (apply IZR_le; lia).
  unfold w, u24. apply Rle_trans with (100 * (/ 16777216 * (1 + / 1000))); [apply Rmult_le_compat_r; lra|lra].
Qed.
(** the rounding that ends an operation *)
Lemma rnd k m t x a : (0 <= k <= 99)%Z -> (0 <= m <= 2000000)%Z -> Rabs x <= a -> a <= big -> Rabs (t - x) <= IZR k * w * a + IZR m * eta ->
  Rabs (RN t) < huge /\ Rabs (RN t - x) <= IZR (k + 1) * w * a + IZR (m + 2) * eta.
Proof.
  intros K M A B E. pose proof eta_pos as E0. pose proof eta_small as ES. pose proof (Rabs_pos x) as Px. pose proof (RN_err t) as RE. pose proof big_pos as BP. rewrite huge_4big.
  assert (Ht : Rabs t <= a * (1 + / 10000) + IZR m * eta).
  { replace t with (t - x + x) by ring. eapply Rle_trans; [apply Rabs_triang|].
    assert (IZR k * w * a <= / 10000 * a); [|lra]. apply Rmult_le_compat_r; [lra|]. assert (IZR k <= 99) by (apply IZR_le; lia). assert (0 <= IZR k) by (apply IZR_le; lia).
    unfold w, u24. apply Rle_trans with (100 * (/ 16777216 * (1 + / 1000))); [apply Rmult_le_compat_r; lra|lra]. }
  assert (Hm : 0 <= IZR m * eta <= 2000000 * eta). { assert (0 <= IZR m <= 2000000) by (split; apply IZR_le; lia). split; [apply Rmult_le_pos; lra|apply Rmult_le_compat_r; lra]. }
  split.
  - replace (RN t) with (RN t - t + t) by ring. eapply Rle_lt_trans; [apply Rabs_triang|]. unfold u24 in RE. lra.
  - replace (RN t - x) with ((RN t - t) + (t - x)) by ring. eapply Rle_trans; [apply Rabs_triang|]. rewrite !plus_IZR.
    assert (U : u24 * Rabs t <= w * a + eta). { unfold w, u24. unfold u24 in RE. lra. }
    lra.
Qed.
Ltac bda := match goal with H : bd _ _ _ _ _ |- _ => destruct H as ((? & ?) & (? & ?) & ? & ? & ? & ?) end.
Lemma bd_add k1 m1 k2 m2 z1 z2 x1 x2 a1 a2 : bd k1 m1 z1 x1 a1 -> bd k2 m2 z2 x2 a2 -> a1 + a2 <= big -> (Z.max k1 k2 <= 99)%Z -> (m1 + m2 <= 998)%Z ->
  bd (Z.max k1 k2 + 1) (m1 + m2 + 2) (f_add z1 z2) (x1 + x2) (a1 + a2).
Proof.
  intros (K1 & M1 & A1 & v1 & V1 & E1) (K2 & M2 & A2 & v2 & V2 & E2) B HK HM.
  assert (AA : Rabs (x1 + x2) <= a1 + a2) by (eapply Rle_trans; [apply Rabs_triang|lra]).
  assert (EE : Rabs (v1 + v2 - (x1 + x2)) <= IZR (Z.max k1 k2) * w * (a1 + a2) + IZR (m1 + m2) * eta).
  { replace (v1 + v2 - (x1 + x2)) with ((v1 - x1) + (v2 - x2)) by ring. eapply Rle_trans; [apply Rabs_triang|]. rewrite plus_IZR.
    pose proof (Rabs_pos x1). pose proof (Rabs_pos x2). assert (W : 0 < w) by (unfold w, u24; lra).
    assert (IZR k1 * w * a1 <= IZR (Z.max k1 k2) * w * a1) by (apply Rmult_le_compat_r; [lra|]; apply Rmult_le_compat_r; [lra|]; apply IZR_le; lia).
    assert (IZR k2 * w * a2 <= IZR (Z.max k1 k2) * w * a2) by (apply Rmult_le_compat_r; [lra|]; apply Rmult_le_compat_r; [lra|]; apply IZR_le; lia).
    lra. }
  destruct (rnd (Z.max k1 k2) (m1 + m2) (v1 + v2) (x1 + x2) (a1 + a2) ltac:(lia) ltac:(lia) AA B EE) as (R1 & R2).
  split; [lia|]. split; [lia|]. split; [exact AA|]. exists (RN (v1 + v2)). split; [apply add_val; assumption|exact R2].
Qed.
Lemma bd_sub k1 m1 k2 m2 z1 z2 x1 x2 a1 a2 : bd k1 m1 z1 x1 a1 -> bd k2 m2 z2 x2 a2 -> a1 + a2 <= big -> (Z.max k1 k2 <= 99)%Z -> (m1 + m2 <= 998)%Z ->
  bd (Z.max k1 k2 + 1) (m1 + m2 + 2) (f_sub z1 z2) (x1 - x2) (a1 + a2).
Proof.
  intros (K1 & M1 & A1 & v1 & V1 & E1) (K2 & M2 & A2 & v2 & V2 & E2) B HK HM.
  assert (AA : Rabs (x1 - x2) <= a1 + a2) by (unfold Rminus; eapply Rle_trans; [apply Rabs_triang|rewrite Rabs_Ropp; lra]).
  assert (EE : Rabs (v1 - v2 - (x1 - x2)) <= IZR (Z.max k1 k2) * w * (a1 + a2) + IZR (m1 + m2) * eta).
  { replace (v1 - v2 - (x1 - x2)) with ((v1 - x1) + - (v2 - x2)) by ring. eapply Rle_trans; [apply Rabs_triang|]. rewrite Rabs_Ropp, plus_IZR.
    pose proof (Rabs_pos x1). pose proof (Rabs_pos x2). assert (W : 0 < w) by (unfold w, u24; lra).
    assert (IZR k1 * w * a1 <= IZR (Z.max k1 k2) * w * a1) by (apply Rmult_le_compat_r; [lra|]; apply Rmult_le_compat_r; [lra|]; apply IZR_le; lia).
    assert (IZR k2 * w * a2 <= IZR (Z.max k1 k2) * w * a2) by (apply Rmult_le_compat_r; [lra|]; apply Rmult_le_compat_r; [lra|]; apply IZR_le; lia).
    lra. }
  destruct (rnd (Z.max k1 k2) (m1 + m2) (v1 - v2) (x1 - x2) (a1 + a2) ltac:(lia) ltac:(lia) AA B EE) as (R1 & R2).
  split; [lia|]. split; [lia|]. split; [exact AA|]. exists (RN (v1 - v2)). split; [apply sub_val; assumption|exact R2].
Qed.
(** product of two inputs *)
Lemma bd_mul z1 z2 x1 x2 : value z1 = Fin x1 -> value z2 = Fin x2 -> Rabs (x1 * x2) <= big -> bd 1 2 (f_mul z1 z2) (x1 * x2) (Rabs (x1 * x2)).
Proof.
  intros V1 V2 B. assert (EE : Rabs (x1 * x2 - x1 * x2) <= IZR 0 * w * Rabs (x1 * x2) + IZR 0 * eta) by (replace (x1 * x2 - x1 * x2) with 0 by ring; rewrite Rabs_R0; lra).
  destruct (rnd 0 0 (x1 * x2) (x1 * x2) (Rabs (x1 * x2)) ltac:(lia) ltac:(lia) (Rle_refl _) B EE) as (R1 & R2).
  split; [lia|]. split; [lia|]. split; [lra|]. exists (RN (x1 * x2)). split; [apply mul_val; assumption|exact R2].
Qed.
(** input times computed value, the input bounded by an integer *)
Lemma bd_mull X k m z1 z2 x1 x2 a : value z1 = Fin x1 -> Rabs x1 <= IZR X -> bd k m z2 x2 a -> Rabs x1 * a <= big -> (k <= 99)%Z -> (0 <= X)%Z -> (X * m <= 998)%Z ->
  bd (k + 1) (X * m + 2) (f_mul z1 z2) (x1 * x2) (Rabs x1 * a).
Proof.
  intros V1 HX (K & M & A & v & V & E) B HK HX0 HM. pose proof (Rabs_pos x1) as P1. pose proof eta_pos as E0.
  assert (AA : Rabs (x1 * x2) <= Rabs x1 * a) by (rewrite Rabs_mult; apply Rmult_le_compat_l; lra).
  assert (EE : Rabs (x1 * v - x1 * x2) <= IZR k * w * (Rabs x1 * a) + IZR (X * m) * eta).
  { replace (x1 * v - x1 * x2) with (x1 * (v - x2)) by ring. rewrite Rabs_mult, mult_IZR.
    apply Rle_trans with (Rabs x1 * (IZR k * w * a + IZR m * eta)); [apply Rmult_le_compat_l; lra|].
    assert (Rabs x1 * (IZR m * eta) <= IZR X * (IZR m * eta)); [|lra]. apply Rmult_le_compat_r; [apply Rmult_le_pos; [apply IZR_le; lia|lra]|exact HX]. }
  destruct (rnd k (X * m)%Z (x1 * v) (x1 * x2) (Rabs x1 * a) ltac:(lia) ltac:(nia) AA B EE) as (R1 & R2).
  split; [lia|]. split; [nia|]. split; [exact AA|]. exists (RN (x1 * v)). split; [apply mul_val; assumption|exact R2].
Qed.
Lemma bd_mulr X k m z1 z2 x1 x2 a : value z2 = Fin x2 -> Rabs x2 <= IZR X -> bd k m z1 x1 a -> Rabs x2 * a <= big -> (k <= 99)%Z -> (0 <= X)%Z -> (X * m <= 998)%Z ->
  bd (k + 1) (X * m + 2) (f_mul z1 z2) (x1 * x2) (Rabs x2 * a).
Proof.
  intros. rewrite f_mul_comm. apply bd_x with (x2 * x1); [|ring]. eapply bd_mull; eassumption.
Qed.
(** fused *)
Lemma bd_fma k m z1 z2 z3 x1 x2 x3 a : value z1 = Fin x1 -> value z2 = Fin x2 -> bd k m z3 x3 a -> Rabs (x1 * x2) + a <= big -> (k <= 99)%Z -> (m <= 998)%Z ->
  bd (k + 1) (m + 2) (f_fma z1 z2 z3) (x1 * x2 + x3) (Rabs (x1 * x2) + a).
Proof.
  intros V1 V2 (K & M & A & v & V & E) B HK HM.
  assert (AA : Rabs (x1 * x2 + x3) <= Rabs (x1 * x2) + a) by (eapply Rle_trans; [apply Rabs_triang|lra]).
  assert (EE : Rabs (x1 * x2 + v - (x1 * x2 + x3)) <= IZR k * w * (Rabs (x1 * x2) + a) + IZR m * eta).
  { replace (x1 * x2 + v - (x1 * x2 + x3)) with (v - x3) by ring. pose proof (Rabs_pos (x1 * x2)).
    assert (0 <= IZR k * w * Rabs (x1 * x2)); [|lra]. apply Rmult_le_pos; [|lra]. apply Rmult_le_pos; [apply IZR_le; lia|unfold w, u24; lra]. }
  destruct (rnd k m (x1 * x2 + v) (x1 * x2 + x3) (Rabs (x1 * x2) + a) ltac:(lia) ltac:(lia) AA B EE) as (R1 & R2).
  split; [lia|]. split; [lia|]. split; [exact AA|]. exists (RN (x1 * x2 + v)). split; [apply fma_val; assumption|exact R2].
Qed.
Lemma neg_val z x : word z -> value z = Fin x -> value (f_neg z) = Fin (- x).
Proof. intros W H. rewrite value_neg, H by exact W. reflexivity. Qed.
Lemma val_one : value (f_lit 1 0) = Fin 1.
Proof. change (f_lit 1 0) with (f_of_Z 1). apply (of_Z_exact 1). lia. Qed.
Lemma val_mone : value (f_lit (-1) 0) = Fin (-1).
Proof. change (f_lit (-1) 0) with (f_of_Z (-1)). apply (of_Z_exact (-1)). lia. Qed.
Lemma val_zero : value (f_lit 0 0) = Fin 0.
Proof. change (f_lit 0 0) with (f_of_Z 0). apply (of_Z_exact 0). lia. Qed.
(** multiplying by 1 or -1 does not round *)
Lemma bd_one k m z x a : bd k m z x a -> bd k m (f_mul z (f_lit 1 0)) x a.
Proof.
  intros (K & M & A & v & V & E). split; [exact K|]. split; [exact M|]. split; [exact A|]. exists v. split; [|exact E].
  destruct (value_fmt _ _ V) as (F & H). replace v with (v * 1) by ring. apply mul_exact; [exact V|exact val_one|rewrite Rmult_1_r; exact F|rewrite Rmult_1_r; exact H].
Qed.
Lemma bd_mone k m z x a : bd k m z x a -> bd k m (f_mul z (f_lit (-1) 0)) (- x) a.
Proof.
  intros (K & M & A & v & V & E). split; [exact K|]. split; [exact M|]. split; [rewrite Rabs_Ropp; exact A|]. exists (- v). split.
  - destruct (value_fmt _ _ V) as (F & H). replace (- v) with (v * -1) by ring.
    apply mul_exact; [exact V|exact val_mone|replace (v * -1) with (- v) by ring; apply fmt_opp, F|replace (v * -1) with (- v) by ring; rewrite Rabs_Ropp; exact H].
  - replace (- v - - x) with (- (v - x)) by ring. rewrite Rabs_Ropp. exact E.
Qed.
Lemma bd_neg k m z x a : word z -> bd k m z x a -> bd k m (f_neg z) (- x) a.
Proof.
  intros W (K & M & A & v & V & E). split; [exact K|]. split; [exact M|]. split; [rewrite Rabs_Ropp; exact A|]. exists (- v). split; [apply neg_val; assumption|].
  replace (- v - - x) with (- (v - x)) by ring. rewrite Rabs_Ropp. exact E.
Qed.
(** fused, first factor computed, second an input bounded by an integer *)
Lemma bd_fmal X k1 m1 k m z1 z2 z3 x1 x2 x3 a1 a : bd k1 m1 z1 x1 a1 -> value z2 = Fin x2 -> Rabs x2 <= IZR X -> bd k m z3 x3 a -> Rabs x2 * a1 + a <= big ->
  (Z.max k1 k <= 99)%Z -> (0 <= X)%Z -> (X * m1 + m <= 998)%Z ->
  bd (Z.max k1 k + 1) (X * m1 + m + 2) (f_fma z1 z2 z3) (x1 * x2 + x3) (Rabs x2 * a1 + a).
Proof.
  intros (K1 & M1 & A1 & v1 & V1 & E1) V2 HX (K & M & A & v & V & E) B HK HX0 HM. pose proof (Rabs_pos x2) as P2. pose proof (Rabs_pos x1) as P1. pose proof (Rabs_pos x3) as P3. pose proof eta_pos as E0.
  assert (A12 : Rabs (x1 * x2) <= Rabs x2 * a1) by (rewrite Rabs_mult, Rmult_comm; apply Rmult_le_compat_l; lra).
  assert (AA : Rabs (x1 * x2 + x3) <= Rabs x2 * a1 + a) by (eapply Rle_trans; [apply Rabs_triang|lra]).
  assert (EE : Rabs (v1 * x2 + v - (x1 * x2 + x3)) <= IZR (Z.max k1 k) * w * (Rabs x2 * a1 + a) + IZR (X * m1 + m) * eta).
  { replace (v1 * x2 + v - (x1 * x2 + x3)) with (x2 * (v1 - x1) + (v - x3)) by ring. eapply Rle_trans; [apply Rabs_triang|]. rewrite Rabs_mult, plus_IZR, mult_IZR.
    assert (W : 0 < w) by (unfold w, u24; lra).
    assert (Rabs x2 * Rabs (v1 - x1) <= Rabs x2 * (IZR k1 * w * a1 + IZR m1 * eta)) by (apply Rmult_le_compat_l; lra).
    assert (Rabs x2 * (IZR m1 * eta) <= IZR X * (IZR m1 * eta)) by (apply Rmult_le_compat_r; [apply Rmult_le_pos; [apply IZR_le; lia|lra]|exact HX]).
    assert (IZR k1 * w * (Rabs x2 * a1) <= IZR (Z.max k1 k) * w * (Rabs x2 * a1)) by (apply Rmult_le_compat_r; [apply Rmult_le_pos; lra|]; apply Rmult_le_compat_r; [lra|]; apply IZR_le; lia).
    assert (IZR k * w * a <= IZR (Z.max k1 k) * w * a) by (apply Rmult_le_compat_r; [lra|]; apply Rmult_le_compat_r; [lra|]; apply IZR_le; lia).
    lra. }
  destruct (rnd (Z.max k1 k) (X * m1 + m)%Z (v1 * x2 + v) (x1 * x2 + x3) (Rabs x2 * a1 + a) ltac:(lia) ltac:(nia) AA B EE) as (R1 & R2).
  split; [lia|]. split; [nia|]. split; [exact AA|]. exists (RN (v1 * x2 + v)). split; [apply fma_val; assumption|exact R2].
Qed.
Lemma bd_fmar X k1 m1 k m z1 z2 z3 x1 x2 x3 a1 a : bd k1 m1 z2 x2 a1 -> value z1 = Fin x1 -> Rabs x1 <= IZR X -> bd k m z3 x3 a -> Rabs x1 * a1 + a <= big ->
  (Z.max k1 k <= 99)%Z -> (0 <= X)%Z -> (X * m1 + m <= 998)%Z ->
  bd (Z.max k1 k + 1) (X * m1 + m + 2) (f_fma z1 z2 z3) (x1 * x2 + x3) (Rabs x1 * a1 + a).
Proof.
  intros (K1 & M1 & A1 & v1 & V1 & E1) V2 HX (K & M & A & v & V & E) B HK HX0 HM. pose proof (Rabs_pos x2) as P2. pose proof (Rabs_pos x1) as P1. pose proof (Rabs_pos x3) as P3. pose proof eta_pos as E0.
  assert (A12 : Rabs (x1 * x2) <= Rabs x1 * a1) by (rewrite Rabs_mult; apply Rmult_le_compat_l; lra).
  assert (AA : Rabs (x1 * x2 + x3) <= Rabs x1 * a1 + a) by (eapply Rle_trans; [apply Rabs_triang|lra]).
  assert (EE : Rabs (x1 * v1 + v - (x1 * x2 + x3)) <= IZR (Z.max k1 k) * w * (Rabs x1 * a1 + a) + IZR (X * m1 + m) * eta).
  { replace (x1 * v1 + v - (x1 * x2 + x3)) with (x1 * (v1 - x2) + (v - x3)) by ring. eapply Rle_trans; [apply Rabs_triang|]. rewrite Rabs_mult, plus_IZR, mult_IZR.
    assert (W : 0 < w) by (unfold w, u24; lra).
    assert (Rabs x1 * Rabs (v1 - x2) <= Rabs x1 * (IZR k1 * w * a1 + IZR m1 * eta)) by (apply Rmult_le_compat_l; lra).
    assert (Rabs x1 * (IZR m1 * eta) <= IZR X * (IZR m1 * eta)) by (apply Rmult_le_compat_r; [apply Rmult_le_pos; [apply IZR_le; lia|lra]|exact HX]).
    assert (IZR k1 * w * (Rabs x1 * a1) <= IZR (Z.max k1 k) * w * (Rabs x1 * a1)) by (apply Rmult_le_compat_r; [apply Rmult_le_pos; lra|]; apply Rmult_le_compat_r; [lra|]; apply IZR_le; lia).
    assert (IZR k * w * a <= IZR (Z.max k1 k) * w * a) by (apply Rmult_le_compat_r; [lra|]; apply Rmult_le_compat_r; [lra|]; apply IZR_le; lia).
    lra. }
  destruct (rnd (Z.max k1 k) (X * m1 + m)%Z (x1 * v1 + v) (x1 * x2 + x3) (Rabs x1 * a1 + a) ltac:(lia) ltac:(nia) AA B EE) as (R1 & R2).
  split; [lia|]. split; [nia|]. split; [exact AA|]. exists (RN (x1 * v1 + v)). split; [apply fma_val; assumption|exact R2].
Qed.
Lemma bd_fma_one k1 m1 k2 m2 z1 z2 x1 x2 a1 a2 : bd k1 m1 z1 x1 a1 -> bd k2 m2 z2 x2 a2 -> a1 + a2 <= big -> (Z.max k1 k2 <= 99)%Z -> (m1 + m2 <= 998)%Z ->
  bd (Z.max k1 k2 + 1) (m1 + m2 + 2) (f_fma z1 (f_lit 1 0) z2) (x1 + x2) (a1 + a2).
Proof.
  intros B1 B2 A K M. pose proof (bd_fmal 1 k1 m1 k2 m2 z1 (f_lit 1 0) z2 x1 1 x2 a1 a2 B1 val_one) as H. rewrite Rabs_R1, Rmult_1_r, !Rmult_1_l, Z.mul_1_l in H. apply H; try assumption; [lra|lia].
Qed.
Lemma bd_fma_mone k1 m1 k2 m2 z1 z2 x1 x2 a1 a2 : bd k1 m1 z1 x1 a1 -> bd k2 m2 z2 x2 a2 -> a1 + a2 <= big -> (Z.max k1 k2 <= 99)%Z -> (m1 + m2 <= 998)%Z ->
  bd (Z.max k1 k2 + 1) (m1 + m2 + 2) (f_fma z1 (f_lit (-1) 0) z2) (x2 - x1) (a1 + a2).
Proof.
  intros B1 B2 A K M. pose proof (bd_fmal 1 k1 m1 k2 m2 z1 (f_lit (-1) 0) z2 x1 (-1) x2 a1 a2 B1 val_mone) as H. replace (Rabs (-1)) with 1 in H by (rewrite Rabs_left; lra).
  rewrite !Rmult_1_l, Z.mul_1_l in H. apply bd_x with (x1 * -1 + x2); [|ring]. apply H; try assumption; [lra|lia].
Qed.
Lemma bd_k k' m' k m z x a : bd k m z x a -> (k <= k' <= 100)%Z -> (m <= m' <= 1000)%Z -> bd k' m' z x a.
Proof.
  intros (K & M & A & v & V & E) HK HM. split; [lia|]. split; [lia|]. split; [exact A|]. exists v. split; [exact V|]. pose proof (Rabs_pos x). pose proof eta_pos.
  assert (IZR m * eta <= IZR m' * eta) by (apply Rmult_le_compat_r; [lra|apply IZR_le; lia]).
  assert (IZR k * w * a <= IZR k' * w * a); [|lra]. apply Rmult_le_compat_r; [lra|]. apply Rmult_le_compat_r; [unfold w, u24; lra|apply IZR_le; lia].
Qed.
(** reading off a bound: at most [k] roundings are within [k + 1] half-ulps *)
Lemma bd_within k m z x a : bd k m z x a -> within (IZR (k + 1) * ulp_half * a + IZR m * tiny) z x.
Proof.
  intros (K & M & A & v & V & E). exists v. split; [exact V|]. pose proof (Rabs_pos x). rewrite tiny_eta, plus_IZR.
  assert (IZR k * w * a <= (IZR k + 1) * ulp_half * a); [|lra]. apply Rmult_le_compat_r; [lra|]. unfold w, u24, ulp_half.
  assert (0 <= IZR k <= 100) by (split; apply IZR_le; lia). lra.
Qed.
Lemma within_le e e' z x : within e z x -> e <= e' -> within e' z x.
Proof. intros (r & V & E) H. exists r. split; [exact V|lra]. Qed.
Lemma sqrt_val z x : value z = Fin x -> 0 <= x -> value (f_sqrt z) = Fin (RN (sqrt x)).
Proof.
  intros (F & E)%value_fin H. destruct (Bsqrt_correct 24 128 _ _ mode_NE (dec z)) as (K1 & K2 & _).
  unfold f_sqrt. rewrite fin_value; [rewrite K1, E; reflexivity|]. rewrite K2. destruct (dec z) as [| | |s mm ee ?]; try discriminate; try reflexivity.
  destruct s; [|reflexivity]. exfalso. cbn [B2R] in E. assert (F2R (Float radix2 (Z.neg mm) ee) < 0) by (apply F2R_lt_0; reflexivity). change (F2R (Float radix2 (Z.neg mm) ee) = x) in E. lra.
Qed.
Lemma bd_fin K M k m z x0 a0 x a : bd k m z x0 a0 -> x0 = x -> a0 <= a -> (k < K)%Z -> (m <= M)%Z -> within (IZR K * ulp_half * a + IZR M * tiny) z x.
Proof.
  intros H <- HA HK HM. eapply within_le; [eapply bd_within, bd_a; eassumption|]. destruct H as (K0 & M0 & A & _). pose proof (Rabs_pos x0). rewrite tiny_eta. pose proof eta_pos.
  assert (IZR m * eta <= IZR M * eta) by (apply Rmult_le_compat_r; [lra|apply IZR_le; lia]).
  assert (IZR (k + 1) * ulp_half * a <= IZR K * ulp_half * a); [|lra]. apply Rmult_le_compat_r; [lra|]. apply Rmult_le_compat_r; [unfold ulp_half; lra|apply IZR_le; lia].
Qed.
Lemma bd_zero : bd 0 0 (f_lit 0 0) 0 0.
Proof. pose proof (bd_exact _ _ val_zero) as H. rewrite Rabs_R0 in H. exact H. Qed.
Ltac val := first [eassumption | eapply neg_val; [eassumption|val]].
Ltac bdt := match goal with
  | |- bd _ _ (f_add _ _) _ _ => eapply bd_add; [bdt|bdt|idtac|idtac|idtac]
  | |- bd _ _ (f_sub _ _) _ _ => eapply bd_sub; [bdt|bdt|idtac|idtac|idtac]
  | |- bd _ _ (f_mul _ (f_lit 1 0)) _ _ => eapply bd_one; bdt
  | |- bd _ _ (f_mul _ (f_lit (-1) 0)) _ _ => eapply bd_mone; bdt
  | |- bd _ _ (f_fma _ (f_lit 1 0) _) _ _ => eapply bd_fma_one; [bdt|bdt|idtac|idtac|idtac]
  | |- bd _ _ (f_fma _ (f_lit (-1) 0) _) _ _ => eapply bd_fma_mone; [bdt|bdt|idtac|idtac|idtac]
  | |- bd _ _ (f_mul _ _) _ _ => eapply bd_mul; [val|val|idtac]
  | |- bd _ _ (f_fma _ _ _) _ _ => eapply bd_fma; [val|val|bdt|idtac|idtac|idtac]
  | |- bd _ _ (f_lit 0 0) _ _ => exact bd_zero
  | |- bd _ _ _ _ _ => eapply bd_exact; val
  end.
Ltac poseabs := repeat match goal with
  | |- context [Rabs ?x] => lazymatch goal with H : 0 <= Rabs x |- _ => fail | _ => pose proof (Rabs_pos x) end
  | _ : context [Rabs ?x] |- _ => lazymatch goal with H : 0 <= Rabs x |- _ => fail | _ => pose proof (Rabs_pos x) end
  end.
Ltac kside := solve [vm_compute; first [reflexivity | discriminate | intros; discriminate]].
Ltac aside := rewrite ?Ropp_mult_distr_l_reverse, ?Ropp_mult_distr_r_reverse, ?Rabs_Ropp; rewrite <- ?Rabs_mult in *; poseabs; rewrite ?Rabs_mult in *; lra.
Ltac fl := cbv beta iota zeta delta [T tadd tsub tmul tdiv tsqrt tneg tabs tfma tlt tle teq tlit pinf tqnan is_pinf Lane.is_nan FL
  qx qy qz qw qmap qmap2 qmap3 qrep lane setlane zero one two half tge tgt vadd vsub vmul vdiv vsqrt vmin vmax vzero vone
  add_ss sub_ss mul_ss div_ss sqrt_ss hadd moveldup vlt vle vgt vge veq vneq vand vsel mask3 mask_x splat permute_ps shuffle dp_ps
  FMADD FNMADD XMVectorMultiplyAdd XMVectorNegativeMultiplySubtract XMVectorAdd XMVectorSubtract XMVectorMultiply XMVectorDivide mij].
Ltac dq4 v n0 n1 n2 n3 := destruct v as [n0 n1 n2 n3].
Ltac hyps := unfold holds4, holds3, holds2; intros;
  repeat match goal with H : is32 _ _ /\ _ |- _ => destruct H end;
  repeat match goal with H : is32 ?z ?x |- _ => let W := fresh "W" in let V := fresh "V" in destruct H as (W & V); change (word z) in W end;
  unfold safe, dot2, dot3, dot4, vabs in *; rewrite ?big_pow2 in *; cbn [qx qy qz qw lane] in *.
Ltac fin := eapply bd_fin; [bdt; try kside; try aside|ring|aside|kside|kside].
Lemma dot2_err b V1 V2 x y i : holds2 V1 x -> holds2 V2 y -> safe (dot2 (vabs x) (vabs y)) ->
  within (3 * ulp_half * dot2 (vabs x) (vabs y) + 6 * tiny) (lane (XMVector2Dot b V1 V2) i) (dot2 x y).
Proof.
  dq4 V1 a0 a1 a2 a3; dq4 V2 b0 b1 b2 b3; dq4 x x0 x1 x2 x3; dq4 y y0 y1 y2 y3. hyps.
  destruct b as [|s3 [|] f av]; destruct i; cbv beta iota zeta delta [XMVector2Dot dot2_sse2]; fl; fin.
Qed.
Lemma dot3_err b V1 V2 x y i : holds3 V1 x -> holds3 V2 y -> safe (dot3 (vabs x) (vabs y)) ->
  within (4 * ulp_half * dot3 (vabs x) (vabs y) + 12 * tiny) (lane (XMVector3Dot b V1 V2) i) (dot3 x y).
Proof.
  dq4 V1 a0 a1 a2 a3; dq4 V2 b0 b1 b2 b3; dq4 x x0 x1 x2 x3; dq4 y y0 y1 y2 y3. hyps.
  destruct b as [|[|] [|] f av]; destruct i; cbv beta iota zeta delta [XMVector3Dot dot3_sse2]; fl; fin.
Qed.
Lemma dot4_err b V1 V2 x y i : holds4 V1 x -> holds4 V2 y -> safe (dot4 (vabs x) (vabs y)) ->
  within (5 * ulp_half * dot4 (vabs x) (vabs y) + 14 * tiny) (lane (XMVector4Dot b V1 V2) i) (dot4 x y).
Proof.
  dq4 V1 a0 a1 a2 a3; dq4 V2 b0 b1 b2 b3; dq4 x x0 x1 x2 x3; dq4 y y0 y1 y2 y3. hyps.
  destruct b as [|[|] [|] f av]; destruct i; cbv beta iota zeta delta [XMVector4Dot dot4_sse2 dot4_sse3 mask4]; fl; fin.
Qed.
