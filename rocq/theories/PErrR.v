(** A calculus of rounding errors for products of up to four bounded inputs: like [bd] (PErr.v), with a real absolute
    term and a bound on the magnitude that is tracked along. *)
From Coq Require Import Reals Lra Lia ZArith Bool.
From Flocq Require Import Core Relative IEEE754.BinarySingleNaN.
From Verif Require Import Base F32 F32Facts Intrin Lane MVec SpecF32 PF32 SpecRound PFloat PExp SpecGeom SpecErr PErr.
Open Scope R_scope.

Definition bdr (k : Z) (m B : R) (z : Z) (x a : R) : Prop :=
  (0 <= k <= 99)%Z /\ 0 <= m <= / 1000 /\ Rabs x <= a /\ a <= B /\ B <= big /\ exists v, value z = Fin v /\ Rabs (v - x) <= IZR k * w * a + m.
Lemma rndr k m t x a : (0 <= k <= 99)%Z -> 0 <= m <= / 1000 -> Rabs x <= a -> a <= big -> Rabs (t - x) <= IZR k * w * a + m ->
  Rabs (RN t) < huge /\ Rabs (RN t - x) <= IZR (k + 1) * w * a + (m * (1 + / 1000) + 2 * eta).
Proof.
  intros K M A B E. pose proof eta_pos as E0. pose proof eta_small as ES. pose proof (Rabs_pos x) as Px. pose proof (RN_err t) as RE. pose proof big_pos as BP. rewrite huge_4big.
  assert (Ht : Rabs t <= a * (1 + / 10000) + m).
  { replace t with (t - x + x) by ring. eapply Rle_trans; [apply Rabs_triang|].
    assert (IZR k * w * a <= / 10000 * a); [|lra]. apply Rmult_le_compat_r; [lra|]. assert (IZR k <= 99) by (apply IZR_le; lia). assert (0 <= IZR k) by (apply IZR_le; lia).
    unfold w, u24. apply Rle_trans with (100 * (/ 16777216 * (1 + / 1000))); [apply Rmult_le_compat_r; lra|lra]. }
  split.
  - replace (RN t) with (RN t - t + t) by ring. eapply Rle_lt_trans; [apply Rabs_triang|]. unfold u24 in RE. lra.
  - replace (RN t - x) with ((RN t - t) + (t - x)) by ring. eapply Rle_trans; [apply Rabs_triang|]. rewrite !plus_IZR.
    assert (U : u24 * Rabs t <= w * a + m / 1000). { unfold w, u24. unfold u24 in RE. lra. }
    lra.
Qed.
Lemma r_exact X z x : value z = Fin x -> Rabs x <= X -> X <= big -> bdr 0 0 X z x (Rabs x).
Proof.
  intros H HX HB. split; [lia|]. split; [lra|]. split; [lra|]. split; [exact HX|]. split; [exact HB|]. exists x. split; [exact H|]. replace (x - x) with 0 by ring. rewrite Rabs_R0. lra.
Qed.
Ltac wpos := assert (W : 0 < w) by (unfold w, u24; lra).
Lemma k_mono k k' a : (k <= k')%Z -> 0 <= a -> IZR k * w * a <= IZR k' * w * a.
Proof. intros. wpos. apply Rmult_le_compat_r; [lra|]. apply Rmult_le_compat_r; [lra|]. apply IZR_le; lia. Qed.
Lemma r_add k1 m1 B1 k2 m2 B2 z1 z2 x1 x2 a1 a2 : bdr k1 m1 B1 z1 x1 a1 -> bdr k2 m2 B2 z2 x2 a2 -> B1 + B2 <= big -> (Z.max k1 k2 <= 98)%Z -> (m1 + m2) * (1 + / 1000) + 2 * eta <= / 1000 ->
  bdr (Z.max k1 k2 + 1) ((m1 + m2) * (1 + / 1000) + 2 * eta) (B1 + B2) (f_add z1 z2) (x1 + x2) (a1 + a2).
Proof.
  intros (K1 & M1 & A1 & AB1 & C1 & v1 & V1 & E1) (K2 & M2 & A2 & AB2 & C2 & v2 & V2 & E2) B HK HM. pose proof (Rabs_pos x1). pose proof (Rabs_pos x2). pose proof eta_pos.
  assert (AA : Rabs (x1 + x2) <= a1 + a2) by (eapply Rle_trans; [apply Rabs_triang|lra]).
  assert (EE : Rabs (v1 + v2 - (x1 + x2)) <= IZR (Z.max k1 k2) * w * (a1 + a2) + (m1 + m2)).
  { replace (v1 + v2 - (x1 + x2)) with ((v1 - x1) + (v2 - x2)) by ring. eapply Rle_trans; [apply Rabs_triang|].
    pose proof (k_mono k1 (Z.max k1 k2) a1 ltac:(lia) ltac:(lra)). pose proof (k_mono k2 (Z.max k1 k2) a2 ltac:(lia) ltac:(lra)). lra. }
  destruct (rndr (Z.max k1 k2) (m1 + m2) (v1 + v2) (x1 + x2) (a1 + a2) ltac:(lia) ltac:(lra) AA ltac:(lra) EE) as (R1 & R2).
  split; [lia|]. split; [lra|]. split; [exact AA|]. split; [lra|]. split; [exact B|]. exists (RN (v1 + v2)). split; [apply add_val; assumption|exact R2].
Qed.
Lemma r_sub k1 m1 B1 k2 m2 B2 z1 z2 x1 x2 a1 a2 : bdr k1 m1 B1 z1 x1 a1 -> bdr k2 m2 B2 z2 x2 a2 -> B1 + B2 <= big -> (Z.max k1 k2 <= 98)%Z -> (m1 + m2) * (1 + / 1000) + 2 * eta <= / 1000 ->
  bdr (Z.max k1 k2 + 1) ((m1 + m2) * (1 + / 1000) + 2 * eta) (B1 + B2) (f_sub z1 z2) (x1 - x2) (a1 + a2).
Proof.
  intros (K1 & M1 & A1 & AB1 & C1 & v1 & V1 & E1) (K2 & M2 & A2 & AB2 & C2 & v2 & V2 & E2) B HK HM. pose proof (Rabs_pos x1). pose proof (Rabs_pos x2). pose proof eta_pos.
  assert (AA : Rabs (x1 - x2) <= a1 + a2) by (unfold Rminus; eapply Rle_trans; [apply Rabs_triang|rewrite Rabs_Ropp; lra]).
  assert (EE : Rabs (v1 - v2 - (x1 - x2)) <= IZR (Z.max k1 k2) * w * (a1 + a2) + (m1 + m2)).
  { replace (v1 - v2 - (x1 - x2)) with ((v1 - x1) + - (v2 - x2)) by ring. eapply Rle_trans; [apply Rabs_triang|]. rewrite Rabs_Ropp.
    pose proof (k_mono k1 (Z.max k1 k2) a1 ltac:(lia) ltac:(lra)). pose proof (k_mono k2 (Z.max k1 k2) a2 ltac:(lia) ltac:(lra)). lra. }
  destruct (rndr (Z.max k1 k2) (m1 + m2) (v1 - v2) (x1 - x2) (a1 + a2) ltac:(lia) ltac:(lra) AA ltac:(lra) EE) as (R1 & R2).
  split; [lia|]. split; [lra|]. split; [exact AA|]. split; [lra|]. split; [exact B|]. exists (RN (v1 - v2)). split; [apply sub_val; assumption|exact R2].
Qed.
(** input, bounded by [X], times computed value *)
Lemma r_mull X k m B z1 z2 x1 x2 a : value z1 = Fin x1 -> Rabs x1 <= X -> bdr k m B z2 x2 a -> X * B <= big -> (k <= 98)%Z -> (X * m) * (1 + / 1000) + 2 * eta <= / 1000 ->
  bdr (k + 1) ((X * m) * (1 + / 1000) + 2 * eta) (X * B) (f_mul z1 z2) (x1 * x2) (Rabs x1 * a).
Proof.
  intros V1 HX (K & M & A & AB & C & v & V & E) HB HK HM. pose proof (Rabs_pos x1) as P1. pose proof (Rabs_pos x2) as P2. pose proof eta_pos.
  assert (AA : Rabs (x1 * x2) <= Rabs x1 * a) by (rewrite Rabs_mult; apply Rmult_le_compat_l; lra).
  assert (XM : Rabs x1 * m <= X * m) by (apply Rmult_le_compat_r; lra). assert (XP : 0 <= Rabs x1 * m) by (apply Rmult_le_pos; lra).
  assert (XB : Rabs x1 * a <= X * B) by (apply Rmult_le_compat; lra).
  assert (EE : Rabs (x1 * v - x1 * x2) <= IZR k * w * (Rabs x1 * a) + X * m).
  { replace (x1 * v - x1 * x2) with (x1 * (v - x2)) by ring. rewrite Rabs_mult.
    apply Rle_trans with (Rabs x1 * (IZR k * w * a + m)); [apply Rmult_le_compat_l; lra|]. lra. }
  destruct (rndr k (X * m) (x1 * v) (x1 * x2) (Rabs x1 * a) ltac:(lia) ltac:(lra) AA ltac:(lra) EE) as (R1 & R2).
  split; [lia|]. split; [lra|]. split; [exact AA|]. split; [exact XB|]. split; [exact HB|]. exists (RN (x1 * v)). split; [apply mul_val; assumption|exact R2].
Qed.
Lemma r_mulr X k m B z1 z2 x1 x2 a : value z2 = Fin x2 -> Rabs x2 <= X -> bdr k m B z1 x1 a -> X * B <= big -> (k <= 98)%Z -> (X * m) * (1 + / 1000) + 2 * eta <= / 1000 ->
  bdr (k + 1) ((X * m) * (1 + / 1000) + 2 * eta) (X * B) (f_mul z1 z2) (x1 * x2) (Rabs x2 * a).
Proof. intros. rewrite f_mul_comm, (Rmult_comm x1 x2). apply r_mull; assumption. Qed.
(** fused, the first or second factor an input *)
Lemma r_fmar X k1 m1 B1 k m B z1 z2 z3 x1 x2 x3 a1 a : value z1 = Fin x1 -> Rabs x1 <= X -> bdr k1 m1 B1 z2 x2 a1 -> bdr k m B z3 x3 a -> X * B1 + B <= big -> (Z.max k1 k <= 98)%Z ->
  (X * m1 + m) * (1 + / 1000) + 2 * eta <= / 1000 ->
  bdr (Z.max k1 k + 1) ((X * m1 + m) * (1 + / 1000) + 2 * eta) (X * B1 + B) (f_fma z1 z2 z3) (x1 * x2 + x3) (Rabs x1 * a1 + a).
Proof.
  intros W1 HX (K1 & M1 & A1 & AB1 & C1 & v1 & V1 & E1) (K & M & A & AB & C & v & V & E) HB HK HM. pose proof (Rabs_pos x1) as P1. pose proof (Rabs_pos x2) as P2. pose proof (Rabs_pos x3) as P3. pose proof eta_pos.
  assert (A12 : Rabs (x1 * x2) <= Rabs x1 * a1) by (rewrite Rabs_mult; apply Rmult_le_compat_l; lra).
  assert (AA : Rabs (x1 * x2 + x3) <= Rabs x1 * a1 + a) by (eapply Rle_trans; [apply Rabs_triang|lra]).
  assert (XM : Rabs x1 * m1 <= X * m1) by (apply Rmult_le_compat_r; lra). assert (XP : 0 <= Rabs x1 * m1) by (apply Rmult_le_pos; lra).
  assert (XB : Rabs x1 * a1 <= X * B1) by (apply Rmult_le_compat; lra).
  assert (XA : 0 <= Rabs x1 * a1) by (apply Rmult_le_pos; lra).
  assert (EE : Rabs (x1 * v1 + v - (x1 * x2 + x3)) <= IZR (Z.max k1 k) * w * (Rabs x1 * a1 + a) + (X * m1 + m)).
  { replace (x1 * v1 + v - (x1 * x2 + x3)) with (x1 * (v1 - x2) + (v - x3)) by ring. eapply Rle_trans; [apply Rabs_triang|]. rewrite Rabs_mult.
    assert (Rabs x1 * Rabs (v1 - x2) <= Rabs x1 * (IZR k1 * w * a1 + m1)) by (apply Rmult_le_compat_l; lra).
    pose proof (k_mono k1 (Z.max k1 k) (Rabs x1 * a1) ltac:(lia) ltac:(lra)). pose proof (k_mono k (Z.max k1 k) a ltac:(lia) ltac:(lra)). lra. }
  destruct (rndr (Z.max k1 k) (X * m1 + m) (x1 * v1 + v) (x1 * x2 + x3) (Rabs x1 * a1 + a) ltac:(lia) ltac:(lra) AA ltac:(lra) EE) as (R1 & R2).
  split; [lia|]. split; [lra|]. split; [exact AA|]. split; [lra|]. split; [exact HB|]. exists (RN (x1 * v1 + v)). split; [apply fma_val; assumption|exact R2].
Qed.
Lemma f_fma_val_comm z1 z2 z3 x1 x2 x3 : value z1 = Fin x1 -> value z2 = Fin x2 -> value z3 = Fin x3 -> Rabs (RN (x2 * x1 + x3)) < huge -> value (f_fma z1 z2 z3) = Fin (RN (x2 * x1 + x3)).
Proof. intros V1 V2 V3 H. rewrite (Rmult_comm x2 x1) in *. apply fma_val; assumption. Qed.
Lemma r_fmal X k1 m1 B1 k m B z1 z2 z3 x1 x2 x3 a1 a : value z2 = Fin x2 -> Rabs x2 <= X -> bdr k1 m1 B1 z1 x1 a1 -> bdr k m B z3 x3 a -> X * B1 + B <= big -> (Z.max k1 k <= 98)%Z ->
  (X * m1 + m) * (1 + / 1000) + 2 * eta <= / 1000 ->
  bdr (Z.max k1 k + 1) ((X * m1 + m) * (1 + / 1000) + 2 * eta) (X * B1 + B) (f_fma z1 z2 z3) (x1 * x2 + x3) (Rabs x2 * a1 + a).
Proof.
  intros W2 HX (K1 & M1 & A1 & AB1 & C1 & v1 & V1 & E1) (K & M & A & AB & C & v & V & E) HB HK HM. pose proof (Rabs_pos x1) as P1. pose proof (Rabs_pos x2) as P2. pose proof (Rabs_pos x3) as P3. pose proof eta_pos.
  assert (A12 : Rabs (x1 * x2) <= Rabs x2 * a1) by (rewrite Rabs_mult, Rmult_comm; apply Rmult_le_compat_l; lra).
  assert (AA : Rabs (x1 * x2 + x3) <= Rabs x2 * a1 + a) by (eapply Rle_trans; [apply Rabs_triang|lra]).
  assert (XM : Rabs x2 * m1 <= X * m1) by (apply Rmult_le_compat_r; lra). assert (XP : 0 <= Rabs x2 * m1) by (apply Rmult_le_pos; lra).
  assert (XB : Rabs x2 * a1 <= X * B1) by (apply Rmult_le_compat; lra).
  assert (XA : 0 <= Rabs x2 * a1) by (apply Rmult_le_pos; lra).
  assert (EE : Rabs (v1 * x2 + v - (x1 * x2 + x3)) <= IZR (Z.max k1 k) * w * (Rabs x2 * a1 + a) + (X * m1 + m)).
  { replace (v1 * x2 + v - (x1 * x2 + x3)) with (x2 * (v1 - x1) + (v - x3)) by ring. eapply Rle_trans; [apply Rabs_triang|]. rewrite Rabs_mult.
    assert (Rabs x2 * Rabs (v1 - x1) <= Rabs x2 * (IZR k1 * w * a1 + m1)) by (apply Rmult_le_compat_l; lra).
    pose proof (k_mono k1 (Z.max k1 k) (Rabs x2 * a1) ltac:(lia) ltac:(lra)). pose proof (k_mono k (Z.max k1 k) a ltac:(lia) ltac:(lra)). lra. }
  destruct (rndr (Z.max k1 k) (X * m1 + m) (v1 * x2 + v) (x1 * x2 + x3) (Rabs x2 * a1 + a) ltac:(lia) ltac:(lra) AA ltac:(lra) EE) as (R1 & R2).
  split; [lia|]. split; [lra|]. split; [exact AA|]. split; [lra|]. split; [exact HB|]. exists (RN (v1 * x2 + v)). split; [apply fma_val; assumption|exact R2].
Qed.
Lemma r_neg k m B z x a : word z -> bdr k m B z x a -> bdr k m B (f_neg z) (- x) a.
Proof.
  intros W0 (K & M & A & AB & C & v & V & E). split; [exact K|]. split; [exact M|]. split; [rewrite Rabs_Ropp; exact A|]. split; [exact AB|]. split; [exact C|]. exists (- v). split; [apply neg_val; assumption|].
  replace (- v - - x) with (- (v - x)) by ring. rewrite Rabs_Ropp. exact E.
Qed.
(** multiplying by -1 or 1 is exact *)
Lemma r_mone k m B z x a : bdr k m B z x a -> bdr k m B (f_mul z (f_lit (-1) 0)) (- x) a.
Proof.
  intros (K & M & A & AB & C & v & V & E). split; [exact K|]. split; [exact M|]. split; [rewrite Rabs_Ropp; exact A|]. split; [exact AB|]. split; [exact C|]. exists (- v). split.
  - destruct (value_fmt _ _ V) as (F & H). replace (- v) with (v * -1) by ring.
    apply mul_exact; [exact V|exact val_mone|replace (v * -1) with (- v) by ring; apply fmt_opp, F|replace (v * -1) with (- v) by ring; rewrite Rabs_Ropp; exact H].
  - replace (- v - - x) with (- (v - x)) by ring. rewrite Rabs_Ropp. exact E.
Qed.
Lemma r_one k m B z x a : bdr k m B z x a -> bdr k m B (f_mul z (f_lit 1 0)) x a.
Proof.
  intros (K & M & A & AB & C & v & V & E). split; [exact K|]. split; [exact M|]. split; [exact A|]. split; [exact AB|]. split; [exact C|]. exists v. split; [|exact E].
  destruct (value_fmt _ _ V) as (F & H). replace v with (v * 1) by ring. apply mul_exact; [exact V|exact val_one|rewrite Rmult_1_r; exact F|rewrite Rmult_1_r; exact H].
Qed.
Lemma r_fin K M k m B z x0 a0 x a : bdr k m B z x0 a0 -> x0 = x -> a0 <= a -> (k < K)%Z -> m <= M -> within (IZR K * ulp_half * a + M) z x.
Proof.
  intros (K0 & M0 & A & _ & _ & v & V & E) <- HA HK HM. exists v. split; [exact V|]. pose proof (Rabs_pos x0). eapply Rle_trans; [exact E|]. apply Rplus_le_compat; [|exact HM].
  apply Rle_trans with (IZR k * w * a). { wpos. apply Rmult_le_compat_l; [apply Rmult_le_pos; [apply IZR_le; lia|lra]|exact HA]. }
  apply Rmult_le_compat_r; [lra|]. assert (0 <= IZR k <= 99) by (split; apply IZR_le; lia). assert (IZR (k + 1) <= IZR K) by (apply IZR_le; lia). rewrite plus_IZR in *. unfold w, u24, ulp_half. lra.
Qed.
Lemma r_weak k' m' B' k m B z x0 a0 x a : bdr k m B z x0 a0 -> x0 = x -> a0 = a -> (k <= k' <= 99)%Z -> m <= m' <= / 1000 -> B <= B' <= big -> bdr k' m' B' z x a.
Proof.
  intros (K & M & A & AB & C & v & V & E) <- <- HK HM HB. pose proof (Rabs_pos x0). split; [lia|]. split; [lra|]. split; [exact A|]. split; [lra|]. split; [lra|]. exists v. split; [exact V|].
  pose proof (k_mono k k' a0 ltac:(lia) ltac:(lra)). lra.
Qed.
Lemma r_zero : bdr 0 0 0 (f_lit 0 0) 0 0.
Proof. pose proof (r_exact 0 _ _ val_zero) as H. rewrite Rabs_R0 in H. apply H; [lra|]. pose proof big_pos; lra. Qed.
Lemma val_x1 z x : value z = Fin x -> value (f_mul z (f_lit 1 0)) = Fin x.
Proof. intros V. destruct (value_fmt _ _ V) as (F & H). replace x with (x * 1) by ring. apply mul_exact; [exact V|exact val_one|rewrite Rmult_1_r; exact F|rewrite Rmult_1_r; exact H]. Qed.
Lemma val_xm1 z x : value z = Fin x -> value (f_mul z (f_lit (-1) 0)) = Fin (- x).
Proof.
  intros V. destruct (value_fmt _ _ V) as (F & H). replace (- x) with (x * -1) by ring.
  apply mul_exact; [exact V|exact val_mone|replace (x * -1) with (- x) by ring; apply fmt_opp, F|replace (x * -1) with (- x) by ring; rewrite Rabs_Ropp; exact H].
Qed.
Ltac valr := lazymatch goal with
  | |- value (f_neg _) = _ => eapply neg_val; [eassumption|valr]
  | |- value (f_mul _ (f_lit 1 0)) = _ => eapply val_x1; valr
  | |- value (f_mul _ (f_lit (-1) 0)) = _ => eapply val_xm1; valr
  | |- value (f_mul _ _) = _ => fail
  | |- value (f_add _ _) = _ => fail
  | |- value (f_sub _ _) = _ => fail
  | |- value (f_fma _ _ _) = _ => fail
  | |- _ => eassumption
  end.
Lemma word_m z y : word (f_mul z y). Proof. apply enc_word. Qed.
Lemma word_a z y : word (f_add z y). Proof. apply enc_word. Qed.
Lemma word_s z y : word (f_sub z y). Proof. apply enc_word. Qed.
Lemma word_f z y v : word (f_fma z y v). Proof. apply enc_word. Qed.
(** the whole expression, inputs known by [value z = Fin x] and [Rabs x <= X] *)
Ltac rin := match goal with |- bdr _ _ _ _ _ _ => eapply r_exact; [valr|rewrite ?Rabs_Ropp; eassumption|idtac] end.
Ltac rbt := match goal with
  | |- bdr _ _ _ (f_add _ _) _ _ => eapply r_add; [rbt|rbt|idtac|idtac|idtac]
  | |- bdr _ _ _ (f_sub _ _) _ _ => eapply r_sub; [rbt|rbt|idtac|idtac|idtac]
  | |- bdr _ _ _ (f_mul _ (f_lit 1 0)) _ _ => eapply r_one; rbt
  | |- bdr _ _ _ (f_mul _ (f_lit (-1) 0)) _ _ => eapply r_mone; rbt
  | |- bdr _ _ _ (f_mul _ _) _ _ => first [eapply r_mull; [valr|rewrite ?Rabs_Ropp; eassumption|rbt|idtac|idtac|idtac] | eapply r_mulr; [valr|rewrite ?Rabs_Ropp; eassumption|rbt|idtac|idtac|idtac]]
  | |- bdr _ _ _ (f_fma _ _ _) _ _ => first [eapply r_fmar; [valr|rewrite ?Rabs_Ropp; eassumption|rbt|rbt|idtac|idtac|idtac] | eapply r_fmal; [valr|rewrite ?Rabs_Ropp; eassumption|rbt|rbt|idtac|idtac|idtac]]
  | |- bdr _ _ _ (f_lit 0 0) _ _ => exact r_zero
  | |- bdr _ _ _ (f_neg _) _ _ => first [rin | eapply r_neg; [first [apply word_m | apply word_a | apply word_s | apply word_f]|rbt]]
  | |- bdr _ _ _ _ _ _ => first [eassumption | rin]
  end.
