(** Arithmetic of binary32 lanes in terms of real values. *)
From Coq Require Import Reals Lra Lia ZArith.
From Flocq Require Import Core IEEE754.BinarySingleNaN.
From Verif Require Import Base F32 F32Facts SpecF32 PF32 SpecRound.
Open Scope R_scope.

Notation fx32 := (FLT_exp (-149) 24).
Definition RN (x : R) : R := round radix2 fx32 ZnearestE x.
Definition fmt (x : R) : Prop := generic_format radix2 fx32 x.
Definition huge : R := bpow radix2 128.

Lemma value_fin z x : value z = Fin x -> is_finite (dec z) = true /\ B2R (dec z) = x.
Proof. rewrite value_dec. destruct (dec z); cbn [xof]; intros H; try discriminate; injection H as H; split; (reflexivity || exact H). Qed.
Lemma fin_value f : is_finite f = true -> value (enc f) = Fin (B2R f).
Proof. intros H. rewrite value_enc. apply xof_fin, H. Qed.
Lemma value_fmt z x : value z = Fin x -> fmt x /\ Rabs x < huge.
Proof. intros (_ & <-)%value_fin. split; [apply (generic_format_B2R 24 128)|apply (abs_B2R_lt_emax 24 128)]. Qed.
Lemma RN_fmt x : fmt x -> RN x = x.
Proof. intros H. apply round_generic; [apply valid_rnd_N|exact H]. Qed.
#[global] Instance fx32_valid : Valid_exp fx32. Proof. apply FLT_exp_valid. reflexivity. Qed.
Lemma RN_is_fmt x : fmt (RN x).
Proof. apply generic_format_round; [apply fx32_valid|apply valid_rnd_N]. Qed.
Lemma RN_le x y : x <= y -> RN x <= RN y.
Proof. apply round_le; [apply fx32_valid|apply valid_rnd_N]. Qed.
Lemma fmt_pow e : (-149 <= e)%Z -> fmt (bpow radix2 e).
Proof. intros H. apply generic_format_bpow. unfold FLT_exp. lia. Qed.
Lemma fmt_opp x : fmt x -> fmt (- x). Proof. apply generic_format_opp. Qed.
Lemma fmt_0 : fmt 0. Proof. apply generic_format_0. Qed.
Lemma fmt_scaled n e : (Z.abs n <= 2 ^ 24)%Z -> (-149 <= e)%Z -> fmt (IZR n * bpow radix2 e).
Proof.
  intros Hn He. destruct (Z.eq_dec (Z.abs n) (2 ^ 24)) as [E|E].
  - assert (H : fmt (bpow radix2 (24 + e))) by (apply fmt_pow; lia). rewrite bpow_plus in H. change (bpow radix2 24) with (IZR (2 ^ 24)) in H.
    destruct (Z.abs_spec n) as [(_ & h)|(_ & h)]; rewrite h in E.
    + rewrite E. exact H.
    + replace n with (- (2 ^ 24))%Z by lia. rewrite opp_IZR, Ropp_mult_distr_l_reverse. apply fmt_opp, H.
  - apply generic_format_FLT. exists (Float radix2 n e); [reflexivity|cbn [Fnum]; change (radix2 ^ 24)%Z with (2 ^ 24)%Z; lia|exact He].
Qed.
Lemma fmt_int n : (Z.abs n <= 2 ^ 24)%Z -> fmt (IZR n).
Proof. intros H. rewrite <- (Rmult_1_r (IZR n)). change 1 with (bpow radix2 0). apply fmt_scaled; [exact H|lia]. Qed.
Lemma huge_int n : (Z.abs n <= 2 ^ 24)%Z -> Rabs (IZR n) < huge.
Proof. intros H. rewrite <- abs_IZR. unfold huge. change (bpow radix2 128) with (IZR (2 ^ 128)). apply IZR_lt. lia. Qed.

(** the operations, when the rounded result does not overflow *)
Lemma add_val a b x y : value a = Fin x -> value b = Fin y -> Rabs (RN (x + y)) < huge -> value (f_add a b) = Fin (RN (x + y)).
Proof.
  intros (Fa & Ea)%value_fin (Fb & Eb)%value_fin H. pose proof (Bplus_correct 24 128 _ _ mode_NE (dec a) (dec b) Fa Fb) as K.
  rewrite Ea, Eb in K. change (round _ _ _ (x + y)) with (RN (x + y)) in K. rewrite Rlt_bool_true in K by exact H. destruct K as (K1 & K2 & _).
  unfold f_add. rewrite fin_value by exact K2. rewrite K1. reflexivity.
Qed.
Lemma sub_val a b x y : value a = Fin x -> value b = Fin y -> Rabs (RN (x - y)) < huge -> value (f_sub a b) = Fin (RN (x - y)).
Proof.
  intros (Fa & Ea)%value_fin (Fb & Eb)%value_fin H. pose proof (Bminus_correct 24 128 _ _ mode_NE (dec a) (dec b) Fa Fb) as K.
  rewrite Ea, Eb in K. change (round _ _ _ (x - y)) with (RN (x - y)) in K. rewrite Rlt_bool_true in K by exact H. destruct K as (K1 & K2 & _).
  unfold f_sub. rewrite fin_value by exact K2. rewrite K1. reflexivity.
Qed.
Lemma mul_val a b x y : value a = Fin x -> value b = Fin y -> Rabs (RN (x * y)) < huge -> value (f_mul a b) = Fin (RN (x * y)).
Proof.
  intros (Fa & Ea)%value_fin (Fb & Eb)%value_fin H. pose proof (Bmult_correct 24 128 _ _ mode_NE (dec a) (dec b)) as K.
  rewrite Ea, Eb in K. change (round _ _ _ (x * y)) with (RN (x * y)) in K. rewrite Rlt_bool_true in K by exact H. destruct K as (K1 & K2 & _).
  unfold f_mul. rewrite Fa, Fb in K2. rewrite fin_value by exact K2. rewrite K1. reflexivity.
Qed.
Lemma div_val a b x y : value a = Fin x -> value b = Fin y -> y <> 0 -> Rabs (RN (x / y)) < huge -> value (f_div a b) = Fin (RN (x / y)).
Proof.
  intros (Fa & Ea)%value_fin (Fb & Eb)%value_fin Hy H. rewrite <- Eb in Hy. pose proof (Bdiv_correct 24 128 _ _ mode_NE (dec a) (dec b) Hy) as K.
  rewrite Ea, Eb in K. change (round _ _ _ (x / y)) with (RN (x / y)) in K. rewrite Rlt_bool_true in K by exact H. destruct K as (K1 & K2 & _).
  unfold f_div. rewrite Fa in K2. rewrite fin_value by exact K2. rewrite K1. reflexivity.
Qed.
(** exact when the result is representable *)
Lemma add_exact a b x y : value a = Fin x -> value b = Fin y -> fmt (x + y) -> Rabs (x + y) < huge -> value (f_add a b) = Fin (x + y).
Proof. intros Ha Hb F H. rewrite (add_val a b x y Ha Hb); rewrite RN_fmt; auto. Qed.
Lemma sub_exact a b x y : value a = Fin x -> value b = Fin y -> fmt (x - y) -> Rabs (x - y) < huge -> value (f_sub a b) = Fin (x - y).
Proof. intros Ha Hb F H. rewrite (sub_val a b x y Ha Hb); rewrite RN_fmt; auto. Qed.
Lemma mul_exact a b x y : value a = Fin x -> value b = Fin y -> fmt (x * y) -> Rabs (x * y) < huge -> value (f_mul a b) = Fin (x * y).
Proof. intros Ha Hb F H. rewrite (mul_val a b x y Ha Hb); rewrite RN_fmt; auto. Qed.
Lemma div_exact a b x y : value a = Fin x -> value b = Fin y -> y <> 0 -> fmt (x / y) -> Rabs (x / y) < huge -> value (f_div a b) = Fin (x / y).
Proof. intros Ha Hb Hy F H. rewrite (div_val a b x y Ha Hb Hy); rewrite RN_fmt; auto. Qed.
(** a literal *)
Lemma lit_val m e : Rabs (RN (IZR m * bpow radix2 e)) < huge -> value (f_lit m e) = Fin (RN (IZR m * bpow radix2 e)).
Proof.
  intros H. unfold f_lit. pose proof (binary_normalize_correct 24 128 _ _ mode_NE m e false) as K. cbv zeta in K.
  change (F2R {| Fnum := m; Fexp := e |}) with (IZR m * bpow radix2 e) in K. change (round _ _ _ (IZR m * bpow radix2 e)) with (RN (IZR m * bpow radix2 e)) in K.
  rewrite Rlt_bool_true in K by exact H. destruct K as (K1 & K2 & _). rewrite fin_value by exact K2. rewrite K1. reflexivity.
Qed.
Lemma of_Z_val n : Rabs (RN (IZR n)) < huge -> value (f_of_Z n) = Fin (RN (IZR n)).
Proof. intros H. unfold f_of_Z. rewrite <- (Rmult_1_r (IZR n)) in *. change 1 with (bpow radix2 0) in *. apply lit_val, H. Qed.
Lemma of_Z_exact n : (Z.abs n <= 2 ^ 24)%Z -> value (f_of_Z n) = Fin (IZR n).
Proof. intros H. pose proof (RN_fmt _ (fmt_int n H)) as E. rewrite of_Z_val; rewrite E; [reflexivity|]. apply huge_int, H. Qed.
(** integral roundings *)
Lemma near_val (m : mode) a x : value a = Fin x -> value (enc (Bnearbyint m (dec a))) = Fin (IZR (round_mode m x)).
Proof.
  intros (Fa & Ea)%value_fin. destruct (Bnearbyint_correct 24 128 _ m (dec a)) as (K1 & K2 & _). rewrite fin_value by (rewrite K2; exact Fa). rewrite K1, Ea.
  unfold round, F2R, scaled_mantissa, cexp, FIX_exp; cbn [Fnum Fexp]. change (bpow radix2 (- 0)) with 1. change (bpow radix2 0) with 1. rewrite !Rmult_1_r. reflexivity.
Qed.
Lemma nearE x : nearest_even x (ZnearestE x).
Proof.
  split; [pose proof (Znearest_half (fun n => negb (Z.even n)) x); lra|]. intros H.
  unfold Znearest in *. destruct (Rcompare_spec (x - IZR (Zfloor x)) (/ 2)) as [C|C|C].
  - pose proof (Zfloor_lb x). rewrite Rabs_pos_eq in H by lra. lra.
  - destruct (Z.even (Zfloor x)) eqn:E; cbn [negb] in *; [exact E|]. rewrite Zceil_floor_neq by (intros K; rewrite K in C; lra). rewrite Z.even_add, E. reflexivity.
  - pose proof (Zceil_ub x). destruct (Req_dec (IZR (Zfloor x)) x) as [K|K]; [lra|]. rewrite (Zceil_floor_neq x K), plus_IZR in *. rewrite Rabs_left1 in H by lra. lra.
Qed.
Lemma floorE x : floor_of x (Zfloor x).
Proof. split; [apply Zfloor_lb|apply Zfloor_ub]. Qed.
Lemma ceilE x : ceiling_of x (Zceil x).
Proof. unfold ceiling_of, Zceil. rewrite opp_IZR. pose proof (Zfloor_lb (- x)). pose proof (Zfloor_ub (- x)). lra. Qed.
Lemma truncE x : toward_zero x (Ztrunc x).
Proof.
  split; intros H.
  - rewrite Ztrunc_floor by exact H. apply floorE.
  - rewrite Ztrunc_ceil by exact H. apply ceilE.
Qed.
Lemma near_special (m : mode) a : (value a = NaN -> value (enc (Bnearbyint m (dec a))) = NaN) /\ (forall s, value a = Inf s -> value (enc (Bnearbyint m (dec a))) = Inf s).
Proof. rewrite value_enc, value_dec. split; [|intros s]; destruct (dec a); cbn [xof Bnearbyint]; intros H; try discriminate; exact H. Qed.
Lemma near_rounds (m : mode) (rnd : R -> Z -> Prop) a : (forall x, rnd x (round_mode m x)) -> rounds rnd a (enc (Bnearbyint m (dec a))).
Proof.
  intros H. unfold rounds. destruct (near_special m a) as (h1 & h2). destruct (value a) as [|s|x] eqn:E; [apply h1; reflexivity|apply h2; reflexivity|].
  exists (round_mode m x). split; [apply near_val, E|apply H].
Qed.
