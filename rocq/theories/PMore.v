(** Unit conversions, scalar comparisons, plane near-equality, arrays and structures. *)
From Coq Require Import Reals Lra Lia ZArith Bool.
From Flocq Require Import Core.
From Verif Require Import Base F32 F32Facts Intrin Lane MVec MTrig MQuat MPlane MCollide MMem MCompare MMore SpecF32 SpecGeom SpecLanes SpecCompare SpecErr SpecArith
  PF32 PFloat PExp PReal PVec PPlane PErr PFix PTrigPoly PTrig PArith PArithLanes PLanes PMem PCompare.
Open Scope R_scope.

(** ** degrees and radians *)
Ltac wval := unfold value, bit_exp, bit_frac, bit_sign, signed, pow2; simpl; f_equal; lra.
Lemma deg_val : value 0x3C8EFA35 = Fin (9370165 * / 536870912). Proof. wval. Qed.
Lemma rad_val : value 0x42652EE0 = Fin (15019744 * / 262144). Proof. wval. Qed.
Lemma conv_err z a c cv t K : is32 z a -> value c = Fin cv -> 0 < t <= 100 -> Rabs (cv - t) <= K * u24 * t -> 0 <= K <= 1 -> safe (Rabs a * 100) ->
  within ((K + 11 / 10) * ulp_half * (Rabs a * t) + tiny) (f_mul z c) (a * t).
Proof.
  intros (W & V) C HT HK K1 S. pose proof (RN_err (a * cv)) as E. rewrite tiny_eta. assert (UH : ulp_half = u24) by (unfold ulp_half, u24; lra). rewrite UH.
  assert (U : u24 = / 16777216) by (unfold u24; lra). pose proof (Rabs_pos a) as PA.
  assert (CV : Rabs cv <= 11 / 10 * t) by (replace cv with ((cv - t) + t) by ring; eapply Rle_trans; [apply Rabs_triang|]; rewrite (Rabs_pos_eq t) by lra; rewrite U in *; nra).
  assert (AC : Rabs (a * cv) <= 11 / 10 * (Rabs a * t)) by (rewrite Rabs_mult; nra).
  assert (D : Rabs (a * cv - a * t) <= K * u24 * (Rabs a * t)) by (replace (a * cv - a * t) with (a * (cv - t)) by ring; rewrite Rabs_mult; nra).
  exists (RN (a * cv)). split.
  - apply mul_val; [exact V|exact C|]. replace (RN (a * cv)) with ((RN (a * cv) - a * cv) + a * cv) by ring. eapply Rle_lt_trans; [apply Rabs_triang|].
    unfold safe in S. rewrite pow2_bpow in S. assert (H4 : bpow radix2 126 * 4 = huge) by (unfold huge; change 4 with (bpow radix2 2); rewrite <- bpow_plus; reflexivity).
    assert (H1 : 1 < bpow radix2 126) by (change 1 with (bpow radix2 0); apply bpow_lt; lia).
    assert (ET : 0 < eta <= 1) by (unfold eta; split; [apply bpow_gt_0|]; change 1 with (bpow radix2 0); apply bpow_le; lia).
    assert (Rabs a * t <= Rabs a * 100) by nra. rewrite U in *. lra.
  - replace (RN (a * cv) - a * t) with ((RN (a * cv) - a * cv) + (a * cv - a * t)) by ring. eapply Rle_trans; [apply Rabs_triang|]. rewrite U in *. lra.
Qed.
Lemma to_radians z a : is32 z a -> safe (Rabs a * 100) ->
  within (3 / 2 * ulp_half * (Rabs a * (PI / 180)) + tiny) (XMConvertToRadians (L:=FL) z) (a * (PI / 180)).
Proof.
  intros H S. pose proof PI_close as PC. unfold PI32 in PC. change (XMConvertToRadians (L:=FL) z) with (f_mul z (f_div (XM_PI (L:=FL)) (f_lit 180 0))).
  replace (f_div (XM_PI (L:=FL)) (f_lit 180 0)) with 0x3C8EFA35%Z by (vm_compute; reflexivity).
  replace (3 / 2) with (4 / 10 + 11 / 10) by lra. apply conv_err with (1 := H) (2 := deg_val); [lra| |lra|exact S]. apply Rabs_le. unfold u24. lra.
Qed.
Lemma to_degrees z a : is32 z a -> safe (Rabs a * 100) ->
  within (21 / 10 * ulp_half * (Rabs a * (180 / PI)) + tiny) (XMConvertToDegrees (L:=FL) z) (a * (180 / PI)).
Proof.
  intros H S. pose proof PI_close as PC. unfold PI32 in PC. change (XMConvertToDegrees (L:=FL) z) with (f_mul z (f_div (f_lit 180 0) (XM_PI (L:=FL)))).
  replace (f_div (f_lit 180 0) (XM_PI (L:=FL))) with 0x42652EE0%Z by (vm_compute; reflexivity).
  assert (PP : 0 < PI) by lra. assert (T : PI * (180 / PI) = 180) by (field; lra). set (t := 180 / PI) in *. assert (T0 : 57 < t < 58) by nra.
  replace (21 / 10) with (1 + 11 / 10) by lra. apply conv_err with (1 := H) (2 := rad_val); [lra| |lra|exact S]. apply Rabs_le. unfold u24. nra.
Qed.
Lemma roundtrip_degrees z a : is32 z a -> safe (Rabs a * 200) ->
  within (4 * ulp_half * Rabs a + 60 * tiny) (XMConvertToDegrees (L:=FL) (XMConvertToRadians (L:=FL) z)) a.
Proof.
  intros H S. pose proof PI_close as PC. unfold PI32 in PC. pose proof (Rabs_pos a) as PA. unfold safe in *.
  destruct (to_radians z a H) as (r & Vr & Er); [unfold safe; lra|]. set (t := PI / 180) in *. assert (T0 : 17 / 1000 < t < 18 / 1000) by (unfold t; lra).
  assert (T1 : t * (180 / PI) = 1) by (unfold t; field; lra). set (s := 180 / PI) in *. assert (S0 : 55 < s < 59) by nra.
  assert (UH : ulp_half = / 16777216) by reflexivity. assert (TY : 0 < tiny <= 1) by (rewrite tiny_eta; unfold eta; split; [apply bpow_gt_0|]; change 1 with (bpow radix2 0); apply bpow_le; lia).
  assert (RA : Rabs r <= 2 / 100 * Rabs a + tiny). { replace r with ((r - a * t) + a * t) by ring. eapply Rle_trans; [apply Rabs_triang|]. rewrite Rabs_mult, (Rabs_pos_eq t) by lra. rewrite UH in *. nra. }
  destruct (to_degrees (XMConvertToRadians (L:=FL) z) r) as (d & Vd & Ed).
  - split; [apply enc_word|exact Vr].
  - unfold safe. destruct (Rle_or_lt (Rabs a) 1) as [L|L]; [|lra]. apply Rle_trans with (pow2 10); [change (pow2 10) with 1024; lra|]. rewrite !pow2_bpow. apply bpow_le. lia.
  - exists d. split; [exact Vd|]. change (180 / PI) with s in Ed. replace (d - a) with ((d - r * s) + (r - a * t) * s) by (replace a with (a * (t * s)) at 2 by (rewrite T1; ring); ring).
    eapply Rle_trans; [apply Rabs_triang|]. rewrite (Rabs_mult (r - a * t)), (Rabs_pos_eq s) by lra.
    assert (X1 : Rabs (r - a * t) * s <= (3 / 2 * ulp_half * (Rabs a * t) + tiny) * s) by (apply Rmult_le_compat_r; lra).
    assert (X2 : Rabs r * s <= Rabs a * (1 + 2 * ulp_half) + tiny * s).
    { assert (Rabs r <= Rabs a * t + (3 / 2 * ulp_half * (Rabs a * t) + tiny)). { replace r with ((r - a * t) + a * t) at 1 by ring. eapply Rle_trans; [apply Rabs_triang|]. rewrite (Rabs_mult a), (Rabs_pos_eq t) by lra. lra. }
      apply Rle_trans with ((Rabs a * t + (3 / 2 * ulp_half * (Rabs a * t) + tiny)) * s); [apply Rmult_le_compat_r; lra|].
      replace ((Rabs a * t + (3 / 2 * ulp_half * (Rabs a * t) + tiny)) * s) with (Rabs a * (t * s) * (1 + 3 / 2 * ulp_half) + tiny * s) by ring. rewrite T1. rewrite UH in *. lra. }
    replace ((3 / 2 * ulp_half * (Rabs a * t) + tiny) * s) with (3 / 2 * ulp_half * Rabs a * (t * s) + tiny * s) in X1 by ring. rewrite T1 in X1.
    assert (X3 : tiny * s <= tiny * (589 / 10)) by (apply Rmult_le_compat_l; [lra|]; nra). rewrite UH in *. lra.
Qed.
(** ** minimum, maximum, near equality *)
Lemma min_ok a c : (value a <> NaN -> value c <> NaN -> xle (value (XMMin (L:=FL) a c)) (value a) /\ xle (value (XMMin (L:=FL) a c)) (value c)) /\
  (XMMin (L:=FL) a c = a \/ XMMin (L:=FL) a c = c) /\ (value a = NaN \/ value c = NaN -> XMMin (L:=FL) a c = c).
Proof.
  unfold XMMin. change (tlt (L:=FL) a c) with (f_lt a c). pose proof (f_lt_spec a c) as S. destruct (f_lt a c).
  - assert (L : xlt (value a) (value c)) by (apply S; reflexivity). split; [intros; split; [right; destruct (value a); cbn [xeq]; auto|left; exact L]|]. split; [auto|].
    intros [E|E]; rewrite E in L; [contradiction|destruct (value a) as [|[]|]; contradiction].
  - split; [|split; [auto|reflexivity]]. intros A C. split; [|right; destruct (value c); cbn [xeq]; auto].
    assert (L : ~ xlt (value a) (value c)) by (intros K; apply S in K; discriminate). unfold xle.
    destruct (value a) as [|[]|x], (value c) as [|[]|y]; cbn [xlt xeq] in *; try congruence; auto.
    destruct (Rtotal_order x y) as [K|[K|K]]; [contradiction|right; auto|left; exact K].
Qed.
Lemma max_ok a c : (value a <> NaN -> value c <> NaN -> xle (value a) (value (XMMax (L:=FL) a c)) /\ xle (value c) (value (XMMax (L:=FL) a c))) /\
  (XMMax (L:=FL) a c = a \/ XMMax (L:=FL) a c = c) /\ (value a = NaN \/ value c = NaN -> XMMax (L:=FL) a c = c).
Proof.
  unfold XMMax. change (tgt (L:=FL) a c) with (f_lt c a). pose proof (f_lt_spec c a) as S. destruct (f_lt c a).
  - assert (L : xlt (value c) (value a)) by (apply S; reflexivity). split; [intros; split; [right; destruct (value a); cbn [xeq]; auto|left; exact L]|]. split; [auto|].
    intros [E|E]; rewrite E in L; [destruct (value c) as [|[]|]; contradiction|contradiction].
  - split; [|split; [auto|reflexivity]]. intros A C. split; [|right; destruct (value c); cbn [xeq]; auto].
    assert (L : ~ xlt (value c) (value a)) by (intros K; apply S in K; discriminate). unfold xle.
    destruct (value a) as [|[]|x], (value c) as [|[]|y]; cbn [xlt xeq] in *; try congruence; auto.
    destruct (Rtotal_order x y) as [K|[K|K]]; [left; exact K|right; auto|contradiction].
Qed.
Lemma near_ok a c e : word e -> exists d, is_sub (value a) (value c) d /\ (XMScalarNearEqual (L:=FL) a c e = true <-> xle (xabs d) (value e)).
Proof.
  intros W. exists (value (f_sub a c)). split; [apply sub_is|]. change (XMScalarNearEqual (L:=FL) a c e) with (f_le (f_abs (f_sub a c)) e).
  rewrite <- value_abs by apply enc_word. apply f_le_spec.
Qed.
(** ** quaternions *)
Lemma quat_ne b V1 V2 : XMQuaternionNotEqual b V1 V2 = negb (XMQuaternionEqual b V1 V2).
Proof.
  destruct (c07_all D4 V1 V2) as ((E1 & E2) & _). destruct (c07_not_equal D4 V1 V2) as (N1 & N2).
  assert (A : XMQuaternionEqual b V1 V2 = XMVectorNEqual_sse D4 V1 V2) by (destruct b; [exact E1|reflexivity]).
  assert (N : XMQuaternionNotEqual b V1 V2 = XMVectorNNotEqual_sse D4 V1 V2) by (destruct b; [exact N1|reflexivity]).
  rewrite A, N, <- E1, <- N1. unfold XMVectorNEqual_scalar, XMVectorNNotEqual_scalar, vn_scalar. change (qmap2 f_neq V1 V2) with (qmap negb (qmap2 f_eq V1 V2)).
  destruct (qmap2 f_eq V1 V2) as [[] [] [] []]; reflexivity.
Qed.
Lemma identity_ok b V : XMQuaternionIsIdentity b V = true <-> (value (qx V) = Fin 0 /\ value (qy V) = Fin 0 /\ value (qz V) = Fin 0 /\ value (qw V) = Fin 1).
Proof.
  destruct (c07_all D4 V IdentityR3) as ((E1 & E2) & _).
  assert (A : XMQuaternionIsIdentity b V = XMVectorNEqual_sse D4 V IdentityR3) by (destruct b; [exact E1|reflexivity]). rewrite A, E2.
  assert (V0 : value 0 = Fin 0) by (change (Fin (IZR 0 * pow2 (-149)) = Fin 0); f_equal; apply Rmult_0_l). assert (V1 : value 0x3f800000 = Fin 1) by wval.
  unfold every, at_lane. cbn [ndim]. assert (X : forall v r, xeq v (Fin r) <-> v = Fin r) by (intros [|s|q] r; cbn [xeq]; split; intros K; try contradiction; try discriminate; [f_equal; exact K|apply fin_inj; exact K]).
  split.
  - intros H. pose proof (H 0%Z ltac:(lia)) as K0. pose proof (H 1%Z ltac:(lia)) as K1. pose proof (H 2%Z ltac:(lia)) as K2. pose proof (H 3%Z ltac:(lia)) as K3.
    change (xeq (value (qx V)) (value 0)) in K0. change (xeq (value (qy V)) (value 0)) in K1. change (xeq (value (qz V)) (value 0)) in K2. change (xeq (value (qw V)) (value 0x3f800000)) in K3.
    rewrite V0 in *. rewrite V1 in *. rewrite X in *. auto.
  - intros (K0 & K1 & K2 & K3) k Hk. assert (C : k = 0%Z \/ k = 1%Z \/ k = 2%Z \/ k = 3%Z) by lia.
    destruct C as [-> | [-> | [-> | ->]]];
    [change (xeq (value (qx V)) (value 0))|change (xeq (value (qy V)) (value 0))|change (xeq (value (qz V)) (value 0))|change (xeq (value (qw V)) (value 0x3f800000))]; rewrite ?K0, ?K1, ?K2, ?K3, ?V0, ?V1; reflexivity.
Qed.
(** ** planes *)
Lemma plane_near b (P1 P2 e : rvec) : ~ zero3 P1 -> ~ zero3 P2 -> (XMPlaneNearEqual (L:=RL) b P1 P2 e = true <-> forall k, Rabs (lane P1 k / norm3 P1 - lane P2 k / norm3 P2) <= lane e k).
Proof.
  intros H1 H2. unfold XMPlaneNearEqual. cbv zeta. rewrite !PNorm_R by assumption. unfold XMVectorNearEqual. rewrite Abs_R.
  destruct P1 as [p0 p1 p2 p3], P2 as [q0 q1 q2 q3], e as [e0 e1 e2 e3]. set (n1 := norm3 _). set (n2 := norm3 _).
  unfold vle, vsub, qall, scale. cbn [qmap qmap2 qx qy qz qw tle RL tsub].
  rewrite !andb_true_iff, !Rleb_true. split.
  - intros (((A & B) & C) & D) [| | |]; cbn [lane qx qy qz qw]; unfold Rdiv; rewrite (Rmult_comm _ (/ n1)), (Rmult_comm _ (/ n2)); assumption.
  - intros H. pose proof (H I0) as A. pose proof (H I1) as B. pose proof (H I2) as C. pose proof (H I3) as D. cbn [lane qx qy qz qw] in *. unfold Rdiv in *.
    rewrite (Rmult_comm _ (/ n1)), (Rmult_comm _ (/ n2)) in A. rewrite (Rmult_comm _ (/ n1)), (Rmult_comm _ (/ n2)) in B.
    rewrite (Rmult_comm _ (/ n1)), (Rmult_comm _ (/ n2)) in C. rewrite (Rmult_comm _ (/ n1)), (Rmult_comm _ (/ n2)) in D. auto.
Qed.
Lemma norm3_scale k P : 0 < k -> norm3 (scale k P) = k * norm3 P.
Proof.
  intros H. unfold norm3, scale, dot3. cbn [qx qy qz qw]. replace (k * qx P * (k * qx P) + k * qy P * (k * qy P) + k * qz P * (k * qz P)) with (k * k * (qx P * qx P + qy P * qy P + qz P * qz P)) by ring.
  rewrite sqrt_mult_alt by nra. rewrite sqrt_square by lra. reflexivity.
Qed.
Lemma bool_same (a b : bool) : (a = true <-> b = true) -> a = b.
Proof. destruct a, b; intuition. Qed.
Lemma plane_near_scale b (P1 P2 e : rvec) k : 0 < k -> ~ zero3 P1 -> ~ zero3 P2 -> XMPlaneNearEqual (L:=RL) b (scale k P1) P2 e = XMPlaneNearEqual (L:=RL) b P1 P2 e.
Proof.
  intros K H1 H2. pose proof (norm3_pos P1 H1) as NP. assert (H1' : ~ zero3 (scale k P1)).
  { intros (A & B & C). apply H1. unfold scale in *. cbn [qx qy qz] in *. repeat split; nra. }
  apply bool_same. rewrite !plane_near by assumption. rewrite norm3_scale by exact K.
  assert (E : forall j, lane (scale k P1) j / (k * norm3 P1) = lane P1 j / norm3 P1) by (intros []; unfold scale; cbn [lane qx qy qz qw]; field; lra).
  split; intros H j; specialize (H j); rewrite E in *; exact H.
Qed.
(** a plane and its opposite are told apart by every tolerance below 1 *)
Lemma plane_near_opposite b (P e : rvec) : ~ zero3 P -> (forall k, lane e k < 1) -> XMPlaneNearEqual (L:=RL) b P (scale (-1) P) e = false.
Proof.
  intros H He. pose proof (norm3_pos P H) as NP. assert (H' : ~ zero3 (scale (-1) P)).
  { intros (A & B & C). apply H. unfold scale in *. cbn [qx qy qz] in *. repeat split; lra. }
  apply not_true_is_false. rewrite plane_near by assumption. intros K.
  assert (NN : norm3 (scale (-1) P) = norm3 P) by (unfold norm3, scale, dot3; cbn [qx qy qz qw]; f_equal; ring). rewrite NN in K.
  assert (S : norm3 P * norm3 P = qx P * qx P + qy P * qy P + qz P * qz P) by (unfold norm3, dot3; apply sqrt_sqrt; nra).
  assert (G : forall j, Rabs (lane P j) < norm3 P / 2).
  { intros j. specialize (K j). specialize (He j). replace (lane P j / norm3 P - lane (scale (-1) P) j / norm3 P) with (2 * lane P j / norm3 P) in K by (destruct j; unfold scale; cbn [lane qx qy qz qw]; field; lra).
    unfold Rdiv in K. rewrite 2 Rabs_mult, (Rabs_pos_eq 2), (Rabs_pos_eq (/ norm3 P)) in K by (first [lra|left; apply Rinv_0_lt_compat; exact NP]).
    apply Rmult_lt_reg_r with (/ norm3 P); [apply Rinv_0_lt_compat; exact NP|]. replace (norm3 P / 2 * / norm3 P) with (1 / 2) by (field; lra). pose proof (Rle_lt_trans _ _ _ K He) as KK. lra. }
  pose proof (G I0) as A. pose proof (G I1) as B. pose proof (G I2) as C. cbn [lane] in *. apply Rabs_def2 in A, B, C. nra.
Qed.

(** ** arrays and structures *)
Open Scope Z_scope.
Lemma rows_len r c m rs : rows_from r c m = Some rs -> length rs = r /\ length m = (r * c)%nat /\ concat rs = m /\ Forall (fun row => length row = c) rs.
Proof.
  revert m rs. induction r as [|r IH]; intros m rs; cbn [rows_from].
  - destruct m; [|discriminate]. intros [= <-]. repeat split. constructor.
  - destruct (Nat.leb_spec c (length m)) as [L|L]; [|discriminate]. destruct (rows_from r c (skipn c m)) as [t|] eqn:E; [|discriminate]. intros [= <-].
    destruct (IH _ _ E) as (A & B & C & D). cbn [length concat]. rewrite A, C. split; [reflexivity|]. rewrite skipn_length in B. split; [cbn [Nat.mul]; lia|].
    split; [apply firstn_skipn|]. constructor; [apply firstn_length_le; exact L|exact D].
Qed.
Lemma rows_ok r c m : length m = (r * c)%nat -> exists rs, rows_from r c m = Some rs.
Proof.
  revert m. induction r as [|r IH]; intros m L; cbn [rows_from].
  - destruct m; [eauto|discriminate].
  - cbn [Nat.mul] in L. destruct (Nat.leb_spec c (length m)); [|lia]. destruct (IH (skipn c m)) as (t & ->); [rewrite skipn_length; lia|]. cbn [omap]. eauto.
Qed.
Lemma rows_nth r c m rs i j : rows_from r c m = Some rs -> (i < r)%nat -> (j < c)%nat -> nth j (nth i rs []) 0 = nth (c * i + j) m 0.
Proof.
  revert m rs i. induction r as [|r IH]; intros m rs i; cbn [rows_from]; [lia|].
  destruct (Nat.leb_spec c (length m)) as [L|L]; [|discriminate]. destruct (rows_from r c (skipn c m)) as [t|] eqn:E; [|discriminate]. intros [= <-] Hi Hj.
  assert (FL : length (firstn c m) = c) by (apply firstn_length_le; exact L). rewrite <- (firstn_skipn c m) at 2. destruct i as [|i].
  - cbn [nth]. rewrite app_nth1 by lia. f_equal. lia.
  - cbn [nth]. rewrite (IH _ _ _ E) by lia. rewrite app_nth2 by lia. f_equal. lia.
Qed.
Lemma rows_concat r c rs : length rs = r -> Forall (fun row => length row = c) rs -> rows_from r c (concat rs) = Some rs.
Proof.
  revert rs. induction r as [|r IH]; intros rs L F.
  - destruct rs; [reflexivity|discriminate].
  - destruct rs as [|row rs]; [discriminate|]. inversion F as [|? ? F1 F2]; subst. cbn [concat rows_from]. rewrite app_length.
    destruct (Nat.leb_spec (length row) (length row + length (concat rs))); [|lia].
    rewrite firstn_app, Nat.sub_diag, firstn_all, firstn_O, app_nil_r. rewrite skipn_app, Nat.sub_diag, skipn_all. cbn [skipn app]. rewrite IH; [reflexivity|injection L; auto|exact F2].
Qed.
Lemma pick_eq {A} b (x : A) : pick b x x = x. Proof. destruct b; reflexivity. Qed.
Lemma list4 (a : list Z) : length a = 4%nat -> exists x y z w, a = [x; y; z; w].
Proof. destruct a as [|x [|y [|z [|w [|]]]]]; try discriminate. intros _. eauto. Qed.
Lemma vector_from b a : length a = 4%nat -> exists v, XMVector_from b a = Some v /\ lanes_are v (word_at a).
Proof.
  intros L. destruct (list4 a L) as (x & y & z & w & ->). unfold XMVector_from. cbn [XMFLOAT4_from read4 obind words4 f4x f4y f4z f4w].
  destruct (load4_ok [x; y; z; w]) as (v & A & B & C); [cbn; lia|]. exists v. destruct b; cbn [pick]; auto.
Qed.
Lemma matrix_from_flat b a : length a = 16%nat -> exists M, XMMatrix_from_flat b a = Some M /\ mat_is M (fun i j => word_at a (4 * i + j)).
Proof.
  intros L. unfold XMMatrix_from_flat, XMFLOAT4X4_from. destruct (rows_ok 4 4 a) as (rs & E); [exact L|]. rewrite E. cbn [obind]. unfold rows_words. destruct (rows_len _ _ _ _ E) as (_ & _ & -> & _).
  destruct (load4x4_ok a) as (M & A & B & C); [lia|]. exists M. destruct b; cbn [pick]; auto.
Qed.
Lemma concat_len (rs : list (list Z)) c : Forall (fun row => length row = c) rs -> length (concat rs) = (length rs * c)%nat.
Proof. induction 1 as [|? ? H _ IH]; [reflexivity|]. cbn [concat length]. rewrite app_length, IH, H. reflexivity. Qed.
Lemma matrix_from_rows b a : length a = 4%nat -> Forall (fun row => length row = 4%nat) a ->
  exists M, XMMatrix_from_rows b a = Some M /\ mat_is M (fun i j => nth (Z.to_nat j) (nth (Z.to_nat i) a []) 0).
Proof.
  intros L F. destruct (matrix_from_flat b (concat a)) as (M & A & B). { rewrite (concat_len _ 4 F), L. reflexivity. }
  exists M. split; [exact A|]. intros i j Hi Hj. rewrite (B i j Hi Hj). unfold word_at.
  rewrite (rows_nth 4 4 (concat a) a (Z.to_nat i) (Z.to_nat j) (rows_concat 4 4 a L F)) by lia. f_equal. lia.
Qed.
Definition zidx (i : idx) : Z := match i with I0 => 0 | I1 => 1 | I2 => 2 | I3 => 3 end.
Lemma matrix_into b m M : length m = 16%nat -> exists a, XMMatrix_into_flat b m M = Some a /\ length a = 16%nat /\
  XMMatrix_from_flat b a = Some M /\ (forall i j, 0 <= i < 4 -> 0 <= j < 4 -> word_at a (4 * i + j) = ent M i j) /\
  exists rs, XMMatrix_into_rows b m M = Some rs /\ XMMatrix_from_rows b rs = Some M /\ rows_words rs = a /\
    (forall i j, 0 <= i < 4 -> 0 <= j < 4 -> nth (Z.to_nat j) (nth (Z.to_nat i) rs []) 0 = ent M i j).
Proof.
  intros L. destruct (store4x4_ok m M) as (a & A & B & (C1 & C2)); [lia|].
  exists a. unfold XMMatrix_into_flat, XMMatrix_into_rows. assert (P : pick b XMStoreFloat4x4_scalar XMStoreFloat4x4_sse m M = Some a) by (destruct b; assumption). rewrite P. cbn [obind].
  assert (W : forall i j, 0 <= i < 4 -> 0 <= j < 4 -> word_at a (4 * i + j) = ent M i j).
  { intros i j Hi Hj. rewrite C2 by lia. destruct (Z.ltb_spec (4 * i + j) 16); [|lia]. f_equal; [symmetry; apply (Z.div_unique _ 4 i j); lia|symmetry; apply (Z.mod_unique _ 4 i j); lia]. }
  assert (LA : length a = 16%nat) by congruence.
  destruct (matrix_from_flat b a LA) as (M' & D & E).
  assert (MM : M' = M). { apply quad_ext. intros i. apply quad_ext. intros j. pose proof (E (zidx i) (zidx j) ltac:(destruct i; cbn; lia) ltac:(destruct j; cbn; lia)) as H. cbv beta in H.
    rewrite (W (zidx i) (zidx j)) in H by (first [destruct i; cbn; lia|destruct j; cbn; lia]). destruct i, j; exact H. }
  subst M'. split; [reflexivity|]. split; [exact LA|]. split; [exact D|]. split; [exact W|].
  destruct (rows_ok 4 4 a) as (rs & R); [exact LA|]. exists rs. rewrite R. destruct (rows_len _ _ _ _ R) as (R1 & R2 & R3 & R4).
  split; [reflexivity|]. split; [unfold XMMatrix_from_rows, rows_words; rewrite R3; exact D|]. split; [exact R3|].
  intros i j Hi Hj. rewrite (rows_nth _ _ _ _ _ _ R) by lia. rewrite <- (W i j Hi Hj). unfold word_at. f_equal. lia.
Qed.
