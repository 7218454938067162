(** The rounding error of the entries of the inverse. *)
From Coq Require Import Reals Lra Lia ZArith Bool.
From Flocq Require Import Core Relative IEEE754.BinarySingleNaN.
From Verif Require Import Base F32 F32Facts Intrin Lane MVec MTrig MQuat MMatrix SpecF32 PF32 SpecRound PFloat PExp SpecGeom SpecMat SpecErr SpecErrR SpecErrI PErr PErrVec PErrMat PErrR PErrDet PErrInv.
Open Scope R_scope.

(** reciprocal of a computed value with a relative error, then the product with another: all with a = 1 / |d| *)
Lemma recip_err (D d P : R) : d <> 0 -> Rabs d <= P -> Rabs (D - d) <= 12 * w * P -> 40 * u24 * P <= Rabs d ->
  D <> 0 /\ Rabs (/ D - / d) <= 18 * w * (P * (/ Rabs d * / Rabs d)) /\ Rabs (/ D) <= 3 / 2 * / Rabs d.
Proof.
  intros Hd HP HE HC. assert (Pd : 0 < Rabs d) by (apply Rabs_pos_lt, Hd). assert (W0 : w = u24 * (1 + / 1000)) by reflexivity.
  assert (HB : 12 * w * P <= 31 / 100 * Rabs d) by (rewrite W0; unfold u24 in *; lra).
  assert (HD : 69 / 100 * Rabs d <= Rabs D). { pose proof (Rabs_triang_inv d (d - D)) as T. replace (d - (d - D)) with D in T by ring. rewrite (Rabs_minus_sym d D) in T. lra. }
  assert (D0 : D <> 0) by (intros ->; rewrite Rabs_R0 in HD; lra). split; [exact D0|].
  assert (HI : Rabs (/ D) <= 145 / 100 * / Rabs d).
  { rewrite Rabs_inv. replace (145 / 100 * / Rabs d) with (/ (100 / 145 * Rabs d)) by (field; lra). apply Rinv_le; [lra|]. lra. }
  split; [|assert (0 < / Rabs d) by (apply Rinv_0_lt_compat, Pd); lra].
  replace (/ D - / d) with (- ((D - d) * (/ D * / d))) by (field; split; assumption). rewrite Rabs_Ropp, !Rabs_mult, (Rabs_inv d).
  assert (0 < / Rabs d) by (apply Rinv_0_lt_compat, Pd).
  apply Rle_trans with (12 * w * P * (145 / 100 * / Rabs d * / Rabs d)).
  - apply Rmult_le_compat; [apply Rabs_pos|apply Rmult_le_pos; [apply Rabs_pos|lra]|exact HE|apply Rmult_le_compat_r; lra].
  - assert (0 <= w * (P * (/ Rabs d * / Rabs d))). { apply Rmult_le_pos; [rewrite W0; unfold u24; lra|]. apply Rmult_le_pos; [lra|apply Rmult_le_pos; lra]. } lra.
Qed.
Lemma inv_entry (D z : Z) (d P c s : R) (S : R) :
  bdr 9 (420 * (S * S) * eta) (32 * (S * S * S * S)) D d P -> bdr 5 (100 * S * eta) (8 * (S * S * S)) z c s ->
  1 <= S <= pow2 30 -> pow2 (-20) <= Rabs d -> 40 * u24 * P <= Rabs d ->
  within (40 * u24 * (P / Rabs d * (s / Rabs d)) + (300 * (S / Rabs d) + 3) * eta) (f_mul z (f_div (f_lit 1 0) D)) (c / d).
Proof.
  intros (_ & _ & AD & BD & _ & vD & VD & ED) (_ & _ & Ac & Bc & _ & vz & Vz & Ez) HS Hd HC.
  assert (L20 : pow2 (-20) = / 1048576) by reflexivity. rewrite L20 in Hd.
  assert (Pd : 0 < Rabs d) by lra. assert (d0 : d <> 0) by (intros ->; rewrite Rabs_R0 in Pd; lra).
  pose proof (scale_facts S HS) as (S1 & S2 & S3 & S4 & S5 & E0 & E1 & E2 & E3).
  (* the absolute term of the determinant disappears in the relative one *)
  assert (T1 : 420 * (S * S) * eta <= w * P).
  { assert (SS : eta * (S * S) <= bpow radix2 (-90)).
    { destruct HS as (_ & HS). change (pow2 30) with (bpow radix2 30) in HS. rewrite <- tiny_eta. change tiny with (bpow radix2 (-150)).
      change (-90)%Z with (-150 + (30 + 30))%Z. rewrite !bpow_plus. apply Rmult_le_compat_l; [apply bpow_ge_0|]. apply Rmult_le_compat; lra. }
    assert (BB : bpow radix2 (-90) <= / 1000000000000000000).
    { apply Rle_trans with (bpow radix2 (-62)); [apply bpow_le; lia|]. change (bpow radix2 (-62)) with (/ 4611686018427387904). lra. }
    assert (WP : w * / 1048576 <= w * P) by (apply Rmult_le_compat_l; [unfold w, u24; lra|lra]). unfold w, u24 in WP. unfold w, u24. lra. }
  assert (ED' : Rabs (vD - d) <= 12 * w * P). { assert (0 <= w * P) by (apply Rmult_le_pos; [unfold w, u24|]; lra). lra. }
  destruct (recip_err vD d P d0 AD ED' HC) as (D0 & IE & IB).
  set (a := / Rabs d) in *. assert (a0 : 0 < a) by (apply Rinv_0_lt_compat, Pd). assert (a1 : a <= 1048576).
  { unfold a. replace 1048576 with (/ / 1048576) by field. apply Rinv_le; lra. }
  assert (Pa : 1 <= P * a). { unfold a. replace 1 with (Rabs d * / Rabs d) by (field; lra). apply Rmult_le_compat_r; [fold a; lra|exact AD]. }
  assert (Ca : 40 * u24 * (P * a) <= 1). { unfold a. apply Rmult_le_reg_r with (Rabs d); [exact Pd|]. replace (40 * u24 * (P * / Rabs d) * Rabs d) with (40 * u24 * P) by (field; lra). lra. }
  set (k := P * a) in *. replace (P * (a * a)) with (k * a) in IE by (unfold k; ring).
  (* the rounded reciprocal *)
  assert (EA : eta <= u24 / 2 * a).
  { (* |d| <= 32 S^4 <= big / 2 *) assert (DB : Rabs d <= big / 2) by lra.
    unfold a. apply Rmult_le_reg_r with (Rabs d); [exact Pd|]. replace (u24 / 2 * / Rabs d * Rabs d) with (u24 / 2) by (field; lra).
    apply Rle_trans with (eta * (big / 2)); [apply Rmult_le_compat_l; lra|]. unfold big. rewrite <- tiny_eta. change tiny with (bpow radix2 (-150)).
    replace (bpow radix2 (-150) * (bpow radix2 126 / 2)) with (bpow radix2 (-150) * bpow radix2 126 / 2) by field. rewrite <- bpow_plus. change (bpow radix2 (-150 + 126)) with (/ 16777216). unfold u24. lra. }
  pose proof (RN_err (/ vD)) as RE. set (r := RN (/ vD)) in *.
  assert (ka : a <= k * a) by (replace a with (1 * a) at 1 by ring; apply Rmult_le_compat_r; lra).
  assert (w0 : w = u24 * (1 + / 1000)) by reflexivity. assert (u0 : 0 < u24) by (unfold u24; lra).
  assert (uka : u24 * a <= u24 * (k * a)) by (apply Rmult_le_compat_l; lra).
  assert (uIB : u24 * Rabs (/ vD) <= u24 * (3 / 2 * a)) by (apply Rmult_le_compat_l; lra).
  assert (ER : Rabs (r - / d) <= 21 * u24 * (k * a)).
  { replace (r - / d) with ((r - / vD) + (/ vD - / d)) by ring. eapply Rle_trans; [apply Rabs_triang|]. rewrite w0 in IE. lra. }
  assert (ERa : Rabs (r - / d) <= 53 / 100 * a).
  { eapply Rle_trans; [exact ER|]. replace (21 * u24 * (k * a)) with (21 * u24 * k * a) by ring. apply Rmult_le_compat_r; lra. }
  assert (Ad : Rabs (/ d) = a) by (unfold a; apply Rabs_inv).
  assert (Rr : Rabs r <= 153 / 100 * a). { replace r with ((r - / d) + / d) by ring. eapply Rle_trans; [apply Rabs_triang|]. lra. }
  assert (huge_b : huge = 4 * big) by exact huge_4big. pose proof big_pos as BP.
  assert (BIG : 1000000000 <= big). { unfold big. apply Rle_trans with (bpow radix2 30); [change (bpow radix2 30) with 1073741824; lra|apply bpow_le; lia]. }
  assert (Vr : value (f_div (f_lit 1 0) D) = Fin r).
  { unfold r. replace (/ vD) with (1 / vD) by (field; exact D0). apply div_val; [exact val_one|exact VD|exact D0|]. replace (1 / vD) with (/ vD) by (field; exact D0). fold r. lra. }
  (* the product *)
  assert (s0 : 0 <= s) by (pose proof (Rabs_pos c); lra).
  set (t := vz * r). set (e := 5 * w * s + 100 * S * eta) in *.
  assert (e0 : 0 <= e) by (pose proof (Rabs_pos (vz - c)); lra).
  assert (et : Rabs (t - c * / d) <= s * (21 * u24 * (k * a)) + e * (153 / 100 * a)).
  { unfold t. replace (vz * r - c * / d) with (c * (r - / d) + (vz - c) * r) by ring. eapply Rle_trans; [apply Rabs_triang|]. rewrite !Rabs_mult.
    apply Rplus_le_compat; apply Rmult_le_compat; try apply Rabs_pos; lra. }
  assert (ska : 0 <= s * a) by (apply Rmult_le_pos; lra). assert (sk : s * a <= s * (k * a)) by (apply Rmult_le_compat_l; lra).
  assert (usk : u24 * (s * a) <= u24 * (s * (k * a))) by (apply Rmult_le_compat_l; lra). assert (us0 : 0 <= u24 * (s * a)) by (apply Rmult_le_pos; lra).
  assert (Sa0 : 0 <= eta * (S * a)) by (apply Rmult_le_pos; [lra|apply Rmult_le_pos; lra]).
  assert (ea : e * a = 5 * (1 + / 1000) * (u24 * (s * a)) + 100 * (eta * (S * a))) by (unfold e; rewrite w0; ring).
  assert (et2 : Rabs (t - c * / d) <= 29 * (u24 * (s * (k * a))) + 154 * (eta * (S * a))) by lra.
  assert (ct : Rabs (c * / d) <= s * a) by (rewrite Rabs_mult, Ad; apply Rmult_le_compat_r; lra).
  assert (usm : 29 * (u24 * (s * (k * a))) <= 3 / 4 * (s * a)).
  { replace (29 * (u24 * (s * (k * a)))) with (29 * u24 * k * (s * a)) by ring. apply Rmult_le_compat_r; lra. }
  assert (tB : Rabs t <= 7 / 4 * (s * a) + 154 * (eta * (S * a))).
  { replace t with ((t - c * / d) + c * / d) by ring. eapply Rle_trans; [apply Rabs_triang|]. lra. }
  pose proof (RN_err t) as RT.
  assert (utB : u24 * Rabs t <= u24 * (7 / 4 * (s * a) + 154 * (eta * (S * a)))) by (apply Rmult_le_compat_l; lra).
  assert (uS : u24 * (154 * (eta * (S * a))) <= eta * (S * a)) by (unfold u24; lra).
  exists (RN t). split.
  - apply mul_val; [exact Vz|exact Vr|]. fold t.
    assert (sa : s * a <= 8 * (S * S * S) * 1048576) by (apply Rmult_le_compat; lra).
    assert (s3b : S * S * S * 1073741824 <= big / 4).
    { destruct HS as (_ & HS). change (pow2 30) with (bpow radix2 30) in HS. assert (s2b : S * S <= bpow radix2 60) by (change 60%Z with (30 + 30)%Z; rewrite bpow_plus; apply Rmult_le_compat; lra).
      assert (s3 : S * S * S <= bpow radix2 90) by (change 90%Z with (60 + 30)%Z; rewrite bpow_plus; apply Rmult_le_compat; lra).
      apply Rle_trans with (bpow radix2 90 * bpow radix2 30); [change (bpow radix2 30) with 1073741824; apply Rmult_le_compat_r; lra|]. rewrite <- bpow_plus. unfold big. change 126%Z with (6 + (90 + 30))%Z. rewrite (bpow_plus radix2 6). change (bpow radix2 6) with 64.
      pose proof (bpow_ge_0 radix2 (90 + 30)). lra. }
    assert (eS : eta * (S * a) <= 1). { apply Rle_trans with (eta * S * 1048576); [replace (eta * (S * a)) with (eta * S * a) by ring; apply Rmult_le_compat_l; lra|]. lra. }
    replace (RN t) with ((RN t - t) + t) by ring. eapply Rle_lt_trans; [apply Rabs_triang|]. unfold u24 in *. lra.
  - replace (RN t - c / d) with ((RN t - t) + (t - c * / d)) by (unfold Rdiv; ring). eapply Rle_trans; [apply Rabs_triang|].
    unfold Rdiv. fold a. replace (P * a * (s * a)) with (s * (k * a)) by (unfold k; ring). replace ((300 * (S * a) + 3) * eta) with (300 * (eta * (S * a)) + 3 * eta) by ring. lra.
Qed.
Lemma inverse_err b M m i j S : holdsM M m -> 1 <= S <= pow2 30 -> mbounded S m -> pow2 (-20) <= Rabs (mdet m) -> 40 * ulp_half * mperm m <= Rabs (mdet m) ->
  within (40 * ulp_half * (det_cond m * (minor_size m j i / Rabs (mdet m))) + (300 * (S / Rabs (mdet m)) + 3) * tiny)
    (entry (snd (XMMatrixInverse (L:=FL) b M)) i j) (inverse_at m i j).
Proof.
  intros HM HS HB Hd HC. pose proof (fun j => idet_bdr b M m j S HM HS HB) as D. pose proof (cof_bdr b M m i j S HM HS HB) as C.
  rewrite tiny_eta. unfold inverse_at, det_cond, entry. change ulp_half with u24 in *.
  assert (K : lane (lane (snd (XMMatrixInverse (L:=FL) b M)) i) j = f_mul (lane (lane (cof b M) i) j) (f_div (f_lit 1 0) (lane (fst (XMMatrixInverse (L:=FL) b M)) j))).
  { rewrite inv_split. cbv zeta. cbn [fst snd]. set (Z := XMVector4Dot _ _ _). clearbody Z. set (X := cof b M). clearbody X. destruct b, i, j; reflexivity. }
  rewrite K. exact (inv_entry _ _ _ _ _ _ _ (D j) C HS Hd HC).
Qed.
Lemma inv_det_err b M m i S : holdsM M m -> 1 <= S <= pow2 30 -> mbounded S m ->
  within (10 * ulp_half * mperm m + 420 * (S * S) * tiny) (lane (fst (XMMatrixInverse (L:=FL) b M)) i) (mdet m).
Proof.
  intros HM HS HB. eapply r_fin; [exact (idet_bdr b M m i S HM HS HB)|reflexivity|lra|lia|rewrite tiny_eta; lra].
Qed.
