(** Real-number error bounds for the library's sine and cosine polynomials and its angle constants. *)
From Coq Require Import Reals ZArith List Lra Lia Psatz Machin.
From Flocq Require Import Core.Raux.
From Verif Require Import PPoly.
Import ListNotations.
Local Open Scope R_scope.

Definition twoPI32 : R := 13176795 / 2097152.
Definition PI32 : R := 13176795 / 4194304.
Definition halfPI32 : R := 13176795 / 8388608.
Definition inv2PI32 : R := 10680707 / 67108864.

(** ** PI *)
Lemma PI_close : 8742 / 100000000000 <= PI32 - PI <= 8743 / 100000000000.
Proof.
  destruct (PI_2_3_7_ineq 6) as [H1 H2]. unfold PI32.
  cbv beta iota delta [sum_f_R0 tg_alt PI_2_3_7_tg Ratan_seq mult plus Nat.mul Nat.add] in H1, H2.
  rewrite ?INR_IZR_INZ in H1. rewrite ?INR_IZR_INZ in H2.
  cbv beta iota delta [Z.of_nat Pos.of_succ_nat Pos.succ pow] in H1, H2.
  split; lra.
Qed.

(** ** The polynomials *)
Definition sinp (y : R) : R :=
  let z := y * y in
  y * (1 + z * (-11184811 / 67108864 + z * (4473923 / 536870912 + z * (-13634545 / 68719476736
    + z * (6052935 / 2199023255552 + z * (-13448795 / 562949953421312)))))).
Definition cosp (y : R) : R :=
  let z := y * y in
  1 + z * (-1 / 2 + z * (11184803 / 268435456 + z * (-5965013 / 4294967296
    + z * (6806113 / 274877906944 + z * (-9166097 / 35184372088832))))).
(** differences with the Taylor polynomials in z = y * y, times a common denominator (and divided by y for the sine) *)
Definition Ms : Z := 200234221079189461193981952000.
Definition Mc : Z := 736155224555843607330816000.
Definition ds15 : list Z := [0; -994574134941843456000; -472422714097375641600; 792005506025442508800; -635897043479848550400; 232722104410008944640; -32155701339425341440; 153122387330596864]%Z.
Definition ds17 : list Z := [0; -994574134941843456000; -472422714097375641600; 792005506025442508800; -635897043479848550400; 232722104410008944640; -32155701339425341440; 153122387330596864; -562949953421312]%Z.
Definition dc14 : list Z := [0; 0; -21025004690866176000; 37597431395568844800; -30250420959235276800; 11084323590876856320; -1536853372840181760; 8444249301319680]%Z.
Definition dc16 : list Z := [0; 0; -21025004690866176000; 37597431395568844800; -30250420959235276800; 11084323590876856320; -1536853372840181760; 8444249301319680; -35184372088832]%Z.

Fixpoint factZ (n : nat) : Z := match n with O => 1%Z | S k => (Z.of_nat n * factZ k)%Z end.
Lemma factZ_ok n : INR (fact n) = IZR (factZ n).
Proof.
  induction n as [|n IH]; [reflexivity|]. change (fact (S n)) with (S n * fact n)%nat. rewrite mult_INR, IH. cbn [factZ].
  rewrite mult_IZR, INR_IZR_INZ. reflexivity.
Qed.
Ltac taylor := rewrite ?factZ_ok;
  cbv beta iota zeta delta [sin_approx cos_approx sin_term cos_term sum_f_R0 pow mult plus Nat.mul Nat.add factZ Z.of_nat Pos.of_succ_nat Pos.succ
    Z.mul Pos.mul Pos.add peval ds15 ds17 dc14 dc16 Ms Mc sinp cosp]; field.
Lemma sin_lo a : sinp a - sin_approx a 7 = a * peval ds15 (a * a) / IZR Ms.
Proof. unfold sin_approx, sin_term. cbn [sum_f_R0]. taylor. Qed.
Lemma sin_hi a : sinp a - sin_approx a 8 = a * peval ds17 (a * a) / IZR Ms.
Proof. unfold sin_approx, sin_term. cbn [sum_f_R0]. taylor. Qed.
Lemma cos_lo a : cosp a - cos_approx a 7 = peval dc14 (a * a) / IZR Mc.
Proof. unfold cos_approx, cos_term. cbn [sum_f_R0]. taylor. Qed.
Lemma cos_hi a : cosp a - cos_approx a 8 = peval dc16 (a * a) / IZR Mc.
Proof. unfold cos_approx, cos_term. cbn [sum_f_R0]. taylor. Qed.

Definition poly_err : R := 3 / 100000000.
Definition chk (p : list Z) (B : Z) : bool := pbounded p 1000000 0 38554 32 B 1.
Lemma chk_ok p B y : chk p B = true -> 0 <= y <= halfPI32 -> Rabs (peval p (y * y)) <= IZR B.
Proof.
  intros H Hy. replace (IZR B) with (IZR B / 1) by field. apply (pbounded_ok _ _ _ _ _ _ _ _ H).
  change (0 + 2 * 38554 * Z.of_nat 32)%Z with 2467456%Z. unfold halfPI32 in Hy. nra.
Qed.
Lemma chk_sin15 : chk ds15 (Ms * 19 / 1000000000) = true. Proof. vm_compute. reflexivity. Qed.
Lemma chk_sin17 : chk ds17 (Ms * 19 / 1000000000) = true. Proof. vm_compute. reflexivity. Qed.
Lemma chk_cos14 : chk dc14 (Mc * 29 / 1000000000) = true. Proof. vm_compute. reflexivity. Qed.
Lemma chk_cos16 : chk dc16 (Mc * 29 / 1000000000) = true. Proof. vm_compute. reflexivity. Qed.

Lemma sin_d p y : chk p (Ms * 19 / 1000000000) = true -> 0 <= y <= halfPI32 ->
  Rabs (y * peval p (y * y) / IZR Ms) <= poly_err.
Proof.
  intros C Hy. pose proof (chk_ok _ _ y C Hy) as A.
  assert (B : IZR (Ms * 19 / 1000000000) <= IZR Ms * (19 / 1000000000)).
  { replace (Ms * 19 / 1000000000)%Z with 3804450200504599762685%Z by (vm_compute; reflexivity). unfold Ms. lra. }
  assert (P : 0 < IZR Ms) by (apply IZR_lt; reflexivity).
  unfold Rdiv. rewrite !Rabs_mult, (Rabs_pos_eq y), (Rabs_pos_eq (/ _)) by
    first [lra | apply Rlt_le, Rinv_0_lt_compat; exact P].
  apply (Rmult_le_reg_r (IZR Ms)); [exact P|]. rewrite Rmult_assoc, Rinv_l, Rmult_1_r by lra.
  apply Rle_trans with (halfPI32 * (IZR Ms * (19 / 1000000000))).
  - apply Rmult_le_compat; try lra. apply Rabs_pos.
  - unfold poly_err, halfPI32. nra.
Qed.
Lemma cos_d p y : chk p (Mc * 29 / 1000000000) = true -> 0 <= y <= halfPI32 ->
  Rabs (peval p (y * y) / IZR Mc) <= poly_err.
Proof.
  intros C Hy. pose proof (chk_ok _ _ y C Hy) as A.
  assert (B : IZR (Mc * 29 / 1000000000) <= IZR Mc * (29 / 1000000000)).
  { replace (Mc * 29 / 1000000000)%Z with 21348501512119464612%Z by (vm_compute; reflexivity). unfold Mc. lra. }
  assert (P : 0 < IZR Mc) by (apply IZR_lt; reflexivity).
  unfold Rdiv. rewrite !Rabs_mult, (Rabs_pos_eq (/ _)) by (apply Rlt_le, Rinv_0_lt_compat; exact P).
  apply (Rmult_le_reg_r (IZR Mc)); [exact P|]. rewrite Rmult_assoc, Rinv_l, Rmult_1_r by lra.
  unfold poly_err. nra.
Qed.

Lemma sinp_pos y : 0 <= y <= halfPI32 -> Rabs (sinp y - sin y) <= poly_err.
Proof.
  intros Hy. assert (y <= 4) by (unfold halfPI32 in Hy; lra).
  destruct (pre_sin_bound y 3 (proj1 Hy) H) as [H1 H2]. change (2 * 3 + 1)%nat with 7%nat in H1.
  change (2 * (3 + 1))%nat with 8%nat in H2.
  pose proof (sin_d _ y chk_sin15 Hy) as A. pose proof (sin_d _ y chk_sin17 Hy) as B.
  rewrite <- sin_lo in A. rewrite <- sin_hi in B.
  apply Rabs_le. apply Rabs_le_inv in A. apply Rabs_le_inv in B. lra.
Qed.
Lemma sinp_odd y : sinp (- y) = - sinp y.
Proof. unfold sinp. cbv zeta. replace (- y * - y) with (y * y) by ring. ring. Qed.
Lemma cosp_even y : cosp (- y) = cosp y.
Proof. unfold cosp. cbv zeta. replace (- y * - y) with (y * y) by ring. ring. Qed.
Lemma sinp_err y : Rabs y <= halfPI32 -> Rabs (sinp y - sin y) <= poly_err.
Proof.
  intros H. apply Rabs_le_inv in H. destruct (Rle_dec 0 y) as [P|P]; [apply sinp_pos; lra|].
  rewrite <- (Ropp_involutive y), sinp_odd, sin_neg.
  replace (- sinp (- y) - - sin (- y)) with (- (sinp (- y) - sin (- y))) by ring. rewrite Rabs_Ropp. apply sinp_pos. lra.
Qed.
Lemma cosp_err y : Rabs y <= halfPI32 -> Rabs (cosp y - cos y) <= poly_err.
Proof.
  assert (Pos : forall y, 0 <= y <= halfPI32 -> Rabs (cosp y - cos y) <= poly_err).
  { intros z Hz. assert (L : -2 <= z) by lra. assert (U : z <= 2) by (unfold halfPI32 in Hz; lra).
    destruct (pre_cos_bound z 3 L U) as [H1 H2]. change (2 * 3 + 1)%nat with 7%nat in H1.
    change (2 * (3 + 1))%nat with 8%nat in H2.
    pose proof (cos_d _ z chk_cos14 Hz) as A. pose proof (cos_d _ z chk_cos16 Hz) as B.
    rewrite <- cos_lo in A. rewrite <- cos_hi in B.
    apply Rabs_le. apply Rabs_le_inv in A. apply Rabs_le_inv in B. lra. }
  intros H. apply Rabs_le_inv in H. destruct (Rle_dec 0 y) as [P|P]; [apply Pos; lra|].
  rewrite <- (Ropp_involutive y), cosp_even, cos_neg. apply Pos. lra.
Qed.
