(** Error bounds for the polynomials of the [Est] functions, as distances to the precise polynomials. *)
From Coq Require Import Reals ZArith List Lra Lia Psatz Ratan.
From Flocq Require Import Core.Raux.
From Verif Require Import PPoly PTrigPoly PArcPoly.
Import ListNotations.
Local Open Scope R_scope.

Definition sine (y : R) : R :=
  let z := y * y in y * (1 + z * (-1398033 / 8388608 + z * (2231759 / 268435456 + z * (-1591257 / 8589934592)))).
Definition cose (y : R) : R :=
  let z := y * y in 1 + z * (-8387391 / 16777216 + z * (11138439 / 268435456 + z * (-10919899 / 8589934592))).
Definition arce (x : R) : R :=
  3294057 / 2097152 + x * (-3558689 / 16777216 + x * (9967143 / 134217728 + x * (-628451 / 33554432))).
Definition atane (x : R) : R :=
  let z := x * x in
  x * (2096871 / 2097152 + z * (-2770753 / 8388608 + z * (6044529 / 33554432 + z * (-5713179 / 67108864 + z * (11185759 / 536870912))))).

(** differences with the precise polynomials, times a power of two *)
Definition dse : list Z := [0; 4588568576; -10910433280; 7409573888; -1549551360; 13448795]%Z.
Definition dce : list Z := [0; 2552233984; -6077022208; 4137480192; -871182464; 9166097]%Z.
Definition dae : list Z := [-144896; 5335232; -31606640; 67527632; -66339808; 36696472; -14323909; 2711179]%Z.
Definition dte : list Z := [-287744; 6511104; -42508384; 122312064; -184098484; 161683264; -92147696; 34715656; -6155173]%Z.
Lemma dse_ok y : sine y - sinp y = y * peval dse (y * y) / 562949953421312.
Proof. unfold sine, sinp, dse. cbv zeta. cbn [peval]. field. Qed.
Lemma dce_ok y : cose y - cosp y = peval dce (y * y) / 35184372088832.
Proof. unfold cose, cosp, dce. cbv zeta. cbn [peval]. field. Qed.
Lemma dae_ok x : arce x - arcp x = peval dae x / 2147483648.
Proof. unfold arce, arcp, dae. cbn [peval]. field. Qed.
Lemma dte_ok x : atane x - atanp x = x * peval dte (x * x) / 2147483648.
Proof. unfold atane, atanp, dte. cbv zeta. cbn [peval]. field. Qed.

(** x dte(x^2) *)
Definition dtx : list Z := [0; -287744; 0; 6511104; 0; -42508384; 0; 122312064; 0; -184098484; 0; 161683264; 0; -92147696; 0; 34715656; 0; -6155173]%Z.
Lemma dtx_ok x : peval dtx x = x * peval dte (x * x).
Proof. unfold dtx, dte. cbn [peval]. ring. Qed.
Lemma chk_dse : pbounded dse 1000000 0 9640 128 590000000 1 = true. Proof. vm_compute. reflexivity. Qed.
Lemma chk_dce : pbounded dce 1000000 0 9640 128 330000000 1 = true. Proof. vm_compute. reflexivity. Qed.
Lemma chk_dae : pbounded dae 4999 0 20 125 150000 1 = true. Proof. vm_compute. reflexivity. Qed.
Lemma chk_dtx : pbounded dtx 4999 0 20 125 26000 1 = true. Proof. vm_compute. reflexivity. Qed.

Lemma sqr_range y : Rabs y <= halfPI32 -> 0 <= 1000000 * (y * y) < 2467840.
Proof. intros H. apply Rabs_le_inv in H. unfold halfPI32 in H. nra. Qed.
Definition sine_err : R := 17 / 10000000.
Definition cose_err : R := 95 / 10000000.
Definition arce_err : R := 71 / 1000000.
Definition atane_err : R := 13 / 1000000.
Lemma sine_ok y : Rabs y <= halfPI32 -> Rabs (sine y - sin y) <= sine_err.
Proof.
  intros H. pose proof (sinp_err y H) as A. pose proof (pbounded_ok _ _ _ _ _ _ _ _ chk_dse (sqr_range y H)) as B.
  assert (C : Rabs (sine y - sinp y) <= 165 / 100000000).
  { rewrite dse_ok. unfold Rdiv. rewrite !Rabs_mult, (Rabs_pos_eq (/ 562949953421312)) by lra.
    unfold halfPI32 in H. pose proof (Rabs_pos y). pose proof (Rabs_pos (peval dse (y * y))).
    assert (Rabs y * Rabs (peval dse (y * y)) <= 13176795 / 8388608 * 590000000) by (apply Rmult_le_compat; lra). lra. }
  unfold sine_err, poly_err in *. replace (sine y - sin y) with (sine y - sinp y + (sinp y - sin y)) by ring.
  eapply Rle_trans; [apply Rabs_triang|]. lra.
Qed.
Lemma cose_ok y : Rabs y <= halfPI32 -> Rabs (cose y - cos y) <= cose_err.
Proof.
  intros H. pose proof (cosp_err y H) as A. pose proof (pbounded_ok _ _ _ _ _ _ _ _ chk_dce (sqr_range y H)) as B.
  assert (C : Rabs (cose y - cosp y) <= 938 / 100000000).
  { rewrite dce_ok. unfold Rdiv. rewrite !Rabs_mult, (Rabs_pos_eq (/ 35184372088832)) by lra. lra. }
  unfold cose_err, poly_err in *. replace (cose y - cos y) with (cose y - cosp y + (cosp y - cos y)) by ring.
  eapply Rle_trans; [apply Rabs_triang|]. lra.
Qed.
Lemma arce_ok x : 0 <= x <= 1 -> Rabs (arce x * sqrt (1 - x) - acos x) <= arce_err.
Proof.
  intros H. pose proof (arcp_ok x H) as A.
  assert (B : Rabs (peval dae x) <= 150000 / 1).
  { apply (pbounded_ok _ _ _ _ _ _ _ _ chk_dae). change (0 + 2 * 20 * Z.of_nat 125)%Z with 5000%Z. lra. }
  assert (S : 0 <= sqrt (1 - x) <= 1).
  { split; [apply sqrt_pos|]. apply (Rle_trans _ (sqrt 1)); [apply sqrt_le_1_alt; lra|rewrite sqrt_1; lra]. }
  assert (C : Rabs ((arce x - arcp x) * sqrt (1 - x)) <= 70 / 1000000).
  { rewrite dae_ok. unfold Rdiv. rewrite !Rabs_mult, (Rabs_pos_eq (/ 2147483648)), (Rabs_pos_eq (sqrt _)) by lra.
    pose proof (Rabs_pos (peval dae x)). nra. }
  unfold arce_err, acos_err in *.
  replace (arce x * sqrt (1 - x) - acos x) with ((arce x - arcp x) * sqrt (1 - x) + (arcp x * sqrt (1 - x) - acos x)) by ring.
  eapply Rle_trans; [apply Rabs_triang|]. lra.
Qed.
Lemma atane_odd x : atane (- x) = - atane x.
Proof. unfold atane. cbv zeta. replace (- x * - x) with (x * x) by ring. ring. Qed.
Lemma atane_ok x : Rabs x <= 1 -> Rabs (atane x - atan x) <= atane_err.
Proof.
  assert (P : forall x, 0 <= x <= 1 -> Rabs (atane x - atan x) <= atane_err).
  { intros u H. assert (A : Rabs (atanp u - atan u) <= atan_err) by (apply atanp_ok; rewrite Rabs_pos_eq; lra).
    assert (B : Rabs (peval dtx u) <= 26000 / 1).
    { apply (pbounded_ok _ _ _ _ _ _ _ _ chk_dtx). change (0 + 2 * 20 * Z.of_nat 125)%Z with 5000%Z. lra. }
    rewrite dtx_ok in B.
    assert (C : Rabs (atane u - atanp u) <= 122 / 10000000).
    { rewrite dte_ok. unfold Rdiv. rewrite Rabs_mult, (Rabs_pos_eq (/ 2147483648)) by lra. lra. }
    unfold atane_err, atan_err in *. replace (atane u - atan u) with (atane u - atanp u + (atanp u - atan u)) by ring.
    eapply Rle_trans; [apply Rabs_triang|]. lra. }
  intros H. apply Rabs_le_inv in H. destruct (Rle_dec 0 x) as [Q|Q]; [apply P; lra|].
  rewrite <- (Ropp_involutive x), atane_odd, atan_opp.
  replace (- atane (- x) - - atan (- x)) with (- (atane (- x) - atan (- x))) by ring. rewrite Rabs_Ropp. apply P. lra.
Qed.

(** ** the tangent's rational function *)
(** m <= p on [lo, lo + 2 h n] *)
Fixpoint pabove (p : list Z) (lo h : Z) (n : nat) (m : Z) : bool :=
  match n with
  | O => true
  | S k => (match pshift p (lo + h) with [] => Z.leb m 0 | a :: l => Z.leb m (a - h * pbnd l h) end && pabove p (lo + 2 * h) h k m)%bool
  end.
Lemma pabove_ok p n : forall lo h m x, pabove p lo h n m = true -> IZR lo <= x < IZR (lo + 2 * h * Z.of_nat n) -> IZR m <= peval p x.
Proof.
  induction n as [|n IH]; intros lo h m x E [H1 H2].
  - cbn [Z.of_nat] in H2. rewrite Z.mul_0_r, Z.add_0_r in H2. lra.
  - cbn [pabove] in E. apply andb_prop in E. destruct E as [E1 E2].
    destruct (Rle_lt_dec x (IZR (lo + 2 * h))) as [D|D].
    + replace x with (IZR (lo + h) + (x - IZR (lo + h))) by ring. rewrite <- peval_shift.
      assert (T : Rabs (x - IZR (lo + h)) <= IZR h) by (rewrite plus_IZR in *; rewrite mult_IZR in *; apply Rabs_le; lra).
      destruct (pshift p (lo + h)) as [|a l]; cbn [peval]; [apply Z.leb_le in E1; apply IZR_le in E1; lra|].
      apply Z.leb_le, IZR_le in E1. rewrite minus_IZR, mult_IZR in E1. pose proof (pbnd_ok l h _ T) as B.
      assert (C : Rabs ((x - IZR (lo + h)) * peval l (x - IZR (lo + h))) <= IZR h * IZR (pbnd l h)).
      { rewrite Rabs_mult. apply Rmult_le_compat; auto using Rabs_pos. }
      apply Rabs_le_inv in C. lra.
    + apply (IH _ _ _ x E2). split; [lra|]. eapply Rlt_le_trans; [exact H2|]. apply IZR_le. lia.
Qed.
(** m / D <= p on [lo / s, (lo + 2 h n) / s) *)
Definition pabove_at (p : list Z) (s lo h : Z) (n : nat) (m : Z) : bool :=
  let '(q, k) := pgrid s p in (Z.ltb 0 s && Z.ltb 0 k && pabove q lo h n (k * m))%bool.
Lemma pabove_at_ok p s lo h n m x : pabove_at p s lo h n m = true ->
  IZR lo <= IZR s * x < IZR (lo + 2 * h * Z.of_nat n) -> IZR m <= peval p x.
Proof.
  unfold pabove_at. intros H Hx. pose proof (pgrid_ok s p x) as G. destruct (pgrid s p) as [q k].
  apply andb_prop in H. destruct H as [H C]. apply andb_prop in H. destruct H as [Hs Hk].
  apply Z.ltb_lt, IZR_lt in Hs. apply Z.ltb_lt, IZR_lt in Hk.
  pose proof (pabove_ok _ _ _ _ _ _ C Hx) as A. rewrite G, mult_IZR in A. nra.
Qed.
Definition tann (z : R) : R := 10418651 / 4194304 + z * (-13119267 / 67108864).
Definition tand (z : R) : R := 5174515 / 2097152 - z.
Definition sins (z : R) : R :=
  1 + z * (-11184811 / 67108864 + z * (4473923 / 536870912 + z * (-13634545 / 68719476736
    + z * (6052935 / 2199023255552 + z * (-13448795 / 562949953421312))))).
Definition cosz (z : R) : R :=
  1 + z * (-1 / 2 + z * (11184803 / 268435456 + z * (-5965013 / 4294967296
    + z * (6806113 / 274877906944 + z * (-9166097 / 35184372088832))))).
(** 10000 * 2^71 (1.0068 d s - n c) and 10000 * 2^71 (n c - 0.9932 d s) *)
Definition ta1 : list Z := [4235657967540088340480; 393429591375679707938816; -300923125597388033490944; 64047095240516234706944; -2984923297002423531520; 62736361455014184280; -634605625515059760]%Z.
Definition ta2 : list Z := [788098432110443343380480; -846606197826045486301184; 361046062879524893229056; -66880308167367725613056; 3050817439339418388480; -63639193572264815720; 642277159029320240]%Z.
Lemma ta1_ok z : peval ta1 z = 23611832414348226068480000 * ((1 + 68 / 10000) * (tand z * sins z) - tann z * cosz z).
Proof. unfold ta1, tand, sins, tann, cosz. cbn [peval]. field. Qed.
Lemma ta2_ok z : peval ta2 z = 23611832414348226068480000 * (tann z * cosz z - (1 - 68 / 10000) * (tand z * sins z)).
Proof. unfold ta2, tand, sins, tann, cosz. cbn [peval]. field. Qed.
Lemma chk_ta1 : pabove_at ta1 10000 0 25 493 7083549724304467821 = true. Proof. vm_compute. reflexivity. Qed.
Lemma chk_ta2 : pabove_at ta2 10000 0 25 493 7083549724304467821 = true. Proof. vm_compute. reflexivity. Qed.
Lemma sins_rel y : 0 <= y <= halfPI32 -> Rabs (y * sins (y * y) - sin y) <= 19 / 1000000000 * y.
Proof.
  intros Hy. assert (L : y <= 4) by (unfold halfPI32 in Hy; lra).
  destruct (pre_sin_bound y 3 (proj1 Hy) L) as [H1 H2]. change (2 * 3 + 1)%nat with 7%nat in H1.
  change (2 * (3 + 1))%nat with 8%nat in H2. change (y * sins (y * y)) with (sinp y).
  assert (G : forall p, chk p (Ms * 19 / 1000000000) = true -> Rabs (y * peval p (y * y) / IZR Ms) <= 19 / 1000000000 * y).
  { intros p C. pose proof (chk_ok _ _ y C Hy) as A.
    assert (B : IZR (Ms * 19 / 1000000000) <= IZR Ms * (19 / 1000000000)).
    { replace (Ms * 19 / 1000000000)%Z with 3804450200504599762685%Z by (vm_compute; reflexivity). unfold Ms. lra. }
    assert (P : 0 < IZR Ms) by (apply IZR_lt; reflexivity).
    unfold Rdiv at 1. rewrite !Rabs_mult, (Rabs_pos_eq y), (Rabs_pos_eq (/ _)) by
      first [lra | apply Rlt_le, Rinv_0_lt_compat; exact P].
    apply (Rmult_le_reg_r (IZR Ms)); [exact P|]. rewrite Rmult_assoc, Rinv_l, Rmult_1_r by lra.
    set (w := Rabs (peval p (y * y))) in *. nra. }
  pose proof (G _ chk_sin15) as A. pose proof (G _ chk_sin17) as B. rewrite <- sin_lo in A. rewrite <- sin_hi in B.
  apply Rabs_le. apply Rabs_le_inv in A. apply Rabs_le_inv in B. lra.
Qed.
(** relative error of y n / d on [-1.57, 1.57] *)
Definition tane_err : R := 68 / 10000.
Lemma tane_pos y : 0 < y <= 157 / 100 -> 0 < tand (y * y) /\ 0 < tan y /\ Rabs (y * tann (y * y) / tand (y * y) - tan y) <= tane_err * tan y.
Proof.
  intros Hy. assert (Hh : 0 <= y <= halfPI32) by (unfold halfPI32; lra).
  pose proof (sins_rel y Hh) as S. assert (Cz : Rabs (cosz (y * y) - cos y) <= poly_err) by (apply cosp_err; rewrite Rabs_pos_eq; lra).
  assert (R : 0 <= 10000 * (y * y) < 24650) by nra.
  pose proof (pabove_at_ok _ _ _ _ _ _ _ chk_ta1 R) as A1. pose proof (pabove_at_ok _ _ _ _ _ _ _ chk_ta2 R) as A2.
  rewrite ta1_ok in A1. rewrite ta2_ok in A2.
  assert (PB := PI_close). unfold PI32 in PB.
  assert (Cp : 0 < cos y) by (apply cos_gt_0; lra).
  assert (Sp : 0 < sin y) by (apply sin_gt_0; lra).
  assert (D : 0 < tand (y * y) <= 247 / 100) by (unfold tand; nra).
  assert (N : 0 < tann (y * y) <= 249 / 100) by (unfold tann; nra).
  assert (T : 0 < tan y) by (unfold tan; apply Rdiv_lt_0_compat; assumption).
  split; [lra|]. split; [exact T|]. set (s' := sin y / y).
  assert (S' : Rabs (sins (y * y) - s') <= 19 / 1000000000).
  { unfold s'. replace (sins (y * y) - sin y / y) with ((y * sins (y * y) - sin y) * / y) by (field; lra).
    rewrite Rabs_mult, (Rabs_pos_eq (/ y)) by (apply Rlt_le, Rinv_0_lt_compat; lra).
    apply (Rmult_le_reg_r y); [lra|]. rewrite Rmult_assoc, Rinv_l, Rmult_1_r by lra. exact S. }
  set (d := tand (y * y)) in *. set (n := tann (y * y)) in *. set (c := cosz (y * y)) in *. set (s := sins (y * y)) in *.
  apply Rabs_le_inv in S'. apply Rabs_le_inv in Cz. unfold poly_err in Cz.
  assert (M : Rabs (n * cos y - d * s') <= tane_err * (d * s')).
  { unfold tane_err. assert (Q1 : Rabs (n * (cos y - c)) <= 249 / 100 * (3 / 100000000)).
    { rewrite Rabs_mult. apply Rmult_le_compat; try apply Rabs_pos; apply Rabs_le; lra. }
    assert (Q2 : Rabs (d * (s' - s)) <= 247 / 100 * (19 / 1000000000)).
    { rewrite Rabs_mult. apply Rmult_le_compat; try apply Rabs_pos; apply Rabs_le; lra. }
    apply Rabs_le_inv in Q1. apply Rabs_le_inv in Q2. apply Rabs_le. lra. }
  replace (y * n / d - tan y) with ((n * cos y - d * s') * (y * / (d * cos y))).
  2:{ unfold tan, s'. field. repeat split; lra. }
  replace (tan y) with (d * s' * (y * / (d * cos y))) by (unfold tan, s'; field; repeat split; lra).
  rewrite Rabs_mult. assert (W : 0 <= y * / (d * cos y)).
  { apply Rmult_le_pos; [lra|]. apply Rlt_le, Rinv_0_lt_compat. nra. }
  rewrite (Rabs_pos_eq (y * _)) by exact W. rewrite <- (Rmult_assoc tane_err). apply Rmult_le_compat_r; assumption.
Qed.
Lemma tane_ok y : Rabs y <= 157 / 100 -> 0 < tand (y * y) /\ Rabs (y * tann (y * y) / tand (y * y) - tan y) <= tane_err * Rabs (tan y).
Proof.
  intros H. destruct (Rtotal_order y 0) as [L|[E|G]].
  - rewrite Rabs_left in H by exact L. destruct (tane_pos (- y)) as (A & B & C); [lra|].
    replace (- y * - y) with (y * y) in * by ring. rewrite tan_neg in *. split; [exact A|].
    rewrite (Rabs_left (tan y)) by lra. replace (- y * tann (y * y) / tand (y * y) - - tan y) with (- (y * tann (y * y) / tand (y * y) - tan y)) in C
      by (unfold Rdiv; ring). rewrite Rabs_Ropp in C. exact C.
  - subst. rewrite tan_0. unfold Rdiv. rewrite !Rmult_0_l, Rminus_0_r, Rabs_R0. unfold tand. lra.
  - rewrite Rabs_pos_eq in H by lra. destruct (tane_pos y) as (A & B & C); [lra|]. rewrite (Rabs_pos_eq (tan y)) by lra. auto.
Qed.
