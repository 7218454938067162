(** Axis-aligned boxes on bit patterns: rounding is monotone, so the box tests never miss. *)
From Coq Require Import Reals Lra Lia ZArith Bool List.
From Flocq Require Import Core Relative Plus_error IEEE754.BinarySingleNaN.
From Verif Require Import Base F32 F32Facts Intrin Lane MVec MTrig MQuat MInterp MPlane MMatrix Shapes MCollide.
From Verif Require Import SpecF32 PF32 SpecRound PFloat PExp PHyp SpecGeom SpecShape SpecErr PErr SpecTol PBox.
Open Scope R_scope.

(** ** rounding is monotone, also through overflow *)
Lemma huge_pos : 0 < huge. Proof. apply bpow_gt_0. Qed.
Lemma RN_sign x : (x < 0 -> RN x <= 0) /\ (0 <= x -> 0 <= RN x).
Proof. split; intros H; rewrite <- (RN_fmt 0) by apply fmt_0; apply RN_le; lra. Qed.
Lemma foi_lo v x : fin_or_inf v x -> (v = Inf true /\ RN x <= - huge) \/ (v = Inf false /\ huge <= RN x) \/ (v = Fin (RN x) /\ - huge < RN x < huge).
Proof.
  intros [(A & ->)|(A & ->)]; [right; right; split; [reflexivity|apply Rabs_lt_inv, A]|]. destruct (RN_sign x) as (S1 & S2).
  destruct (Rlt_bool_spec x 0) as [L|L]; [left|right; left]; (split; [reflexivity|]).
  - rewrite Rabs_left1 in A by (apply S1; lra). lra.
  - rewrite Rabs_pos_eq in A by (apply S2; lra). lra.
Qed.
Lemma foi_mono v u x y : fin_or_inf v x -> fin_or_inf u y -> x <= y -> xle v u.
Proof.
  intros HV HU L. apply RN_le in L. pose proof huge_pos as HP.
  destruct (foi_lo _ _ HV) as [(-> & A)|[(-> & A)|(-> & A)]], (foi_lo _ _ HU) as [(-> & B)|[(-> & B)|(-> & B)]]; try lra;
  unfold xle, xlt, xeq; try (left; exact I); try (right; reflexivity).
  destruct (Rle_lt_or_eq_dec _ _ L); [left|right]; assumption.
Qed.
Lemma foi_le v u x y : fin_or_inf v x -> fin_or_inf u y -> RN x < huge -> - huge < RN y -> xle v u -> RN x <= RN y.
Proof.
  intros HV HU LX LY H.
  destruct (foi_lo _ _ HV) as [(-> & A)|[(-> & A)|(-> & A)]], (foi_lo _ _ HU) as [(-> & B)|[(-> & B)|(-> & B)]]; try lra;
  unfold xle, xlt, xeq in H; destruct H as [H|H]; try contradiction; lra.
Qed.
Lemma foi_fin v x : fmt x -> Rabs x < huge -> v = Fin x -> fin_or_inf v x.
Proof. intros F H ->. left. rewrite RN_fmt by exact F. split; [exact H|reflexivity]. Qed.
Lemma val_foi z x : value z = Fin x -> fin_or_inf (value z) x.
Proof. intros V. destruct (value_fmt _ _ V) as (F & H). apply foi_fin; assumption. Qed.
Lemma foi_nan v x : fin_or_inf v x -> v <> NaN.
Proof. intros [(_ & ->)|(_ & ->)]; discriminate. Qed.

(** ** sums of binary32 numbers are rounded with a purely relative error *)
Lemma uro : u_ro radix2 24 = u24.
Proof. unfold u_ro, u24. change (bpow radix2 (- (24) + 1)) with (/ 8388608). lra. Qed.
Lemma sum_err x y : fmt x -> fmt y -> Rabs (RN (x + y) - (x + y)) <= u24 * Rabs (x + y) /\ Rabs (RN (x + y) - (x + y)) <= u24 * Rabs (RN (x + y)).
Proof.
  intros Fx Fy. split.
  - destruct (FLT_plus_error_N_ex radix2 (-149) 24 (fun n => negb (Z.even n)) x y Fx Fy) as (e & E & R). change (round _ _ _ (x + y)) with (RN (x + y)) in R.
    rewrite R. replace ((x + y) * (1 + e) - (x + y)) with (e * (x + y)) by ring. rewrite Rabs_mult. apply Rmult_le_compat_r; [apply Rabs_pos|].
    rewrite uro in E. eapply Rle_trans; [exact E|]. unfold u24. lra.
  - destruct (FLT_plus_error_N_round_ex radix2 (-149) 24 (fun n => negb (Z.even n)) x y Fx Fy) as (e & E & R). change (round _ _ _ (x + y)) with (RN (x + y)) in R.
    set (r := RN (x + y)) in *. rewrite R. replace (r - r * (1 + e)) with (- (e * r)) by ring. rewrite Rabs_Ropp, Rabs_mult. apply Rmult_le_compat_r; [apply Rabs_pos|].
    rewrite uro in E. exact E.
Qed.
Lemma dif_err x y : fmt x -> fmt y -> Rabs (RN (x - y) - (x - y)) <= u24 * Rabs (x - y) /\ Rabs (RN (x - y) - (x - y)) <= u24 * Rabs (RN (x - y)).
Proof. intros Fx Fy. apply (sum_err x (- y)); [exact Fx|apply fmt_opp, Fy]. Qed.
(** [RN x <= RN y] up to the two rounding errors *)
Lemma RN_back x y x' y' u v : x = u + v -> fmt u -> fmt v -> y = x' + y' -> fmt x' -> fmt y' -> RN x <= RN y -> x <= y + u24 * (Rabs x + Rabs y).
Proof.
  intros -> Fu Fv -> Fx Fy H. destruct (sum_err u v Fu Fv) as (E1 & _). destruct (sum_err x' y' Fx Fy) as (E2 & _). apply Rabs_le_inv in E1. apply Rabs_le_inv in E2. lra.
Qed.

Ltac fl3 := cbv beta iota zeta delta [all3 any3 load3 store3 T tadd tsub tmul tdiv tsqrt tneg tabs tfma tlt tle teq tlit FL
  qx qy qz qw fx fy fz qmap qmap2 qmap3 qrep lane setlane tge tgt vadd vsub vmul vlt vle vgt vge mor mand XMVectorAdd XMVectorSubtract XMVectorMultiply XMVectorInBounds].
Ltac dest := repeat match goal with H : _ /\ _ |- _ => destruct H end.
Ltac h32 := unfold holdsBox, holdsSphere, holdsF3, holds3, is32 in *; dest.

(** ** ContainsPoint *)
Definition inb (d e : Z) : bool := (f_le d e && f_le (f_neg e) d)%bool.
Lemma inb_sub p c e x y r : value p = Fin x -> value c = Fin y -> word e -> value e = Fin r -> 0 <= r ->
  (Rabs (x - y) <= r -> inb (f_sub p c) e = true) /\ (inb (f_sub p c) e = true -> Rabs (x - y) <= r + ulp_half * r).
Proof.
  intros Vp Vc We Ve R0. pose proof (sub_any _ _ _ _ Vp Vc) as D. destruct (value_fmt _ _ Ve) as (Fe & He). pose proof (val_foi _ _ Ve) as E.
  assert (N : value (f_neg e) = Fin (- r)) by (apply neg_val; assumption). pose proof (val_foi _ _ N) as En.
  assert (RE : RN r = r) by (apply RN_fmt, Fe). assert (RNe : RN (- r) = - r) by (apply RN_fmt, fmt_opp, Fe). apply Rabs_lt_inv in He.
  unfold inb. rewrite andb_true_iff, !f_le_spec. split.
  - intros H. apply Rabs_le_inv in H. split; eapply foi_mono; try eassumption; lra.
  - intros (A & B). destruct (value_fmt _ _ Vp) as (Fx & _). destruct (value_fmt _ _ Vc) as (Fy & _). destruct (dif_err x y Fx Fy) as (_ & DE). unfold ulp_half. change (/ 16777216) with u24.
    assert (RN (x - y) <= r /\ - r <= RN (x - y)) as (L1 & L2).
    { rewrite <- RE at 1. rewrite <- RNe. destruct (foi_lo _ _ D) as [(h & A')|[(h & A')|(h & A')]]; rewrite ?h in A, B.
      - rewrite N in B. unfold xle, xlt, xeq in B. destruct B; contradiction.
      - rewrite Ve in A. unfold xle, xlt, xeq in A. destruct A; contradiction.
      - rewrite Ve in A. rewrite N in B. unfold xle, xlt, xeq in A, B. lra. }
    assert (Rabs (RN (x - y)) <= r) by (apply Rabs_le; lra). assert (u24 * Rabs (RN (x - y)) <= u24 * r) by (apply Rmult_le_compat_l; [unfold u24; lra|assumption]).
    replace (x - y) with (RN (x - y) - (RN (x - y) - (x - y))) by ring. unfold Rminus at 1. eapply Rle_trans; [apply Rabs_triang|]. rewrite Rabs_Ropp. lra.
Qed.
Lemma box_point_f b B P bx p : holdsBox B bx -> holds3 P p -> ok_box bx ->
  (aabb bx p -> Box_ContainsPoint (L:=FL) b B P = CONTAINS) /\ (Box_ContainsPoint (L:=FL) b B P = CONTAINS -> aabb (stretch ulp_half bx) p).
Proof.
  destruct B as [[c0 c1 c2] [e0 e1 e2]], P as [p0 p1 p2 p3], bx as [[x0 x1 x2] [r0 r1 r2]], p as [y0 y1 y2 y3].
  unfold ok_box, nonneg3, aabb, SpecShape.within, stretch, minus, pos. intros HB HP (R0 & R1 & R2). h32. cbn [qx qy qz qw fx fy fz bx_Center bx_Extents] in *.
  assert (E : Box_ContainsPoint (L:=FL) b (MkBox (F3 c0 c1 c2) (F3 e0 e1 e2)) (Q p0 p1 p2 p3) = if (inb (f_sub p0 c0) e0 && inb (f_sub p1 c1) e1 && inb (f_sub p2 c2) e2)%bool then CONTAINS else DISJOINT) by (destruct b; reflexivity).
  rewrite E. destruct (inb_sub p0 c0 e0 y0 x0 r0) as (A0 & B0); try assumption; try (split; assumption). destruct (inb_sub p1 c1 e1 y1 x1 r1) as (A1 & B1); try assumption; try (split; assumption). destruct (inb_sub p2 c2 e2 y2 x2 r2) as (A2 & B2); try assumption; try (split; assumption).
  split.
  - intros (h0 & h1 & h2). rewrite (A0 h0), (A1 h1), (A2 h2). reflexivity.
  - destruct (inb (f_sub p0 c0) e0), (inb (f_sub p1 c1) e1), (inb (f_sub p2 c2) e2); cbn; intros; try discriminate. auto.
Qed.

(** ** Boxes against boxes *)
Lemma not_lt_le v u : v <> NaN -> u <> NaN -> ~ xlt u v -> xle v u.
Proof. intros A B H. apply xle_not_lt; assumption. Qed.
(** the lower end of one interval against the upper end of another *)
Lemma ends c e c' e' x r x' r' : value c = Fin x -> value e = Fin r -> value c' = Fin x' -> value e' = Fin r' -> 0 <= r -> 0 <= r' ->
  (x - r <= x' + r' -> f_lt (f_add c' e') (f_sub c e) = false) /\
  (f_lt (f_add c' e') (f_sub c e) = false -> x - r <= x' + r' + u24 * (Rabs x + r + Rabs x' + r')).
Proof.
  intros Vc Ve Vc' Ve' R R'. pose proof (sub_any _ _ _ _ Vc Ve) as D. pose proof (add_any _ _ _ _ Vc' Ve') as S.
  destruct (value_fmt _ _ Vc) as (Fc & Hc). destruct (value_fmt _ _ Ve) as (Fe & He). destruct (value_fmt _ _ Vc') as (Fc' & Hc'). destruct (value_fmt _ _ Ve') as (Fe' & He').
  apply Rabs_lt_inv in Hc. apply Rabs_lt_inv in Hc'. split.
  - intros H. destruct (f_lt _ _) eqn:F; [|reflexivity]. apply f_lt_spec in F. pose proof (foi_mono _ _ _ _ D S H) as L. apply xle_not_lt in L; [contradiction|eapply foi_nan; eassumption|eapply foi_nan; eassumption].
  - intros F. assert (L : xle (value (f_sub c e)) (value (f_add c' e'))).
    { apply not_lt_le; [eapply foi_nan; eassumption|eapply foi_nan; eassumption|]. intros H. apply f_lt_spec in H. congruence. }
    assert (U : RN (x - r) < huge) by (eapply Rle_lt_trans; [apply RN_le with (y := x); lra|rewrite RN_fmt; lra || exact Fc]).
    assert (W : - huge < RN (x' + r')) by (eapply Rlt_le_trans; [|apply RN_le with (x := x'); lra]; rewrite RN_fmt; [lra|exact Fc']).
    pose proof (foi_le _ _ _ _ D S U W L) as K. apply (RN_back _ _ x' r' x (- r)) in K; auto using fmt_opp.
    assert (Rabs (x - r) <= Rabs x + r) by (unfold Rminus; eapply Rle_trans; [apply Rabs_triang|rewrite Rabs_Ropp, (Rabs_pos_eq r); lra]).
    assert (Rabs (x' + r') <= Rabs x' + r') by (eapply Rle_trans; [apply Rabs_triang|rewrite (Rabs_pos_eq r'); lra]).
    unfold u24 in *. lra.
Qed.
(** two lower ends, two upper ends *)
Lemma lows c e c' e' x r x' r' : value c = Fin x -> value e = Fin r -> value c' = Fin x' -> value e' = Fin r' -> 0 <= r -> 0 <= r' -> x' - r' <= x' ->
  (x - r <= x' - r' -> f_le (f_sub c e) (f_sub c' e') = true) /\
  (- huge < RN (x' - r') -> f_le (f_sub c e) (f_sub c' e') = true -> x - r <= x' - r' + u24 * (Rabs x + r + Rabs x' + r')).
Proof.
  intros Vc Ve Vc' Ve' R R' _. pose proof (sub_any _ _ _ _ Vc Ve) as D. pose proof (sub_any _ _ _ _ Vc' Ve') as S.
  destruct (value_fmt _ _ Vc) as (Fc & Hc). destruct (value_fmt _ _ Ve) as (Fe & He). destruct (value_fmt _ _ Vc') as (Fc' & Hc'). destruct (value_fmt _ _ Ve') as (Fe' & He').
  apply Rabs_lt_inv in Hc. split.
  - intros H. apply f_le_spec. eapply foi_mono; eassumption.
  - intros W F. apply f_le_spec in F. assert (U : RN (x - r) < huge) by (eapply Rle_lt_trans; [apply RN_le with (y := x); lra|rewrite RN_fmt; lra || exact Fc]).
    pose proof (foi_le _ _ _ _ D S U W F) as K. apply (RN_back _ _ x' (- r') x (- r)) in K; auto using fmt_opp.
    assert (Rabs (x - r) <= Rabs x + r) by (unfold Rminus; eapply Rle_trans; [apply Rabs_triang|rewrite Rabs_Ropp, (Rabs_pos_eq r); lra]).
    assert (Rabs (x' - r') <= Rabs x' + r') by (unfold Rminus; eapply Rle_trans; [apply Rabs_triang|rewrite Rabs_Ropp, (Rabs_pos_eq r'); lra]).
    unfold u24 in *. lra.
Qed.
Lemma highs c e c' e' x r x' r' : value c = Fin x -> value e = Fin r -> value c' = Fin x' -> value e' = Fin r' -> 0 <= r -> 0 <= r' ->
  (x' + r' <= x + r -> f_le (f_add c' e') (f_add c e) = true) /\
  (RN (x' + r') < huge -> f_le (f_add c' e') (f_add c e) = true -> x' + r' <= x + r + u24 * (Rabs x + r + Rabs x' + r')).
Proof.
  intros Vc Ve Vc' Ve' R R'. pose proof (add_any _ _ _ _ Vc Ve) as D. pose proof (add_any _ _ _ _ Vc' Ve') as S.
  destruct (value_fmt _ _ Vc) as (Fc & Hc). destruct (value_fmt _ _ Ve) as (Fe & He). destruct (value_fmt _ _ Vc') as (Fc' & Hc'). destruct (value_fmt _ _ Ve') as (Fe' & He').
  apply Rabs_lt_inv in Hc. split.
  - intros H. apply f_le_spec. eapply foi_mono; eassumption.
  - intros U F. apply f_le_spec in F. assert (W : - huge < RN (x + r)) by (eapply Rlt_le_trans; [|apply RN_le with (x := x); lra]; rewrite RN_fmt; [lra|exact Fc]).
    pose proof (foi_le _ _ _ _ S D U W F) as K. apply (RN_back _ _ x r x' r') in K; auto.
    assert (Rabs (x + r) <= Rabs x + r) by (eapply Rle_trans; [apply Rabs_triang|rewrite (Rabs_pos_eq r); lra]).
    assert (Rabs (x' + r') <= Rabs x' + r') by (eapply Rle_trans; [apply Rabs_triang|rewrite (Rabs_pos_eq r'); lra]).
    unfold u24 in *. lra.
Qed.
Definition dj c0 c1 c2 e0 e1 e2 d0 d1 d2 g0 g1 g2 : bool := (f_lt (f_add d0 g0) (f_sub c0 e0) || f_lt (f_add c0 e0) (f_sub d0 g0) ||
    (f_lt (f_add d1 g1) (f_sub c1 e1) || f_lt (f_add c1 e1) (f_sub d1 g1)) || (f_lt (f_add d2 g2) (f_sub c2 e2) || f_lt (f_add c2 e2) (f_sub d2 g2)))%bool.
Definition ins c0 c1 c2 e0 e1 e2 d0 d1 d2 g0 g1 g2 : bool := (f_le (f_sub c0 e0) (f_sub d0 g0) && f_le (f_add d0 g0) (f_add c0 e0) &&
    (f_le (f_sub c1 e1) (f_sub d1 g1) && f_le (f_add d1 g1) (f_add c1 e1)) && (f_le (f_sub c2 e2) (f_sub d2 g2) && f_le (f_add d2 g2) (f_add c2 e2)))%bool.
Ltac masks b c0 c1 c2 e0 e1 e2 d0 d1 d2 g0 g1 g2 :=
  repeat match goal with
  | |- context [any3 ?m] => replace (any3 m) with (dj c0 c1 c2 e0 e1 e2 d0 d1 d2 g0 g1 g2) by (destruct b; reflexivity)
  | |- context [all3 ?m] => replace (all3 m) with (ins c0 c1 c2 e0 e1 e2 d0 d1 d2 g0 g1 g2) by (destruct b; reflexivity)
  end; unfold dj, ins.
Lemma ivl_pad c e c' e' : 0 <= e -> 0 <= e' -> c - e <= c' + e' + u24 * (Rabs c + e + Rabs c' + e') -> c' - e' <= c + e + u24 * (Rabs c' + e' + Rabs c + e) ->
  exists x, ivl c (slack ulp_half 0 c e) x /\ ivl c' (slack ulp_half 0 c' e') x.
Proof.
  intros H H' A B. change ulp_half with u24. pose proof (Rabs_pos c). pose proof (Rabs_pos c'). apply ivl_meet; unfold slack, u24 in *; lra.
Qed.
Lemma box_box_f b A B a c : holdsBox A a -> holdsBox B c -> ok_box a -> ok_box c ->
  (meets (aabb a) (aabb c) -> Box_IntersectsBox (L:=FL) b A B = true) /\
  (Box_IntersectsBox (L:=FL) b A B = true -> meets (aabb (padded ulp_half 0 a)) (aabb (padded ulp_half 0 c))).
Proof.
  destruct A as [[c0 c1 c2] [e0 e1 e2]], B as [[d0 d1 d2] [g0 g1 g2]], a as [[x0 x1 x2] [r0 r1 r2]], c as [[y0 y1 y2] [s0 s1 s2]].
  unfold ok_box, nonneg3. intros. h32. cbn [qx qy qz qw fx fy fz bx_Center bx_Extents] in *.
  unfold Box_IntersectsBox. masks b c0 c1 c2 e0 e1 e2 d0 d1 d2 g0 g1 g2.
  destruct (ends c0 e0 d0 g0 x0 r0 y0 s0) as (L0 & L0'); try assumption. destruct (ends d0 g0 c0 e0 y0 s0 x0 r0) as (M0 & M0'); try assumption.
  destruct (ends c1 e1 d1 g1 x1 r1 y1 s1) as (L1 & L1'); try assumption. destruct (ends d1 g1 c1 e1 y1 s1 x1 r1) as (M1 & M1'); try assumption.
  destruct (ends c2 e2 d2 g2 x2 r2 y2 s2) as (L2 & L2'); try assumption. destruct (ends d2 g2 c2 e2 y2 s2 x2 r2) as (M2 & M2'); try assumption.
  split.
  - intros (p & Pa & Pc). apply aabb_iff in Pa. apply aabb_iff in Pc. cbn [fx fy fz bx_Center bx_Extents] in Pa, Pc. unfold ivl in *.
    rewrite L0, L1, L2, M0, M1, M2 by lra. reflexivity.
  - rewrite negb_true_iff, !orb_false_iff. intros (((N0 & N0') & N1 & N1') & N2 & N2').
    destruct (ivl_pad x0 r0 y0 s0) as (p0 & P0 & P0'); auto. destruct (ivl_pad x1 r1 y1 s1) as (p1 & P1 & P1'); auto. destruct (ivl_pad x2 r2 y2 s2) as (p2 & P2 & P2'); auto.
    exists (Q p0 p1 p2 0). split; apply aabb_iff; unfold padded; cbn [fx fy fz bx_Center bx_Extents qx qy qz]; auto.
Qed.
Lemma ivl_sub_pad c e c' e' : 0 <= e -> 0 <= e' -> c - e <= c' - e' + u24 * (Rabs c + e + Rabs c' + e') -> c' + e' <= c + e + u24 * (Rabs c + e + Rabs c' + e') ->
  forall x, ivl c' e' x -> ivl c (e + ulp_half * (Rabs c + e + (Rabs c' + e'))) x.
Proof. intros. unfold ivl in *. change ulp_half with u24. unfold u24 in *. lra. Qed.
Lemma ivl_sub_pad3 c e c' e' : 0 <= e -> 0 <= e' -> c - e <= c' - e' + u24 * (Rabs c + e + Rabs c' + e') -> c' + e' <= c + e + u24 * (Rabs c + e + Rabs c' + e') ->
  forall x, ivl c' e' x -> ivl c (slack (3 * ulp_half) 0 c e) x.
Proof.
  intros H H' A B x X. pose proof (ivl_sub_pad c e c' e' H H' A B x X) as K.
  assert (N : Rabs c' + e' <= Rabs c + e + u24 * (Rabs c + e + Rabs c' + e')).
  { unfold Rabs in *. unfold u24 in *. repeat destruct (Rcase_abs _); lra. }
  unfold ivl, slack in *. change ulp_half with u24 in *. pose proof (Rabs_pos c). unfold u24 in *. lra.
Qed.
(** no component of the box is near the end of the range *)
Lemma safe_lo x r : Rabs x + r <= pow2 126 -> 0 <= r -> - huge < RN (x - r) /\ RN (x + r) < huge.
Proof.
  rewrite pow2_bpow. intros H R0. assert (F : fmt (bpow radix2 126)) by (apply fmt_pow; lia). assert (L : bpow radix2 126 < huge) by (apply bpow_lt; lia).
  assert (Rabs x <= bpow radix2 126) by lra. assert (- bpow radix2 126 <= x - r /\ x + r <= bpow radix2 126) as (A & B) by (unfold Rabs in *; destruct (Rcase_abs x); lra).
  apply RN_le in A. apply RN_le in B. rewrite RN_fmt in A by (apply fmt_opp, F). rewrite (RN_fmt (bpow radix2 126)) in B by exact F. lra.
Qed.
Lemma box_contains_f b A B a c : holdsBox A a -> holdsBox B c -> ok_box a -> ok_box c ->
  (Box_ContainsBox (L:=FL) b A B = DISJOINT -> ~ meets (aabb a) (aabb c)) /\
  (subset (aabb c) (aabb a) -> Box_ContainsBox (L:=FL) b A B = CONTAINS) /\
  (safe_box c -> Box_ContainsBox (L:=FL) b A B = CONTAINS -> subset (aabb c) (aabb (padded (3 * ulp_half) 0 a))) /\
  (Box_ContainsBox (L:=FL) b A B = INTERSECTS -> meets (aabb (padded ulp_half 0 a)) (aabb (padded ulp_half 0 c)) /\ ~ subset (aabb c) (aabb a)).
Proof.
  intros HA HB OA OB. destruct (box_box_f b A B a c HA HB OA OB) as (H1 & H2).
  assert (S : subset (aabb c) (aabb a) -> Box_ContainsBox (L:=FL) b A B = CONTAINS).
  { intros S. assert (M : Box_IntersectsBox (L:=FL) b A B = true).
    { apply H1. exists (pos (bx_Center c)). assert (aabb c (pos (bx_Center c))); [|split; auto]. destruct OB as (? & ? & ?). unfold aabb, SpecShape.within, minus, pos; cbn [qx qy qz fx fy fz]. rewrite !Rminus_eq_0, Rabs_R0. auto. }
    unfold Box_IntersectsBox in M. apply negb_true_iff in M. unfold Box_ContainsBox. rewrite M. clear M.
    destruct A as [[c0 c1 c2] [e0 e1 e2]], B as [[d0 d1 d2] [g0 g1 g2]], a as [[x0 x1 x2] [r0 r1 r2]], c as [[y0 y1 y2] [s0 s1 s2]].
    unfold ok_box, nonneg3 in *. h32. cbn [qx qy qz qw fx fy fz bx_Center bx_Extents] in *.
    masks b c0 c1 c2 e0 e1 e2 d0 d1 d2 g0 g1 g2.
    pose proof (S (Q (y0 - s0) (y1 - s1) (y2 - s2) 0)) as LO. pose proof (S (Q (y0 + s0) (y1 + s1) (y2 + s2) 0)) as HI. rewrite !aabb_iff in LO, HI. unfold ivl in LO, HI. cbn [qx qy qz fx fy fz bx_Center bx_Extents] in LO, HI.
    destruct LO as (LO0 & LO1 & LO2); [lra|]. destruct HI as (HI0 & HI1 & HI2); [lra|].
    destruct (lows c0 e0 d0 g0 x0 r0 y0 s0) as (L0 & _); try assumption; try lra. destruct (highs c0 e0 d0 g0 x0 r0 y0 s0) as (M0 & _); try assumption.
    destruct (lows c1 e1 d1 g1 x1 r1 y1 s1) as (L1 & _); try assumption; try lra. destruct (highs c1 e1 d1 g1 x1 r1 y1 s1) as (M1 & _); try assumption.
    destruct (lows c2 e2 d2 g2 x2 r2 y2 s2) as (L2 & _); try assumption; try lra. destruct (highs c2 e2 d2 g2 x2 r2 y2 s2) as (M2 & _); try assumption.
    rewrite L0, L1, L2, M0, M1, M2 by lra. reflexivity. }
  split; [|split; [exact S|split]].
  - unfold Box_ContainsBox. unfold Box_IntersectsBox in H1. intros K M. apply H1 in M. apply negb_true_iff in M. rewrite M in K. destruct (all3 _); discriminate.
  - clear S H1 H2. unfold Box_ContainsBox. intros SB K. destruct (any3 _); [discriminate|]. destruct (all3 _) eqn:M; [|discriminate]. clear K.
    destruct A as [[c0 c1 c2] [e0 e1 e2]], B as [[d0 d1 d2] [g0 g1 g2]], a as [[x0 x1 x2] [r0 r1 r2]], c as [[y0 y1 y2] [s0 s1 s2]].
    unfold ok_box, nonneg3, safe_box, safe in *. h32. cbn [qx qy qz qw fx fy fz bx_Center bx_Extents] in *.
    revert M. masks b c0 c1 c2 e0 e1 e2 d0 d1 d2 g0 g1 g2. intros M. rewrite !andb_true_iff in M. destruct M as (((N0 & N0') & N1 & N1') & N2 & N2').
    destruct (safe_lo y0 s0) as (Z0 & Z0'); try assumption. destruct (safe_lo y1 s1) as (Z1 & Z1'); try assumption. destruct (safe_lo y2 s2) as (Z2 & Z2'); try assumption.
    destruct (lows c0 e0 d0 g0 x0 r0 y0 s0) as (_ & L0); try assumption; try lra. destruct (highs c0 e0 d0 g0 x0 r0 y0 s0) as (_ & M0); try assumption.
    destruct (lows c1 e1 d1 g1 x1 r1 y1 s1) as (_ & L1); try assumption; try lra. destruct (highs c1 e1 d1 g1 x1 r1 y1 s1) as (_ & M1); try assumption.
    destruct (lows c2 e2 d2 g2 x2 r2 y2 s2) as (_ & L2); try assumption; try lra. destruct (highs c2 e2 d2 g2 x2 r2 y2 s2) as (_ & M2); try assumption.
    intros p P. apply aabb_iff in P. apply aabb_iff. unfold padded. cbn [qx qy qz fx fy fz bx_Center bx_Extents] in *. destruct P as (P0 & P1 & P2).
    split; [apply (ivl_sub_pad3 _ _ y0 s0)|split; [apply (ivl_sub_pad3 _ _ y1 s1)|apply (ivl_sub_pad3 _ _ y2 s2)]]; auto.
  - intros K. split; [|intros Q; apply S in Q; congruence]. apply H2. unfold Box_IntersectsBox, Box_ContainsBox in *. destruct (any3 _); [discriminate|reflexivity].
Qed.
