(** XMVectorSinH, XMVectorCosH and XMVectorTanH on bit patterns: error bounds, saturation and special values. *)
From Coq Require Import Reals Lra Lia ZArith Bool.
From Flocq Require Import Core Relative IEEE754.BinarySingleNaN.
From Verif Require Import Base F32 F32Facts Intrin MRound MExp SpecF32 PF32 SpecRound PFloat PRound PHalfRound PConvertInt PExpPoly PExp.
Open Scope R_scope.

(** ** arithmetic that may overflow *)
Lemma fmadd_word fma a b c : word (fmadd fma a b c).
Proof. destruct fma; apply enc_word. Qed.
Lemma fnmadd_word fma a b c : word (fnmadd fma a b c).
Proof. destruct fma; apply enc_word. Qed.
Lemma fnmadd_gen fma p y c P Y C A : word p -> value p = Fin P -> value y = Fin Y -> value c = Fin C -> Rabs (P * Y) <= A -> 2 * (A + Rabs C) + 1 < huge ->
  exists r, value (fnmadd fma p y c) = Fin r /\ Rabs (r - (C - P * Y)) <= u24 * (101 / 100 * (2 * A + Rabs C)) + 3 * eta.
Proof.
  intros Wp Vp Vy Vc HA HH. destruct fma; cbn [fnmadd].
  - assert (Vn : value (f_neg p) = Fin (- P)) by (rewrite value_neg, Vp by exact Wp; reflexivity).
    destruct (fmadd_gen true _ y c _ Y C A Vn Vy Vc) as (r & Vr & Er); [|exact HH|].
    + replace (- P * Y) with (- (P * Y)) by ring. rewrite Rabs_Ropp. exact HA.
    + exists r. split; [exact Vr|]. replace (C - P * Y) with (- P * Y + C) by ring. exact Er.
  - pose proof eta_pos as E0. pose proof eta_small as ES. pose proof (Rabs_pos (P * Y)) as PA. pose proof (Rabs_pos C) as PC.
    pose proof (RN_err (P * Y)) as E1. pose proof (RN_abs (P * Y)) as Hm. set (m := RN (P * Y)) in *. exists (RN (C - m)).
    assert (TM : Rabs (C - m) <= Rabs C + Rabs m) by (replace (C - m) with (C + - m) by ring; rewrite <- (Rabs_Ropp m); apply Rabs_triang). pose proof (RN_abs (C - m)) as Hs. split.
    + apply sub_val; [exact Vc|apply mul_val; auto; fold m; unfold u24 in *; lra|]. unfold u24 in *. lra.
    + pose proof (RN_err (C - m)) as E2. replace (RN (C - m) - (C - P * Y)) with ((RN (C - m) - (C - m)) - (m - P * Y)) by ring.
      unfold Rminus at 1. eapply Rle_trans; [apply Rabs_triang|]. rewrite Rabs_Ropp. unfold u24 in *. lra.
Qed.
Lemma sgn_of (f : bf32) : is_finite f = true -> B2R f <> 0 -> Bsign f = Rlt_bool (B2R f) 0.
Proof.
  destruct f as [s|s| |s m e B]; try discriminate; intros _ N; [exfalso; apply N; reflexivity|]. cbn [Bsign B2R]. symmetry. destruct s.
  - apply Rlt_bool_true, F2R_lt_0. reflexivity.
  - apply Rlt_bool_false, F2R_ge_0. discriminate.
Qed.
Lemma over_inf f s : B2SF f = binary_overflow 24 128 mode_NE s -> xof f = Inf s.
Proof. unfold binary_overflow. cbn [overflow_to_inf]. destruct f; cbn [B2SF]; try discriminate. intros H. injection H as ->. reflexivity. Qed.
Definition fin_or_inf (r : xreal) (x : R) : Prop := (Rabs (RN x) < huge /\ r = Fin (RN x)) \/ (huge <= Rabs (RN x) /\ r = Inf (Rlt_bool x 0)).
Lemma huge_RN0 x : huge <= Rabs (RN x) -> x <> 0.
Proof. intros H ->. rewrite RN_fmt, Rabs_R0 in H by apply fmt_0. pose proof huge_big. lra. Qed.
Lemma mul_any a b x y : value a = Fin x -> value b = Fin y -> fin_or_inf (value (f_mul a b)) (x * y).
Proof.
  intros Va Vb. destruct (Rlt_or_le (Rabs (RN (x * y))) huge) as [L|L]; [left; split; [exact L|apply mul_val; assumption]|right]. split; [exact L|].
  destruct (value_fin _ _ Va) as (Fa & Ea). destruct (value_fin _ _ Vb) as (Fb & Eb). pose proof (huge_RN0 _ L) as N.
  pose proof (Bmult_correct 24 128 _ _ mode_NE (dec a) (dec b)) as K. rewrite Ea, Eb in K. change (round _ _ _ (x * y)) with (RN (x * y)) in K.
  rewrite Rlt_bool_false in K by exact L. unfold f_mul. rewrite value_enc, (over_inf _ _ K). f_equal.
  assert (Nx : x <> 0) by (intros ->; apply N; ring). assert (Ny : y <> 0) by (intros ->; apply N; ring).
  rewrite (sgn_of (dec a)), (sgn_of (dec b)), Ea, Eb by (rewrite ?Ea, ?Eb; assumption).
  destruct (Rlt_bool_spec x 0) as [X|X], (Rlt_bool_spec y 0) as [Y|Y], (Rlt_bool_spec (x * y) 0) as [Z|Z]; try reflexivity; exfalso; nra.
Qed.
Lemma add_any a b x y : value a = Fin x -> value b = Fin y -> fin_or_inf (value (f_add a b)) (x + y).
Proof.
  intros Va Vb. destruct (Rlt_or_le (Rabs (RN (x + y))) huge) as [L|L]; [left; split; [exact L|apply add_val; assumption]|right]. split; [exact L|].
  destruct (value_fin _ _ Va) as (Fa & Ea). destruct (value_fin _ _ Vb) as (Fb & Eb). pose proof (huge_RN0 _ L) as N.
  pose proof (Bplus_correct 24 128 _ _ mode_NE (dec a) (dec b) Fa Fb) as K. rewrite Ea, Eb in K. change (round _ _ _ (x + y)) with (RN (x + y)) in K.
  rewrite Rlt_bool_false in K by exact L. destruct K as [K S]. unfold f_add. rewrite value_enc, (over_inf _ _ K). f_equal.
  destruct (Req_dec x 0) as [X0|X0]; [|destruct (Req_dec y 0) as [Y0|Y0]].
  - destruct (value_fmt _ _ Vb) as (Fy & Hy). rewrite X0, Rplus_0_l, RN_fmt in L by exact Fy. lra.
  - destruct (value_fmt _ _ Va) as (Fx & Hx). rewrite Y0, Rplus_0_r, RN_fmt in L by exact Fx. lra.
  - rewrite (sgn_of (dec a)), (sgn_of (dec b)), Ea, Eb in S by (rewrite ?Ea, ?Eb; assumption). rewrite (sgn_of (dec a)), Ea by (rewrite ?Ea; assumption).
    destruct (Rlt_bool_spec x 0) as [X|X], (Rlt_bool_spec y 0) as [Y|Y], (Rlt_bool_spec (x + y) 0) as [Z|Z]; try reflexivity; try discriminate S; exfalso; lra.
Qed.
Lemma fma_any a b c x y z : value a = Fin x -> value b = Fin y -> value c = Fin z -> fin_or_inf (value (f_fma a b c)) (x * y + z).
Proof.
  intros Va Vb Vc. destruct (Rlt_or_le (Rabs (RN (x * y + z))) huge) as [L|L]; [left; split; [exact L|apply fma_val; assumption]|right]. split; [exact L|].
  destruct (value_fin _ _ Va) as (Fa & Ea). destruct (value_fin _ _ Vb) as (Fb & Eb). destruct (value_fin _ _ Vc) as (Fc & Ec).
  pose proof (Bfma_correct 24 128 _ _ mode_NE (dec a) (dec b) (dec c) Fa Fb Fc) as K. cbv zeta in K. rewrite Ea, Eb, Ec in K. change (round _ _ _ (x * y + z)) with (RN (x * y + z)) in K.
  rewrite Rlt_bool_false in K by exact L. unfold f_fma. rewrite value_enc, (over_inf _ _ K). reflexivity.
Qed.

(** ** the exponent *)
Definition Sc : R := 12102203 / 8388608.
Lemma val_scale : value 0x3FB8AA3B = Fin Sc.
Proof. apply (val_normal _ false 127 3713595); [reflexivity|lia|lia|]. change (IZR (2 ^ 23 + 3713595)) with 12102203. change (bpow radix2 (127 - 150)) with (/ 8388608). cbn [signed]. unfold Sc. lra. Qed.
Lemma val_scale2 : value 0x4038AA3B = Fin (2 * Sc).
Proof. apply (val_normal _ false 128 3713595); [reflexivity|lia|lia|]. change (IZR (2 ^ 23 + 3713595)) with 12102203. change (bpow radix2 (128 - 150)) with (/ 4194304). cbn [signed]. unfold Sc. lra. Qed.
Lemma val_m1 : value 0xBF800000 = Fin (-1).
Proof. apply (val_normal _ true 127 0); [reflexivity|lia|lia|]. change (IZR (2 ^ 23 + 0)) with 8388608. change (bpow radix2 (127 - 150)) with (/ 8388608). cbn [signed]. lra. Qed.
Lemma val_1 : value 0x3F800000 = Fin 1.
Proof. apply (val_normal _ false 127 0); [reflexivity|lia|lia|]. change (IZR (2 ^ 23 + 0)) with 8388608. change (bpow radix2 (127 - 150)) with (/ 8388608). cbn [signed]. lra. Qed.
Lemma val_half : value 0x3F000000 = Fin (/ 2).
Proof. apply (val_normal _ false 126 0); [reflexivity|lia|lia|]. change (IZR (2 ^ 23 + 0)) with 8388608. change (bpow radix2 (126 - 150)) with (/ 16777216). cbn [signed]. lra. Qed.
Lemma Sc_ln2 : Rabs (Sc * ln 2 - 1) <= 2 / 100000000.
Proof. pose proof ln2_bounds as L. unfold L2, Sc in *. apply Rabs_le. lra. Qed.
Lemma exp_pert t e : Rabs t <= e -> e <= / 1000 -> Rabs (exp t - 1) <= 1002 / 1000 * e.
Proof.
  intros H E. assert (H' : - e <= t <= e) by (apply Rabs_le_inv; exact H).
  assert (G : forall s, 1 + s <= exp s). { intros s. destruct (Req_dec s 0) as [->|N]; [rewrite exp_0; lra|left; apply exp_ineq1; exact N]. }
  pose proof (G t) as A. pose proof (G (- t)) as B. assert (M : exp t * exp (- t) = 1) by (rewrite <- exp_plus, Rplus_opp_r; apply exp_0).
  pose proof (exp_pos t) as P. apply Rabs_le. split; [lra|].
  assert (exp t * (1 - e) <= 1) by (rewrite <- M; apply Rmult_le_compat_l; lra). nra.
Qed.
(** the exponential of a rounded [x / ln 2 + k] *)
Lemma ex2_shift w x k d : Rabs (w - (x * Sc + k)) <= d -> Rabs x * (2 / 100000000) + 694 / 1000 * d <= / 1000 ->
  Rabs (ex2 w - exp x * ex2 k) <= 1002 / 1000 * (Rabs x * (2 / 100000000) + 694 / 1000 * d) * (exp x * ex2 k).
Proof.
  intros H B. set (e := w - (x * Sc + k)) in *. set (t := x * (Sc * ln 2 - 1) + e * ln 2).
  assert (Ew : ex2 w = exp x * ex2 k * exp t). { unfold ex2. rewrite <- !exp_plus. f_equal. unfold t, e. ring. }
  pose proof ln2_bounds as L. unfold L2 in L. pose proof Sc_ln2 as S.
  assert (T : Rabs t <= Rabs x * (2 / 100000000) + 694 / 1000 * d).
  { unfold t. eapply Rle_trans; [apply Rabs_triang|]. rewrite !Rabs_mult. apply Rplus_le_compat; [apply Rmult_le_compat_l; [apply Rabs_pos|exact S]|].
    rewrite (Rabs_pos_eq (ln 2)), Rmult_comm by lra. apply Rmult_le_compat; [lra|apply Rabs_pos|lra|exact H]. }
  pose proof (exp_pert t _ T B) as P. rewrite Ew. pose proof (exp_pos x). pose proof (ex2_pos k). assert (0 < exp x * ex2 k) by (apply Rmult_lt_0_compat; assumption).
  replace (exp x * ex2 k * exp t - exp x * ex2 k) with (exp x * ex2 k * (exp t - 1)) by ring. rewrite Rabs_mult, (Rabs_pos_eq (exp x * ex2 k)) by lra.
  rewrite Rmult_comm. apply Rmult_le_compat_r; [lra|exact P].
Qed.
Lemma exp_shift fma v w x k d : word v -> value v = Fin w -> Rabs (w - (x * Sc + k)) <= d -> Rabs x * (2 / 100000000) + 694 / 1000 * d <= 13 / 1000000 -> -150 < w < 128 ->
  exists r, value (exp_lane fma v) = Fin r /\ Rabs (r - exp x * ex2 k) <= 25 / 1000000 * (exp x * ex2 k) + 2 * eta.
Proof.
  intros W V H B R. destruct (exp_acc fma v w W V R) as (r & Vr & E & _). exists r. split; [exact Vr|].
  pose proof (ex2_shift w x k d H ltac:(lra)) as S. pose proof (exp_pos x). pose proof (ex2_pos k). assert (P : 0 < exp x * ex2 k) by (apply Rmult_lt_0_compat; assumption).
  set (F := exp x * ex2 k) in *. set (g := Rabs x * (2 / 100000000) + 694 / 1000 * d) in *.
  assert (S' : Rabs (ex2 w - F) <= 1302600 / 100000000000 * F) by (eapply Rle_trans; [exact S|]; apply Rmult_le_compat_r; lra).
  apply Rabs_le_inv in S'. replace (r - F) with ((r - ex2 w) + (ex2 w - F)) by ring. eapply Rle_trans; [apply Rabs_triang|]. assert (Rabs (ex2 w - F) <= 1302600 / 100000000000 * F) by (apply Rabs_le; lra). lra.
Qed.
(** ** SinH and CosH *)
Definition h1 (fma : bool) (v : Z) : Z := fmadd fma v 0x3FB8AA3B 0xBF800000.
Definition h2 (fma : bool) (v : Z) : Z := fnmadd fma v 0x3FB8AA3B 0xBF800000.
Lemma sinh_lane fma V k : lane (XMVectorSinH_sse fma V) k = f_sub (exp_lane fma (h1 fma (lane V k))) (exp_lane fma (h2 fma (lane V k))).
Proof. unfold XMVectorSinH_sse, XMVectorExp_sse. cbv zeta. rewrite !exp_four. destruct k; reflexivity. Qed.
Lemma cosh_lane fma V k : lane (XMVectorCosH_sse fma V) k = f_add (exp_lane fma (h1 fma (lane V k))) (exp_lane fma (h2 fma (lane V k))).
Proof. unfold XMVectorCosH_sse, XMVectorExp_sse. cbv zeta. rewrite !exp_four. destruct k; reflexivity. Qed.
Lemma huge_130 : 2 * (1000 + 1) + 1 < huge.
Proof. unfold huge. apply Rlt_le_trans with (bpow radix2 12); [change (bpow radix2 12) with 4096; lra|apply bpow_le; lia]. Qed.
Lemma ex2_m1 : ex2 (-1) = / 2. Proof. change (-1) with (IZR (-1)). rewrite ex2_IZR. reflexivity. Qed.
Lemma h1_val fma v x : word v -> value v = Fin x -> Rabs x <= 89 -> exists w, value (h1 fma v) = Fin w /\ Rabs (w - (x * Sc + -1)) <= 157 / 10000000.
Proof.
  intros W V H. pose proof huge_130 as HH. assert (M : Rabs (x * Sc) <= 1284 / 10) by (rewrite Rabs_mult, (Rabs_pos_eq Sc) by (unfold Sc; lra); unfold Sc; lra).
  assert (N : Rabs (-1) = 1) by (rewrite Rabs_left; lra). destruct (fmadd_gen fma _ _ _ _ _ _ _ V val_scale val_m1 M) as (w & Vw & E); [rewrite N; lra|].
  exists w. split; [exact Vw|]. rewrite N in E. pose proof eta_small. unfold u24 in E. lra.
Qed.
Lemma h2_val fma v x : word v -> value v = Fin x -> Rabs x <= 89 -> exists w, value (h2 fma v) = Fin w /\ Rabs (w - (- x * Sc + -1)) <= 157 / 10000000.
Proof.
  intros W V H. pose proof huge_130 as HH. assert (M : Rabs (x * Sc) <= 1284 / 10) by (rewrite Rabs_mult, (Rabs_pos_eq Sc) by (unfold Sc; lra); unfold Sc; lra).
  assert (N : Rabs (-1) = 1) by (rewrite Rabs_left; lra). destruct (fnmadd_gen fma _ _ _ _ _ _ _ W V val_scale val_m1 M) as (w & Vw & E); [rewrite N; lra|].
  exists w. split; [exact Vw|]. rewrite N in E. pose proof eta_small. replace (- x * Sc + -1) with (-1 - x * Sc) by ring. unfold u24 in E. lra.
Qed.
Lemma hyp_exp fma v w x : word v -> value v = Fin w -> Rabs x <= 89 -> Rabs (w - (x * Sc + -1)) <= 157 / 10000000 ->
  exists r, value (exp_lane fma v) = Fin r /\ Rabs (r - exp x / 2) <= 25 / 1000000 * (exp x / 2) + 2 * eta.
Proof.
  intros W V H E. destruct (exp_shift fma v w x (-1) _ W V E) as (r & Vr & Er).
  - lra.
  - apply Rabs_le_inv in H. apply Rabs_le_inv in E. unfold Sc in E. lra.
  - exists r. split; [exact Vr|]. rewrite ex2_m1 in Er. exact Er.
Qed.
Lemma exp_89 : exp 89 <= 8 / 10 * huge * 2.
Proof.
  apply Rle_trans with (ex2 (128 + / 2)).
  - unfold ex2. pose proof ln2_bounds as L. unfold L2 in L. left. apply exp_increasing. lra.
  - rewrite ex2_plus. change 128 with (IZR 128). rewrite ex2_IZR. fold huge. pose proof (bpow_gt_0 radix2 128) as P. fold huge in P.
    assert (S : ex2 (/ 2) * ex2 (/ 2) = 2) by (rewrite <- ex2_plus; replace (/ 2 + / 2) with 1 by lra; apply ex2_1). pose proof (ex2_pos (/ 2)).
    assert (ex2 (/ 2) <= 8 / 10 * 2) by nra. nra.
Qed.
Lemma cosh_bounds x : Rabs x <= 89 -> 1 <= cosh x /\ cosh x <= 8 / 10 * huge + 1 /\ exp x / 2 <= cosh x /\ exp (- x) / 2 <= cosh x.
Proof.
  intros H. apply Rabs_le_inv in H. pose proof (exp_pos x) as P. pose proof (exp_pos (- x)) as N. unfold cosh.
  assert (M : exp x * exp (- x) = 1) by (rewrite <- exp_plus, Rplus_opp_r; apply exp_0).
  assert (mono : forall a b, a <= b -> exp a <= exp b) by (intros a b [L|<-]; [left; apply exp_increasing, L|right; reflexivity]).
  assert (A : exp x + exp (- x) <= exp 89 + 1).
  { destruct (Rle_or_lt 0 x) as [C|C].
    - pose proof (mono x 89 ltac:(lra)). pose proof (mono (- x) 0 ltac:(lra)) as K. rewrite exp_0 in K. lra.
    - pose proof (mono (- x) 89 ltac:(lra)). pose proof (mono x 0 ltac:(lra)) as K. rewrite exp_0 in K. lra. }
  pose proof exp_89. split.
  { apply Rnot_lt_le. intros C. pose proof (Rle_0_sqr (exp x - exp (- x))) as Q. unfold Rsqr in Q. assert ((exp x + exp (- x)) * (exp x + exp (- x)) < 2 * 2) by (apply Rmult_le_0_lt_compat; lra). lra. } split; [lra|]. lra.
Qed.
Lemma hyp_exps fma v x : word v -> value v = Fin x -> Rabs x <= 89 -> exists a b, value (exp_lane fma (h1 fma v)) = Fin a /\ value (exp_lane fma (h2 fma v)) = Fin b /\
  Rabs (a - exp x / 2) <= 25 / 1000000 * (exp x / 2) + 2 * eta /\ Rabs (b - exp (- x) / 2) <= 25 / 1000000 * (exp (- x) / 2) + 2 * eta.
Proof.
  intros W V H. destruct (h1_val fma v x W V H) as (w1 & V1 & E1). destruct (h2_val fma v x W V H) as (w2 & V2 & E2).
  destruct (hyp_exp fma _ w1 x (fmadd_word _ _ _ _) V1 H E1) as (a & Va & Ea). destruct (hyp_exp fma _ w2 (- x) (fnmadd_word _ _ _ _) V2 ltac:(rewrite Rabs_Ropp; exact H) E2) as (b & Vb & Eb).
  exists a, b. auto.
Qed.
Lemma RN_fin y c : Rabs y <= 1001 / 1000 * c -> 1 <= c -> c <= 8 / 10 * huge + 1 -> Rabs (RN y) < huge.
Proof. intros H L U. pose proof (RN_abs y) as R. pose proof eta_small. pose proof huge_big. unfold u24 in R. lra. Qed.
Lemma sinh_acc fma v x : word v -> value v = Fin x -> Rabs x <= 89 ->
  exists r, value (f_sub (exp_lane fma (h1 fma v)) (exp_lane fma (h2 fma v))) = Fin r /\ Rabs (r - sinh x) <= 26 / 1000000 * cosh x.
Proof.
  intros W V H. destruct (hyp_exps fma v x W V H) as (a & b & Va & Vb & Ea & Eb). destruct (cosh_bounds x H) as (C1 & C2 & C3 & C4). pose proof eta_small as ES. pose proof eta_pos.
  assert (D : Rabs ((a - b) - sinh x) <= 25 / 1000000 * cosh x + 4 * eta).
  { unfold sinh, cosh. replace (a - b - (exp x - exp (- x)) / 2) with ((a - exp x / 2) - (b - exp (- x) / 2)) by lra. unfold Rminus at 1. eapply Rle_trans; [apply Rabs_triang|]. rewrite Rabs_Ropp. lra. }
  assert (Sb : Rabs (sinh x) <= cosh x) by (unfold sinh, cosh in *; apply Rabs_le; pose proof (exp_pos x); pose proof (exp_pos (- x)); lra).
  assert (M : Rabs (a - b) <= 1001 / 1000 * cosh x). { replace (a - b) with ((a - b - sinh x) + sinh x) by ring. eapply Rle_trans; [apply Rabs_triang|]. lra. }
  exists (RN (a - b)). split; [apply sub_val; [exact Va|exact Vb|apply (RN_fin _ (cosh x)); assumption]|].
  pose proof (RN_err (a - b)) as R. replace (RN (a - b) - sinh x) with ((RN (a - b) - (a - b)) + (a - b - sinh x)) by ring. eapply Rle_trans; [apply Rabs_triang|]. unfold u24 in R. lra.
Qed.
Lemma cosh_acc fma v x : word v -> value v = Fin x -> Rabs x <= 89 ->
  exists r, value (f_add (exp_lane fma (h1 fma v)) (exp_lane fma (h2 fma v))) = Fin r /\ Rabs (r - cosh x) <= 26 / 1000000 * cosh x.
Proof.
  intros W V H. destruct (hyp_exps fma v x W V H) as (a & b & Va & Vb & Ea & Eb). destruct (cosh_bounds x H) as (C1 & C2 & C3 & C4). pose proof eta_small as ES. pose proof eta_pos.
  assert (D : Rabs ((a + b) - cosh x) <= 25 / 1000000 * cosh x + 4 * eta).
  { unfold cosh. replace (a + b - (exp x + exp (- x)) / 2) with ((a - exp x / 2) + (b - exp (- x) / 2)) by lra. eapply Rle_trans; [apply Rabs_triang|]. lra. }
  assert (M : Rabs (a + b) <= 1001 / 1000 * cosh x). { replace (a + b) with ((a + b - cosh x) + cosh x) by ring. eapply Rle_trans; [apply Rabs_triang|]. rewrite (Rabs_pos_eq (cosh x)) by lra. lra. }
  exists (RN (a + b)). split; [apply add_val; [exact Va|exact Vb|apply (RN_fin _ (cosh x)); assumption]|].
  pose proof (RN_err (a + b)) as R. replace (RN (a + b) - cosh x) with ((RN (a + b) - (a + b)) + (a + b - cosh x)) by ring. eapply Rle_trans; [apply Rabs_triang|]. unfold u24 in R. lra.
Qed.
(** ** far out: results that are an infinity or large *)
Lemma sub_any a b x y : value a = Fin x -> value b = Fin y -> fin_or_inf (value (f_sub a b)) (x - y).
Proof.
  intros Va Vb. destruct (Rlt_or_le (Rabs (RN (x - y))) huge) as [L|L]; [left; split; [exact L|apply sub_val; assumption]|right]. split; [exact L|].
  destruct (value_fin _ _ Va) as (Fa & Ea). destruct (value_fin _ _ Vb) as (Fb & Eb). pose proof (huge_RN0 _ L) as N.
  pose proof (Bminus_correct 24 128 _ _ mode_NE (dec a) (dec b) Fa Fb) as K. rewrite Ea, Eb in K. change (round _ _ _ (x - y)) with (RN (x - y)) in K.
  rewrite Rlt_bool_false in K by exact L. destruct K as [K S]. unfold f_sub. rewrite value_enc, (over_inf _ _ K). f_equal.
  destruct (Req_dec x 0) as [X0|X0]; [|destruct (Req_dec y 0) as [Y0|Y0]].
  - destruct (value_fmt _ _ Vb) as (Fy & Hy). rewrite X0, Rminus_0_l, RN_fmt, Rabs_Ropp in L by (apply fmt_opp; exact Fy). lra.
  - destruct (value_fmt _ _ Va) as (Fx & Hx). rewrite Y0, Rminus_0_r, RN_fmt in L by exact Fx. lra.
  - rewrite (sgn_of (dec a)), (sgn_of (dec b)), Ea, Eb in S by (rewrite ?Ea, ?Eb; assumption). rewrite (sgn_of (dec a)), Ea by (rewrite ?Ea; assumption).
    destruct (Rlt_bool_spec x 0) as [X|X], (Rlt_bool_spec y 0) as [Y|Y], (Rlt_bool_spec (x - y) 0) as [Z|Z]; try reflexivity; try discriminate S; exfalso; lra.
Qed.
Definition sg (s : bool) (x : R) : R := if s then - x else x.
(** the value is an infinity of sign [s], or finite and at least [B] on that side *)
Definition bnd (s : bool) (z : Z) (B : R) : Prop := value z = Inf s \/ exists w, value z = Fin w /\ B <= sg s w.
Lemma RN_opp x : RN (- x) = - RN x.
Proof. unfold RN. apply round_NE_opp. Qed.
Lemma any_bnd s z x n : fin_or_inf (value z) x -> (Z.abs n <= 2 ^ 24)%Z -> IZR n <= sg s x -> bnd s z (IZR n).
Proof.
  intros H N L. assert (R : IZR n <= sg s (RN x)).
  { rewrite <- (RN_fmt (IZR n)) by (apply fmt_int, N). destruct s; cbn [sg] in *; [rewrite <- RN_opp|]; apply RN_le, L. }
  pose proof (huge_int n N) as HN. apply Rabs_lt_inv in HN. destruct H as [[A E]|[A E]]; [right; exists (RN x); auto|left]. rewrite E. f_equal.
  destruct s; cbn [sg] in *.
  - apply Rlt_bool_true. destruct (Rlt_or_le x 0) as [C|C]; [exact C|]. apply RN_le in C. rewrite RN_fmt in C by apply fmt_0. rewrite Rabs_pos_eq in A; lra.
  - apply Rlt_bool_false. destruct (Rlt_or_le x 0) as [C|C]; [|exact C]. apply Rlt_le in C. apply RN_le in C. rewrite (RN_fmt 0) in C by apply fmt_0. rewrite Rabs_left1 in A; lra.
Qed.
Lemma fin_dec z x : value z = Fin x -> (exists s, dec z = B754_zero s) \/ (exists s m e B, dec z = B754_finite s m e B).
Proof. rewrite value_dec. destruct (dec z) as [s|s| |s m e B]; cbn [xof]; intros H; try discriminate H; eauto 6. Qed.
Lemma pos_dec z x : value z = Fin x -> 0 < x -> exists m e B, dec z = B754_finite false m e B.
Proof.
  intros V P. destruct (value_fin _ _ V) as (F & E). destruct (dec z) as [s|s| |s m e B]; try discriminate F; [cbn [B2R] in E; lra|]. destruct s; [|eauto].
  exfalso. cbn [B2R] in E. pose proof (F2R_lt_0 radix2 (Float radix2 (SpecFloat.cond_Zopp true (Z.pos m)) e) eq_refl) as K. lra.
Qed.
Lemma inf_dec z s : value z = Inf s -> dec z = B754_infinity s.
Proof. rewrite value_dec. destruct (dec z); cbn [xof]; intros H; try discriminate H. injection H as ->. reflexivity. Qed.
Lemma bnd_mul s a b B y n : bnd s a B -> value b = Fin y -> 0 < y -> (Z.abs n <= 2 ^ 24)%Z -> IZR n <= B * y -> bnd s (f_mul a b) (IZR n).
Proof.
  intros [I|(w & V & L)] Vb P N H.
  - left. destruct (pos_dec b y Vb P) as (m & e & B' & D). unfold f_mul. rewrite value_enc, (inf_dec _ _ I), D. cbn [Bmult xof]. destruct s; reflexivity.
  - apply (any_bnd s _ (w * y)); [apply mul_any; assumption|exact N|]. eapply Rle_trans; [exact H|]. destruct s; cbn [sg] in *; [replace (- (w * y)) with (- w * y) by ring|]; apply Rmult_le_compat_r; lra.
Qed.
Lemma bnd_add s a c B C n : bnd s a B -> value c = Fin C -> (Z.abs n <= 2 ^ 24)%Z -> IZR n <= B + sg s C -> bnd s (f_add a c) (IZR n).
Proof.
  intros [I|(w & V & L)] Vc N H.
  - left. unfold f_add. rewrite value_enc, (inf_dec _ _ I). destruct (fin_dec c C Vc) as [(t & D)|(t & m & e & B' & D)]; rewrite D; reflexivity.
  - apply (any_bnd s _ (w + C)); [apply add_any; assumption|exact N|]. destruct s; cbn [sg] in *; lra.
Qed.
Lemma bnd_sub s a c B C n : bnd s a B -> value c = Fin C -> (Z.abs n <= 2 ^ 24)%Z -> IZR n <= B + sg (negb s) C -> bnd (negb s) (f_sub c a) (IZR n).
Proof.
  intros [I|(w & V & L)] Vc N H.
  - left. unfold f_sub. rewrite value_enc, (inf_dec _ _ I). destruct (fin_dec c C Vc) as [(t & D)|(t & m & e & B' & D)]; rewrite D; reflexivity.
  - apply (any_bnd (negb s) _ (C - w)); [apply sub_any; assumption|exact N|]. destruct s; cbn [sg negb] in *; lra.
Qed.
Lemma bnd_subl s a c B C n : bnd s a B -> value c = Fin C -> (Z.abs n <= 2 ^ 24)%Z -> IZR n <= B - sg s C -> bnd s (f_sub a c) (IZR n).
Proof.
  intros [I|(w & V & L)] Vc N H.
  - left. unfold f_sub. rewrite value_enc, (inf_dec _ _ I). destruct (fin_dec c C Vc) as [(t & D)|(t & m & e & B' & D)]; rewrite D; reflexivity.
  - apply (any_bnd s _ (w - C)); [apply sub_any; assumption|exact N|]. destruct s; cbn [sg negb] in *; lra.
Qed.
Lemma bnd_fma s a b c B y C n : bnd s a B -> value b = Fin y -> 0 < y -> value c = Fin C -> (Z.abs n <= 2 ^ 24)%Z -> IZR n <= B * y + sg s C -> bnd s (f_fma a b c) (IZR n).
Proof.
  intros [I|(w & V & L)] Vb P Vc N H.
  - left. destruct (pos_dec b y Vb P) as (m & e & B' & D). unfold f_fma. rewrite value_enc, (inf_dec _ _ I), D.
    destruct (fin_dec c C Vc) as [(t & Dc)|(t & mc & ec & Bc & Dc)]; rewrite Dc; unfold Bfma, Bfma_szero; cbn; destruct s; reflexivity.
  - apply (any_bnd s _ (w * y + C)); [apply fma_any; assumption|exact N|]. assert (B * y <= sg s w * y) by (apply Rmult_le_compat_r; lra). destruct s; cbn [sg] in *; lra.
Qed.
Lemma bnd_neg s a B : word a -> bnd s a B -> bnd (negb s) (f_neg a) B.
Proof.
  intros W [I|(w & V & L)]; [left; rewrite value_neg, I by exact W; reflexivity|right]. exists (- w). split; [rewrite value_neg, V by exact W; reflexivity|]. destruct s; cbn [sg negb] in *; lra.
Qed.
Lemma bnd_fmadd fma s a b c B y C m n : bnd s a B -> value b = Fin y -> 0 < y -> value c = Fin C -> (Z.abs m <= 2 ^ 24)%Z -> (Z.abs n <= 2 ^ 24)%Z ->
  IZR m <= B * y -> IZR n <= IZR m + sg s C -> bnd s (fmadd fma a b c) (IZR n).
Proof.
  intros Ha Vb P Vc M N H1 H2. destruct fma; cbn [fmadd].
  - apply (bnd_fma s a b c B y C); auto. lra.
  - apply (bnd_add s _ c (IZR m) C); auto. apply (bnd_mul s a b B y); auto.
Qed.
Lemma bnd_fnmadd fma s a b c B y C m n : word a -> bnd s a B -> value b = Fin y -> 0 < y -> value c = Fin C -> (Z.abs m <= 2 ^ 24)%Z -> (Z.abs n <= 2 ^ 24)%Z ->
  IZR m <= B * y -> IZR n <= IZR m + sg (negb s) C -> bnd (negb s) (fnmadd fma a b c) (IZR n).
Proof.
  intros W Ha Vb P Vc M N H1 H2. destruct fma; cbn [fnmadd].
  - apply (bnd_fma (negb s) _ b c B y C); auto; [apply bnd_neg; assumption|lra].
  - apply (bnd_sub s _ c (IZR m) C); auto. apply (bnd_mul s a b B y); auto.
Qed.
Lemma exp_up fma v : word v -> bnd false v 128 -> exp_lane fma v = 0x7F800000%Z.
Proof. intros W [I|(w & V & L)]; [exact (exp_inf fma v false W I)|exact (proj1 (exp_case fma v w W V) L)]. Qed.
Lemma exp_dn fma v : word v -> bnd true v 126 -> exists r, value (exp_lane fma v) = Fin r /\ Rabs r <= / 1000000000000000000000000000000000.
Proof.
  intros W H. assert (Z0 : exp_lane fma v = 0%Z -> exists r, value (exp_lane fma v) = Fin r /\ Rabs r <= / 1000000000000000000000000000000000).
  { intros ->. exists 0. split; [apply zero_val|rewrite Rabs_R0; lra]. }
  destruct H as [I|(w & V & L)]; [apply Z0, (exp_inf fma v true W I)|]. cbn [sg] in L.
  destruct (Rle_or_lt w (-150)) as [C|C]; [apply Z0, (exp_case fma v w W V), C|].
  destruct (exp_acc fma v w W V ltac:(lra)) as (r & Vr & E & _). exists r. split; [exact Vr|]. pose proof (ex2_pos w) as P. pose proof eta_small.
  assert (ex2 w <= / 100000000000000000000000000000000000).
  { apply Rle_trans with (ex2 (IZR (-126))); [apply ex2_le; lra|]. rewrite ex2_IZR. change (-126)%Z with (- (126))%Z. rewrite bpow_opp. apply Rinv_le_contravar; [lra|].
    change (bpow radix2 126) with (IZR (2 ^ 126)). apply IZR_le. vm_compute. discriminate. }
  replace r with ((r - ex2 w) + ex2 w) by ring. eapply Rle_trans; [apply Rabs_triang|]. rewrite (Rabs_pos_eq (ex2 w)) by lra. lra.
Qed.
Lemma hyp_far fma v s : word v -> bnd s v 90 -> if s then bnd true (h1 fma v) 126 /\ bnd false (h2 fma v) 128 else bnd false (h1 fma v) 128 /\ bnd true (h2 fma v) 126.
Proof.
  intros W H. assert (P : 0 < Sc) by (unfold Sc; lra). assert (M : IZR 129 <= 90 * Sc) by (unfold Sc; lra).
  destruct s; split.
  - apply (bnd_fmadd fma true v _ _ 90 Sc (-1) 129 126 H val_scale P val_m1); [lia|lia|exact M|cbn [sg]; lra].
  - apply (bnd_fnmadd fma true v _ _ 90 Sc (-1) 129 128 W H val_scale P val_m1); [lia|lia|exact M|cbn [sg negb]; lra].
  - apply (bnd_fmadd fma false v _ _ 90 Sc (-1) 129 128 H val_scale P val_m1); [lia|lia|exact M|cbn [sg]; lra].
  - apply (bnd_fnmadd fma false v _ _ 90 Sc (-1) 129 126 W H val_scale P val_m1); [lia|lia|exact M|cbn [sg negb]; lra].
Qed.
Lemma sinh_far fma v s : word v -> bnd s v 90 -> value (f_sub (exp_lane fma (h1 fma v)) (exp_lane fma (h2 fma v))) = Inf s.
Proof.
  intros W H. apply (hyp_far fma v s W) in H. destruct s; destruct H as [H1 H2].
  - destruct (exp_dn fma (h1 fma v) (fmadd_word _ _ _ _) H1) as (r & Vr & _). rewrite (exp_up fma (h2 fma v) (fnmadd_word _ _ _ _) H2). destruct (fin_dec _ _ Vr) as [(t & D)|(t & m & e & B' & D)]; unfold f_sub; rewrite value_enc, D; reflexivity.
  - destruct (exp_dn fma (h2 fma v) (fnmadd_word _ _ _ _) H2) as (r & Vr & _). rewrite (exp_up fma (h1 fma v) (fmadd_word _ _ _ _) H1). destruct (fin_dec _ _ Vr) as [(t & D)|(t & m & e & B' & D)]; unfold f_sub; rewrite value_enc, D; reflexivity.
Qed.
Lemma cosh_far fma v s : word v -> bnd s v 90 -> value (f_add (exp_lane fma (h1 fma v)) (exp_lane fma (h2 fma v))) = Inf false.
Proof.
  intros W H. apply (hyp_far fma v s W) in H. destruct s; destruct H as [H1 H2].
  - destruct (exp_dn fma (h1 fma v) (fmadd_word _ _ _ _) H1) as (r & Vr & _). rewrite (exp_up fma (h2 fma v) (fnmadd_word _ _ _ _) H2). destruct (fin_dec _ _ Vr) as [(t & D)|(t & m & e & B' & D)]; unfold f_add; rewrite value_enc, D; reflexivity.
  - destruct (exp_dn fma (h2 fma v) (fnmadd_word _ _ _ _) H2) as (r & Vr & _). rewrite (exp_up fma (h1 fma v) (fmadd_word _ _ _ _) H1). destruct (fin_dec _ _ Vr) as [(t & D)|(t & m & e & B' & D)]; unfold f_add; rewrite value_enc, D; reflexivity.
Qed.
(** ** NaN *)
Lemma nan_dec z : value z = NaN -> dec z = B754_nan.
Proof. rewrite value_dec. destruct (dec z); cbn [xof]; intros H; try discriminate H. reflexivity. Qed.
Lemma fmadd_nan fma a b c : value a = NaN -> value (fmadd fma a b c) = NaN.
Proof.
  intros N. apply nan_dec in N. destruct fma; cbn [fmadd]; unfold f_fma, f_add; rewrite value_enc.
  - rewrite N. reflexivity.
  - assert (D : value (f_mul a b) = NaN) by (unfold f_mul; rewrite value_enc, N; reflexivity). rewrite (nan_dec _ D). reflexivity.
Qed.
Lemma h1_nan fma v : value v = NaN -> value (exp_lane fma (h1 fma v)) = NaN.
Proof. intros N. rewrite (exp_nan fma (h1 fma v) (fmadd_word _ _ _ _) (fmadd_nan fma _ _ _ N)). reflexivity. Qed.
Lemma sinh_nan fma v : value v = NaN -> value (f_sub (exp_lane fma (h1 fma v)) (exp_lane fma (h2 fma v))) = NaN.
Proof. intros N%(h1_nan fma). unfold f_sub. rewrite value_enc, (nan_dec _ N). reflexivity. Qed.
Lemma cosh_nan fma v : value v = NaN -> value (f_add (exp_lane fma (h1 fma v)) (exp_lane fma (h2 fma v))) = NaN.
Proof. intros N%(h1_nan fma). unfold f_add. rewrite value_enc, (nan_dec _ N). reflexivity. Qed.
(** ** TanH *)
Definition th (E : Z) (fma : bool) : Z := f_sub 0x3F800000 (f_div 0x3F800000 (fmadd fma E 0x3F000000 0x3F000000)).
Definition tanh_l (fma : bool) (v : Z) : Z := th (exp_lane fma (f_mul v 0x4038AA3B)) fma.
Lemma tanh_lane fma V k : lane (XMVectorTanH_sse fma V) k = tanh_l fma (lane V k).
Proof. unfold XMVectorTanH_sse, XMVectorExp_sse. cbv zeta. rewrite exp_four. destruct k; reflexivity. Qed.
Lemma tanh_exp x : tanh x = 1 - 2 / (exp (2 * x) + 1).
Proof.
  unfold tanh, sinh, cosh. replace (2 * x) with (x + x) by ring. rewrite exp_plus. pose proof (exp_pos x) as P. rewrite exp_Ropp. pose proof (Rmult_lt_0_compat _ _ P P).
  field. lra.
Qed.
Lemma th_fin fma E r e : value E = Fin r -> 0 < e -> e <= huge / 2 -> Rabs (r - e) <= 25 / 1000000 * e + / 1000000000000000000000000000000 ->
  exists q, value (th E fma) = Fin q /\ Rabs (q - (1 - 2 / (e + 1))) <= 14 / 1000000.
Proof.
  intros V P U H. pose proof eta_small as ES. pose proof eta_pos as EP. pose proof huge_big as HB.
  assert (A : Rabs (r * / 2) <= 50002 / 100000 * e + / 1000000000000000000000000000000).
  { apply Rabs_le_inv in H. apply Rabs_le. lra. }
  assert (Nh : Rabs (/ 2) = / 2) by (apply Rabs_pos_eq; lra).
  destruct (fmadd_gen fma E _ _ r (/ 2) (/ 2) _ V val_half val_half A) as (F & VF & EF); [rewrite Nh; lra|]. rewrite Nh in EF.
  set (D := (e + 1) / 2). assert (D0 : / 2 <= D) by (unfold D; lra).
  assert (FD : Rabs (F - D) <= 125 / 10000000 * e + 13 / 100000000 * D).
  { replace (F - D) with ((F - (r * / 2 + / 2)) + (r - e) / 2) by (unfold D; field). eapply Rle_trans; [apply Rabs_triang|].
    assert (Rabs ((r - e) / 2) = Rabs (r - e) / 2) by (unfold Rdiv; rewrite Rabs_mult, Nh; reflexivity). unfold D, u24 in *. lra. }
  assert (e2 : e <= 2 * D) by (unfold D; lra). assert (eD : e <= D * D) by (unfold D; pose proof (Rle_0_sqr (e - 1)) as Q; unfold Rsqr in Q; nra).
  pose proof (Rabs_le_inv _ _ FD) as FD'. assert (F0 : 9999 / 10000 * D <= F) by lra. assert (Fp : 0 < F) by lra.
  set (g := / F). assert (gF : g * F = 1) by (unfold g; field; lra). assert (g0 : 0 < g) by (apply Rinv_0_lt_compat, Fp).
  assert (gD : g * D <= 10002 / 10000) by nra. assert (g2 : g <= 2001 / 1000) by nra.
  assert (K : Rabs (g - / D) <= 129 / 10000000).
  { replace (g - / D) with (- ((F - D) * (g * / D))) by (unfold g; field; lra). rewrite Rabs_Ropp, Rabs_mult.
    assert (iD : 0 < / D) by (apply Rinv_0_lt_compat; lra). assert (DD : / D * D = 1) by (field; lra).
    rewrite (Rabs_pos_eq (g * / D)) by (apply Rlt_le, Rmult_lt_0_compat; assumption).
    eapply Rle_trans; [apply Rmult_le_compat_r; [apply Rlt_le, Rmult_lt_0_compat; assumption|exact FD]|].
    assert (T1 : e * (g * / D) <= g * D). { replace (g * D) with (D * D * (g * / D)) by (field_simplify; [reflexivity|lra]). apply Rmult_le_compat_r; [apply Rlt_le, Rmult_lt_0_compat; assumption|exact eD]. }
    replace ((125 / 10000000 * e + 13 / 100000000 * D) * (g * / D)) with (125 / 10000000 * (e * (g * / D)) + 13 / 100000000 * g * (/ D * D)) by ring. rewrite DD. lra. }
  assert (ag : Rabs g = g) by (apply Rabs_pos_eq; lra).
  assert (VG : value (f_div 0x3F800000 (fmadd fma E 0x3F000000 0x3F000000)) = Fin (RN g)).
  { unfold g. replace (/ F) with (1 / F) by (field; lra). apply div_val; [exact val_1|exact VF|lra|]. apply small_huge. replace (1 / F) with g by (unfold g; field; lra). rewrite ag. lra. }
  pose proof (RN_err g) as RG. rewrite ag in RG. set (G := RN g) in *. assert (aG : Rabs (1 - G) <= 31 / 10).
  { apply Rabs_le_inv in RG. unfold u24 in RG. apply Rabs_le. lra. }
  exists (RN (1 - G)). split; [apply sub_val; [exact val_1|exact VG|apply small_huge; lra]|]. pose proof (RN_err (1 - G)) as R1.
  replace (2 / (e + 1)) with (/ D) by (unfold D; field; lra).
  replace (RN (1 - G) - (1 - / D)) with ((RN (1 - G) - (1 - G)) - (G - g) - (g - / D)) by ring.
  unfold Rminus at 1 2. eapply Rle_trans; [apply Rabs_triang|]. rewrite Rabs_Ropp. eapply Rle_trans; [apply Rplus_le_compat_r, Rabs_triang|]. rewrite Rabs_Ropp. unfold u24 in *. lra.
Qed.
Lemma th_up fma E : bnd false E 67108864 -> exists q, value (th E fma) = Fin q /\ Rabs (q - 1) <= 1 / 1000000.
Proof.
  intros H. assert (HF : bnd false (fmadd fma E 0x3F000000 0x3F000000) 16777216).
  { apply (bnd_fmadd fma false E _ _ 67108864 (/ 2) (/ 2) 16777216 16777216 H val_half ltac:(lra) val_half); [lia|lia|lra|cbn [sg]; lra]. }
  assert (G : exists g, value (f_div 0x3F800000 (fmadd fma E 0x3F000000 0x3F000000)) = Fin g /\ Rabs g <= / 8388608).
  { destruct HF as [I|(w & V & L)].
    - exists 0. split; [|rewrite Rabs_R0; lra]. unfold f_div. rewrite value_enc, (inf_dec _ _ I). destruct (pos_dec _ _ val_1 ltac:(lra)) as (m & e & B & D). rewrite D. reflexivity.
    - cbn [sg] in L. assert (B : 0 < 1 / w <= / 16777216). { split; [apply Rdiv_lt_0_compat; lra|]. unfold Rdiv. rewrite Rmult_1_l. apply Rinv_le_contravar; lra. }
      assert (A : Rabs (1 / w) = 1 / w) by (apply Rabs_pos_eq; lra).
      exists (RN (1 / w)). split; [apply div_val; [exact val_1|exact V|lra|apply small_huge; lra]|]. pose proof (RN_abs (1 / w)) as R. pose proof eta_small. rewrite A in R. unfold u24 in R. lra. }
  destruct G as (g & Vg & Lg). apply Rabs_le_inv in Lg. exists (RN (1 - g)). assert (A : Rabs (1 - g) <= 2) by (apply Rabs_le; lra).
  split; [apply sub_val; [exact val_1|exact Vg|apply small_huge; lra]|]. pose proof (RN_err (1 - g)) as R. pose proof eta_small. unfold u24 in R.
  apply Rabs_le_inv in R. apply Rabs_le. lra.
Qed.
Lemma exp_up2 fma v : word v -> bnd false v 126 -> bnd false (exp_lane fma v) 67108864.
Proof.
  intros W H. assert (D : bnd false v 128 \/ exists w, value v = Fin w /\ 126 <= w < 128).
  { destruct H as [I|(w & V & L)]; [left; left; exact I|]. cbn [sg] in L. destruct (Rlt_or_le w 128) as [C|C]; [right; exists w; auto|left; right; exists w; auto]. }
  destruct D as [D|(w & V & L)]; [left; rewrite (exp_up fma v W D); reflexivity|right].
  destruct (exp_acc fma v w W V ltac:(lra)) as (r & Vr & _ & E). exists r. split; [exact Vr|]. specialize (E ltac:(lra)). cbn [sg].
  assert (67108864 * 2 <= ex2 w). { apply Rle_trans with (ex2 (IZR 27)); [rewrite ex2_IZR; change (bpow radix2 27) with 134217728; lra|apply ex2_le; lra]. }
  pose proof eta_small. apply Rabs_le_inv in E. lra.
Qed.
Lemma tanh_acc fma v x : word v -> value v = Fin x -> exists q, value (tanh_l fma v) = Fin q /\ Rabs (q - tanh x) <= 15 / 1000000.
Proof.
  intros W V. rewrite tanh_exp. assert (P : 0 < 2 * Sc) by (unfold Sc; lra). pose proof (exp_pos (2 * x)) as EP. unfold tanh_l.
  assert (WM : word (f_mul v 0x4038AA3B)) by apply enc_word. pose proof ln2_bounds as L2b. unfold L2 in L2b.
  assert (small : exp (-88) <= / 100000000000000000000000000000000000).
  { apply Rle_trans with (ex2 (IZR (-126))); [unfold ex2; left; apply exp_increasing; lra|]. rewrite ex2_IZR. change (-126)%Z with (- (126))%Z. rewrite bpow_opp. apply Rinv_le_contravar; [lra|].
    change (bpow radix2 126) with (IZR (2 ^ 126)). apply IZR_le. vm_compute. discriminate. }
  destruct (Rle_or_lt (Rabs x) 44) as [C|C].
  - assert (M : Rabs (x * (2 * Sc)) <= 127) by (rewrite Rabs_mult, (Rabs_pos_eq (2 * Sc)) by lra; unfold Sc; pose proof (Rabs_pos x); nra).
    pose proof (RN_err (x * (2 * Sc))) as R. pose proof eta_small as ES.
    assert (HR : Rabs (RN (x * (2 * Sc)) - (2 * x * Sc + 0)) <= 76 / 10000000). { replace (2 * x * Sc + 0) with (x * (2 * Sc)) by ring. unfold u24 in R. lra. }
    assert (VM : value (f_mul v 0x4038AA3B) = Fin (RN (x * (2 * Sc)))).
    { apply mul_val; [exact V|exact val_scale2|]. pose proof (RN_abs (x * (2 * Sc))) as A. pose proof huge_big. unfold u24 in A. lra. }
    pose proof (RN_abs (x * (2 * Sc))) as A. apply Rabs_le_inv in C as C'. 
    destruct (exp_shift fma _ _ (2 * x) 0 _ WM VM HR) as (r & Vr & Er).
    + rewrite Rabs_mult, (Rabs_pos_eq 2) by lra. lra.
    + apply Rabs_le_inv in HR. unfold Sc in HR. unfold Sc. lra.
    + rewrite ex2_0, Rmult_1_r in Er. destruct (th_fin fma _ r (exp (2 * x)) Vr EP) as (q & Vq & Eq).
      * assert (T : exp (2 * x) <= ex2 (IZR 127)) by (destruct (Req_dec (2 * x) (IZR 127 * ln 2)) as [->|N]; [right; reflexivity|unfold ex2; left; apply exp_increasing; lra]).
        rewrite ex2_IZR in T. unfold huge. change 128%Z with (127 + 1)%Z. rewrite bpow_plus. change (bpow radix2 1) with 2. lra.
      * lra.
      * exists q. split; [exact Vq|lra].
  - destruct (Rle_or_lt 0 x) as [S|S].
    + rewrite Rabs_pos_eq in C by exact S. assert (B : bnd false (f_mul v 0x4038AA3B) 126).
      { apply (bnd_mul false v _ 44 (2 * Sc)); [right; exists x; split; [exact V|cbn [sg]; lra]|exact val_scale2|exact P|lia|unfold Sc; lra]. }
      destruct (th_up fma _ (exp_up2 fma _ WM B)) as (q & Vq & Eq). exists q. split; [exact Vq|].
      assert (T : 2 / (exp (2 * x) + 1) <= / 1000000 /\ 0 < 2 / (exp (2 * x) + 1)).
      { split; [|apply Rdiv_lt_0_compat; lra]. assert (exp 88 < exp (2 * x)) by (apply exp_increasing; lra).
        assert (exp (-88) * exp 88 = 1) by (rewrite <- exp_plus; replace (-88 + 88) with 0 by ring; apply exp_0). pose proof (exp_pos 88).
        assert (10000000 <= exp 88) by nra. apply Rmult_le_reg_r with (exp (2 * x) + 1); [lra|]. unfold Rdiv. rewrite Rmult_assoc, Rinv_l by lra. lra. }
      apply Rabs_le_inv in Eq. apply Rabs_le. lra.
    + rewrite Rabs_left in C by exact S. assert (B : bnd true (f_mul v 0x4038AA3B) 126).
      { apply (bnd_mul true v _ 44 (2 * Sc)); [right; exists x; split; [exact V|cbn [sg]; lra]|exact val_scale2|exact P|lia|unfold Sc; lra]. }
      destruct (exp_dn fma _ WM B) as (r & Vr & Er). assert (exp (2 * x) < exp (-88)) by (apply exp_increasing; lra). pose proof huge_big.
      destruct (th_fin fma _ r (exp (2 * x)) Vr EP) as (q & Vq & Eq); [lra|apply Rabs_le_inv in Er; apply Rabs_le; lra|]. exists q. split; [exact Vq|lra].
Qed.
Lemma tanh_nan fma v : value v = NaN -> value (tanh_l fma v) = NaN.
Proof.
  intros N. assert (M : value (f_mul v 0x4038AA3B) = NaN) by (unfold f_mul; rewrite value_enc, (nan_dec _ N); reflexivity).
  unfold tanh_l. rewrite (exp_nan fma (f_mul v 0x4038AA3B) (enc_word _) M). destruct fma; vm_compute; reflexivity.
Qed.
Lemma tanh_inf fma v s : value v = Inf s -> tanh_l fma v = if s then 0xBF800000%Z else 0x3F800000%Z.
Proof.
  intros I. assert (M : value (f_mul v 0x4038AA3B) = Inf s).
  { destruct (pos_dec _ _ val_scale2 ltac:(unfold Sc; lra)) as (m & e & B & D). unfold f_mul. rewrite value_enc, (inf_dec _ _ I), D. destruct s; reflexivity. }
  unfold tanh_l. rewrite (exp_inf fma (f_mul v 0x4038AA3B) s (enc_word _) M). destruct fma, s; vm_compute; reflexivity.
Qed.
