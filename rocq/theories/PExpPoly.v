(** Real-number error bounds for the exponential's polynomial: expp y times 2^y stays close to 1 on [-1, 1]. *)
From Coq Require Import Reals ZArith List Lra Lia Psatz.
From Flocq Require Import Core.Raux.
From Verif Require Import PPoly PEstPoly.
Import ListNotations.
Local Open Scope R_scope.

(** ** ln 2 *)
(** 14! times the Taylor polynomial of degree 14 of exp *)
Definition tx : list Z := [87178291200; 87178291200; 43589145600; 14529715200; 3632428800; 726485760; 121080960; 17297280; 2162160; 240240; 24024; 2184; 182; 14; 1]%Z.
Lemma tx_der x : peval (pder tx) x = peval tx x - x ^ 14.
Proof. unfold tx. cbn [pder pder_from]. cbn [peval]. rewrite !mult_IZR, !plus_IZR. ring. Qed.
Lemma exp_opp_der x : derivable_pt_lim (fun y => exp (- y)) x (- exp (- x)).
Proof.
  replace (- exp (- x)) with (exp (- x) * -1) by ring. apply (derivable_pt_lim_comp Ropp exp); [|apply derivable_pt_lim_exp].
  apply (derivable_pt_lim_opp id x 1), derivable_pt_lim_id.
Qed.
Lemma tx_der2 x : derivable_pt_lim (fun y => exp (- y) * peval tx y) x (- (exp (- x) * x ^ 14)).
Proof.
  replace (- (exp (- x) * x ^ 14)) with (- exp (- x) * peval tx x + exp (- x) * peval (pder tx) x) by (rewrite tx_der; ring).
  apply (derivable_pt_lim_mult (fun y => exp (- y)) (fun y => peval tx y)); [apply exp_opp_der|apply pder_ok].
Qed.
Lemma derivable_cont0 (f : R -> R) x l : derivable_pt_lim f x l -> continuity_pt f x.
Proof. intros D. apply derivable_continuous_pt. exists l. exact D. Qed.
Lemma mvt_ex (f df : R -> R) a b : a < b -> (forall x, derivable_pt_lim f x (df x)) -> exists c, a < c < b /\ f b - f a = df c * (b - a).
Proof.
  intros L D. assert (pr1 : forall c, a < c < b -> derivable_pt f c) by (intros c Hc; exists (df c); apply D).
  assert (pr2 : forall c, a < c < b -> derivable_pt id c) by (intros c _; apply derivable_pt_id).
  destruct (MVT f id a b pr1 pr2 L) as (c & P & E).
  { intros c _. eapply derivable_cont0, D. }
  { intros c _. apply derivable_continuous_pt, derivable_pt_id. }
  exists c. split; [exact P|]. assert (E1 : derive_pt f c (pr1 c P) = df c) by (apply derive_pt_eq_0, D).
  assert (E2 : derive_pt id c (pr2 c P) = 1) by (apply derive_pt_eq_0, derivable_pt_lim_id).
  rewrite E1, E2, Rmult_1_r in E. unfold id in E. lra.
Qed.
Lemma exp_taylor x : 0 < x < 1 -> peval tx x / 87178291200 <= exp x /\ exp x * (1 - x ^ 15 / 87178291200) <= peval tx x / 87178291200.
Proof.
  intros Hx. destruct (mvt_ex (fun y => exp (- y) * peval tx y) (fun y => - (exp (- y) * y ^ 14)) 0 x (proj1 Hx) tx_der2) as (c & Hc & E).
  cbv beta in E. replace (peval tx 0) with 87178291200 in E by (unfold tx; cbn [peval]; ring). rewrite Ropp_0, exp_0 in E.
  assert (C1 : 0 <= c ^ 14 <= x ^ 14) by (split; [apply pow_le; lra|apply pow_incr; lra]).
  assert (C2 : 0 < exp (- c) <= 1) by (split; [apply exp_pos|rewrite <- exp_0; left; apply exp_increasing; lra]).
  assert (X : exp x * exp (- x) = 1) by (rewrite <- exp_plus, Rplus_opp_r; apply exp_0).
  assert (P : 0 < exp x) by apply exp_pos.
  assert (B : 0 <= exp (- c) * c ^ 14 * (x - 0) <= x ^ 15).
  { replace (x ^ 15) with (x ^ 14 * x) by ring. split; [apply Rmult_le_pos; [apply Rmult_le_pos|]; lra|].
    rewrite Rminus_0_r. apply Rmult_le_compat_r; [lra|]. nra. }
  set (p := peval tx x) in *. assert (Q : p = exp x * (87178291200 - exp (- c) * c ^ 14 * (x - 0))).
  { replace p with (exp x * exp (- x) * p) by (rewrite X; ring). rewrite !Rmult_assoc. f_equal. lra. }
  rewrite Q. set (b := exp (- c) * c ^ 14 * (x - 0)) in *. clearbody b. split.
  - apply (Rmult_le_reg_r 87178291200); [lra|]. unfold Rdiv. rewrite Rmult_assoc, Rinv_l, Rmult_1_r by lra. nra.
  - apply (Rmult_le_reg_r 87178291200); [lra|]. unfold Rdiv at 2. rewrite (Rmult_assoc (exp x * _)), Rinv_l, Rmult_1_r by lra.
    unfold Rdiv. rewrite Rmult_minus_distr_l. rewrite Rmult_minus_distr_r. rewrite !Rmult_assoc, (Rmult_comm (/ _)), Rinv_r by lra. nra.
Qed.
Definition L2 : R := 6931471805 / 10000000000.
Lemma ln2_bounds : L2 <= ln 2 <= L2 + / 10000000000.
Proof.
  assert (A : exp L2 <= 2).
  { assert (H : 0 < L2 < 1) by (unfold L2; lra). destruct (exp_taylor L2 H) as [_ K].
    assert (T : peval tx L2 / 87178291200 <= 2 - 11 / 100000000000) by (unfold tx, L2; cbn [peval]; lra).
    assert (U : L2 ^ 15 / 87178291200 <= / 10000000000000).
    { assert (L2 ^ 15 <= 5 / 1000); [|lra]. unfold L2. lra. }
    pose proof (exp_pos L2). pose proof exp_le_3. nra. }
  assert (B : 2 <= exp (L2 + / 10000000000)).
  { assert (H : 0 < L2 + / 10000000000 < 1) by (unfold L2; lra). destruct (exp_taylor _ H) as [K _].
    eapply Rle_trans; [|exact K]. unfold tx, L2. cbn [peval]. lra. }
  split.
  - rewrite <- (ln_exp L2). destruct A as [A|A]; [left; apply ln_increasing; [apply exp_pos|exact A]|right; rewrite A; reflexivity].
  - rewrite <- (ln_exp (L2 + _)). destruct B as [B|B]; [left; apply ln_increasing; [lra|exact B]|right; rewrite <- B; reflexivity].
Qed.

(** ** the polynomial *)
Definition expp (y : R) : R :=
  1 + y * (-1453635 / 2097152 + y * (16121325 / 67108864 + y * (-7449573 / 134217728 + y * (2581269 / 268435456
    + y * (-2852373 / 2147483648 + y * (10135511 / 68719476736 + y * (-11944545 / 1099511627776))))))).
(** 2^40 expp *)
Definition exq : list Z := [1099511627776; -762123386880; 264131788800; -61026902016; 10572877824; -1460414976; 162168176; -11944545]%Z.
(** 10^10 2^40 (expp' + L2 expp) *)
Definition exd : list Z := [-21601001144320; -992089826918400; 14986391414784000; -91137710401658880; 264855734765752320; -392734669743751680; 287945989612277680; -82793276891053725]%Z.
Lemma expp_q y : expp y = peval exq y / 1099511627776.
Proof. unfold expp, exq. cbn [peval]. field. Qed.
Definition exppd (y : R) : R := peval (pder exq) y / 1099511627776.
Lemma exd_ok y : exppd y + L2 * expp y = peval exd y / 10995116277760000000000.
Proof. rewrite expp_q. unfold exppd, exq, exd, L2. cbn [pder pder_from]. cbn [peval]. rewrite !mult_IZR, !plus_IZR. field. Qed.
Lemma expp_der y : derivable_pt_lim expp y (exppd y).
Proof.
  intros e He. destruct (derivable_pt_lim_scal (fun y => peval exq y) (/ 1099511627776) y _ (pder_ok exq y) e He) as [d Hd].
  exists d. intros h H1 H2. specialize (Hd h H1 H2). unfold mult_real_fct in Hd. rewrite !expp_q. unfold exppd, Rdiv in *.
  rewrite !(Rmult_comm _ (/ 1099511627776)). exact Hd.
Qed.
Definition ex2 (y : R) : R := exp (y * ln 2).
Lemma ex2_pos y : 0 < ex2 y. Proof. apply exp_pos. Qed.
Lemma ex2_der y : derivable_pt_lim ex2 y (ln 2 * ex2 y).
Proof.
  rewrite Rmult_comm. apply (derivable_pt_lim_comp (fun y => y * ln 2) exp); [|apply derivable_pt_lim_exp].
  pose proof (derivable_pt_lim_mult id (fun _ => ln 2) y 1 0 (derivable_pt_lim_id y) (derivable_pt_lim_const (ln 2) y)) as D.
  cbv beta in D. replace (1 * ln 2 + id y * 0) with (ln 2) in D by ring. exact D.
Qed.
Lemma prod_der y : derivable_pt_lim (fun y => expp y * ex2 y) y (ex2 y * (exppd y + ln 2 * expp y)).
Proof.
  replace (ex2 y * (exppd y + ln 2 * expp y)) with (exppd y * ex2 y + expp y * (ln 2 * ex2 y)) by ring.
  apply (derivable_pt_lim_mult expp ex2); [apply expp_der|apply ex2_der].
Qed.
Lemma ex2_le x y : x <= y -> ex2 x <= ex2 y.
Proof.
  intros H. pose proof ln2_bounds as L. unfold L2 in L. destruct H as [H|H]; [left; apply exp_increasing; nra|right; rewrite H; reflexivity].
Qed.
Lemma ex2_0 : ex2 0 = 1. Proof. unfold ex2. rewrite Rmult_0_l. apply exp_0. Qed.
Lemma ex2_1 : ex2 1 = 2. Proof. unfold ex2. rewrite Rmult_1_l. apply exp_ln. lra. Qed.
Lemma ex2_plus x y : ex2 (x + y) = ex2 x * ex2 y. Proof. unfold ex2. rewrite Rmult_plus_distr_r. apply exp_plus. Qed.
(** 1.06e-8 on [0, 1] and 1.04e-4 on [-1, 0], scaled *)
Lemma chk_exd1 : pbounded exd 1000 0 5 101 (106 * 1099511627776) 1 = true. Proof. vm_compute. reflexivity. Qed.
Lemma chk_exd2 : pbounded exd 1000 (-1000) 1 501 (1040000 * 1099511627776) 1 = true. Proof. vm_compute. reflexivity. Qed.
Lemma chk_exq : pbounded exq 100 (-100) 1 101 (21 * 1099511627776) 10 = true. Proof. vm_compute. reflexivity. Qed.
Definition kap : list Z := [300000000; 0; 0; 0; 52500000000]%Z.
Lemma chk_kap1 : pabove_at (padd (pmul kap exq) (pscale (-100011) exd)) 1000 (-1000) 5 101 300000000000000000 = true. Proof. vm_compute. reflexivity. Qed.
Lemma chk_kap2 : pabove_at (padd (pmul kap exq) (pscale 100011 exd)) 1000 (-1000) 5 101 300000000000000000 = true. Proof. vm_compute. reflexivity. Qed.
Lemma chk_exq0 : pabove_at exq 100 (-100) 1 101 500000000000 = true. Proof. vm_compute. reflexivity. Qed.
Lemma expp_abs y : -1 <= y <= 1 -> 45 / 100 <= expp y <= 21 / 10.
Proof.
  intros Hy. rewrite expp_q. split.
  - assert (H : IZR 500000000000 <= peval exq y) by (apply (pabove_at_ok _ _ _ _ _ _ _ chk_exq0); change (-100 + 2 * 1 * Z.of_nat 101)%Z with 102%Z; lra). lra.
  - assert (H : Rabs (peval exq y) <= IZR (21 * 1099511627776) / 10) by (apply (pbounded_ok _ _ _ _ _ _ _ _ chk_exq); change (-100 + 2 * 1 * Z.of_nat 101)%Z with 102%Z; lra).
    apply Rabs_le_inv in H. rewrite mult_IZR in H. lra.
Qed.
Lemma dbound y B : -1 <= y <= 1 -> Rabs (peval exd y) <= B * 10995116277760000000000 -> Rabs (exppd y + ln 2 * expp y) <= B + 21 / 100000000000.
Proof.
  intros Hy H. pose proof ln2_bounds as L. pose proof (expp_abs y Hy) as P.
  replace (exppd y + ln 2 * expp y) with (exppd y + L2 * expp y + (ln 2 - L2) * expp y) by ring. rewrite exd_ok.
  eapply Rle_trans; [apply Rabs_triang|]. apply Rplus_le_compat.
  - unfold Rdiv. rewrite Rabs_mult, (Rabs_pos_eq (/ _)) by lra. lra.
  - rewrite Rabs_mult, !Rabs_pos_eq by lra. nra.
Qed.
Lemma expp_0 : expp 0 * ex2 0 = 1. Proof. rewrite ex2_0. unfold expp. ring. Qed.
Lemma expp_pos y : 0 <= y <= 1 -> Rabs (expp y * ex2 y - 1) <= 22 / 1000000000.
Proof.
  intros Hy. rewrite <- expp_0.
  assert (V : Rabs (expp y * ex2 y - expp 0 * ex2 0) <= 22 / 1000000000 * (y - 0)); [|nra].
  apply (vary_le (fun y => expp y * ex2 y) (fun y => ex2 y * (exppd y + ln 2 * expp y))); try lra.
  - intros x _. apply prod_der.
  - intros x _. eapply derivable_cont0, prod_der.
  - intros x Hx. rewrite Rabs_mult, (Rabs_pos_eq (ex2 x)) by (left; apply ex2_pos).
    assert (E : ex2 x <= 2) by (rewrite <- ex2_1; apply ex2_le; lra). pose proof (ex2_pos x).
    assert (D : Rabs (exppd x + ln 2 * expp x) <= 106 / 10000000000 + 21 / 100000000000).
    { apply dbound; [lra|]. eapply Rle_trans; [apply (pbounded_ok _ _ _ _ _ _ _ _ chk_exd1); change (0 + 2 * 5 * Z.of_nat 101)%Z with 1010%Z; lra|]. rewrite mult_IZR. lra. }
    pose proof (Rabs_pos (exppd x + ln 2 * expp x)). nra.
Qed.
Lemma expp_crude y : -1 <= y <= 0 -> Rabs (expp y * ex2 y - 1) <= 105 / 1000000.
Proof.
  intros Hy. rewrite Rabs_minus_sym, <- expp_0.
  assert (V : Rabs (expp 0 * ex2 0 - expp y * ex2 y) <= 105 / 1000000 * (0 - y)); [|nra].
  apply (vary_le (fun y => expp y * ex2 y) (fun y => ex2 y * (exppd y + ln 2 * expp y))); try lra.
  - intros x _. apply prod_der.
  - intros x _. eapply derivable_cont0, prod_der.
  - intros x Hx. rewrite Rabs_mult, (Rabs_pos_eq (ex2 x)) by (left; apply ex2_pos).
    assert (E : ex2 x <= 1) by (rewrite <- ex2_0; apply ex2_le; lra). pose proof (ex2_pos x).
    assert (D : Rabs (exppd x + ln 2 * expp x) <= 104 / 1000000 + 21 / 100000000000).
    { apply dbound; [lra|]. eapply Rle_trans; [apply (pbounded_ok _ _ _ _ _ _ _ _ chk_exd2); change (-1000 + 2 * 1 * Z.of_nat 501)%Z with 2%Z; lra|]. rewrite mult_IZR. lra. }
    pose proof (Rabs_pos (exppd x + ln 2 * expp x)). nra.
Qed.
Lemma prod_small y : -1 <= y <= 0 -> Rabs (ex2 y * (exppd y + ln 2 * expp y)) <= (525 * y ^ 4 + 3) / 10000000.
Proof.
  intros Hy. rewrite Rabs_mult, (Rabs_pos_eq (ex2 y)) by (left; apply ex2_pos). pose proof (expp_crude y Hy) as C. apply Rabs_le_inv in C.
  pose proof (expp_abs y ltac:(lra)) as P. pose proof (ex2_pos y) as E.
  assert (K : peval kap y = 100000000 * (525 * y ^ 4 + 3)) by (unfold kap; cbn [peval]; ring).
  assert (W : IZR (-1000) <= 1000 * y < IZR (-1000 + 2 * 5 * Z.of_nat 101)) by (change (-1000 + 2 * 5 * Z.of_nat 101)%Z with 10%Z; lra).
  pose proof (pabove_at_ok _ _ _ _ _ _ y chk_kap1 W) as K1. pose proof (pabove_at_ok _ _ _ _ _ _ y chk_kap2 W) as K2.
  rewrite peval_add, peval_mul, peval_scale, K in K1, K2.
  set (q := (525 * y ^ 4 + 3) / 10000000). assert (Q : 525 * y ^ 4 + 3 = q * 10000000) by (unfold q; field). rewrite Q in *.
  assert (D : Rabs (exppd y + ln 2 * expp y) <= q * expp y / (100011 / 100000)).
  { replace (q * expp y / (100011 / 100000)) with ((q * expp y / (100011 / 100000) - 21 / 100000000000) + 21 / 100000000000) by ring.
    apply dbound; [lra|]. rewrite expp_q. apply Rabs_le. lra. }
  assert (q0 : 0 <= q) by (unfold q; pose proof (pow2_ge_0 (y * y)); replace (y ^ 4) with ((y * y) ^ 2) by ring; lra).
  apply (Rle_trans _ (ex2 y * (q * expp y / (100011 / 100000)))); [apply Rmult_le_compat_l; lra|].
  replace (ex2 y * (q * expp y / (100011 / 100000))) with (q * (expp y * ex2 y) / (100011 / 100000)) by field.
  apply (Rmult_le_reg_r (100011 / 100000)); [lra|]. unfold Rdiv at 1. rewrite Rmult_assoc, Rinv_l by lra. nra.
Qed.
Lemma kap_der y : derivable_pt_lim (fun y => peval [0; 3; 0; 0; 0; 105]%Z y) y (525 * y ^ 4 + 3).
Proof. replace (525 * y ^ 4 + 3) with (peval (pder [0; 3; 0; 0; 0; 105]%Z) y) by (cbn [pder pder_from]; cbn [peval]; rewrite !mult_IZR, !plus_IZR; ring). apply pder_ok. Qed.
Lemma expp_neg y : -1 <= y <= 0 -> Rabs (expp y * ex2 y - 1) <= 108 / 10000000.
Proof.
  intros Hy. rewrite Rabs_minus_sym, <- expp_0. destruct (Req_dec y 0) as [->|N]; [rewrite Rminus_diag_eq, Rabs_R0 by reflexivity; lra|].
  set (f := fun y => expp y * ex2 y). set (g := fun y => peval [0; 3; 0; 0; 0; 105]%Z y).
  assert (pr1 : forall c, y < c < 0 -> derivable_pt f c) by (intros c _; eexists; apply prod_der).
  assert (pr2 : forall c, y < c < 0 -> derivable_pt g c) by (intros c _; eexists; apply kap_der).
  destruct (MVT f g y 0 pr1 pr2 ltac:(lra)) as (c & P & E).
  { intros c _. eapply derivable_cont0, prod_der. }
  { intros c _. eapply derivable_cont0, kap_der. }
  assert (E1 : derive_pt f c (pr1 c P) = ex2 c * (exppd c + ln 2 * expp c)) by (apply derive_pt_eq_0, prod_der).
  assert (E2 : derive_pt g c (pr2 c P) = 525 * c ^ 4 + 3) by (apply derive_pt_eq_0, kap_der).
  rewrite E1, E2 in E. pose proof (prod_small c ltac:(lra)) as S. fold (f 0) (f y).
  assert (q0 : 3 <= 525 * c ^ 4 + 3) by (pose proof (pow2_ge_0 (c * c)); replace (c ^ 4) with ((c * c) ^ 2) by ring; lra).
  assert (G : 0 <= g 0 - g y <= 108).
  { unfold g. cbn [peval]. pose proof (pow2_ge_0 (y * y)) as Y0. assert (Y1 : 0 <= y * y <= 1) by nra. assert (Y2 : (y * y) ^ 2 <= 1) by nra.
    replace ((y * y) ^ 2) with (y ^ 4) in Y0, Y2 by ring. clear Y1.
    replace (0 + 0 * _ - _) with (- y * (3 + 105 * y ^ 4)) by ring. split; [apply Rmult_le_pos; lra|nra]. }
  set (q := 525 * c ^ 4 + 3) in *. apply (f_equal Rabs) in E. rewrite !Rabs_mult, (Rabs_pos_eq (g 0 - g y)), (Rabs_pos_eq q) in E by lra.
  rewrite <- Rabs_mult in E. apply (Rmult_le_reg_r q); [lra|]. rewrite <- E.
  apply (Rle_trans _ ((g 0 - g y) * (q / 10000000))); [apply Rmult_le_compat_l; lra|]. nra.
Qed.
