(** Real-number error bounds for the library's arc tangent and arc cosine polynomials: the derivative of the error is
    bounded piecewise by a polynomial and integrated. *)
From Coq Require Import Reals ZArith List Lra Lia Psatz Ratan.
From Flocq Require Import Core.Raux.
From Coquelicot Require Import Coquelicot.
From Verif Require Import PPoly PTrigPoly.
Import ListNotations.
Local Open Scope R_scope.

Definition atanp (x : R) : R :=
  let z := x * x in
  x * (1 + z * (-2796187 / 8388608 + z * (13417445 / 67108864 + z * (-9535431 / 67108864 + z * (14302595 / 134217728
    + z * (-2526301 / 33554432 + z * (5759231 / 134217728 + z * (-4339457 / 268435456 + z * (6155173 / 2147483648))))))))).
Definition arcp (x : R) : R :=
  6588397 / 4194304 + x * (-7200741 / 33554432 + x * (5971279 / 67108864 + x * (-6734281 / 134217728 + x * (2073119 / 67108864
    + x * (-4587059 / 268435456 + x * (14323909 / 2147483648 + x * (-2711179 / 2147483648))))))).

Definition M31 : Z := 2147483648.
(** 2^31 atanp *)
Definition atq : list Z :=
  [0; 2147483648; 0; -715823872; 0; 429358240; 0; -305133792; 0; 228841520; 0; -161683264; 0; 92147696; 0; -34715656; 0; 6155173]%Z.
(** 2^31 (atanp' (1 + x^2) - 1) *)
Definition atr : list Z := [0; 0; 12032; 0; -680416; 0; 10854656; 0; -76362864; 0; 281057776; 0; -580595856; 0; 677185208; 0; -416096899; 0; 104637941]%Z.
Lemma atanp_q x : atanp x = peval atq x / IZR M31.
Proof. unfold atanp, atq, M31. cbv zeta. cbn [peval]. field. Qed.
Lemma atr_ok : padd (pmul (pder atq) [1; 0; 1]%Z) [- M31]%Z = atr.
Proof. vm_compute. reflexivity. Qed.
Lemma atanp_der x : derivable_pt_lim atanp x (peval (pder atq) x / IZR M31).
Proof.
  intros e He. destruct (derivable_pt_lim_scal (fun y => peval atq y) (/ IZR M31) x _ (pder_ok atq x) e He) as [d Hd].
  exists d. intros h H1 H2. specialize (Hd h H1 H2). unfold mult_real_fct in Hd. rewrite !atanp_q. unfold Rdiv in *.
  rewrite !(Rmult_comm _ (/ IZR M31)). exact Hd.
Qed.
Lemma scaled_der (g : R -> R) k c u l : derivable_pt_lim g (u / c) l -> c <> 0 ->
  derivable_pt_lim (fun u => k * g (u / c)) u (k * (l / c)).
Proof.
  intros D Hc. apply is_derive_Reals. apply is_derive_Reals in D.
  evar_last; [apply is_derive_scal, (is_derive_comp g (fun u => u / c)); [exact D|]|].
  - instantiate (1 := / c). auto_derive; [exact I|]. field. exact Hc.
  - unfold scal; cbn. unfold mult; cbn. field. exact Hc.
Qed.
Lemma derivable_cont (f : R -> R) x l : derivable_pt_lim f x l -> continuity_pt f x.
Proof. intros D. apply derivable_continuous_pt. exists l. exact D. Qed.
Definition atan_err : R := 39 / 100000000.
Lemma grid_atr x : peval (fst (pgrid 128 atr)) (128 * x) = IZR (snd (pgrid 128 atr)) * peval atr x.
Proof. pose proof (pgrid_ok 128 atr x) as H. destruct (pgrid 128 atr). exact H. Qed.
Lemma snd_atr : snd (pgrid 128 atr) = (2 ^ 126)%Z. Proof. vm_compute. reflexivity. Qed.
Lemma pint_atr : (pint (fst (pgrid 128 atr)) 0 1 64 <= 2 ^ 133 * M31 * 39 / 100000000)%Z.
Proof. vm_compute. discriminate. Qed.
Lemma atan_err_D x : derivable_pt_lim (fun y => atanp y - atan y) x (peval (pder atq) x / IZR M31 - / (1 + x * x)).
Proof. apply derivable_pt_lim_minus; [apply atanp_der|].
  replace (1 + x * x) with (1 + x ^ 2) by ring. apply derivable_pt_lim_atan.
Qed.
Lemma atan_err_D_le x : Rabs (peval (pder atq) x / IZR M31 - / (1 + x * x)) * IZR M31 <= Rabs (peval atr x).
Proof.
  assert (M : IZR M31 = 2147483648) by reflexivity.
  assert (E : peval atr x = peval (pder atq) x * (1 + x * x) - IZR M31).
  { rewrite <- atr_ok, peval_add, peval_mul. cbn [peval]. rewrite opp_IZR. ring. }
  rewrite E. set (d := peval (pder atq) x). rewrite M.
  assert (P : 1 <= 1 + x * x) by nra.
  replace (d / 2147483648 - / (1 + x * x)) with ((d * (1 + x * x) - 2147483648) * / (2147483648 * (1 + x * x))) by (field; nra).
  rewrite Rabs_mult. assert (I : 0 < / (2147483648 * (1 + x * x)) <= / 2147483648).
  { split; [apply Rinv_0_lt_compat; nra|apply Rinv_le_contravar; nra]. }
  rewrite (Rabs_pos_eq (/ _)) by lra. pose proof (Rabs_pos (d * (1 + x * x) - 2147483648)). nra.
Qed.
Lemma atan_pos x : 0 <= x <= 1 -> Rabs (atanp x - atan x) <= atan_err.
Proof.
  intros Hx. set (K := IZR (2 ^ 133 * M31)).
  assert (K0 : 0 < K) by (apply IZR_lt; reflexivity).
  set (g := fun y => atanp y - atan y). set (dg := fun y => peval (pder atq) y / IZR M31 - / (1 + y * y)).
  pose proof (pint_ok (fst (pgrid 128 atr)) 64 0 1 (fun u => K * g (u / 128)) (fun u => K * (dg (u / 128) / 128)) ltac:(lia)) as P.
  change (0 + 2 * 1 * Z.of_nat 64)%Z with 128%Z in P.
  assert (D : forall u, derivable_pt_lim (fun u => K * g (u / 128)) u (K * (dg (u / 128) / 128))).
  { intros u. apply scaled_der; [apply atan_err_D|lra]. }
  specialize (P (fun u _ => D u) (fun u _ => derivable_cont _ _ _ (D u))).
  assert (B : forall u, 0 < u < 128 -> Rabs (K * (dg (u / 128) / 128)) <= Rabs (peval (fst (pgrid 128 atr)) u)).
  { intros u _. replace u with (128 * (u / 128)) at 2 by field. rewrite grid_atr, snd_atr.
    pose proof (atan_err_D_le (u / 128)) as L. fold (dg (u / 128)) in L.
    replace (K * (dg (u / 128) / 128)) with (IZR (2 ^ 126) * (dg (u / 128) * IZR M31)).
    - rewrite !Rabs_mult. rewrite (Rabs_pos_eq (IZR M31)) by (apply IZR_le; discriminate).
      apply Rmult_le_compat_l; [apply Rabs_pos|exact L].
    - replace K with (128 * IZR (2 ^ 126) * IZR M31) by (unfold K; rewrite <- !mult_IZR; reflexivity). field. }
  specialize (P B (128 * x) ltac:(lra)). cbv beta in P.
  replace (128 * x / 128) with x in P by field. replace (0 / 128) with 0 in P by field.
  replace (g 0) with 0 in P by (unfold g, atanp; rewrite atan_0; cbv zeta; ring).
  replace (K * g x - K * 0) with (K * g x) in P by ring. rewrite Rabs_mult, (Rabs_pos_eq K) in P by lra.
  pose proof (IZR_le _ _ pint_atr) as Q.
  assert (Q' : IZR (2 ^ 133 * M31 * 39 / 100000000) <= K * atan_err).
  { replace (K * atan_err) with (IZR (2 ^ 133 * M31 * 39) / 100000000) by (unfold K, atan_err; rewrite !mult_IZR; field).
    apply (Rmult_le_reg_r 100000000); [lra|]. replace (IZR (2 ^ 133 * M31 * 39) / 100000000 * 100000000) with (IZR (2 ^ 133 * M31 * 39)) by field.
    rewrite <- mult_IZR. apply IZR_le. rewrite Z.mul_comm. apply Z.mul_div_le. reflexivity. }
  apply (Rmult_le_reg_l K); [exact K0|]. fold (g x). lra.
Qed.
Lemma atanp_odd x : atanp (- x) = - atanp x.
Proof. unfold atanp. cbv zeta. replace (- x * - x) with (x * x) by ring. ring. Qed.
Lemma atanp_ok x : Rabs x <= 1 -> Rabs (atanp x - atan x) <= atan_err.
Proof.
  intros H. apply Rabs_le_inv in H. destruct (Rle_dec 0 x) as [P|P]; [apply atan_pos; lra|].
  rewrite <- (Ropp_involutive x), atanp_odd, atan_opp.
  replace (- atanp (- x) - - atan (- x)) with (- (atanp (- x) - atan (- x))) by ring. rewrite Rabs_Ropp. apply atan_pos. lra.
Qed.

(** ** arc cosine, in u with x = 1 - u^2 *)
(** 2^31 u arcp (1 - u^2), its derivative a, and a^2 (2 - u^2) - 4 * 2^62 *)
Definition acu : list Z := [0; 3037000338; 0; 253088983; 0; 56833444; 0; 17767069; 0; 2824818; 0; 7687777; 0; -4654344; 0; 2711179]%Z.
Definition aca : list Z := [3037000338; 0; 759266949; 0; 284167220; 0; 124369483; 0; 25423362; 0; 84565547; 0; -60506472; 0; 40667685]%Z.
Definition ace : list Z := [-1967685323128; 0; 204869968800804; 0; -6751589048838882; 0; 71357573951578815; 0; -338874274668282376; 0; 821849971523702890; 0; -1041308810318505962; 0; 628223383550347449; 0; -111422830173473784; 0; -24323620946174944; 0; 16018417820648906; 0; -30521828270978047; 0; 29244113665294776; 0; -20381835783413454; 0; 8229037494033090; 0; -1653860603259225]%Z.
(** 10 a - 17 * 2^31 *)
Definition ac10 : list Z := [-6137218636; 0; 7592669490; 0; 2841672200; 0; 1243694830; 0; 254233620; 0; 845655470; 0; -605064720; 0; 406676850]%Z.
Lemma acu_ok u : u * arcp (1 - u * u) = peval acu u / IZR M31.
Proof. unfold arcp, acu, M31. cbn [peval]. field. Qed.
Lemma aca_ok : pder acu = aca. Proof. vm_compute. reflexivity. Qed.
Lemma ace_ok : padd (pmul (pmul aca aca) [2; 0; -1]%Z) [- (4 * M31 * M31)]%Z = ace. Proof. vm_compute. reflexivity. Qed.
Lemma ac10_ok : padd (pscale 10 aca) [- (17 * M31)]%Z = ac10. Proof. vm_compute. reflexivity. Qed.
Lemma ac10_bnd : pbounded ac10 1000 0 63 8 (4 * M31) 1 = true. Proof. vm_compute. reflexivity. Qed.
Lemma aca_pos u : 0 <= u <= 1 -> 13 / 10 <= peval aca u / IZR M31.
Proof.
  intros H. pose proof (pbounded_ok _ _ _ _ _ _ _ u ac10_bnd) as B. change (0 + 2 * 63 * Z.of_nat 8)%Z with 1008%Z in B.
  specialize (B ltac:(lra)). rewrite <- ac10_ok, peval_add, peval_scale in B. cbn [peval] in B.
  rewrite opp_IZR, !mult_IZR in B. change (IZR M31) with 2147483648 in *. apply Rabs_le_inv in B. lra.
Qed.
Lemma acu_der u : derivable_pt_lim (fun u => u * arcp (1 - u * u)) u (peval aca u / IZR M31).
Proof.
  intros e He. rewrite <- aca_ok.
  destruct (derivable_pt_lim_scal (fun y => peval acu y) (/ IZR M31) u _ (pder_ok acu u) e He) as [d Hd].
  exists d. intros h H1 H2. specialize (Hd h H1 H2). unfold mult_real_fct in Hd. rewrite !acu_ok. unfold Rdiv in *.
  rewrite !(Rmult_comm _ (/ IZR M31)). exact Hd.
Qed.
(** acos (1 - u^2) in a form that is smooth at 0 *)
Definition acosg (u : R) : R := 2 * atan (u / sqrt (2 - u * u)).
Lemma acosg_der u : -1 <= u <= 1 -> derivable_pt_lim acosg u (2 / sqrt (2 - u * u)).
Proof.
  intros H. assert (0 < 2 - u * u) by nra. assert (0 < sqrt (2 - u * u)) by (apply sqrt_lt_R0; assumption).
  apply is_derive_Reals. unfold acosg. auto_derive.
  - unfold Rminus in *. repeat split; try apply Rgt_not_eq; try lra.
  - unfold Rminus in *. pose proof (sqrt_sqrt (2 + - (u * u)) ltac:(lra)) as S.
    set (s := sqrt (2 + - (u * u))) in *. clearbody s.
    replace (1 + u * / s * (u * / s * 1)) with ((s * s + u * u) * (/ s * / s)) by (field; lra).
    replace (1 * / s + u * (- (- (1 * u + u * 1) * / (2 * s)) * / (s * s))) with ((s * s + u * u) * (/ s * / s * / s)) by (field; lra).
    replace (s * s + u * u) with 2 by lra. field. lra.
Qed.
Lemma acosg_ok u : 0 <= u <= 1 -> acosg u = acos (1 - u * u).
Proof.
  intros H. assert (P : 0 < 2 - u * u) by nra. assert (Q : 0 < sqrt (2 - u * u)) by (apply sqrt_lt_R0; assumption).
  set (t := u / sqrt (2 - u * u)).
  assert (T0 : 0 <= t) by (apply Rle_mult_inv_pos; lra).
  assert (T2 : t * t = u * u / (2 - u * u)).
  { unfold t. pose proof (sqrt_sqrt (2 - u * u) ltac:(lra)) as S. set (s := sqrt (2 - u * u)) in *. clearbody s. rewrite <- S. field. lra. }
  assert (C : cos (2 * atan t) = 1 - u * u).
  { rewrite cos_2a_cos, cos_atan. unfold Rsqr. assert (0 < 1 + t * t) by nra.
    assert (S : sqrt (1 + t * t) * sqrt (1 + t * t) = 1 + t * t) by (apply sqrt_sqrt; lra).
    assert (0 < sqrt (1 + t * t)) by (apply sqrt_lt_R0; assumption).
    replace (2 * (1 / sqrt (1 + t * t)) * (1 / sqrt (1 + t * t)) - 1) with (2 * / (sqrt (1 + t * t) * sqrt (1 + t * t)) - 1) by (field; lra).
    rewrite S, T2. field. lra. }
  rewrite <- C, acos_cos; [reflexivity|].
  pose proof (atan_bound t). split; [|lra]. destruct (Req_dec t 0) as [E|E]; [rewrite E, atan_0; lra|].
  pose proof (atan_increasing 0 t ltac:(lra)). rewrite atan_0 in *. lra.
Qed.
Definition acos_err : R := 53 / 100000000.
Lemma ac_D_le u : 0 <= u <= 1 -> Rabs (peval aca u / IZR M31 - 2 / sqrt (2 - u * u)) * (3 * IZR M31 * IZR M31) <= Rabs (peval ace u).
Proof.
  intros H. pose proof (aca_pos u H) as A. assert (P : 0 < 2 - u * u) by nra.
  assert (S1 : 1 <= sqrt (2 - u * u)) by (rewrite <- sqrt_1 at 1; apply sqrt_le_1; nra).
  pose proof (sqrt_sqrt (2 - u * u) ltac:(lra)) as S. set (s := sqrt (2 - u * u)) in *. clearbody s.
  assert (E : peval ace u = peval aca u * peval aca u * (s * s) - 4 * IZR M31 * IZR M31).
  { rewrite <- ace_ok, peval_add, !peval_mul, S. cbn [peval]. rewrite opp_IZR, !mult_IZR. ring. }
  rewrite E. set (a := peval aca u / IZR M31) in *.
  assert (M : IZR M31 <> 0) by (apply IZR_neq; discriminate).
  replace (peval aca u) with (a * IZR M31) by (unfold a; field; exact M). clearbody a.
  replace (a - 2 / s) with ((a * a * (s * s) - 4) * / (s * (a * s + 2))) by (field; nra).
  replace (a * IZR M31 * (a * IZR M31) * (s * s) - 4 * IZR M31 * IZR M31) with ((a * a * (s * s) - 4) * (IZR M31 * IZR M31)) by ring.
  rewrite !Rabs_mult. assert (M2 : 0 < IZR M31 * IZR M31) by (rewrite <- mult_IZR; apply IZR_lt; reflexivity).
  rewrite <- (Rabs_mult (IZR M31)), (Rabs_pos_eq (IZR M31 * IZR M31)) by lra.
  assert (D : 0 < / (s * (a * s + 2)) <= / 3).
  { assert (3 <= s * (a * s + 2)) by nra. split; [apply Rinv_0_lt_compat; lra|apply Rinv_le_contravar; lra]. }
  rewrite (Rabs_pos_eq (/ _)) by lra.
  set (w := Rabs (a * a * (s * s) - 4)). assert (0 <= w) by apply Rabs_pos. set (m := IZR M31 * IZR M31) in *.
  replace (w * / (s * (a * s + 2)) * (3 * IZR M31 * IZR M31)) with (w * m * (3 * / (s * (a * s + 2)))) by (unfold m; ring).
  assert (0 <= w * m) by nra. nra.
Qed.
Lemma grid_ace x : peval (fst (pgrid 128 ace)) (128 * x) = IZR (snd (pgrid 128 ace)) * peval ace x.
Proof. pose proof (pgrid_ok 128 ace x) as H. destruct (pgrid 128 ace). exact H. Qed.
Lemma snd_ace : snd (pgrid 128 ace) = (2 ^ 210)%Z. Proof. vm_compute. reflexivity. Qed.
Lemma pint_ace : (pint (fst (pgrid 128 ace)) 0 1 64 <= 2 ^ 217 * (3 * M31 * M31) * 53 / 100000000)%Z.
Proof. vm_compute. discriminate. Qed.
Lemma acosg_err u : 0 <= u <= 1 -> Rabs (u * arcp (1 - u * u) - acosg u) <= acos_err.
Proof.
  intros Hx. set (K := IZR (2 ^ 217 * (3 * M31 * M31))).
  assert (K0 : 0 < K) by (apply IZR_lt; reflexivity).
  set (g := fun u => u * arcp (1 - u * u) - acosg u). set (dg := fun u => peval aca u / IZR M31 - 2 / sqrt (2 - u * u)).
  pose proof (pint_ok (fst (pgrid 128 ace)) 64 0 1 (fun u => K * g (u / 128)) (fun u => K * (dg (u / 128) / 128)) ltac:(lia)) as P.
  change (0 + 2 * 1 * Z.of_nat 64)%Z with 128%Z in P.
  assert (D : forall u, 0 <= u <= 128 -> derivable_pt_lim (fun u => K * g (u / 128)) u (K * (dg (u / 128) / 128))).
  { intros v Hv. apply scaled_der; [|lra]. apply derivable_pt_lim_minus; [apply acu_der|apply acosg_der; lra]. }
  assert (B : forall u, 0 < u < 128 -> Rabs (K * (dg (u / 128) / 128)) <= Rabs (peval (fst (pgrid 128 ace)) u)).
  { intros v Hv. replace v with (128 * (v / 128)) at 2 by field. rewrite grid_ace, snd_ace.
    pose proof (ac_D_le (v / 128) ltac:(lra)) as L. fold (dg (v / 128)) in L.
    replace (K * (dg (v / 128) / 128)) with (IZR (2 ^ 210) * (dg (v / 128) * (3 * IZR M31 * IZR M31))).
    - rewrite (Rabs_mult (IZR (2 ^ 210))), (Rabs_mult (IZR (2 ^ 210))). apply Rmult_le_compat_l; [apply Rabs_pos|].
      rewrite Rabs_mult, (Rabs_pos_eq (3 * IZR M31 * IZR M31)); [exact L|]. rewrite <- !mult_IZR. apply IZR_le. discriminate.
    - replace K with (128 * IZR (2 ^ 210) * (3 * IZR M31 * IZR M31)) by (unfold K; rewrite <- !mult_IZR; reflexivity). field. }
  assert (DD : forall x, 0 < x < 128 -> derivable_pt_lim (fun u => K * g (u / 128)) x (K * (dg (x / 128) / 128))) by (intros; apply D; lra).
  assert (CC : forall x, 0 <= x <= 128 -> continuity_pt (fun u => K * g (u / 128)) x) by (intros; eapply derivable_cont, D; lra).
  specialize (P DD CC B (128 * u) ltac:(lra)). cbv beta in P.
  replace (128 * u / 128) with u in P by field. replace (0 / 128) with 0 in P by field.
  replace (g 0) with 0 in P by (unfold g, acosg, Rdiv; rewrite !Rmult_0_l, atan_0; ring).
  replace (K * g u - K * 0) with (K * g u) in P by ring. rewrite Rabs_mult, (Rabs_pos_eq K) in P by lra.
  pose proof (IZR_le _ _ pint_ace) as Q.
  assert (Q' : IZR (2 ^ 217 * (3 * M31 * M31) * 53 / 100000000) <= K * acos_err).
  { replace (K * acos_err) with (IZR (2 ^ 217 * (3 * M31 * M31) * 53) / 100000000) by (unfold K, acos_err; rewrite !mult_IZR; field).
    apply (Rmult_le_reg_r 100000000); [lra|].
    replace (IZR (2 ^ 217 * (3 * M31 * M31) * 53) / 100000000 * 100000000) with (IZR (2 ^ 217 * (3 * M31 * M31) * 53)) by field.
    rewrite <- mult_IZR. apply IZR_le. rewrite Z.mul_comm. apply Z.mul_div_le. reflexivity. }
  apply (Rmult_le_reg_l K); [exact K0|]. fold (g u). lra.
Qed.
Lemma arcp_ok x : 0 <= x <= 1 -> Rabs (arcp x * sqrt (1 - x) - acos x) <= acos_err.
Proof.
  intros H. set (u := sqrt (1 - x)). assert (S : u * u = 1 - x) by (apply sqrt_sqrt; lra).
  assert (U : 0 <= u <= 1) by (split; [apply sqrt_pos|apply (Rle_trans _ (sqrt 1)); [apply sqrt_le_1_alt; lra|rewrite sqrt_1; lra]]).
  pose proof (acosg_err u U) as A. rewrite acosg_ok in A by exact U. replace (1 - u * u) with x in A by lra.
  rewrite Rmult_comm. exact A.
Qed.
