(** C61: XMVectorSinH, XMVectorCosH and XMVectorTanH on binary32 lanes, every rounding counted, with and without fused multiply-add. *)
From Coq Require Import Reals ZArith Lra Lia.
From Flocq Require Import Core.
From Verif Require Import Base F32 Intrin MRound MExp SpecF32 SpecEst PRoundAll PRound PExpPoly PExp PHyp PF32.
Open Scope R_scope.

(** for arguments up to 89 the error of both is at most 2.6e-5 of the hyperbolic cosine: relative for CosH *)
Theorem C61_sinh_accuracy fma V k x : wordq V -> value (lane V k) = Fin x -> Rabs x <= 89 ->
  exists r, value (lane (XMVectorSinH_sse fma V) k) = Fin r /\ Rabs (r - sinh x) <= 26 / 1000000 * cosh x.
Proof. intros W H L. rewrite sinh_lane. apply sinh_acc; [apply wordq_lane, W|exact H|exact L]. Qed.
Theorem C61_cosh_accuracy fma V k x : wordq V -> value (lane V k) = Fin x -> Rabs x <= 89 ->
  exists r, value (lane (XMVectorCosH_sse fma V) k) = Fin r /\ rel_within (26 / 1000000) r (cosh x).
Proof.
  intros W H L. rewrite cosh_lane. destruct (cosh_acc fma _ x (wordq_lane V k W) H L) as (r & Vr & E). exists r. split; [exact Vr|].
  unfold rel_within. rewrite (Rabs_pos_eq (cosh x)); [exact E|]. destruct (cosh_bounds x L). lra.
Qed.
(** from 90 on the true values exceed the binary32 range and the results are the infinities of the right sign *)
Theorem C61_sinh_cosh_overflow fma V k s : wordq V -> (value (lane V k) = Inf s \/ exists x, value (lane V k) = Fin x /\ 90 <= (if s then - x else x)) ->
  value (lane (XMVectorSinH_sse fma V) k) = Inf s /\ value (lane (XMVectorCosH_sse fma V) k) = Inf false.
Proof. intros W H. rewrite sinh_lane, cosh_lane. split; [apply sinh_far|apply (cosh_far fma _ s)]; try apply wordq_lane, W; exact H. Qed.
(** TanH is within 1.5e-5 of the hyperbolic tangent for every finite argument, and exactly +-1 at the infinities *)
Theorem C61_tanh_accuracy fma V k x : wordq V -> value (lane V k) = Fin x -> exists r, value (lane (XMVectorTanH_sse fma V) k) = Fin r /\ Rabs (r - tanh x) <= 15 / 1000000.
Proof. intros W H. rewrite tanh_lane. apply tanh_acc; [apply wordq_lane, W|exact H]. Qed.
Theorem C61_tanh_infinity fma V k s : value (lane V k) = Inf s -> value (lane (XMVectorTanH_sse fma V) k) = Fin (if s then -1 else 1).
Proof. intros H. rewrite tanh_lane, (tanh_inf fma _ s H). destruct s; [exact val_m1|exact val_1]. Qed.
Theorem C61_nan fma V k : value (lane V k) = NaN ->
  value (lane (XMVectorSinH_sse fma V) k) = NaN /\ value (lane (XMVectorCosH_sse fma V) k) = NaN /\ value (lane (XMVectorTanH_sse fma V) k) = NaN.
Proof. intros H. rewrite sinh_lane, cosh_lane, tanh_lane. split; [apply sinh_nan, H|]. split; [apply cosh_nan, H|apply tanh_nan, H]. Qed.
(** SinH and TanH are odd with slope 1 at 0, but both cancel: at 2^-27 they return 0, so no relative accuracy below 1 holds *)
Theorem C61_sinh_tanh_relative_refuted : exists V x, wordq V /\ value (qx V) = Fin x /\ 0 < x < 1 /\
  forall fma, exists r, value (qx (XMVectorSinH_sse fma V)) = Fin r /\ value (qx (XMVectorTanH_sse fma V)) = Fin r /\
    forall e, e < 1 -> ~ rel_within e r (sinh x) /\ ~ rel_within e r (tanh x).
Proof.
  exists (qrep 0x32000000%Z), (/ 134217728). split; [repeat split; cbn; lia|]. split.
  { apply (val_normal _ false 100 0); [reflexivity|lia|lia|]. change (IZR (2 ^ 23 + 0)) with 8388608. change (bpow radix2 (100 - 150)) with (/ 1125899906842624). cbn [signed]. lra. }
  split; [lra|]. intros fma. exists 0.
  assert (E1 : qx (XMVectorSinH_sse fma (qrep 0x32000000%Z)) = 0%Z) by (destruct fma; vm_compute; reflexivity).
  assert (E2 : qx (XMVectorTanH_sse fma (qrep 0x32000000%Z)) = 0%Z) by (destruct fma; vm_compute; reflexivity).
  rewrite E1, E2. split; [apply zero_val|]. split; [apply zero_val|]. intros e He. set (x := / 134217728).
  assert (Ex : 1 < exp x) by (rewrite <- exp_0; apply exp_increasing; unfold x; lra).
  assert (En : exp (- x) < 1) by (rewrite <- exp_0; apply exp_increasing; unfold x; lra).
  assert (Sp : 0 < sinh x) by (unfold sinh; lra). pose proof (exp_pos (- x)). assert (Cp : 0 < cosh x) by (unfold cosh; lra).
  assert (Tp : 0 < tanh x) by (unfold tanh; apply Rdiv_lt_0_compat; assumption).
  assert (G : forall y, 0 < y -> ~ rel_within e 0 y). { intros y P. unfold rel_within. rewrite Rminus_0_l, Rabs_Ropp, Rabs_pos_eq by lra. intros K. assert (y * (1 - e) <= 0) by lra. assert (0 < y * (1 - e)) by (apply Rmult_lt_0_compat; lra). lra. }
  split; apply G; assumption.
Qed.
(** 1, -2, 95, -0.5: sinh 1.1752012, -3.6268601, +infinity, -0.5210947 *)
Example C61_ex_values : XMVectorSinH_sse true (Q 0x3F800000 0xC0000000 0x42BE0000 0xBF000000)%Z = (Q 0x3F966CFE 0xC0681E7A 0x7F800000 0xBF056676)%Z /\
  XMVectorCosH_sse true (Q 0x3F800000 0xC0000000 0x42BE0000 0xBF000000)%Z = (Q 0x3FC583AA 0x4070C7D2 0x7F800000 0x3F905611)%Z /\
  XMVectorTanH_sse false (Q 0x3F800000 0xC0000000 0x42BE0000 0xBF000000)%Z = (Q 0x3F42F7D5 0xBF76CA82 0x3F800000 0xBEEC9A9C)%Z.
Proof. split; [|split]; vm_compute; reflexivity. Qed.
