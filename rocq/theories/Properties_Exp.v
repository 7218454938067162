(** C60: XMVectorExp2 and its alias XMVectorExp on binary32 lanes, every rounding counted, with and without fused multiply-add. *)
From Coq Require Import Reals ZArith Lra Lia.
From Verif Require Import Base F32 Intrin MRound MExp SpecF32 SpecEst PRoundAll PExpPoly PExp PF32.
Open Scope R_scope.

(** special values and ranges: NaN gives the quiet NaN, 128 and above +infinity, -150 and below +0 *)
Theorem C60_exp2_special fma V k : wordq V -> let v := value (lane V k) in let r := lane (XMVectorExp2_sse fma V) k in
  (v = NaN -> r = 0x7FC00000%Z) /\ (v = Inf false -> value r = Inf false) /\ (v = Inf true -> r = 0%Z) /\
  (forall x, v = Fin x -> 128 <= x -> value r = Inf false) /\ (forall x, v = Fin x -> x <= -150 -> r = 0%Z).
Proof.
  intros W v r. subst v r. rewrite exp2_lane. apply (wordq_lane V k) in W. repeat split.
  - apply exp_nan, W.
  - intros H. rewrite (exp_inf fma _ false W H). reflexivity.
  - intros H. exact (exp_inf fma _ true W H).
  - intros x H L. rewrite (proj1 (exp_case fma _ x W H) L). reflexivity.
  - intros x H L. exact (proj1 (proj2 (exp_case fma _ x W H)) L).
Qed.
(** integer arguments give the exact power of two, down to the smallest denormal *)
Theorem C60_exp2_powers fma V k n : wordq V -> value (lane V k) = Fin (IZR n) -> (-149 <= n <= 127)%Z -> value (lane (XMVectorExp2_sse fma V) k) = Fin (pow2 n).
Proof. intros W H L. rewrite exp2_lane, pow2_bpow. apply exp_pow; [apply wordq_lane, W|exact H|exact L]. Qed.
(** 2^x to relative accuracy 1.2e-5 wherever the result is normal, 8e-7 for x >= 0; one more denormal unit below *)
Theorem C60_exp2_accuracy fma V k x : wordq V -> value (lane V k) = Fin x -> -126 <= x < 128 ->
  exists r, value (lane (XMVectorExp2_sse fma V) k) = Fin r /\ rel_within (12 / 1000000) r (Rpower 2 x) /\ (0 <= x -> rel_within (8 / 10000000) r (Rpower 2 x)).
Proof.
  intros W H L. rewrite exp2_lane. destruct (exp2_rel fma _ x (wordq_lane V k W) H L) as (r & Vr & E). exists r. split; [exact Vr|].
  unfold rel_within. change (Rpower 2 x) with (ex2 x). rewrite (Rabs_pos_eq (ex2 x)) by (left; apply ex2_pos). exact E.
Qed.
Theorem C60_exp2_denormal fma V k x : wordq V -> value (lane V k) = Fin x -> -150 < x < -126 ->
  exists r, value (lane (XMVectorExp2_sse fma V) k) = Fin r /\ Rabs (r - Rpower 2 x) <= 12 / 1000000 * Rpower 2 x + pow2 (-149).
Proof.
  intros W H L. rewrite exp2_lane. destruct (exp_acc fma _ x (wordq_lane V k W) H ltac:(lra)) as (r & Vr & E & _). exists r. split; [exact Vr|].
  rewrite <- eta2. change (Rpower 2 x) with (ex2 x). pose proof (ex2_pos x). lra.
Qed.
(** the polynomial is fitted to fractions in [0, 1] but truncation leaves (-1, 0] for negative arguments: just above -1 the
    result is 0.500005, off by more than 9e-6, so the 8e-7 of the non-negative side does not extend *)
Theorem C60_exp2_negative_accuracy_refuted : exists V x, wordq V /\ value (qx V) = Fin x /\ -1 < x < 0 /\
  forall fma, exists r, value (qx (XMVectorExp2_sse fma V)) = Fin r /\ ~ rel_within (9 / 1000000) r (Rpower 2 x).
Proof.
  exists (qrep 0xBF7FFFFF)%Z, (-16777215 / 16777216). split; [repeat split; cbn; lia|]. split; [exact val_near_one|]. split; [lra|]. exact exp2_near_one.
Qed.
(** 0.5, -1, -140 (a denormal power), 127 *)
Example C60_ex_values : XMVectorExp2_sse false (Q 0x3F000000 0xBF800000 0xC30C0000 0x42FE0000)%Z = (Q 0x3FB504F3 0x3F000000 0x00000200 0x7F000000)%Z.
Proof. vm_compute. reflexivity. Qed.
(** 128, -150, NaN, -infinity, then 1.25 and -126.5 with fused multiply-add *)
Example C60_ex_special : XMVectorExp2_sse true (Q 0x43000000 0xC3160000 0xFFC12345 0xFF800000)%Z = (Q 0x7F800000 0 0x7FC00000 0)%Z /\
  XMVectorExp2_sse true (Q 0x3FA00000 0xC2FD0000 0 0)%Z = (Q 0x401837F0 0x005A827C 0x3F800000 0x3F800000)%Z.
Proof. split; vm_compute; reflexivity. Qed.
