(** Rounding of all four lanes, from the one-lane lemmas of PRound.v. *)
From Coq Require Import Reals Lra Lia ZArith.
From Flocq Require Import Core IEEE754.BinarySingleNaN.
From Verif Require Import Base F32 F32Facts Intrin SpecF32 PF32 SpecRound PFloat MRound PRound.
Open Scope R_scope.

Lemma wordq_lane V k : wordq V -> word (lane V k).
Proof. intros (h1 & h2 & h3 & h4). destruct k; assumption. Qed.
Lemma all4 (F : quad Z -> quad Z) rnd V : (forall z, word z -> rounds rnd z (lane (F (qrep z)) I0)) ->
  (forall k, lane (F V) k = lane (F (qrep (lane V k))) I0) -> wordq V -> rounds4 rnd V (F V).
Proof. intros H E W k. rewrite E. apply H, wordq_lane, W. Qed.

Lemma round_sse2_all V : wordq V -> rounds4 nearest_even V (XMVectorRound_sse2 V).
Proof. apply all4; [exact round_sse2_lane|]. destruct k; reflexivity. Qed.
Lemma round_sse4_all V : wordq V -> rounds4 nearest_even V (XMVectorRound_sse4 V).
Proof. apply all4; [|destruct k; reflexivity]. intros z _. exact (near_rounds mode_NE _ z nearE). Qed.
Lemma round_scalar_lanes V k : wordq V -> rounds nearest_even (qx V) (lane (XMVectorRound_scalar V) k).
Proof. intros (h & _). destruct k; exact (rtn_lane _ h). Qed.
Lemma round_scalar_x V : wordq V -> rounds nearest_even (qx V) (qx (XMVectorRound_scalar V)).
Proof. exact (round_scalar_lanes V I0). Qed.
Lemma trunc_scalar_all V : wordq V -> rounds4 toward_zero V (XMVectorTruncate_scalar V).
Proof. apply all4; [exact trunc_scalar_lane|]. destruct k; reflexivity. Qed.
Lemma trunc_sse2_all V : wordq V -> rounds4 toward_zero V (XMVectorTruncate_sse2 V).
Proof. apply all4; [exact trunc_sse2_lane|]. destruct k; reflexivity. Qed.
Lemma trunc_sse4_all V : wordq V -> rounds4 toward_zero V (XMVectorTruncate_sse4 V).
Proof. apply all4; [|destruct k; reflexivity]. intros z _. exact (near_rounds mode_ZR _ z truncE). Qed.
Lemma floor_scalar_all V : wordq V -> rounds4 floor_of V (XMVectorFloor_scalar V).
Proof. apply all4; [|destruct k; reflexivity]. intros z _. exact (near_rounds mode_DN _ z floorE). Qed.
Lemma floor_sse2_all V : wordq V -> rounds4 floor_of V (XMVectorFloor_sse2 V).
Proof. apply all4; [exact floor_sse2_lane|]. destruct k; reflexivity. Qed.
Lemma ceil_scalar_all V : wordq V -> rounds4 ceiling_of V (XMVectorCeiling_scalar V).
Proof. apply all4; [|destruct k; reflexivity]. intros z _. exact (near_rounds mode_UP _ z ceilE). Qed.
Lemma ceil_sse2_all V : wordq V -> rounds4 ceiling_of V (XMVectorCeiling_sse2 V).
Proof. apply all4; [exact ceil_sse2_lane|]. destruct k; reflexivity. Qed.

Lemma round_scalar_refuted : exists V, wordq V /\ ~ rounds4 nearest_even V (XMVectorRound_scalar V).
Proof.
  exists (Q 0 0x3F800000 0 0)%Z. split; [repeat split; cbn; lia|]. intros H. specialize (H I1).
  assert (E : lane (XMVectorRound_scalar (Q 0 0x3F800000 0 0)%Z) I1 = 0%Z) by (vm_compute; reflexivity). rewrite E in H.
  unfold rounds in H. pose proof val_1 as V1. cbn [lane qy] in H. rewrite V1 in H. destruct H as (n & h1 & h2 & _). rewrite (proj1 zero_val) in h1. apply Fin_inj in h1. rewrite <- h1 in h2.
  rewrite Rabs_pos_eq in h2 by lra. lra.
Qed.

(** two roundings of the same kind have the same value *)
Definition single (rnd : R -> Z -> Prop) := forall x n m, rnd x n -> rnd x m -> n = m.
Lemma rounds_agree rnd z r r' : single rnd -> rounds rnd z r -> rounds rnd z r' -> value r = value r'.
Proof.
  unfold rounds. intros S. destruct (value z) as [|s|x]; [congruence|congruence|]. intros (n & h1 & h2) (m & k1 & k2).
  rewrite h1, k1, (S x n m h2 k2). reflexivity.
Qed.
Lemma near_single : single nearest_even.
Proof.
  intros x n m (h1 & h2) (k1 & k2). destruct (Z.eq_dec n m) as [E|E]; [exact E|exfalso].
  assert (B : (n - m <= 1 /\ m - n <= 1)%Z).
  { split; apply le_IZR; rewrite minus_IZR; revert h1 k1; unfold Rabs; destruct (Rcase_abs _), (Rcase_abs _); intros; lra. }
  assert (P : Rabs (x - IZR n) = 1 / 2 /\ Rabs (x - IZR m) = 1 / 2).
  { assert (D : (n = m + 1 \/ m = n + 1)%Z) by lia. revert h1 k1. destruct D as [->| ->]; rewrite !plus_IZR; unfold Rabs; repeat destruct (Rcase_abs _); intros; split; lra. }
  destruct P as (p1 & p2). specialize (h2 p1). specialize (k2 p2). assert (D : (n = m + 1 \/ m = n + 1)%Z) by lia.
  destruct D as [->| ->]; rewrite Z.even_add in *; [rewrite k2 in h2|rewrite h2 in k2]; discriminate.
Qed.
Lemma zlt_1 n m : IZR n < IZR m + 1 -> (n <= m)%Z.
Proof. intros H. rewrite <- plus_IZR in H. apply lt_IZR in H. lia. Qed.
Lemma floor_single : single floor_of.
Proof. intros x n m (h1 & h2) (k1 & k2). apply Z.le_antisymm; apply zlt_1; lra. Qed.
Lemma ceil_single : single ceiling_of.
Proof. intros x n m (h1 & h2) (k1 & k2). apply Z.le_antisymm; apply zlt_1; lra. Qed.
Lemma trunc_single : single toward_zero.
Proof.
  intros x n m (h1 & h2) (k1 & k2). destruct (Rle_dec 0 x) as [H|H].
  - apply (floor_single x); [exact (h1 H)|exact (k1 H)].
  - apply (ceil_single x); [apply h2|apply k2]; lra.
Qed.
Lemma backends_agree V : wordq V -> forall k,
  value (lane (XMVectorRound_sse2 V) k) = value (lane (XMVectorRound_sse4 V) k) /\
  value (lane (XMVectorTruncate_scalar V) k) = value (lane (XMVectorTruncate_sse2 V) k) /\
  value (lane (XMVectorTruncate_scalar V) k) = value (lane (XMVectorTruncate_sse4 V) k) /\
  value (lane (XMVectorFloor_scalar V) k) = value (lane (XMVectorFloor_sse2 V) k) /\
  value (lane (XMVectorCeiling_scalar V) k) = value (lane (XMVectorCeiling_sse2 V) k).
Proof.
  intros W k. split; [|split; [|split; [|split]]].
  - exact (rounds_agree _ _ _ _ near_single (round_sse2_all V W k) (round_sse4_all V W k)).
  - exact (rounds_agree _ _ _ _ trunc_single (trunc_scalar_all V W k) (trunc_sse2_all V W k)).
  - exact (rounds_agree _ _ _ _ trunc_single (trunc_scalar_all V W k) (trunc_sse4_all V W k)).
  - exact (rounds_agree _ _ _ _ floor_single (floor_scalar_all V W k) (floor_sse2_all V W k)).
  - exact (rounds_agree _ _ _ _ ceil_single (ceil_scalar_all V W k) (ceil_sse2_all V W k)).
Qed.
