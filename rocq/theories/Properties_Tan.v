(** C59: the tangent, over exact real arithmetic with the library's coefficients. *)
From Coq Require Import Reals ZArith Lra.
From Verif Require Import Base F32 Intrin Lane MVec MTrig MRound MTan PReal SpecTrig SpecEst PTrigPoly PTrigFn PTan.
Open Scope R_scope.

(** the result is the tangent, to relative accuracy 2e-7, of an angle w within 6e-8 |v| of the argument v; no reduction error
    for |v| <= 0.785; at a pole of the tangent nothing is claimed *)
Theorem C59_tan b (V : quad R) k : b <> Scalar -> Rabs (lane V k) <= 1000000 ->
  exists w, Rabs (w - lane V k) <= 6 / 100000000 * Rabs (lane V k) /\ (Rabs (lane V k) <= 785 / 1000 -> w = lane V k) /\
    (cos w <> 0 -> rel_within (2 / 10000000) (lane (XMVectorTan b V) k) (tan w)).
Proof. exact (tan_vec b V k). Qed.
(** The full claim, relative accuracy against tan v itself, fails near the zeros: the second reduction constant 6.0771e-11
    complements a double-precision pi/2 but is used with the binary32 one, so at XM_PI even the sign is wrong. *)
Theorem C59_tan_relative_refuted : exists v : R, Rabs v <= 1000000 /\ cos v <> 0 /\ forall b, b <> Scalar ->
  8 / 100000000 < tan v /\ qx (XMVectorTan b (qrep v)) < 0 /\ ~ rel_within 1 (qx (XMVectorTan b (qrep v))) (tan v).
Proof.
  exists PI32. split; [unfold PI32; rewrite Rabs_pos_eq; lra|]. destruct (tan_pi (SSE true true true AVX) (qrep PI32) I0 ltac:(discriminate) eq_refl) as [_ T].
  split; [intros C; unfold tan in T; rewrite C in T; unfold Rdiv in T; rewrite Rinv_0, Rmult_0_r in T; lra|].
  intros b Hb. destruct (tan_pi b (qrep PI32) I0 Hb eq_refl) as [E _]. cbn [lane] in E. rewrite E. split; [exact T|]. split; [lra|].
  unfold rel_within. rewrite (Rabs_pos_eq (tan PI32)) by lra. intros A. rewrite Rabs_left in A by lra. lra.
Qed.
(** binary32: tan(1) is two units in the last place off, tan(2) one; tan(XM_PI) comes out as -1.2154201e-10 instead of 8.7422777e-8 *)
Example C59_ex_values (lm : Libm FL) :
  @XMVectorTan FL lm FC (SSE true true true AVX) (Q 0x3F800000 0x40490FDB 0 0x40000000)%Z = (Q 0x3FC75921 0xAF05A309 0 0xC00BD7B2)%Z.
Proof. vm_compute. reflexivity. Qed.
