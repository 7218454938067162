(** Relative rounding errors of the quaternion inverse and of plane normalisation on bit patterns. *)
From Coq Require Import Reals Lra Lia ZArith Bool.
From Flocq Require Import Core Relative IEEE754.BinarySingleNaN.
From Verif Require Import Base F32 F32Facts Intrin Lane MVec MTrig MQuat MPlane MMatrix SpecF32 PF32 SpecRound PFloat PRound PExp SpecGeom SpecQuat SpecMat SpecErr SpecErrP PErr PErrNorm PErrVec PErrMat PErrR PErrProj.
From Verif Require PTrigF PFix.
Open Scope R_scope.
Local Opaque f_add f_sub f_mul f_div f_sqrt f_fma f_lit f_neg f_eq f_lt f_le.

Lemma rl_of_bd e z S : (0 <= e <= 90)%Z -> bd 4 20 z S S -> span' e S -> 0 <= S -> rl 5 e z S.
Proof.
  intros He (_ & _ & _ & v & V & E) HS P. unfold span' in HS. rewrite !pow2_bpow in HS. split; [lia|]. split; [lia|]. split; [right; exact HS|]. exists v. split; [exact V|].
  assert (EE := eta_rel e S ltac:(lia) (proj1 HS)). rewrite (Rabs_pos_eq S) in * by exact P. eapply Rle_trans; [exact E|]. assert (0 <= u24 * S) by (apply Rmult_le_pos; [unfold u24; lra|exact P]). unfold w, u24 in *. lra.
Qed.
Lemma half_span e S : (0 <= e)%Z -> span' (2 * e) S -> 0 <= S -> span' e (sqrt S).
Proof.
  intros He (A & B) P. unfold span'. rewrite (Rabs_pos_eq S P) in *. rewrite !pow2_bpow in *. rewrite Rabs_pos_eq by apply sqrt_pos.
  assert (Q : forall k, bpow radix2 k = sqrt (bpow radix2 (k + k))) by (intros k; rewrite bpow_plus; symmetry; apply sqrt_square, bpow_ge_0).
  rewrite (Q (- e)%Z), (Q e). replace (- e + - e)%Z with (- (2 * e))%Z by lia. replace (e + e)%Z with (2 * e)%Z by lia. split; apply sqrt_le_1_alt; assumption.
Qed.
Lemma rl_sqrt e z S : (0 <= e <= 45)%Z -> bd 4 20 z S S -> span' (2 * e) S -> 0 <= S -> rl 4 e (f_sqrt z) (sqrt S) /\ (exists q, value z = Fin q) /\ exists v, value (f_sqrt z) = Fin v /\ 0 < v.
Proof.
  intros He B HS P. pose proof (half_span e S ltac:(lia) HS P) as H2. destruct HS as (A & C). rewrite (Rabs_pos_eq S P) in *. rewrite !pow2_bpow in *.
  destruct (sqrt_bd z S B) as (q & v & Vq & Q0 & Vv & V0 & E).
  { split; [eapply Rle_trans; [|exact A]; apply bpow_le; lia|eapply Rle_trans; [exact C|]; unfold big; apply bpow_le; lia]. }
  split; [|split; [exists q; exact Vq|exists v; split; assumption]].
  split; [lia|]. split; [lia|]. split; [right; unfold span' in H2; rewrite !pow2_bpow in H2; exact H2|]. exists v. split; [exact Vv|]. rewrite Rabs_pos_eq with (x := sqrt S) by apply sqrt_pos.
  eapply Rle_trans; [exact E|]. apply Rmult_le_compat_r; [apply sqrt_pos|]. unfold w, u24. lra.
Qed.
Lemma le_big e S : (e <= 126)%Z -> span' e S -> 0 <= S -> S <= big.
Proof. intros He (_ & B) P. rewrite Rabs_pos_eq in B by exact P. eapply Rle_trans; [exact B|]. rewrite pow2_bpow. unfold big. apply bpow_le, He. Qed.
Lemma val_eps : value (f_lit 1 (-23)) = Fin (bpow radix2 (-23)).
Proof. rewrite PFix.lit_exact by lia. f_equal. ring. Qed.
Lemma qinv_err b V q i : holds4 V q -> (forall j, span 30 (lane q j)) -> span' 60 (dot4 q q) -> pow2 (-22) <= dot4 q q ->
  exists v, value (lane (XMQuaternionInverse (L:=FL) b V) i) = Fin v /\ Rabs (v - lane (conj q) i / dot4 q q) <= 7 * ulp_half * Rabs (lane (conj q) i / dot4 q q).
Proof.
  intros HV Hs Hn Hm. pose proof (dot4_pos q) as P. pose proof (proj1 (lensq4_bd b V q i HV (le_big 60 _ ltac:(lia) Hn P))) as B. pose proof (rl_of_bd 60 _ _ ltac:(lia) B Hn P) as RS.
  unfold XMQuaternionInverse, XMVector4LengthSq. set (LS := XMVector4Dot b V V) in *. clearbody LS.
  assert (C : f_le (lane LS i) (f_lit 1 (-23)) = false).
  { destruct RS as (_ & _ & _ & v & Vv & E). rewrite (PTrigF.le_val _ _ _ _ Vv val_eps). destruct (PReal.Rleb_spec v (bpow radix2 (-23))) as [L|L]; [exfalso|reflexivity].
    change (pow2 (-22)) with (/ 4194304) in Hm. change (bpow radix2 (-23)) with (/ 8388608) in L. rewrite (Rabs_pos_eq _ P) in E. apply Rabs_le_inv in E. unfold w, u24 in E. lra. }
  assert (CJ : exists z, value z = Fin (lane (conj q) i) /\ lane (XMVectorDivide b (XMQuaternionConjugate (L:=FL) b V) LS) i = f_div z (lane LS i)).
  { revert HV. clear. dq4 V a0 a1 a2 a3; dq4 q x0 x1 x2 x3. destruct LS as [l0 l1 l2 l3]. hyps. unfold conj.
    destruct b; destruct i; cbn [lane qx qy qz qw]; cbv beta iota zeta delta [XMQuaternionConjugate]; fl; cbv beta iota zeta delta [mone]; fl; (eexists; split; [|reflexivity]; valr). }
  destruct CJ as (z & Vz & EZ). set (D := XMVectorDivide b _ LS) in *. clearbody D.
  assert (EL : lane (vsel (L:=FL) D vzero (vle (L:=FL) LS (qrep (epsilon (L:=FL))))) i = lane D i).
  { clear - C. destruct LS as [l0 l1 l2 l3], D as [d0 d1 d2 d3]. destruct i; cbn [lane qx qy qz qw] in *; cbv beta iota zeta delta [epsilon]; fl; rewrite C; reflexivity. }
  rewrite EL, EZ. assert (SC : span 30 (lane (conj q) i)).
  { specialize (Hs i). unfold span in *. destruct i; cbn [conj lane qx qy qz qw] in *; rewrite ?Rabs_Ropp; try exact Hs; destruct Hs as [Hs|Hs]; (left; rewrite Hs; ring) || (right; exact Hs). }
  eapply rl_fin; [eapply rl_div; [eapply rl_exact; [|exact Vz|exact SC]; lia|exact RS|eapply span'_nz, Hn|lia|lia]|reflexivity|lia].
Qed.
Lemma pnorm_err b V p i : holds4 V p -> (forall j, span 30 (lane p j)) -> span' 60 (dot3 p p) ->
  exists v, value (lane (XMPlaneNormalize (L:=FL) b V) i) = Fin v /\ Rabs (v - lane p i / norm3 p) <= 7 * ulp_half * Rabs (lane p i / norm3 p).
Proof.
  intros HV Hs Hn. pose proof (dot3_pos p) as P. assert (H3 : holds3 V p) by (destruct HV as (A & B & C & D); split; [exact A|split; assumption]).
  pose proof (le_big 60 _ ltac:(lia) Hn P) as LB. assert (VI : value (lane V i) = Fin (lane p i)) by (destruct HV as ((_ & A) & (_ & B) & (_ & C) & (_ & D)); destruct i; assumption).
  assert (N0 : norm3 p <> 0) by (apply (span'_nz 30), half_span; [lia|exact Hn|exact P]). unfold norm3 in *. destruct b as [|s3 s4 fm av].
  - pose proof (proj1 (lensq3_bd Scalar V p I0 H3 LB)) as B. destruct (rl_sqrt 30 _ _ ltac:(lia) B Hn P) as (RS & _ & v & Vv & V0).
    assert (Z1 : f_lt (f_lit 0 0) (f_sqrt (lane (XMVector3Dot Scalar V V) I0)) = true) by (apply f_lt_spec; rewrite val_zero, Vv; exact V0).
    assert (EL : lane (XMPlaneNormalize (L:=FL) Scalar V) i = f_mul (lane V i) (f_div (f_lit 1 0) (f_sqrt (lane (XMVector3Dot Scalar V V) I0)))).
    { clear - Z1. dq4 V a0 a1 a2 a3. revert Z1. cbv beta iota zeta delta [XMPlaneNormalize XMVector3Dot]. fl. intros ->. destruct i; reflexivity. }
    rewrite EL. eapply rl_fin; [eapply rl_mul; [eapply rl_exact; [|exact VI|exact (Hs i)]; lia|eapply rl_div; [exact rl_one|exact RS|exact N0|lia|lia]|lia|lia]|field; exact N0|lia].
  - destruct (lensq3_bd Scalar V p i H3 LB) as (_ & _ & _ & _ & B). destruct (rl_sqrt 30 _ _ ltac:(lia) B Hn P) as (RS & (s & Vs) & v & Vv & V0).
    assert (Z2 : f_eq (lane (dp_ps V V mask3) i) 0x7F800000 = false).
    { apply Bool.not_true_iff_false. intros H. apply f_eq_spec in H. rewrite Vs in H. change (value 0x7F800000) with (Inf false) in H. exact H. }
    assert (EL : lane (XMPlaneNormalize (L:=FL) (SSE s3 s4 fm av) V) i = f_div (lane V i) (f_sqrt (lane (dp_ps V V mask3) i))).
    { clear - Z2. unfold XMPlaneNormalize. set (D := dp_ps V V mask3) in *. clearbody D. destruct D as [l0 l1 l2 l3]. dq4 V a0 a1 a2 a3. destruct i; cbn [lane qx qy qz qw] in *; fl; rewrite Z2; reflexivity. }
    rewrite EL. eapply rl_fin; [eapply rl_div; [eapply rl_exact; [|exact VI|exact (Hs i)]; lia|exact RS|exact N0|lia|lia]|reflexivity|lia].
Qed.
