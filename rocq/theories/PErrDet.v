(** Rounding errors of the determinant and of the four-dimensional cross product on bit patterns. *)
From Coq Require Import Reals Lra Lia ZArith Bool.
From Flocq Require Import Core Relative IEEE754.BinarySingleNaN.
From Verif Require Import Base F32 F32Facts Intrin Lane MVec MTrig MQuat MMatrix SpecF32 PF32 SpecRound PFloat PExp SpecGeom SpecMat SpecErr SpecErrR PErr PErrVec PErrMat PErrR.
Open Scope R_scope.
Local Opaque f_add f_sub f_mul f_div f_sqrt f_fma f_lit f_neg f_eq f_lt.

(** what the side conditions need about a scale between 1 and 2^30 *)
Lemma scale_facts S : 1 <= S <= pow2 30 ->
  1 <= S /\ S <= S * S /\ S * S <= S * S * S /\ S * S * S <= S * S * S * S /\ 64 * (S * S * S * S) <= big
  /\ 0 < eta /\ eta <= eta * S /\ eta * S <= eta * S * S /\ eta * S * S <= / 1000000000.
Proof.
  intros (H1 & H2). pose proof eta_pos as E0.
  assert (S2 : S <= S * S) by (replace S with (S * 1) at 1 by ring; apply Rmult_le_compat_l; lra).
  assert (S3 : S * S <= S * S * S) by (replace (S * S) with (S * S * 1) at 1 by ring; apply Rmult_le_compat_l; lra).
  assert (S4 : S * S * S <= S * S * S * S) by (replace (S * S * S) with (S * S * S * 1) at 1 by ring; apply Rmult_le_compat_l; lra).
  assert (PP : pow2 30 = bpow radix2 30) by reflexivity. rewrite PP in H2.
  assert (Q2 : S * S <= bpow radix2 60). { change 60%Z with (30 + 30)%Z. rewrite bpow_plus. apply Rmult_le_compat; lra. }
  assert (Q4 : S * S * S * S <= bpow radix2 120). { rewrite Rmult_assoc. change 120%Z with (60 + 60)%Z. rewrite bpow_plus. apply Rmult_le_compat; lra. }
  assert (EQ : eta * (S * S) <= eta * bpow radix2 60) by (apply Rmult_le_compat_l; lra).
  assert (E60 : eta * bpow radix2 60 <= / 1000000000).
  { rewrite <- tiny_eta. unfold tiny. change (pow2 (-150)) with (bpow radix2 (-150)). rewrite <- bpow_plus. change (-150 + 60)%Z with (-90)%Z.
    apply Rle_trans with (bpow radix2 (-30)); [apply bpow_le; lia|]. change (bpow radix2 (-30)) with (/ 1073741824). lra. }
  assert (BB : big = 64 * bpow radix2 120). { unfold big. change 126%Z with (6 + 120)%Z. rewrite bpow_plus. change (bpow radix2 6) with 64. ring. }
  assert (eta <= eta * S) by (replace eta with (eta * 1) at 1 by ring; apply Rmult_le_compat_l; lra).
  assert (eta * S <= eta * (S * S)) by (apply Rmult_le_compat_l; lra).
  repeat split; try lra.
Qed.
Ltac sside := match goal with |- (_ <= _)%Z => kside | |- (_ < _)%Z => kside | |- _ => lra end.
Ltac rfin := eapply r_fin; [rbt; sside|ring|right; rewrite ?Rabs_mult, ?Rabs_Ropp; ring|kside|rewrite ?tiny_eta; lra].
Ltac bnds := repeat match goal with H : bounded _ _ |- _ =>
  let H0 := fresh "U" in let H1 := fresh "U" in let H2 := fresh "U" in let H3 := fresh "U" in
  pose proof (H I0) as H0; pose proof (H I1) as H1; pose proof (H I2) as H2; pose proof (H I3) as H3; clear H; cbn [lane qx qy qz qw] in H0, H1, H2, H3 end.
Lemma det_err b M m i S : holdsM M m -> 1 <= S <= pow2 30 -> mbounded S m ->
  within (10 * ulp_half * mperm m + 400 * (S * S) * tiny) (lane (XMMatrixDeterminant b M) i) (mdet m).
Proof.
  intros HM HS HB. pose proof (HM I0) as H0. pose proof (HM I1) as H1. pose proof (HM I2) as H2. pose proof (HM I3) as H3. clear HM.
  pose proof (HB I0) as B0. pose proof (HB I1) as B1. pose proof (HB I2) as B2. pose proof (HB I3) as B3. clear HB. revert H0 H1 H2 H3.
  destruct M as [[b0 b1 b2 b3] [c0 c1 c2 c3] [e0 e1 e2 e3] [d0 d1 d2 d3]], m as [[y0 y1 y2 y3] [z0 z1 z2 z3] [m0 m1 m2 m3] [t0 t1 t2 t3]]. cbn [lane qx qy qz qw] in B0, B1, B2, B3 |- *. hyps. bnds.
  apply scale_facts in HS. destruct HS as (S1 & S2 & S3 & S4 & S5 & E0 & E1 & E2 & E3).
  unfold mperm, perm4, perm3, perm2, mdet, det4, det3, det2. geo.
  assert (BP := big_pos).
  destruct b as [|[|] [|] [|] av]; destruct i; cbv beta iota zeta delta [XMMatrixDeterminant XMVector4Dot dot4_sse2 dot4_sse3 mask4 swz]; flm; cbn [lane qx qy qz qw].
  all: rfin.
Qed.
