(** Error bounds of the cross products, transforms, lengths and normalisations on bit patterns. *)
From Coq Require Import Reals Lra Lia ZArith Bool.
From Flocq Require Import Core Relative IEEE754.BinarySingleNaN.
From Verif Require Import Base F32 F32Facts Intrin Lane MVec SpecF32 PF32 SpecRound PFloat PExp SpecGeom SpecErr PErr.
Open Scope R_scope.

Ltac geo := cbv beta iota zeta delta [cross_abs cross vecmat plus scale point direction point2 direction2 vabs mabs dot2 dot3 dot4 lane qx qy qz qw] in *.
Lemma cross2_err b V1 V2 x y i : holds2 V1 x -> holds2 V2 y -> safe (Rabs (qx x) * Rabs (qy y) + Rabs (qy x) * Rabs (qx y)) ->
  within (3 * ulp_half * (Rabs (qx x) * Rabs (qy y) + Rabs (qy x) * Rabs (qx y)) + 6 * tiny) (lane (XMVector2Cross b V1 V2) i) (qx x * qy y - qy x * qx y).
Proof.
  dq4 V1 a0 a1 a2 a3; dq4 V2 b0 b1 b2 b3; dq4 x x0 x1 x2 x3; dq4 y y0 y1 y2 y3. hyps.
  destruct b as [|s3 s4 f av]; destruct i; cbv beta iota zeta delta [XMVector2Cross]; fl; fin.
Qed.
Lemma cross3_err b V1 V2 x y i : holds3 V1 x -> holds3 V2 y -> safe (lane (cross_abs x y) i) ->
  within (3 * ulp_half * lane (cross_abs x y) i + 6 * tiny) (lane (XMVector3Cross b V1 V2) i) (lane (cross x y) i).
Proof.
  dq4 V1 a0 a1 a2 a3; dq4 V2 b0 b1 b2 b3; dq4 x x0 x1 x2 x3; dq4 y y0 y1 y2 y3. hyps. geo.
  destruct b as [|s3 s4 [|] av]; destruct i; cbv beta iota zeta delta [XMVector3Cross]; fl; cbn [lane qx qy qz qw] in *; fin.
Qed.
Lemma transform2_err b V M x m i : holds2 V x -> holdsM M m -> safe (lane (vecmat (vabs (point2 x)) (mabs m)) i) ->
  within (4 * ulp_half * lane (vecmat (vabs (point2 x)) (mabs m)) i + 10 * tiny) (lane (XMVector2Transform b V M) i) (lane (vecmat (point2 x) m) i).
Proof.
  intros HV HM. pose proof (HM I0) as H0. pose proof (HM I1) as H1. pose proof (HM I3) as H3. clear HM. revert HV H0 H1 H3.
  dq4 V a0 a1 a2 a3; dq4 x x0 x1 x2 x3. destruct M as [[b0 b1 b2 b3] [c0 c1 c2 c3] M2 [d0 d1 d2 d3]], m as [[y0 y1 y2 y3] [z0 z1 z2 z3] [m20 m21 m22 m23] [t0 t1 t2 t3]]. cbn [lane qx qy qz qw]. hyps. geo. rewrite ?Rabs_R0, ?Rabs_R1 in *.
  destruct b as [|s3 s4 [|] av]; destruct i; cbv beta iota zeta delta [XMVector2Transform]; fl; cbn [lane qx qy qz qw] in *; fin.
Qed.
Lemma transform2n_err b V M x m i : holds2 V x -> holdsM M m -> safe (lane (vecmat (vabs (direction2 x)) (mabs m)) i) ->
  within (3 * ulp_half * lane (vecmat (vabs (direction2 x)) (mabs m)) i + 6 * tiny) (lane (XMVector2TransformNormal b V M) i) (lane (vecmat (direction2 x) m) i).
Proof.
  intros HV HM. pose proof (HM I0) as H0. pose proof (HM I1) as H1. clear HM. revert HV H0 H1.
  dq4 V a0 a1 a2 a3; dq4 x x0 x1 x2 x3. destruct M as [[b0 b1 b2 b3] [c0 c1 c2 c3] M2 M3], m as [[y0 y1 y2 y3] [z0 z1 z2 z3] [m20 m21 m22 m23] [t0 t1 t2 t3]]. cbn [lane qx qy qz qw]. hyps. geo. rewrite ?Rabs_R0, ?Rabs_R1 in *.
  destruct b as [|s3 s4 [|] av]; destruct i; cbv beta iota zeta delta [XMVector2TransformNormal]; fl; cbn [lane qx qy qz qw] in *; fin.
Qed.
Lemma transform3_err b V M x m i : holds3 V x -> holdsM M m -> safe (lane (vecmat (vabs (point x)) (mabs m)) i) ->
  within (5 * ulp_half * lane (vecmat (vabs (point x)) (mabs m)) i + 14 * tiny) (lane (XMVector3Transform b V M) i) (lane (vecmat (point x) m) i).
Proof.
  intros HV HM. pose proof (HM I0) as H0. pose proof (HM I1) as H1. pose proof (HM I2) as H2. pose proof (HM I3) as H3. clear HM. revert HV H0 H1 H2 H3.
  dq4 V a0 a1 a2 a3; dq4 x x0 x1 x2 x3. destruct M as [[b0 b1 b2 b3] [c0 c1 c2 c3] [e0 e1 e2 e3] [d0 d1 d2 d3]], m as [[y0 y1 y2 y3] [z0 z1 z2 z3] [m20 m21 m22 m23] [t0 t1 t2 t3]]. cbn [lane qx qy qz qw]. hyps. geo. rewrite ?Rabs_R0, ?Rabs_R1 in *.
  destruct b as [|s3 s4 [|] av]; destruct i; cbv beta iota zeta delta [XMVector3Transform]; fl; cbn [lane qx qy qz qw] in *; fin.
Qed.
Lemma transform3n_err b V M x m i : holds3 V x -> holdsM M m -> safe (lane (vecmat (vabs (direction x)) (mabs m)) i) ->
  within (4 * ulp_half * lane (vecmat (vabs (direction x)) (mabs m)) i + 10 * tiny) (lane (XMVector3TransformNormal b V M) i) (lane (vecmat (direction x) m) i).
Proof.
  intros HV HM. pose proof (HM I0) as H0. pose proof (HM I1) as H1. pose proof (HM I2) as H2. clear HM. revert HV H0 H1 H2.
  dq4 V a0 a1 a2 a3; dq4 x x0 x1 x2 x3. destruct M as [[b0 b1 b2 b3] [c0 c1 c2 c3] [e0 e1 e2 e3] M3], m as [[y0 y1 y2 y3] [z0 z1 z2 z3] [m20 m21 m22 m23] [t0 t1 t2 t3]]. cbn [lane qx qy qz qw]. hyps. geo. rewrite ?Rabs_R0, ?Rabs_R1 in *.
  destruct b as [|s3 s4 [|] av]; destruct i; cbv beta iota zeta delta [XMVector3TransformNormal]; fl; cbn [lane qx qy qz qw] in *; fin.
Qed.
Lemma transform4_err b V M x m i : holds4 V x -> holdsM M m -> safe (lane (vecmat (vabs x) (mabs m)) i) ->
  within (5 * ulp_half * lane (vecmat (vabs x) (mabs m)) i + 14 * tiny) (lane (XMVector4Transform b V M) i) (lane (vecmat x m) i).
Proof.
  intros HV HM. pose proof (HM I0) as H0. pose proof (HM I1) as H1. pose proof (HM I2) as H2. pose proof (HM I3) as H3. clear HM. revert HV H0 H1 H2 H3.
  dq4 V a0 a1 a2 a3; dq4 x x0 x1 x2 x3. destruct M as [[b0 b1 b2 b3] [c0 c1 c2 c3] [e0 e1 e2 e3] [d0 d1 d2 d3]], m as [[y0 y1 y2 y3] [z0 z1 z2 z3] [m20 m21 m22 m23] [t0 t1 t2 t3]]. cbn [lane qx qy qz qw]. hyps. geo.
  destruct b as [|s3 s4 [|] av]; destruct i; cbv beta iota zeta delta [XMVector4Transform]; fl; cbn [lane qx qy qz qw] in *; fin.
Qed.
