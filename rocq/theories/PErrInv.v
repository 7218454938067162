(** Rounding errors of the matrix inverse on bit patterns. *)
From Coq Require Import Reals Lra Lia ZArith Bool.
From Flocq Require Import Core Relative IEEE754.BinarySingleNaN.
From Verif Require Import Base F32 F32Facts Intrin Lane MVec MTrig MQuat MMatrix SpecF32 PF32 SpecRound PFloat PExp SpecGeom SpecMat SpecErr SpecErrR SpecErrI PErr PErrVec PErrMat PErrR PErrDet PErrInt PErrGeo.
Open Scope R_scope.
Local Opaque f_add f_sub f_mul f_div f_sqrt f_fma f_lit f_neg f_eq f_lt.

(** the body of XMMatrixInverse up to the matrix of cofactors, and the transpose it starts from *)
Definition cof (b : backend) (M : quad (quad Z))  : quad (quad Z) :=
  match b with
  | Scalar =>
    let MT := XMMatrixTranspose b M in
    let V0_0 := swz (qz MT) I0 I0 I1 I1 in
    let V1_0 := swz (qw MT) I2 I3 I2 I3 in
    let V0_1 := swz (qx MT) I0 I0 I1 I1 in
    let V1_1 := swz (qy MT) I2 I3 I2 I3 in
    let V1_2 := perm (qw MT) (qy MT) P0Y P0W P1Y P1W in
    let V0_2 := perm (qz MT) (qx MT) P0X P0Z P1X P1Z in
    let D0 := XMVectorMultiply b V0_0 V1_0 in
    let D1 := XMVectorMultiply b V0_1 V1_1 in
    let D2 := XMVectorMultiply b V0_2 V1_2 in
    let V0_0 := swz (qz MT) I2 I3 I2 I3 in
    let V1_0 := swz (qw MT) I0 I0 I1 I1 in
    let V0_1 := swz (qx MT) I2 I3 I2 I3 in
    let V1_1 := swz (qy MT) I0 I0 I1 I1 in
    let V0_2 := perm (qz MT) (qx MT) P0Y P0W P1Y P1W in
    let V1_2 := perm (qw MT) (qy MT) P0X P0Z P1X P1Z in
    let D0 := XMVectorNegativeMultiplySubtract b V0_0 V1_0 D0 in
    let D1 := XMVectorNegativeMultiplySubtract b V0_1 V1_1 D1 in
    let D2 := XMVectorNegativeMultiplySubtract b V0_2 V1_2 D2 in
    let V0_0 := swz (qy MT) I1 I2 I0 I1 in
    let V1_0 := perm D0 D2 P1Y P0Y P0W P0X in
    let V0_1 := swz (qx MT) I2 I0 I1 I0 in
    let V1_1 := perm D0 D2 P0W P1Y P0Y P0Z in
    let V0_2 := swz (qw MT) I1 I2 I0 I1 in
    let V1_2 := perm D1 D2 P1W P0Y P0W P0X in
    let V0_3 := swz (qz MT) I2 I0 I1 I0 in
    let V1_3 := perm D1 D2 P0W P1W P0Y P0Z in
    let C0 := XMVectorMultiply b V0_0 V1_0 in
    let C2 := XMVectorMultiply b V0_1 V1_1 in
    let C4 := XMVectorMultiply b V0_2 V1_2 in
    let C6 := XMVectorMultiply b V0_3 V1_3 in
    let V0_0 := swz (qy MT) I2 I3 I1 I2 in
    let V1_0 := perm D0 D2 P0W P0X P0Y P1X in
    let V0_1 := swz (qx MT) I3 I2 I3 I1 in
    let V1_1 := perm D0 D2 P0Z P0Y P1X P0X in
    let V0_2 := swz (qw MT) I2 I3 I1 I2 in
    let V1_2 := perm D1 D2 P0W P0X P0Y P1Z in
    let V0_3 := swz (qz MT) I3 I2 I3 I1 in
    let V1_3 := perm D1 D2 P0Z P0Y P1Z P0X in
    let C0 := XMVectorNegativeMultiplySubtract b V0_0 V1_0 C0 in
    let C2 := XMVectorNegativeMultiplySubtract b V0_1 V1_1 C2 in
    let C4 := XMVectorNegativeMultiplySubtract b V0_2 V1_2 C4 in
    let C6 := XMVectorNegativeMultiplySubtract b V0_3 V1_3 C6 in
    let V0_0 := swz (qy MT) I3 I0 I3 I0 in
    let V1_0 := perm D0 D2 P0Z P1Y P1X P0Z in
    let V0_1 := swz (qx MT) I1 I3 I0 I2 in
    let V1_1 := perm D0 D2 P1Y P0X P0W P1X in
    let V0_2 := swz (qw MT) I3 I0 I3 I0 in
    let V1_2 := perm D1 D2 P0Z P1W P1Z P0Z in
    let V0_3 := swz (qz MT) I1 I3 I0 I2 in
    let V1_3 := perm D1 D2 P1W P0X P0W P1Z in
    let C1 := XMVectorNegativeMultiplySubtract b V0_0 V1_0 C0 in
    let C0 := XMVectorMultiplyAdd b V0_0 V1_0 C0 in
    let C3 := XMVectorMultiplyAdd b V0_1 V1_1 C2 in
    let C2 := XMVectorNegativeMultiplySubtract b V0_1 V1_1 C2 in
    let C5 := XMVectorNegativeMultiplySubtract b V0_2 V1_2 C4 in
    let C4 := XMVectorMultiplyAdd b V0_2 V1_2 C4 in
    let C7 := XMVectorMultiplyAdd b V0_3 V1_3 C6 in
    let C6 := XMVectorNegativeMultiplySubtract b V0_3 V1_3 C6 in
    let R_r0 := vsel C0 C1 (Q false true false true) in
    let R_r1 := vsel C2 C3 (Q false true false true) in
    let R_r2 := vsel C4 C5 (Q false true false true) in
    let R_r3 := vsel C6 C7 (Q false true false true) in
    Q R_r0 R_r1 R_r2 R_r3
  | _ =>
    let vTemp1 := shuffle (qx M) (qy M) I1 I0 I1 I0 in
    let vTemp3 := shuffle (qx M) (qy M) I3 I2 I3 I2 in
    let vTemp2 := shuffle (qz M) (qw M) I1 I0 I1 I0 in
    let vTemp4 := shuffle (qz M) (qw M) I3 I2 I3 I2 in
    let MT_r0 := shuffle vTemp1 vTemp2 I2 I0 I2 I0 in
    let MT_r1 := shuffle vTemp1 vTemp2 I3 I1 I3 I1 in
    let MT_r2 := shuffle vTemp3 vTemp4 I2 I0 I2 I0 in
    let MT_r3 := shuffle vTemp3 vTemp4 I3 I1 I3 I1 in
    let MT := Q MT_r0 MT_r1 MT_r2 MT_r3 in
    let V00 := permute_ps (qz MT) I1 I1 I0 I0 in
    let V10 := permute_ps (qw MT) I3 I2 I3 I2 in
    let V01 := permute_ps (qx MT) I1 I1 I0 I0 in
    let V11 := permute_ps (qy MT) I3 I2 I3 I2 in
    let V02 := shuffle (qz MT) (qx MT) I2 I0 I2 I0 in
    let V12 := shuffle (qw MT) (qy MT) I3 I1 I3 I1 in
    let D0 := vmul V00 V10 in
    let D1 := vmul V01 V11 in
    let D2 := vmul V02 V12 in
    let V00 := permute_ps (qz MT) I3 I2 I3 I2 in
    let V10 := permute_ps (qw MT) I1 I1 I0 I0 in
    let V01 := permute_ps (qx MT) I3 I2 I3 I2 in
    let V11 := permute_ps (qy MT) I1 I1 I0 I0 in
    let V02 := shuffle (qz MT) (qx MT) I3 I1 I3 I1 in
    let V12 := shuffle (qw MT) (qy MT) I2 I0 I2 I0 in
    let D0 := FNMADD b V00 V10 D0 in
    let D1 := FNMADD b V01 V11 D1 in
    let D2 := FNMADD b V02 V12 D2 in
    let V11 := shuffle D0 D2 I1 I1 I3 I1 in
    let V00 := permute_ps (qy MT) I1 I0 I2 I1 in
    let V10 := shuffle V11 D0 I0 I3 I0 I2 in
    let V01 := permute_ps (qx MT) I0 I1 I0 I2 in
    let V11 := shuffle V11 D0 I2 I1 I2 I1 in
    let V13 := shuffle D1 D2 I3 I3 I3 I1 in
    let V02 := permute_ps (qw MT) I1 I0 I2 I1 in
    let V12 := shuffle V13 D1 I0 I3 I0 I2 in
    let V03 := permute_ps (qz MT) I0 I1 I0 I2 in
    let V13 := shuffle V13 D1 I2 I1 I2 I1 in
    let C0 := vmul V00 V10 in
    let C2 := vmul V01 V11 in
    let C4 := vmul V02 V12 in
    let C6 := vmul V03 V13 in
    let V11 := shuffle D0 D2 I0 I0 I1 I0 in
    let V00 := permute_ps (qy MT) I2 I1 I3 I2 in
    let V10 := shuffle D0 V11 I2 I1 I0 I3 in
    let V01 := permute_ps (qx MT) I1 I3 I2 I3 in
    let V11 := shuffle D0 V11 I0 I2 I1 I2 in
    let V13 := shuffle D1 D2 I2 I2 I1 I0 in
    let V02 := permute_ps (qw MT) I2 I1 I3 I2 in
    let V12 := shuffle D1 V13 I2 I1 I0 I3 in
    let V03 := permute_ps (qz MT) I1 I3 I2 I3 in
    let V13 := shuffle D1 V13 I0 I2 I1 I2 in
    let C0 := FNMADD b V00 V10 C0 in
    let C2 := FNMADD b V01 V11 C2 in
    let C4 := FNMADD b V02 V12 C4 in
    let C6 := FNMADD b V03 V13 C6 in
    let V00 := permute_ps (qy MT) I0 I3 I0 I3 in
    let V10 := shuffle D0 D2 I1 I0 I2 I2 in
    let V10 := permute_ps V10 I0 I2 I3 I0 in
    let V01 := permute_ps (qx MT) I2 I0 I3 I1 in
    let V11 := shuffle D0 D2 I1 I0 I3 I0 in
    let V11 := permute_ps V11 I2 I1 I0 I3 in
    let V02 := permute_ps (qw MT) I0 I3 I0 I3 in
    let V12 := shuffle D1 D2 I3 I2 I2 I2 in
    let V12 := permute_ps V12 I0 I2 I3 I0 in
    let V03 := permute_ps (qz MT) I2 I0 I3 I1 in
    let V13 := shuffle D1 D2 I3 I2 I3 I0 in
    let V13 := permute_ps V13 I2 I1 I0 I3 in
    let V00 := vmul V00 V10 in
    let V01 := vmul V01 V11 in
    let V02 := vmul V02 V12 in
    let V03 := vmul V03 V13 in
    let C1 := vsub C0 V00 in
    let C0 := vadd C0 V00 in
    let C3 := vadd C2 V01 in
    let C2 := vsub C2 V01 in
    let C5 := vsub C4 V02 in
    let C4 := vadd C4 V02 in
    let C7 := vadd C6 V03 in
    let C6 := vsub C6 V03 in
    let C0 := shuffle C0 C1 I3 I1 I2 I0 in
    let C2 := shuffle C2 C3 I3 I1 I2 I0 in
    let C4 := shuffle C4 C5 I3 I1 I2 I0 in
    let C6 := shuffle C6 C7 I3 I1 I2 I0 in
    let C0 := permute_ps C0 I3 I1 I2 I0 in
    let C2 := permute_ps C2 I3 I1 I2 I0 in
    let C4 := permute_ps C4 I3 I1 I2 I0 in
    let C6 := permute_ps C6 I3 I1 I2 I0 in
    Q C0 C2 C4 C6
  end.
Definition col0 (b : backend) (M : quad (quad Z)) : quad Z :=
  match b with Scalar => qx (XMMatrixTranspose (L:=FL) b M) | _ =>
    let vTemp1 := shuffle (qx M) (qy M) I1 I0 I1 I0 in
    let vTemp3 := shuffle (qx M) (qy M) I3 I2 I3 I2 in
    let vTemp2 := shuffle (qz M) (qw M) I1 I0 I1 I0 in
    let vTemp4 := shuffle (qz M) (qw M) I3 I2 I3 I2 in
    let MT_r0 := shuffle vTemp1 vTemp2 I2 I0 I2 I0 in
    let MT_r1 := shuffle vTemp1 vTemp2 I3 I1 I3 I1 in
    let MT_r2 := shuffle vTemp3 vTemp4 I2 I0 I2 I0 in
    let MT_r3 := shuffle vTemp3 vTemp4 I3 I1 I3 I1 in
    let MT := Q MT_r0 MT_r1 MT_r2 MT_r3 in
    qx MT end.
Definition recip (b : backend) (D : quad Z) : quad Z := match b with Scalar => XMVectorReciprocal (L:=FL) b D | _ => vdiv (L:=FL) (vone (L:=FL)) D end.
Definition times (b : backend) (C D : quad Z) : quad Z := match b with Scalar => XMVectorMultiply (L:=FL) b C D | _ => vmul (L:=FL) C D end.
Lemma inv_split b M : XMMatrixInverse (L:=FL) b M =
  let D := XMVector4Dot (L:=FL) b (qx (cof b M)) (col0 b M) in let r := recip b D in
  (D, Q (times b (qx (cof b M)) r) (times b (qy (cof b M)) r) (times b (qz (cof b M)) r) (times b (qw (cof b M)) r)).
Proof. destruct b; reflexivity. Qed.
Local Opaque f_add f_sub f_mul f_div f_sqrt f_fma f_lit f_neg f_eq f_lt.
Ltac invm := cbv beta iota zeta delta [cof XMMatrixTranspose swz perm pick mergeXY mergeZW unpacklo unpackhi]; flm.
Ltac rwi := eapply r_weak; [rbt; sside|ring|rewrite ?Rabs_mult, ?Rabs_Ropp; ring|split; kside|split; lra|split; lra].
Lemma cof_bdr b M m i j S : holdsM M m -> 1 <= S <= pow2 30 -> mbounded S m ->
  bdr 5 (100 * S * eta) (8 * (S * S * S)) (lane (lane (cof b M) i) j) (checker i j * minor m j i) (minor_size m j i).
Proof.
  intros HM HS HB. pose proof (HM I0) as H0. pose proof (HM I1) as H1. pose proof (HM I2) as H2. pose proof (HM I3) as H3. clear HM.
  pose proof (HB I0) as B0. pose proof (HB I1) as B1. pose proof (HB I2) as B2. pose proof (HB I3) as B3. clear HB. revert H0 H1 H2 H3.
  destruct M as [[b0 b1 b2 b3] [c0 c1 c2 c3] [e0 e1 e2 e3] [d0 d1 d2 d3]], m as [[y0 y1 y2 y3] [z0 z1 z2 z3] [m0 m1 m2 m3] [t0 t1 t2 t3]]. cbn [lane qx qy qz qw] in B0, B1, B2, B3 |- *. hyps. bnds.
  apply scale_facts in HS. destruct HS as (S1 & S2 & S3 & S4 & S5 & E0 & E1 & E2 & E3).
  assert (BP := big_pos).
  destruct b as [|s3 s4 [|] av]; (match goal with |- context [cof ?b ?M] => set (C := cof b M); assert (EC : C = cof b M) by reflexivity; clearbody C; revert EC; invm; intros -> end).
  all: destruct i, j; cbv [minor minor_size rest checker even_idx Bool.eqb entry lane det3 det2 perm3 perm2]; cbn [qx qy qz qw].
  all: rwi.
Qed.
Lemma col0_E b M : col0 b M = Q (qx (qx M)) (qx (qy M)) (qx (qz M)) (qx (qw M)).
Proof. destruct b; reflexivity. Qed.
Lemma idet_bdr b M m i S : holdsM M m -> 1 <= S <= pow2 30 -> mbounded S m ->
  bdr 9 (420 * (S * S) * eta) (32 * (S * S * S * S)) (lane (fst (XMMatrixInverse (L:=FL) b M)) i) (mdet m) (mperm m).
Proof.
  intros HM HS HB. rewrite inv_split. cbv zeta. cbn [fst]. rewrite col0_E.
  pose proof (cof_bdr b M m I0 I0 S HM HS HB) as D0. pose proof (cof_bdr b M m I0 I1 S HM HS HB) as D1. pose proof (cof_bdr b M m I0 I2 S HM HS HB) as D2. pose proof (cof_bdr b M m I0 I3 S HM HS HB) as D3.
  pose proof (HM I0) as H0. pose proof (HM I1) as H1. pose proof (HM I2) as H2. pose proof (HM I3) as H3. clear HM.
  pose proof (HB I0) as B0. pose proof (HB I1) as B1. pose proof (HB I2) as B2. pose proof (HB I3) as B3. clear HB.
  set (C := cof b M) in *. clearbody C. revert H0 H1 H2 H3.
  destruct M as [[b0 b1 b2 b3] [c0 c1 c2 c3] [e0 e1 e2 e3] [d0 d1 d2 d3]], m as [[y0 y1 y2 y3] [z0 z1 z2 z3] [m0 m1 m2 m3] [t0 t1 t2 t3]]. cbn [lane qx qy qz qw] in B0, B1, B2, B3 |- *.
  destruct C as [[C0 C1 C2 C3] C4 C5 C6]. cbn [lane qx qy qz qw] in D0, D1, D2, D3 |- *. hyps.
  pose proof (B0 I0) as U0. pose proof (B1 I0) as U1. pose proof (B2 I0) as U2. pose proof (B3 I0) as U3. cbn [lane qx] in U0, U1, U2, U3. clear B0 B1 B2 B3.
  apply scale_facts in HS. destruct HS as (S1 & S2 & S3 & S4 & S5 & E0 & E1 & E2 & E3). assert (BP := big_pos).
  cbv [minor minor_size rest checker even_idx Bool.eqb entry lane] in D0, D1, D2, D3. cbn [qx qy qz qw] in D0, D1, D2, D3.
  destruct b as [|[|] [|] fm av]; destruct i; cbv beta iota zeta delta [XMVector4Dot dot4_sse2 dot4_sse3 mask4]; flm.
  all: eapply r_weak; [rbt; sside|unfold mdet, det4, det3, det2; cbn [qx qy qz qw]; ring|unfold mperm, mabs, vabs, perm4, perm3, perm2; cbn [qx qy qz qw]; ring|split; kside|split; lra|split; lra].
Qed.
