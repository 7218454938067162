(** Rounding errors of reflection, of the decomposition along a normal, of the four-dimensional cross product and of the
    plane functions, on bit patterns. *)
From Coq Require Import Reals Lra Lia ZArith Bool.
From Flocq Require Import Core Relative IEEE754.BinarySingleNaN.
From Verif Require Import Base F32 F32Facts Intrin Lane MVec MTrig MQuat MInterp MMatrix MPlane SpecF32 PF32 SpecRound PFloat PExp SpecGeom SpecMat SpecErr SpecErrR PErr PErrVec PErrMat PFix PErrR PErrDet PErrInt.
Open Scope R_scope.
Local Opaque f_add f_sub f_mul f_div f_sqrt f_fma f_lit f_neg f_eq f_lt.


Ltac open3 := repeat match goal with
  | H : is32 ?z ?x |- _ => let W := fresh "W" in let V := fresh "V" in destruct H as (W & V); change (word z) in W
  end.
Ltac rwd := eapply r_weak; [rbt; sside|ring|abss; ring|split; kside|split; lra|split; lra].
Lemma dot2_bdr b V1 V2 x y i S : holds2 V1 x -> holds2 V2 y -> 1 <= S <= pow2 100 -> bounded2 S x -> bounded2 2 y ->
  bdr 4 (20 * eta) (8 * S) (lane (XMVector2Dot b V1 V2) i) (dot2 x y) (dot2 (vabs x) (vabs y)).
Proof.
  intros (X0 & X1) (Y0 & Y1) HS (U0 & U1) (U3 & U4). apply scale1_facts in HS. destruct HS as (S1 & S2 & E0 & E1 & E2). assert (BP := big_pos).
  destruct V1 as [a0 a1 a2 a3], V2 as [b0 b1 b2 b3], x as [x0 x1 x2 x3], y as [y0 y1 y2 y3]. cbn [qx qy qz qw] in *. open3. unfold dot2, vabs. cbn [qx qy qz qw].
  destruct b as [|s3 [|] f av]; destruct i; cbv beta iota zeta delta [XMVector2Dot dot2_sse2]; flm; rwd.
Qed.
Lemma dot3_bdr b V1 V2 x y i S : holds3 V1 x -> holds3 V2 y -> 1 <= S <= pow2 100 -> bounded3 S x -> bounded3 2 y ->
  bdr 4 (20 * eta) (8 * S) (lane (XMVector3Dot b V1 V2) i) (dot3 x y) (dot3 (vabs x) (vabs y)).
Proof.
  intros (X0 & X1 & X2) (Y0 & Y1 & Y2) HS (U0 & U1 & U2) (U3 & U4 & U5). apply scale1_facts in HS. destruct HS as (S1 & S2 & E0 & E1 & E2). assert (BP := big_pos).
  destruct V1 as [a0 a1 a2 a3], V2 as [b0 b1 b2 b3], x as [x0 x1 x2 x3], y as [y0 y1 y2 y3]. cbn [qx qy qz qw] in *. open3. unfold dot3, vabs. cbn [qx qy qz qw].
  destruct b as [|[|] [|] f av]; destruct i; cbv beta iota zeta delta [XMVector3Dot dot3_sse2]; flm; rwd.
Qed.
Lemma dot4_bdr b V1 V2 x y i S : holds4 V1 x -> holds4 V2 y -> 1 <= S <= pow2 100 -> bounded S x -> bounded 2 y ->
  bdr 5 (20 * eta) (8 * S) (lane (XMVector4Dot b V1 V2) i) (dot4 x y) (dot4 (vabs x) (vabs y)).
Proof.
  intros (X0 & X1 & X2 & X3) (Y0 & Y1 & Y2 & Y3) HS HU HW. apply scale1_facts in HS. destruct HS as (S1 & S2 & E0 & E1 & E2). assert (BP := big_pos).
  destruct V1 as [a0 a1 a2 a3], V2 as [b0 b1 b2 b3], x as [x0 x1 x2 x3], y as [y0 y1 y2 y3]. bnds. cbn [qx qy qz qw] in *. open3. unfold dot4, vabs. cbn [qx qy qz qw].
  destruct b as [|[|] [|] f av]; destruct i; cbv beta iota zeta delta [XMVector4Dot dot4_sse2 dot4_sse3 mask4]; flm; rwd.
Qed.
(** what follows the dot product in the three reflections *)
Lemma reflect_tail b (D I N : quad Z) i k x a ii n S : (k <= 5)%Z -> bdr k (20 * eta) (8 * S) (lane D i) x a -> is32 (lane I i) ii -> is32 (lane N i) n -> 1 <= S <= pow2 100 -> Rabs ii <= S -> Rabs n <= 2 ->
  within (9 * ulp_half * (Rabs ii + 2 * (Rabs n * a)) + 100 * tiny) (lane (XMVectorNegativeMultiplySubtract b (XMVectorAdd b D D) N I) i) (ii - 2 * x * n).
Proof.
  intros HK HD (W0 & V0) (W1 & V1) HS U0 U1. apply scale1_facts in HS. destruct HS as (S1 & S2 & E0 & E1 & E2). assert (BP := big_pos).
  apply (fun H => r_weak 5 (20 * eta) (8 * S) _ _ _ _ _ _ _ _ H eq_refl eq_refl) in HD; [|lia|lra|lra].
  destruct D as [d0 d1 d2 d3], I as [a0 a1 a2 a3], N as [b0 b1 b2 b3].
  destruct b as [|s3 s4 [|] av]; destruct i; flx; cbn [lane qx qy qz qw] in *; rfix.
Qed.
Lemma reflect2_err b I N x n i S : holds2 I x -> holds2 N n -> (i = I0 \/ i = I1) -> 1 <= S <= pow2 100 -> bounded2 S x -> bounded2 2 n ->
  within (9 * ulp_half * (Rabs (lane x i) + 2 * (Rabs (lane n i) * dot2 (vabs x) (vabs n))) + 100 * tiny) (lane (XMVector2Reflect b I N) i) (lane x i - 2 * dot2 x n * lane n i).
Proof.
  intros HI HN Hi HS U0 U1. unfold XMVector2Reflect. pose proof (dot2_bdr b I N x n i S HI HN HS U0 U1) as D. destruct HI as (A0 & A1), HN as (B0 & B1), U0 as (C0 & C1), U1 as (D0 & D1).
  destruct Hi as [-> | ->]; (eapply reflect_tail; [|exact D|eassumption|eassumption|exact HS|assumption|assumption]; lia).
Qed.
Lemma reflect3_err b I N x n i S : holds3 I x -> holds3 N n -> i <> I3 -> 1 <= S <= pow2 100 -> bounded3 S x -> bounded3 2 n ->
  within (9 * ulp_half * (Rabs (lane x i) + 2 * (Rabs (lane n i) * dot3 (vabs x) (vabs n))) + 100 * tiny) (lane (XMVector3Reflect b I N) i) (lane x i - 2 * dot3 x n * lane n i).
Proof.
  intros HI HN Hi HS U0 U1. unfold XMVector3Reflect. pose proof (dot3_bdr b I N x n i S HI HN HS U0 U1) as D. destruct HI as (A0 & A1 & A2), HN as (B0 & B1 & B2), U0 as (C0 & C1 & C2), U1 as (D0 & D1 & D2).
  destruct i; try congruence; (eapply reflect_tail; [|exact D|eassumption|eassumption|exact HS|assumption|assumption]; lia).
Qed.
Lemma reflect4_err b I N x n i S : holds4 I x -> holds4 N n -> 1 <= S <= pow2 100 -> bounded S x -> bounded 2 n ->
  within (9 * ulp_half * (Rabs (lane x i) + 2 * (Rabs (lane n i) * dot4 (vabs x) (vabs n))) + 100 * tiny) (lane (XMVector4Reflect b I N) i) (lane x i - 2 * dot4 x n * lane n i).
Proof.
  intros HI HN HS U0 U1. unfold XMVector4Reflect. pose proof (dot4_bdr b I N x n i S HI HN HS U0 U1) as D. pose proof (U0 i) as Ui. pose proof (U1 i) as Un. destruct HI as (A0 & A1 & A2 & A3), HN as (B0 & B1 & B2 & B3).
  destruct i; (eapply reflect_tail; [|exact D|eassumption|eassumption|exact HS|exact Ui|exact Un]; lia).
Qed.
(** the component along a normal and the rest *)
Lemma components_err b V N x n i S : holds3 V x -> holds3 N n -> i <> I3 -> 1 <= S <= pow2 100 -> bounded3 S x -> bounded3 2 n ->
  within (7 * ulp_half * (Rabs (lane n i) * dot3 (vabs x) (vabs n)) + 100 * tiny) (lane (fst (XMVector3ComponentsFromNormal b V N)) i) (dot3 x n * lane n i)
  /\ within (8 * ulp_half * (Rabs (lane x i) + Rabs (lane n i) * dot3 (vabs x) (vabs n)) + 100 * tiny) (lane (snd (XMVector3ComponentsFromNormal b V N)) i) (lane x i - dot3 x n * lane n i).
Proof.
  intros HI HN Hi HS U0 U1. unfold XMVector3ComponentsFromNormal. pose proof (dot3_bdr b V N x n i S HI HN HS U0 U1) as D. apply scale1_facts in HS. destruct HS as (S1 & S2 & E0 & E1 & E2). assert (BP := big_pos).
  destruct HI as ((W0 & V0) & (W1 & V1) & (W2 & V2)), HN as ((W3 & V3) & (W4 & V4) & (W5 & V5)), U0 as (C0 & C1 & C2), U1 as (D0 & D1 & D2). cbn [fst snd].
  set (Z := XMVector3Dot b V N) in *. clearbody Z. destruct V as [a0 a1 a2 a3], N as [b0 b1 b2 b3], Z as [z0 z1 z2 z3], x as [x0 x1 x2 x3], n as [y0 y1 y2 y3].
  destruct i; try congruence; cbn [lane qx qy qz qw] in *; set (d := dot3 _ _) in *; set (da := dot3 (vabs _) _) in *; clearbody d da; (split; destruct b as [|s3 s4 fm av]; flm; rfix).
Qed.
(** the four-dimensional cross product: the cofactors of three vectors *)
Lemma cross4_err b V1 V2 V3 x y z i S : holds4 V1 x -> holds4 V2 y -> holds4 V3 z -> 1 <= S <= pow2 30 -> bounded S x -> bounded S y -> bounded S z ->
  within (7 * ulp_half * lane (cross4_size (vabs x) (vabs y) (vabs z)) i + 100 * S * tiny) (lane (XMVector4Cross b V1 V2 V3) i) (lane (cross4 x y z) i).
Proof.
  intros (X0 & X1 & X2 & X3) (Y0 & Y1 & Y2 & Y3) (Z0 & Z1 & Z2 & Z3) HS HU HV HW. apply scale_facts in HS. destruct HS as (S1 & S2 & S3 & S4 & S5 & E0 & E1 & E2 & E3). assert (BP := big_pos).
  destruct V1 as [a0 a1 a2 a3], V2 as [b0 b1 b2 b3], V3 as [c0 c1 c2 c3], x as [x0 x1 x2 x3], y as [y0 y1 y2 y3], z as [z0 z1 z2 z3]. bnds. cbn [qx qy qz qw] in *. open3.
  unfold cross4, cross4_size, vabs. cbv [det3 det2 perm3 perm2]. cbn [qx qy qz qw].
  destruct b as [|s3 s4 [|] av]; destruct i; cbv beta iota zeta delta [XMVector4Cross]; flm; cbn [lane qx qy qz qw] in *; rfix.
Qed.
(** planes *)
Lemma plane_transform_err b P M x m i : holds4 P x -> holdsM M m -> safe (lane (vecmat (vabs x) (mabs m)) i) ->
  within (5 * ulp_half * lane (vecmat (vabs x) (mabs m)) i + 14 * tiny) (lane (XMPlaneTransform b P M) i) (lane (vecmat x m) i).
Proof.
  intros HV HM. pose proof (HM I0) as H0. pose proof (HM I1) as H1. pose proof (HM I2) as H2. pose proof (HM I3) as H3. clear HM. revert HV H0 H1 H2 H3.
  dq4 P a0 a1 a2 a3; dq4 x x0 x1 x2 x3. destruct M as [[b0 b1 b2 b3] [c0 c1 c2 c3] [e0 e1 e2 e3] [d0 d1 d2 d3]], m as [[y0 y1 y2 y3] [z0 z1 z2 z3] [m20 m21 m22 m23] [t0 t1 t2 t3]]. cbn [lane qx qy qz qw]. hyps. geo.
  destruct b as [|s3 s4 [|] av]; destruct i; cbv beta iota zeta delta [XMPlaneTransform]; flm; cbn [lane qx qy qz qw] in *; fin.
Qed.
Lemma plane_dot_coord_err b P V x y i : holds4 P x -> holds3 V y -> safe (dot4 (vabs x) (vabs (point y))) ->
  within (5 * ulp_half * dot4 (vabs x) (vabs (point y)) + 14 * tiny) (lane (XMPlaneDotCoord b P V) i) (dot4 x (point y)).
Proof.
  intros HP HV HB. unfold XMPlaneDotCoord. apply dot4_err; [exact HP| |exact HB]. destruct HV as (A & B & C), V as [a0 a1 a2 a3], y as [y0 y1 y2 y3]. repeat apply conj; try assumption; cbn [qx qy qz qw point vsel qmap3 mask3 vone qrep].
  all: try (apply A); try (apply B); try (apply C). all: first [apply word_lit | exact val_one].
Qed.
Lemma plane_from_point_normal_err b P N x n i : holds3 P x -> holds3 N n -> safe (dot3 (vabs x) (vabs n)) ->
  (i <> I3 -> lane (XMPlaneFromPointNormal b P N) i = lane N i)
  /\ within (4 * ulp_half * dot3 (vabs x) (vabs n) + 12 * tiny) (qw (XMPlaneFromPointNormal b P N)) (- dot3 x n).
Proof.
  intros HP HN HB. unfold XMPlaneFromPointNormal. split; [intros Hi; destruct i; try congruence; destruct N; reflexivity|].
  pose proof (dot3_err b P N x n I3 HP HN HB) as (r & V & E). set (D := XMVector3Dot b P N) in *. 
  assert (WD : word (qw D)).
  { unfold D. destruct P as [p0 p1 p2 p3], N as [n0 n1 n2 n3]. destruct b as [|[|] [|] f av]; cbv beta iota zeta delta [XMVector3Dot dot3_sse2]; flm; first [apply word_a | apply word_m]. }
  clearbody D. destruct D as [d0 d1 d2 d3]. cbn [lane qx qy qz qw] in *.
  assert (H : value (qw (XMVectorNegate b (Q d0 d1 d2 d3))) = Fin (- r)).
  { destruct b as [|s3 s4 f av]; cbv beta iota zeta delta [XMVectorNegate]; flm.
    - apply neg_val; assumption.
    - destruct (value_fmt _ _ V) as (F & H). replace (- r) with (0 - r) by ring. apply sub_exact; [exact val_zero|exact V|replace (0 - r) with (- r) by ring; apply fmt_opp, F|replace (0 - r) with (- r) by ring; rewrite Rabs_Ropp; exact H]. }
  exists (- r). split; [destruct N; exact H|]. replace (- r - - dot3 x n) with (- (r - dot3 x n)) by ring. rewrite Rabs_Ropp. exact E.
Qed.
