(** Error bounds of matrix and quaternion products and of linear interpolation on bit patterns. *)
From Coq Require Import Reals Lra Lia ZArith Bool.
From Flocq Require Import Core Relative IEEE754.BinarySingleNaN.
From Verif Require Import Base F32 F32Facts Intrin Lane MVec MTrig MQuat MMatrix MInterp SpecF32 PF32 SpecRound PFloat PExp SpecGeom SpecQuat SpecErr PErr PErrVec.
Open Scope R_scope.

Lemma word_mul z y : word (f_mul z y). Proof. apply enc_word. Qed.
Lemma word_lit m e : word (f_lit m e). Proof. apply enc_word. Qed.
Local Opaque f_add f_sub f_mul f_div f_sqrt f_fma f_lit f_neg f_eq f_lt.
Ltac flm := cbv beta iota zeta delta [T tadd tsub tmul tdiv tsqrt tneg tabs tfma tlt tle teq tlit pinf tqnan is_pinf Lane.is_nan FL
  qx qy qz qw qmap qmap2 qmap3 qrep lane setlane zero one two half tge tgt vadd vsub vmul vdiv vsqrt vmin vmax vzero vone
  add_ss sub_ss mul_ss div_ss sqrt_ss hadd moveldup vlt vle vgt vge veq vneq vand vsel mask3 mask_x splat permute_ps shuffle dp_ps
  FMADD FNMADD XMVectorMultiplyAdd XMVectorNegativeMultiplySubtract XMVectorAdd XMVectorSubtract XMVectorMultiply XMVectorDivide mij
  mul_row_scalar mul_row_sse mul_avx2 ymap2 ymap3 ysplat yperm00 yperm11 yperm20 yperm31 fst snd mone].
(** one row of a product: the three paths *)
Definition mul_row_avx2 (V : quad Z) (M : quad (quad Z)) : quad Z :=
  qmap2 f_add (qmap3 f_fma (qrep (qy V)) (qy M) (qmap2 f_mul (qrep (qx V)) (qx M))) (qmap3 f_fma (qrep (qw V)) (qw M) (qmap2 f_mul (qrep (qz V)) (qz M))).
Lemma mul_row_err f M x m i (V : quad Z) : f = mul_row_scalar (L:=FL) \/ f = mul_row_sse (L:=FL) \/ f = mul_row_avx2 ->
  holds4 V x -> holdsM M m -> safe (lane (vecmat (vabs x) (mabs m)) i) ->
  within (5 * ulp_half * lane (vecmat (vabs x) (mabs m)) i + 14 * tiny) (lane (f V M) i) (lane (vecmat x m) i).
Proof.
  intros Hf HV HM. pose proof (HM I0) as H0. pose proof (HM I1) as H1. pose proof (HM I2) as H2. pose proof (HM I3) as H3. clear HM. revert HV H0 H1 H2 H3.
  destruct V as [a0 a1 a2 a3]; destruct x as [x0 x1 x2 x3]. destruct M as [[b0 b1 b2 b3] [c0 c1 c2 c3] [e0 e1 e2 e3] [d0 d1 d2 d3]], m as [[y0 y1 y2 y3] [z0 z1 z2 z3] [m20 m21 m22 m23] [t0 t1 t2 t3]]. cbn [lane qx qy qz qw]. hyps. geo.
  destruct Hf as [-> | [-> | ->]]; unfold mul_row_avx2; destruct i; flm; cbn [lane qx qy qz qw] in *; fin.
Qed.
Lemma matmul_rows b (A M : quad (quad Z)) : exists f, (f = mul_row_scalar (L:=FL) \/ f = mul_row_sse (L:=FL) \/ f = mul_row_avx2) /\ forall i, lane (XMMatrixMultiply b A M) i = f (lane A i) M.
Proof.
  destruct b as [|s3 s4 fm [| |]].
  - exists mul_row_scalar. split; [auto|]. intros i; destruct i; reflexivity.
  - exists mul_row_sse. split; [auto|]. intros i; destruct i; reflexivity.
  - exists mul_row_sse. split; [auto|]. intros i; destruct i; reflexivity.
  - exists mul_row_avx2. split; [auto|]. intros i; destruct i; reflexivity.
Qed.
Lemma matmul_err b A M x m i j : holdsM A x -> holdsM M m -> safe (mij (matmul (mabs x) (mabs m)) i j) ->
  within (5 * ulp_half * mij (matmul (mabs x) (mabs m)) i j + 14 * tiny) (mij (XMMatrixMultiply b A M) i j) (mij (matmul x m) i j).
Proof.
  intros HA HM H. destruct (matmul_rows b A M) as (f & Hf & E). unfold mij in *. rewrite E.
  replace (lane (matmul x m) i) with (vecmat (lane x i) m) by (destruct i; reflexivity).
  replace (lane (matmul (mabs x) (mabs m)) i) with (vecmat (vabs (lane x i)) (mabs m)) in * by (destruct i; reflexivity).
  apply mul_row_err; [exact Hf|apply HA|exact HM|exact H].
Qed.

(** ** quaternion product *)
Lemma quatmul_bd b P V p x i : holds4 P p -> holds4 V x -> lane (ham_abs x p) i <= big ->
  bd 4 14 (lane (XMQuaternionMultiply b P V) i) (lane (ham x p) i) (lane (ham_abs x p) i).
Proof.
  destruct P as [a0 a1 a2 a3]; destruct V as [b0 b1 b2 b3]; destruct p as [x0 x1 x2 x3]; destruct x as [y0 y1 y2 y3]. hyps. unfold ham, ham_abs in *. geo.
  destruct b as [|s3 s4 [|] av]; destruct i; cbv beta iota zeta delta [XMQuaternionMultiply]; flm; cbn [lane qx qy qz qw] in *;
  (eapply bd_k; [eapply bd_a; [eapply bd_x; [bdt; try kside; try aside|ring]|aside]|split; kside|split; kside]).
Qed.
(** the second product of a rotation: the left operand of the Rust call has already been rounded *)
Ltac bdt2 := match goal with
  | |- bd _ _ (f_add _ _) _ _ => eapply bd_add; [bdt2|bdt2|idtac|idtac|idtac]
  | |- bd _ _ (f_sub _ _) _ _ => eapply bd_sub; [bdt2|bdt2|idtac|idtac|idtac]
  | |- bd _ _ (f_mul _ (f_lit 1 0)) _ _ => eapply bd_one; bdt2
  | |- bd _ _ (f_mul _ (f_lit (-1) 0)) _ _ => eapply bd_mone; bdt2
  | |- bd _ _ (f_fma _ (f_lit 1 0) _) _ _ => eapply bd_fma_one; [bdt2|bdt2|idtac|idtac|idtac]
  | |- bd _ _ (f_fma _ (f_lit (-1) 0) _) _ _ => eapply bd_fma_mone; [bdt2|bdt2|idtac|idtac|idtac]
  | |- bd _ _ (f_mul _ _) _ _ => eapply (bd_mull 2); [val|eassumption|eassumption|idtac|idtac|idtac|idtac]
  end.
Lemma quatmul_bd2 b P V p x i N : (forall j, bd 4 14 (lane P j) (lane p j) N) -> holds4 V x -> (forall j, Rabs (lane x j) <= 2) -> (Rabs (qx x) + Rabs (qy x) + Rabs (qz x) + Rabs (qw x)) * N <= big ->
  bd 8 126 (lane (XMQuaternionMultiply b P V) i) (lane (ham x p) i) ((Rabs (qx x) + Rabs (qy x) + Rabs (qz x) + Rabs (qw x)) * N).
Proof.
  intros HP HV HX HB. pose proof (HP I0) as B0. pose proof (HP I1) as B1. pose proof (HP I2) as B2. pose proof (HP I3) as B3. pose proof (HX I0) as X0. pose proof (HX I1) as X1. pose proof (HX I2) as X2. pose proof (HX I3) as X3. clear HP HX.
  revert B0 B1 B2 B3 HV X0 X1 X2 X3 HB. destruct P as [a0 a1 a2 a3]; destruct V as [b0 b1 b2 b3]; destruct p as [x0 x1 x2 x3]; destruct x as [y0 y1 y2 y3]. hyps. unfold ham in *. geo.
  assert (N0 : 0 <= N) by (destruct B0 as (_ & _ & A & _); pose proof (Rabs_pos x0); lra).
  assert (P0 : 0 <= Rabs y0 * N) by (apply Rmult_le_pos; [apply Rabs_pos|exact N0]). assert (P1 : 0 <= Rabs y1 * N) by (apply Rmult_le_pos; [apply Rabs_pos|exact N0]).
  assert (P2 : 0 <= Rabs y2 * N) by (apply Rmult_le_pos; [apply Rabs_pos|exact N0]). assert (P3 : 0 <= Rabs y3 * N) by (apply Rmult_le_pos; [apply Rabs_pos|exact N0]).
  destruct b as [|s3 s4 [|] av]; destruct i; cbv beta iota zeta delta [XMQuaternionMultiply]; flm; cbn [lane qx qy qz qw] in *;
  (eapply bd_k; [eapply bd_a; [eapply bd_x; [bdt2; try kside; try lra|ring]|lra]|split; kside|split; kside]).
Qed.

(** ** rotation of a vector by a quaternion *)
Lemma cs4 a b c d e f g h : a * e + b * f + c * g + d * h <= sqrt (a * a + b * b + c * c + d * d) * sqrt (e * e + f * f + g * g + h * h).
Proof.
  set (A := a * a + b * b + c * c + d * d). set (B := e * e + f * f + g * g + h * h).
  assert (A0 : 0 <= A) by (unfold A; pose proof (Rle_0_sqr a); pose proof (Rle_0_sqr b); pose proof (Rle_0_sqr c); pose proof (Rle_0_sqr d); unfold Rsqr in *; lra).
  assert (B0 : 0 <= B) by (unfold B; pose proof (Rle_0_sqr e); pose proof (Rle_0_sqr f); pose proof (Rle_0_sqr g); pose proof (Rle_0_sqr h); unfold Rsqr in *; lra).
  rewrite <- sqrt_mult by assumption. destruct (Rle_or_lt (a * e + b * f + c * g + d * h) 0) as [H|H]; [eapply Rle_trans; [exact H|apply sqrt_pos]|].
  rewrite <- (sqrt_square (a * e + b * f + c * g + d * h)) by lra. apply sqrt_le_1_alt. unfold A, B.
  pose proof (Rle_0_sqr (a * f - b * e)). pose proof (Rle_0_sqr (a * g - c * e)). pose proof (Rle_0_sqr (a * h - d * e)). pose proof (Rle_0_sqr (b * g - c * f)). pose proof (Rle_0_sqr (b * h - d * f)). pose proof (Rle_0_sqr (c * h - d * g)).
  unfold Rsqr in *. lra.
Qed.
Lemma abs_sq a : Rabs a * Rabs a = a * a. Proof. rewrite <- Rabs_mult. apply Rabs_pos_eq, (Rle_0_sqr a). Qed.
Lemma ham_abs_le x p i : lane (ham_abs x p) i <= norm4 x * norm4 p.
Proof.
  destruct x as [a b c d]; destruct p as [e f g h]. unfold ham_abs, vabs, norm4, dot4. destruct i; cbn [lane qx qy qz qw].
  - eapply Rle_trans; [apply (cs4 (Rabs d) (Rabs a) (Rabs b) (Rabs c) (Rabs e) (Rabs h) (Rabs g) (Rabs f))|]. rewrite !abs_sq. right. f_equal; f_equal; ring.
  - eapply Rle_trans; [apply (cs4 (Rabs d) (Rabs b) (Rabs c) (Rabs a) (Rabs f) (Rabs h) (Rabs e) (Rabs g))|]. rewrite !abs_sq. right. f_equal; f_equal; ring.
  - eapply Rle_trans; [apply (cs4 (Rabs d) (Rabs c) (Rabs a) (Rabs b) (Rabs g) (Rabs h) (Rabs f) (Rabs e))|]. rewrite !abs_sq. right. f_equal; f_equal; ring.
  - eapply Rle_trans; [apply (cs4 (Rabs d) (Rabs a) (Rabs b) (Rabs c) (Rabs h) (Rabs e) (Rabs f) (Rabs g))|]. rewrite !abs_sq. right. f_equal; f_equal; ring.
Qed.
Lemma sum_abs_le x : Rabs (qx x) + Rabs (qy x) + Rabs (qz x) + Rabs (qw x) <= 2 * norm4 x.
Proof.
  pose proof (cs4 (Rabs (qx x)) (Rabs (qy x)) (Rabs (qz x)) (Rabs (qw x)) 1 1 1 1) as H. rewrite !abs_sq, !Rmult_1_r in H. replace (1 + 1 + 1 + 1) with (2 * 2) in H by ring. rewrite sqrt_square in H by lra.
  unfold norm4, dot4. lra.
Qed.
Lemma lane_le_norm4 x j : Rabs (lane x j) <= norm4 x.
Proof.
  destruct x as [a b c d]. unfold norm4, dot4. cbn [qx qy qz qw]. pose proof (Rle_0_sqr a). pose proof (Rle_0_sqr b). pose proof (Rle_0_sqr c). pose proof (Rle_0_sqr d). unfold Rsqr in *.
  destruct j; cbn [lane qx qy qz qw]; rewrite <- sqrt_Rsqr_abs; apply sqrt_le_1_alt; unfold Rsqr; lra.
Qed.
Lemma conj_holds b V x : holds4 V x -> holds4 (XMQuaternionConjugate b V) (conj x).
Proof.
  destruct V as [b0 b1 b2 b3]; destruct x as [y0 y1 y2 y3]. hyps.
  assert (M : forall z t, value z = Fin t -> value (f_mul z (f_lit (-1) 0)) = Fin (- t)).
  { intros z t H. destruct (value_fmt _ _ H) as (F & G). replace (- t) with (t * -1) by ring. apply mul_exact; [exact H|exact val_mone|replace (t * -1) with (- t) by ring; apply fmt_opp, F|replace (t * -1) with (- t) by ring; rewrite Rabs_Ropp; exact G]. }
  assert (O : forall z t, value z = Fin t -> value (f_mul z (f_lit 1 0)) = Fin t).
  { intros z t H. destruct (value_fmt _ _ H) as (F & G). rewrite <- (Rmult_1_r t). apply mul_exact; [exact H|exact val_one|rewrite Rmult_1_r; exact F|rewrite Rmult_1_r; exact G]. }
  assert (WM : forall z y, word (f_mul z y)) by exact word_mul.
  assert (WN : forall z, word z -> word (f_neg z)) by (intros z H; apply (word_neg z H)).
  unfold conj. cbn [qx qy qz qw]. destruct b; cbv beta iota zeta delta [XMQuaternionConjugate]; flm; unfold is32; cbn [qx qy qz qw];
  (split; [|split; [|split]]); (split; [first [apply WM|apply WN; assumption|assumption]|first [apply M; assumption|apply O; assumption|apply neg_val; assumption|assumption]]).
Qed.
Lemma direction_holds V v : holds3 V v -> holds4 (vsel vzero V mask3) (direction v).
Proof.
  destruct V as [b0 b1 b2 b3]; destruct v as [y0 y1 y2 y3]. hyps. unfold direction. flm. unfold is32. cbn [qx qy qz qw].
  refine (Logic.conj (Logic.conj _ _) (Logic.conj (Logic.conj _ _) (Logic.conj (Logic.conj _ _) (Logic.conj _ _)))); try assumption; [apply word_lit|exact val_zero].
Qed.
Lemma norm4_conj x : norm4 (conj x) = norm4 x. Proof. destruct x as [a b c d]. unfold norm4, dot4, conj. cbn [qx qy qz qw]. f_equal. ring. Qed.
Lemma norm4_dir x : norm4 (direction x) = norm3 x. Proof. destruct x as [a b c d]. unfold norm4, norm3, dot4, dot3, direction. cbn [qx qy qz qw]. f_equal. ring. Qed.
Lemma qrot_alt q v : ham q (ham (direction v) (conj q)) = qrot q v.
Proof. destruct q as [a b c d]; destruct v as [e f g h]. unfold qrot, ham, conj, direction. cbn [qx qy qz qw]. f_equal; ring. Qed.
Lemma rot_bd b (A Q1 Q2 : quad Z) v q1 q2 i : holds3 A v -> holds4 Q1 q1 -> holds4 Q2 q2 -> norm4 q1 <= 2 -> norm4 q2 <= 2 -> 8 * norm3 v <= big ->
  bd 8 126 (lane (XMQuaternionMultiply b (XMQuaternionMultiply b Q1 (vsel vzero A mask3)) Q2) i) (lane (ham q2 (ham (direction v) q1)) i) (8 * norm3 v).
Proof.
  intros HA H1 H2 N1 N2 HB. assert (V0 : 0 <= norm3 v) by apply sqrt_pos. assert (Q0 : 0 <= norm4 q1) by apply sqrt_pos.
  assert (E : norm3 v * norm4 q1 <= 2 * norm3 v) by (rewrite Rmult_comm; apply Rmult_le_compat_r; assumption).
  assert (HP : forall j, bd 4 14 (lane (XMQuaternionMultiply b Q1 (vsel vzero A mask3)) j) (lane (ham (direction v) q1) j) (2 * norm3 v)).
  { intros j. assert (L : lane (ham_abs (direction v) q1) j <= 2 * norm3 v) by (eapply Rle_trans; [apply ham_abs_le|rewrite norm4_dir; exact E]).
    eapply bd_a; [apply quatmul_bd; [exact H1|apply direction_holds, HA|lra]|exact L]. }
  assert (L2 : forall j, Rabs (lane q2 j) <= 2) by (intros j; eapply Rle_trans; [apply lane_le_norm4|exact N2]).
  assert (S : (Rabs (qx q2) + Rabs (qy q2) + Rabs (qz q2) + Rabs (qw q2)) * (2 * norm3 v) <= 8 * norm3 v).
  { apply Rle_trans with (4 * (2 * norm3 v)); [|lra]. apply Rmult_le_compat_r; [lra|]. pose proof (sum_abs_le q2). lra. }
  eapply bd_a; [apply quatmul_bd2; [exact HP|exact H2|exact L2|lra]|exact S].
Qed.
Lemma rotate_err b V Qt v q i : holds3 V v -> holds4 Qt q -> norm4 q <= 2 -> safe (8 * norm3 v) ->
  within (72 * ulp_half * norm3 v + 126 * tiny) (lane (XMVector3Rotate b V Qt) i) (lane (qrot q v) i)
  /\ within (72 * ulp_half * norm3 v + 126 * tiny) (lane (XMVector3InverseRotate b V Qt) i) (lane (qrot (conj q) v) i).
Proof.
  intros HV HQ HN HB. unfold safe in HB. rewrite big_pow2 in HB. pose proof (conj_holds b Qt q HQ) as HC. pose proof HN as HN'. rewrite <- norm4_conj in HN'. split.
  - rewrite <- qrot_alt. replace (72 * ulp_half * norm3 v) with (9 * ulp_half * (8 * norm3 v)) by ring. eapply bd_fin; [apply (rot_bd b V _ _ v (conj q) q i HV HC HQ HN' HN HB)|reflexivity|lra|kside|kside].
  - rewrite <- qrot_alt. replace (conj (conj q)) with q by (destruct q as [a b' c d]; unfold conj; cbn [qx qy qz qw]; f_equal; ring).
    replace (72 * ulp_half * norm3 v) with (9 * ulp_half * (8 * norm3 v)) by ring. eapply bd_fin; [apply (rot_bd b V _ _ v q (conj q) i HV HQ HC HN HN' HB)|reflexivity|lra|kside|kside].
Qed.
Lemma quatmul_err b P V p x i : holds4 P p -> holds4 V x -> safe (lane (ham_abs x p) i) ->
  within (5 * ulp_half * lane (ham_abs x p) i + 14 * tiny) (lane (XMQuaternionMultiply b P V) i) (lane (ham x p) i).
Proof. intros HP HV HS. unfold safe in HS. rewrite big_pow2 in HS. eapply bd_fin; [apply (quatmul_bd b P V p x i HP HV HS)|reflexivity|lra|kside|kside]. Qed.
(** ** linear interpolation *)
Lemma lerp_err b V0 V1 z x0 x1 t i : is32 (lane V0 i) x0 -> is32 (lane V1 i) x1 -> is32 z t -> Rabs t <= 1 -> safe (2 * Rabs x0 + Rabs x1) ->
  within (5 * ulp_half * (Rabs x0 + Rabs t * (Rabs x1 + Rabs x0)) + 10 * tiny) (lane (XMVectorLerp b V0 V1 z) i) (x0 + t * (x1 - x0)).
Proof.
  intros (W0 & E0) (W1 & E1) (Wt & Et) Ht HS. unfold safe in HS. rewrite big_pow2 in HS.
  pose proof (Rabs_pos x0) as P0. pose proof (Rabs_pos x1) as P1. pose proof (Rabs_pos t) as Pt.
  assert (B : Rabs t * (Rabs x1 + Rabs x0) <= Rabs x1 + Rabs x0) by (rewrite <- (Rmult_1_l (Rabs x1 + Rabs x0)) at 2; apply Rmult_le_compat_r; lra).
  assert (B0 : 0 <= Rabs t * (Rabs x1 + Rabs x0)) by (apply Rmult_le_pos; lra).
  destruct V0 as [a0 a1 a2 a3]; destruct V1 as [b0 b1 b2 b3].
  assert (D : forall p q, value p = Fin x0 -> value q = Fin x1 -> bd 1 2 (f_sub q p) (x1 - x0) (Rabs x1 + Rabs x0)).
  { intros p q Hp Hq. eapply bd_k; [eapply bd_sub; [apply bd_exact; exact Hq|apply bd_exact; exact Hp|lra|kside|kside]|split; kside|split; kside]. }
  destruct b as [|s3 s4 [|] av]; destruct i; cbv beta iota zeta delta [XMVectorLerp]; flm; cbn [lane qx qy qz qw] in *;
  first [eapply bd_fin; [eapply bd_add; [eapply (bd_mulr 1); [exact Et|exact Ht|apply D; eassumption|lra|kside|kside|kside]|apply bd_exact; eassumption|lra|kside|kside]|ring|lra|kside|kside]
        |eapply bd_fin; [eapply (bd_fmal 1); [apply D; eassumption|exact Et|exact Ht|apply bd_exact; eassumption|lra|kside|kside|kside]|ring|lra|kside|kside]].
Qed.
