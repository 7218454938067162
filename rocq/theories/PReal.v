(** Tactics and closed forms for the real instance [RL]. *)
From Coq Require Import Reals Lra Psatz.
From Verif Require Import Base F32 Intrin Lane SpecGeom.
Open Scope R_scope.

Lemma Rltb_spec a b : Bool.reflect (a < b) (Rltb a b).
Proof. unfold Rltb; destruct (Rlt_dec a b); constructor; assumption. Qed.
Lemma Rleb_spec a b : Bool.reflect (a <= b) (Rleb a b).
Proof. unfold Rleb; destruct (Rle_dec a b); constructor; assumption. Qed.
Lemma Reqb_spec a b : Bool.reflect (a = b) (Reqb a b).
Proof. unfold Reqb; destruct (Req_EM_T a b); constructor; assumption. Qed.
Lemma Rltb_true a b : Rltb a b = true <-> a < b.
Proof. destruct (Rltb_spec a b); split; easy. Qed.
Lemma Rleb_true a b : Rleb a b = true <-> a <= b.
Proof. destruct (Rleb_spec a b); split; easy. Qed.
Lemma Reqb_true a b : Reqb a b = true <-> a = b.
Proof. destruct (Reqb_spec a b); split; easy. Qed.
Lemma Rltb_false a b : Rltb a b = false <-> b <= a.
Proof. destruct (Rltb_spec a b); split; try easy; intros; lra. Qed.
Lemma Rleb_false a b : Rleb a b = false <-> b < a.
Proof. destruct (Rleb_spec a b); split; try easy; intros; lra. Qed.
Lemma Reqb_false a b : Reqb a b = false <-> a <> b.
Proof. destruct (Reqb_spec a b); split; easy. Qed.

(** split on one comparison *)
Ltac rcase :=
  match goal with
  | |- context [Rltb ?a ?b] => destruct (Rltb_spec a b)
  | |- context [Rleb ?a ?b] => destruct (Rleb_spec a b)
  | |- context [Reqb ?a ?b] => destruct (Reqb_spec a b)
  | H : context [Rltb ?a ?b] |- _ => destruct (Rltb_spec a b)
  | H : context [Rleb ?a ?b] |- _ => destruct (Rleb_spec a b)
  | H : context [Reqb ?a ?b] |- _ => destruct (Reqb_spec a b)
  end.

(** evaluate model code down to real-number operations *)
Ltac rcbv := cbv -[Rplus Rmult Ropp Rminus Rdiv Rinv IZR Rltb Rleb Reqb sqrt Rabs Rmax Rmin Rle Rlt Rge Rgt Rge Rgt not iff
                   sin cos tan PI asin acos atan Rrint Rfloor Rceil Rtrunc Rtrunc32].
Ltac rcbv_in H := cbv -[Rplus Rmult Ropp Rminus Rdiv Rinv IZR Rltb Rleb Reqb sqrt Rabs Rmax Rmin Rle Rlt Rge Rgt Rge Rgt not iff
                   sin cos tan PI asin acos atan Rrint Rfloor Rceil Rtrunc Rtrunc32] in H.
Ltac rt := change (T RL) with R in *.
Ltac dq v := let x := fresh v "x" in let y := fresh v "y" in let z := fresh v "z" in let w := fresh v "w" in
  destruct v as [x y z w]; change (T RL) with R in *.
Ltac bk b := destruct b as [|[|] [|] [|] [| |]].
Lemma Qeq {A} (a b c d a' b' c' d' : A) : a = a' -> b = b' -> c = c' -> d = d' -> Q a b c d = Q a' b' c' d'.
Proof. congruence. Qed.
(** unfold the lane layer only *)
Ltac rl := cbv beta iota zeta delta [T tadd tsub tmul tdiv tsqrt tneg tabs tfma tlt tle teq tlit pinf tqnan is_pinf is_nan tsgn trint tfloor tceil ttrunc ttrunc32 RL
  qx qy qz qw qmap qmap2 qmap3 qrep lane setlane Rlit Z.pow_pos Pos.iter Z.mul Pos.mul
  zero one two half tge tgt vadd vsub vmul vdiv vsqrt vmin vmax vzero vone add_ss sub_ss mul_ss div_ss sqrt_ss hadd moveldup
  vlt vle vgt vge veq vneq vand vsel mask3 mask_x mask_y mask_z mask_w mnot mor mand mandc mtrue mfalse IdR0 IdR1 IdR2 IdR3
  splat permute_ps shuffle perm pick swz mergeXY mergeZW unpacklo unpackhi set_ps set_ss move_ss].
Ltac qeq := apply (@Qeq R); rl.
Ltac qring := qeq; ring.

Lemma lit0 : Rlit 0 0 = 0. Proof. reflexivity. Qed.
Lemma Rabs_max x : (if Rltb x (0 - x) then 0 - x else x) = Rabs x.
Proof. rcase; unfold Rabs; destruct (Rcase_abs x); lra. Qed.

(** ** Closed forms of the lane-wise operations, every backend *)
Lemma Add_R b (u v : rvec) : XMVectorAdd b u v = plus u v.
Proof. bk b; reflexivity. Qed.
Lemma Sub_R b (u v : rvec) : XMVectorSubtract b u v = minus u v.
Proof. bk b; reflexivity. Qed.
Lemma Mul_R b (u v : rvec) : XMVectorMultiply b u v = qmap2 Rmult u v.
Proof. bk b; reflexivity. Qed.
Lemma Div_R b (u v : rvec) : XMVectorDivide b u v = qmap2 Rdiv u v.
Proof. bk b; reflexivity. Qed.
Lemma FMADD_R b (u v w : rvec) : FMADD b u v w = qmap3 (fun x y z => x * y + z) u v w.
Proof. bk b; reflexivity. Qed.
Lemma FNMADD_R b (u v w : rvec) : FNMADD b u v w = qmap3 (fun x y z => z - x * y) u v w.
Proof. bk b; dq u; dq v; dq w; rcbv; qring. Qed.
Lemma MulAdd_R b (u v w : rvec) : XMVectorMultiplyAdd b u v w = qmap3 (fun x y z => x * y + z) u v w.
Proof. bk b; reflexivity. Qed.
Lemma NMulSub_R b (u v w : rvec) : XMVectorNegativeMultiplySubtract b u v w = qmap3 (fun x y z => z - x * y) u v w.
Proof. bk b; dq u; dq v; dq w; rcbv; qring. Qed.
Lemma Scale_R b (u : rvec) s : XMVectorScale b u s = scale s u.
Proof. bk b; dq u; rcbv; qring. Qed.
Lemma Recip_R b (u : rvec) : XMVectorReciprocal b u = qmap (fun x => 1 / x) u.
Proof. bk b; reflexivity. Qed.
Lemma Sqrt_R b (u : rvec) : XMVectorSqrt b u = qmap sqrt u.
Proof. bk b; reflexivity. Qed.
Lemma RSqrt_R b (u : rvec) : XMVectorReciprocalSqrt b u = qmap (fun x => 1 / sqrt x) u.
Proof. bk b; reflexivity. Qed.
Lemma Neg_R b (u : rvec) : XMVectorNegate b u = qmap Ropp u.
Proof. bk b; dq u; rcbv; qring. Qed.
Lemma Abs_R b (u : rvec) : XMVectorAbs b u = qmap Rabs u.
Proof. bk b; dq u; rcbv; rewrite ?Rabs_max; reflexivity. Qed.
Lemma Sum_R b (u : rvec) : XMVectorSum b u = qrep (qx u + qy u + qz u + qw u).
Proof. bk b; dq u; rcbv; qring. Qed.

(** ** Real inequalities used for vectors *)
Lemma cs2 a b c d : (a * c + b * d) * (a * c + b * d) <= (a * a + b * b) * (c * c + d * d).
Proof. pose proof (Rle_0_sqr (a * d - b * c)) as H; unfold Rsqr in H; lra. Qed.
Lemma cs4 a b c d e f g h :
  (a * e + b * f + c * g + d * h) * (a * e + b * f + c * g + d * h)
  <= (a * a + b * b + c * c + d * d) * (e * e + f * f + g * g + h * h).
Proof.
  pose proof (Rle_0_sqr (a*f-b*e)). pose proof (Rle_0_sqr (a*g-c*e)). pose proof (Rle_0_sqr (a*h-d*e)).
  pose proof (Rle_0_sqr (b*g-c*f)). pose proof (Rle_0_sqr (b*h-d*f)). pose proof (Rle_0_sqr (c*h-d*g)).
  unfold Rsqr in *; lra.
Qed.
Lemma dot4_nonneg u : 0 <= dot4 u u. Proof. unfold dot4; nra. Qed.
Lemma dot3_nonneg u : 0 <= dot3 u u. Proof. unfold dot3; nra. Qed.
Lemma dot2_nonneg u : 0 <= dot2 u u. Proof. unfold dot2; nra. Qed.
Lemma sq0 a : a * a = 0 -> a = 0. Proof. nra. Qed.
Lemma dot4_0 u : dot4 u u = 0 <-> zero4 u.
Proof.
  unfold dot4, zero4; split; [intros; repeat apply conj; apply sq0; nra | intros (-> & -> & -> & ->); ring].
Qed.
Lemma dot3_0 u : dot3 u u = 0 <-> zero3 u.
Proof. unfold dot3, zero3; split; [intros; repeat apply conj; apply sq0; nra | intros (-> & -> & ->); ring]. Qed.
Lemma dot2_0 u : dot2 u u = 0 <-> zero2 u.
Proof. unfold dot2, zero2; split; [intros; repeat apply conj; apply sq0; nra | intros (-> & ->); ring]. Qed.
Lemma sqrt_sq_scale k d : 0 <= k -> 0 <= d -> sqrt (k * k * d) = k * sqrt d.
Proof. intros. rewrite sqrt_mult by nra. rewrite sqrt_square by lra. reflexivity. Qed.
Lemma abs_le_sqrt x a b : 0 <= a -> 0 <= b -> x * x <= a * b -> Rabs x <= sqrt a * sqrt b.
Proof.
  intros. rewrite <- sqrt_mult by assumption. rewrite <- sqrt_Rsqr_abs. apply sqrt_le_1_alt. exact H1.
Qed.
Lemma sqrt_triangle a b c : 0 <= a -> 0 <= b -> 0 <= c -> c <= sqrt a * sqrt b -> sqrt (a + 2 * c + b) <= sqrt a + sqrt b.
Proof.
  intros. pose proof (sqrt_pos a). pose proof (sqrt_pos b).
  rewrite <- (sqrt_square (sqrt a + sqrt b)) by lra. apply sqrt_le_1_alt.
  pose proof (sqrt_sqrt a H). pose proof (sqrt_sqrt b H0). nra.
Qed.
Lemma sqrt_triangle' a b c : 0 <= a -> 0 <= b -> c <= sqrt a * sqrt b -> sqrt (a + 2 * c + b) <= sqrt a + sqrt b.
Proof.
  intros. pose proof (sqrt_pos a). pose proof (sqrt_pos b).
  rewrite <- (sqrt_square (sqrt a + sqrt b)) by lra. apply sqrt_le_1_alt.
  pose proof (sqrt_sqrt a H). pose proof (sqrt_sqrt b H0). nra.
Qed.
