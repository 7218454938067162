(** The control points of a squad segment, over the reals. *)
From Coq Require Import Reals ZArith Lra Psatz.
From Verif Require Import Base F32 Intrin Lane SpecGeom SpecQuat SpecMat SpecTrig SpecRot SpecSlerp MVec MTrig MQuat PReal PVec PQuat PBox PTrigPoly PTrig PTrigFn PArc PSlerp PRotFn PQuatFn.
Open Scope R_scope.

Lemma pick_hemi b q s :
  @vsel RL q (XMVectorNegate b q) (vlt (XMQuaternionLengthSq b (XMVectorAdd b s q)) (XMQuaternionLengthSq b (XMVectorSubtract b s q))) = scale (hemi s q) q.
Proof.
  unfold XMQuaternionLengthSq. rewrite Add_R, Sub_R, !LengthSq4_R, Neg_R.
  assert (C : Rltb (dot4 (plus s q) (plus s q)) (dot4 (minus s q) (minus s q)) = Rltb (dot4 s q) 0).
  { assert (E : dot4 (plus s q) (plus s q) = dot4 (minus s q) (minus s q) + 4 * dot4 s q) by (unfold dot4, plus, minus; cbn [qx qy qz qw]; ring).
    destruct (Rltb_spec (dot4 (plus s q) (plus s q)) (dot4 (minus s q) (minus s q))), (Rltb_spec (dot4 s q) 0); try reflexivity; lra. }
  change (@vlt RL (qrep (dot4 (plus s q) (plus s q))) (qrep (dot4 (minus s q) (minus s q)))) with (qrep (Rltb (dot4 (plus s q) (plus s q)) (dot4 (minus s q) (minus s q)))).
  rewrite C, <- hemi_R. destruct (Rltb (dot4 s q) 0); dn q; rl; unfold scale; cbn [qx qy qz qw]; apply (@Qeq R); ring.
Qed.
Lemma plus_comm4 u v : plus u v = plus v u. Proof. unfold plus. apply (@Qeq R); ring. Qed.
Lemma inv_unit b q : unitq q -> XMQuaternionInverse (L:=RL) b q = conj q.
Proof. intros U. rewrite QInv_R by (rewrite U; lra). rewrite U, Rinv_1. apply scale_1. Qed.
Lemma quarter_R b : b <> Scalar -> XMVectorSplatConstant (L:=RL) b (-1) 2 = qrep (- (1 / 4)).
Proof. destruct b; [congruence|]. intros _. unfold XMVectorSplatConstant. rl. unfold Rlit. cbn. unfold qrep. apply (@Qeq R); lra. Qed.
Definition sgnd (p q : rvec) : rvec := scale (hemi p q) q.
Lemma sgnd_unit p q : unitq q -> unitq (sgnd p q).
Proof.
  unfold unitq, sgnd. intros U. replace (dot4 (scale (hemi p q) q) (scale (hemi p q) q)) with (hemi p q * hemi p q * dot4 q q) by (unfold dot4, scale; cbn [qx qy qz qw]; ring).
  rewrite hemi_sq, U. ring.
Qed.
Lemma mul_rep b (v : rvec) k : XMVectorMultiply b v (qrep k) = scale k v.
Proof. rewrite Mul_R. unfold scale, qmap2, qrep. cbn [qx qy qz qw]. apply (@Qeq R); ring. Qed.
(** [knot u a c]: the control point at u towards neighbours a and c *)
Definition knot b (u a c : rvec) : rvec :=
  ham (XMQuaternionExp (L:=RL) b (scale (- (1 / 4)) (plus (XMQuaternionLn (L:=RL) b (ham a (conj u))) (XMQuaternionLn (L:=RL) b (ham c (conj u)))))) u.
Lemma len_comm b u v : XMQuaternionLengthSq (L:=RL) b (XMVectorAdd b u v) = XMQuaternionLengthSq (L:=RL) b (XMVectorAdd b v u).
Proof. rewrite !Add_R, plus_comm4. reflexivity. Qed.
Lemma lend_comm b u v : XMQuaternionLengthSq (L:=RL) b (XMVectorSubtract b u v) = XMQuaternionLengthSq (L:=RL) b (XMVectorSubtract b v u).
Proof. unfold XMQuaternionLengthSq. rewrite !Sub_R, !LengthSq4_R. f_equal. unfold dot4, minus. cbn [qx qy qz qw]. ring. Qed.
Lemma setup_R b p0 p1 p2 p3 : b <> Scalar -> unitq p1 -> unitq p2 -> let c := sgnd p1 p2 in
  XMQuaternionSquadSetup (L:=RL) b p0 p1 p2 p3 = (knot b p1 (sgnd p1 p0) c, knot b c p1 (sgnd c p3), c).
Proof.
  intros Hb U1 U2. cbv zeta. unfold XMQuaternionSquadSetup. cbv zeta. rewrite quarter_R by exact Hb.
  rewrite (len_comm b p0 p1), (lend_comm b p0 p1), !pick_hemi. fold (sgnd p1 p2). fold (sgnd p1 p0). fold (sgnd (sgnd p1 p2) p3).
  rewrite !inv_unit by (try apply sgnd_unit; assumption). rewrite !QMul_R, !Add_R. rt. rewrite !mul_rep. reflexivity.
Qed.
(** the logarithm as a function of the real part *)
Definition lnk b (w : R) : R :=
  if (Rleb w near_one && Rleb (- near_one) w)%bool
  then match b with Scalar => acos w / sin (acos w) | _ => racos w / sinp (refl (modang (racos w))) end else 1.
Lemma ln_fun b q : XMQuaternionLn (L:=RL) b q = scale (lnk b (qw q)) (direction q).
Proof.
  unfold XMQuaternionLn. cbv zeta. change (splat I3 q) with (qrep (qw q)). rewrite InBounds_R, Div_R, Mul_R. change (@OneMinus1e5 RL) with near_one.
  change (qmap2 (fun x y => (Rleb x y && Rleb (- y) x)%bool) (qrep (qw q)) (qrep near_one)) with (qrep (Rleb (qw q) near_one && Rleb (- near_one) (qw q))%bool).
  unfold lnk. set (c := (Rleb (qw q) near_one && Rleb (- near_one) (qw q))%bool).
  assert (E : exists T s, XMVectorACos (L:=RL) b (qrep (qw q)) = qrep T /\ XMVectorSin (L:=RL) b (qrep T) = qrep s /\ (if c then match b with Scalar => acos (qw q) / sin (acos (qw q)) | _ => racos (qw q) / sinp (refl (modang (racos (qw q)))) end else 1) = if c then T / s else 1).
  { destruct b as [|s3 s4 f a].
    - exists (acos (qw q)), (sin (acos (qw q))). split; [reflexivity|]. split; [rewrite (proj1 (sin_exact_scalar _)); reflexivity|reflexivity].
    - exists (racos (qw q)), (sinp (refl (modang (racos (qw q))))). split; [rewrite vacos_R by discriminate; reflexivity|]. split; [rewrite vsin_R by discriminate; reflexivity|reflexivity]. }
  destruct E as (T & s & E1 & E2 & ->). rt. rewrite E1, E2. clear E1 E2. clearbody c. destruct c; dn q; rl; unfold scale, direction; cbn [qx qy qz qw]; apply (@Qeq R); ring.
Qed.
Lemma ln_conj b q : XMQuaternionLn (L:=RL) b (conj q) = scale (-1) (XMQuaternionLn (L:=RL) b q).
Proof. rewrite !ln_fun. dn q. unfold conj, scale, direction. cbn [qx qy qz qw]. set (k := lnk b a4). change (lnk b a4) with k. clearbody k. apply (@Qeq R); ring. Qed.
Lemma exp_zero b : XMQuaternionExp (L:=RL) b (Q 0 0 0 0) = qone.
Proof.
  unfold XMQuaternionExp. cbv zeta. rewrite Length3_R. replace (norm3 (Q 0 0 0 0)) with 0 by (unfold norm3, dot3; cbn [qx qy qz qw]; replace (0 * 0 + 0 * 0 + 0 * 0) with 0 by ring; symmetry; apply sqrt_0).
  rewrite near0_R by lra. rt. rewrite sincos_pair.
  assert (C : XMVectorCos (L:=RL) b (qrep 0) = qrep 1).
  { destruct b as [|s3 s4 f a]; [rewrite (proj2 (sin_exact_scalar _)); unfold qmap, qrep; cbn [qx qy qz qw]; rewrite cos_0; reflexivity|].
    rewrite vcos_R by discriminate. unfold qmap, qrep. cbn [qx qy qz qw]. destruct (near_zero 0) as [_ ->]; [rewrite Rabs_R0; unfold PI32; lra|].
    unfold rsgn, refl. rewrite Rabs_R0. destruct (Rleb_spec 0 halfPI32) as [_|N]; [|unfold halfPI32 in N; lra]. unfold cosp. apply (@Qeq R); ring. }
  rt. rewrite C. unfold qeps. destruct (Rleb_spec 0 (1 / 8388608)); [|lra]. rl. reflexivity.
Qed.
(** uniform rotation: the control points are the knots *)
Lemma dot_ham r q : dot4 q (ham r q) = qw r * dot4 q q.
Proof. dn q; destruct r as [a0 b0 c0 d0]; unfold dot4, ham; cbn [qx qy qz qw]; ring. Qed.
Lemma sgnd_pos p q : 0 <= dot4 p q -> sgnd p q = q.
Proof. intros H. unfold sgnd, hemi. destruct (Rlt_dec (dot4 p q) 0); [lra|apply scale_1]. Qed.
Lemma unit_conj r : unitq r -> unitq (conj r).
Proof. unfold unitq. rewrite conj_norm. auto. Qed.
Lemma unit_ham p q : unitq p -> unitq q -> unitq (ham p q).
Proof. unfold unitq. intros A B. rewrite ham_norm, A, B. ring. Qed.
Lemma knot_uniform b u r : unitq u -> unitq r -> knot b u (ham (conj r) u) (ham r u) = u.
Proof.
  intros U V. unfold knot. rewrite !ham_assoc, ham_conj, U. fold qone. rewrite !ham_1r, ln_conj.
  replace (scale (- (1 / 4)) (plus (scale (-1) (XMQuaternionLn b r)) (XMQuaternionLn b r))) with (Q 0 0 0 0) by (unfold scale, plus; cbn [qx qy qz qw]; apply (@Qeq R); ring).
  rewrite exp_zero. apply ham_1l.
Qed.
Lemma conj_w r : qw (conj r) = qw r. Proof. reflexivity. Qed.
Lemma conj_back r u : unitq r -> ham (conj r) (ham r u) = u.
Proof. intros U. rewrite <- ham_assoc, conj_ham_self, U. apply ham_1l. Qed.
Lemma setup_uniform b u r : b <> Scalar -> unitq u -> unitq r -> 0 <= qw r ->
  XMQuaternionSquadSetup (L:=RL) b (ham (conj r) u) u (ham r u) (ham r (ham r u)) = (u, ham r u, ham r u).
Proof.
  intros Hb U V W. rewrite setup_R by (try apply unit_ham; assumption).
  assert (A : sgnd u (ham r u) = ham r u) by (apply sgnd_pos; rewrite dot_ham, U; lra). rewrite A.
  assert (B : sgnd u (ham (conj r) u) = ham (conj r) u) by (apply sgnd_pos; rewrite dot_ham, U, conj_w; lra). rewrite B.
  assert (C : sgnd (ham r u) (ham r (ham r u)) = ham r (ham r u)) by (apply sgnd_pos; rewrite dot_ham, (unit_ham r u V U); lra). rewrite C.
  rewrite knot_uniform by assumption. rewrite <- (conj_back r u V) at 3. rewrite knot_uniform; [reflexivity|apply unit_ham; assumption|assumption].
Qed.
