(** Squad and barycentric interpolation of quaternions. *)
From Coq Require Import Reals ZArith Lra Psatz.
From Flocq Require Import Core IEEE754.BinarySingleNaN.
From Verif Require Import Base F32 Intrin Lane SpecF32 SpecGeom SpecQuat SpecSlerp MVec MTrig MQuat PF32 PReal PVec PQuat PBox PTrig PTrigFn PArc PFloat PHyp PSlerp.
Open Scope R_scope.

(** ** over the reals *)
Lemma lanes_eq_R (t : R) : lanes_equal (L:=RL) (qrep t) = true.
Proof. unfold lanes_equal. cbn [qrep qx qy qz qw]. change (@teq RL t t) with (Reqb t t). destruct (Reqb_spec t t); [reflexivity|congruence]. Qed.
Lemma two_R b : XMVectorSplatConstant (L:=RL) b 2 0 = qrep 2.
Proof. destruct b; unfold XMVectorSplatConstant; rl; unfold Rlit; cbn; unfold qrep; apply (@Qeq R); lra. Qed.
Lemma squad_eq b p0 p1 p2 p3 (t : R) : XMQuaternionSquad (L:=RL) b p0 p1 p2 p3 t =
  XMQuaternionSlerp b (slerp_body b p0 p3 (qrep t)) (slerp_body b p1 p2 (qrep t)) (2 * t * (1 - t)).
Proof.
  unfold XMQuaternionSquad, XMQuaternionSquadV. rewrite lanes_eq_R, two_R, NMulSub_R, Mul_R. cbv zeta.
  pose proof (slerp_some b p0 p3 t) as E. unfold XMQuaternionSlerp in E. rewrite E. clear E. cbn [obind].
  pose proof (slerp_some b p1 p2 t) as E. unfold XMQuaternionSlerp in E. rewrite E. clear E. cbn [obind].
  unfold XMQuaternionSlerp. f_equal. unfold qrep, qmap2, qmap3. cbn [qx qy qz qw]. apply (@Qeq R); ring.
Qed.
Lemma squad_form b p0 p1 p2 p3 (t : R) : exists r03 r12, XMQuaternionSlerp b p0 p3 t = Some r03 /\ XMQuaternionSlerp b p1 p2 t = Some r12 /\
  XMQuaternionSquad (L:=RL) b p0 p1 p2 p3 t = XMQuaternionSlerp b r03 r12 (2 * t * (1 - t)).
Proof. do 2 eexists. split; [apply slerp_some|]. split; [apply slerp_some|]. apply squad_eq. Qed.
Lemma squad_scalar p0 p1 p2 p3 t : unitq p0 -> unitq p1 -> unitq p2 -> unitq p3 -> hcos p0 p3 < near_one -> hcos p1 p2 < near_one ->
  hcos (slerp p0 p3 t) (slerp p1 p2 t) < near_one ->
  XMQuaternionSquad Scalar p0 p1 p2 p3 t = Some (slerp (slerp p0 p3 t) (slerp p1 p2 t) (2 * t * (1 - t))) /\ unitq (slerp (slerp p0 p3 t) (slerp p1 p2 t) (2 * t * (1 - t))).
Proof.
  intros U0 U1 U2 U3 A B C. destruct (slerp_arc p0 p3 t U0 U3 A) as (V & _). destruct (slerp_arc p1 p2 t U1 U2 B) as (W & _).
  rewrite squad_eq, !slerp_body_scalar, !slerp_with_exact, slerp_scalar, slerp_with_exact by assumption. split; [reflexivity|]. apply slerp_arc; assumption.
Qed.
Lemma unit_hemi p q : unitq q -> unitq (scale (hemi p q) q).
Proof.
  unfold unitq. intros U. replace (dot4 (scale (hemi p q) q) (scale (hemi p q) q)) with (hemi p q * hemi p q * dot4 q q) by (unfold dot4, scale; cbn [qx qy qz qw]; ring).
  rewrite hemi_sq, U. ring.
Qed.
Lemma squad_ends p0 p1 p2 p3 : unitq p0 -> unitq p1 -> unitq p2 -> unitq p3 ->
  XMQuaternionSquad Scalar p0 p1 p2 p3 0 = Some p0 /\ XMQuaternionSquad Scalar p0 p1 p2 p3 1 = Some (scale (hemi p0 p3) p3).
Proof.
  intros U0 U1 U2 U3. destruct (slerp_ends p0 p3 U0 U3) as [A B]. destruct (slerp_ends p1 p2 U1 U2) as [C D].
  rewrite !squad_eq, !slerp_body_scalar, A, B, C, D, !slerp_scalar. replace (2 * 0 * (1 - 0)) with 0 by ring. replace (2 * 1 * (1 - 1)) with 0 by ring.
  rewrite (proj1 (slerp_ends p0 p1 U0 U1)), (proj1 (slerp_ends _ _ (unit_hemi p0 p3 U3) (unit_hemi p1 p2 U2))). auto.
Qed.
(** barycentric *)
Definition beps : R := 2748779 / 274877906944.
Lemma beps_R : @tlit RL 2748779 (-38) = beps.
Proof. unfold beps. cbn. unfold Rlit. cbn. lra. Qed.
Lemma bary_small b p0 p1 p2 (f g : R) : Rabs (f + g) < beps -> XMQuaternionBaryCentric (L:=RL) b p0 p1 p2 f g = Some p0.
Proof.
  intros H. unfold XMQuaternionBaryCentric. cbv zeta. rt. rewrite beps_R.
  apply Rabs_def2 in H. change (@tadd RL f g) with (f + g). change (@tlt RL (f + g) beps) with (Rltb (f + g) beps).
  change (@tgt RL (f + g) (@tneg RL beps)) with (Rltb (- beps) (f + g)). destruct (Rltb_spec (f + g) beps); [|lra]. destruct (Rltb_spec (- beps) (f + g)); [|lra]. reflexivity.
Qed.
Lemma bary_eq b p0 p1 p2 (f g : R) : beps <= Rabs (f + g) -> XMQuaternionBaryCentric (L:=RL) b p0 p1 p2 f g =
  XMQuaternionSlerp b (slerp_body b p0 p1 (qrep (f + g))) (slerp_body b p0 p2 (qrep (f + g))) (g / (f + g)).
Proof.
  intros H. unfold XMQuaternionBaryCentric. cbv zeta. rt. rewrite beps_R.
  change (@tadd RL f g) with (f + g). change (@tlt RL (f + g) beps) with (Rltb (f + g) beps).
  change (@tgt RL (f + g) (@tneg RL beps)) with (Rltb (- beps) (f + g)).
  replace (Rltb (f + g) beps && Rltb (- beps) (f + g))%bool with false.
  - rewrite (slerp_some b p0 p1), (slerp_some b p0 p2). cbn [obind]. reflexivity.
  - symmetry. destruct (Rltb_spec (f + g) beps) as [A|A]; [|reflexivity]. destruct (Rltb_spec (- beps) (f + g)) as [B|B]; [|reflexivity]. exfalso.
    pose proof (Rabs_def1 _ _ A B). lra.
Qed.
Lemma bary_form b p0 p1 p2 (f g : R) : beps <= Rabs (f + g) -> exists r1 r2, XMQuaternionSlerp b p0 p1 (f + g) = Some r1 /\ XMQuaternionSlerp b p0 p2 (f + g) = Some r2 /\
  XMQuaternionBaryCentric (L:=RL) b p0 p1 p2 f g = XMQuaternionSlerp b r1 r2 (g / (f + g)).
Proof. intros H. do 2 eexists. split; [apply slerp_some|]. split; [apply slerp_some|]. apply bary_eq, H. Qed.
(** on the edges it is the slerp along the edge *)
Lemma bary_edges p0 p1 p2 s : unitq p0 -> unitq p1 -> unitq p2 -> hcos p0 p1 < near_one -> hcos p0 p2 < near_one -> beps <= Rabs s ->
  XMQuaternionBaryCentric (L:=RL) Scalar p0 p1 p2 s 0 = Some (slerp p0 p1 s) /\
  XMQuaternionBaryCentric (L:=RL) Scalar p0 p1 p2 0 s = Some (scale (hemi (slerp p0 p1 s) (slerp p0 p2 s)) (slerp p0 p2 s)).
Proof.
  intros U0 U1 U2 A B S. assert (s0 : s <> 0) by (intros ->; rewrite Rabs_R0 in S; unfold beps in S; lra).
  destruct (slerp_arc p0 p1 s U0 U1 A) as (V & _). destruct (slerp_arc p0 p2 s U0 U2 B) as (W & _).
  rewrite !bary_eq by (rewrite ?Rplus_0_r, ?Rplus_0_l; exact S). rewrite Rplus_0_r, Rplus_0_l, !slerp_body_scalar, !slerp_with_exact by assumption.
  replace (0 / s) with 0 by (field; exact s0). replace (s / s) with 1 by (field; exact s0). rewrite !slerp_scalar. destruct (slerp_ends _ _ V W) as [-> ->]. auto.
Qed.
(** the vector form, vector backends *)
Lemma baryV_sse b p0 p1 p2 (f g : R) : b <> Scalar -> / 65536 < Rabs (f + g) ->
  XMQuaternionBaryCentricV (L:=RL) b p0 p1 p2 (qrep f) (qrep g) = XMQuaternionBaryCentric (L:=RL) b p0 p1 p2 f g.
Proof.
  intros Hb H. rewrite bary_eq by (unfold beps; lra). unfold XMQuaternionBaryCentricV. rewrite !lanes_eq_R. cbn [andb]. cbv zeta. rewrite Add_R.
  change (plus (qrep f) (qrep g)) with (qrep (f + g)). rewrite InBounds_R.
  assert (E : XMVectorSplatConstant (L:=RL) b 1 16 = qrep (/ 65536)) by (destruct b; [congruence|]; unfold XMVectorSplatConstant; rl; unfold Rlit; cbn; unfold qrep; apply (@Qeq R); lra).
  rt. rewrite E.
  assert (C : qall (qmap2 (fun x y : R => (Rleb x y && Rleb (- y) x)%bool) (qrep (f + g)) (qrep (/ 65536))) = false).
  { unfold qall, qmap2, qrep. cbn [qx qy qz qw]. destruct (Rleb_spec (f + g) (/ 65536)) as [A|A]; [|reflexivity]. destruct (Rleb_spec (- / 65536) (f + g)) as [B|B]; [|reflexivity]. exfalso.
    assert (Rabs (f + g) <= / 65536) by (apply Rabs_le; lra). lra. }
  rewrite C. pose proof (slerp_some b p0 p1 (f + g)) as E1. pose proof (slerp_some b p0 p2 (f + g)) as E2. unfold XMQuaternionSlerp in E1, E2 |- *. rt. rewrite E1, E2. cbn [obind].
  rewrite Recip_R, Mul_R. f_equal. unfold qrep, qmap, qmap2. cbn [qx qy qz qw]. apply (@Qeq R); unfold Rdiv; ring.
Qed.
(** ** bit patterns, portable backend: [1 >> k] makes the constants infinite *)
Lemma splat_inf i k : (i, k) = (1, 16)%Z \/ (i, k) = (-1, 2)%Z -> XMVectorSplatConstant (L:=FL) Scalar i k = qrep 0x7F800000%Z.
Proof. intros [E|E]; injection E as -> ->; vm_compute; reflexivity. Qed.
Lemma teq_FL z : value z <> NaN -> @teq FL z z = true.
Proof. intros H. change (f_eq z z = true). apply f_eq_spec. destruct (value z) as [|s|x]; [congruence|reflexivity|reflexivity]. Qed.
Lemma add_notnan a b : value (f_add a b) <> NaN -> value a <> NaN /\ value b <> NaN.
Proof.
  intros H. split; intros N; apply H; unfold f_add; rewrite value_enc, (nan_dec _ N); [reflexivity|]. destruct (dec a); reflexivity.
Qed.
Lemma baryV_scalar (lm : Libm FL) (p0 p1 p2 : quad Z) f g : value (f_add f g) <> NaN ->
  @XMQuaternionBaryCentricV FL lm Scalar p0 p1 p2 (qrep f) (qrep g) = Some p0.
Proof.
  intros H. destruct (add_notnan _ _ H) as [F G]. unfold XMQuaternionBaryCentricV, lanes_equal. cbn [qrep qx qy qz qw]. rewrite !teq_FL by assumption. cbn [andb]. cbv zeta.
  rewrite splat_inf by auto. unfold XMVectorInBounds, XMVectorAdd, qmap2, qrep, qall. cbn [qx qy qz qw]. change (@tadd FL f g) with (f_add f g).
  assert (I1 : value 0x7F800000 = Inf false) by reflexivity. assert (I2 : value (f_neg 0x7F800000) = Inf true) by reflexivity.
  assert (A : @tle FL (f_add f g) 0x7F800000%Z = true).
  { change (f_le (f_add f g) 0x7F800000 = true). apply f_le_spec. rewrite I1. destruct (value (f_add f g)) as [|[]|]; [congruence|left; exact I|right; reflexivity|left; exact I]. }
  assert (B : @tle FL (@tneg FL 0x7F800000%Z) (f_add f g) = true).
  { change (f_le (f_neg 0x7F800000) (f_add f g) = true). apply f_le_spec. rewrite I2. destruct (value (f_add f g)) as [|[]|]; [congruence|right; reflexivity|left; exact I|left; exact I]. }
  rewrite A, B. reflexivity.
Qed.
Definition bad (z : Z) : Prop := value z = NaN \/ exists s, value z = Inf s.
Definition lost (z : Z) : Prop := dec z = B754_nan \/ dec z = B754_infinity false.
Lemma dec_enc_nan x : x = B754_nan -> dec (enc x) = B754_nan.
Proof. intros ->. reflexivity. Qed.
Lemma dec_enc_inf x s : x = B754_infinity s -> dec (enc x) = B754_infinity s.
Proof. intros ->. destruct s; reflexivity. Qed.
Lemma mul_inf_sq v : lost (f_mul (f_mul v 0x7F800000) (f_mul v 0x7F800000)).
Proof.
  assert (D : dec (f_mul v 0x7F800000) = B754_nan \/ exists s, dec (f_mul v 0x7F800000) = B754_infinity s).
  { unfold f_mul. replace (dec 0x7F800000) with (@B754_infinity 24 128 false) by reflexivity. destruct (dec v) as [s|s| |s m e Hb].
    - left. apply dec_enc_nan. reflexivity.
    - right. eexists. apply dec_enc_inf. reflexivity.
    - left. apply dec_enc_nan. reflexivity.
    - right. eexists. apply dec_enc_inf. reflexivity. }
  unfold lost. unfold f_mul at 1 4. destruct D as [D|(s & D)]; rewrite D; [left; reflexivity|right]. apply dec_enc_inf. destruct s; reflexivity.
Qed.
Lemma add_lost a b : lost a -> lost b -> lost (f_add a b).
Proof. unfold lost, f_add. intros [A|A] [B|B]; rewrite A, B; [left|left|left|right]; reflexivity. Qed.
Lemma sqrt_lost a : lost a -> lost (f_sqrt a).
Proof. unfold lost, f_sqrt. intros [A|A]; rewrite A; [left|right]; reflexivity. Qed.
Lemma lost_bad z : lost z -> value z = NaN \/ value z = Inf false.
Proof. intros [H|H]; rewrite value_dec, H; [left|right]; reflexivity. Qed.
Definition cos_special (lm : Libm FL) : Prop := forall z, value z = NaN \/ value z = Inf false -> value (m_cos (Libm:=lm) z) = NaN.
Lemma exp_lost (lm : Libm FL) (v : quad Z) : cos_special lm -> value (qw (@XMQuaternionExp FL lm Scalar (XMVectorMultiply Scalar v (qrep 0x7F800000%Z)))) = NaN.
Proof.
  intros H. apply H, lost_bad. unfold XMVectorMultiply, qrep. cbn [qx qy qz qw].
  change (lost (f_sqrt (f_add (f_add (f_mul (f_mul (qx v) 0x7F800000) (f_mul (qx v) 0x7F800000)) (f_mul (f_mul (qy v) 0x7F800000) (f_mul (qy v) 0x7F800000))) (f_mul (f_mul (qz v) 0x7F800000) (f_mul (qz v) 0x7F800000))))).
  apply sqrt_lost, add_lost; [apply add_lost|]; apply mul_inf_sq.
Qed.
Lemma n_mul a b : value a = NaN -> value (f_mul a b) = NaN.
Proof. intros N. unfold f_mul. rewrite value_enc, (nan_dec _ N). reflexivity. Qed.
Lemma n_add a b : value a = NaN -> value (f_add a b) = NaN.
Proof. intros N. unfold f_add. rewrite value_enc, (nan_dec _ N). reflexivity. Qed.
Lemma n_sub a b : value a = NaN -> value (f_sub a b) = NaN.
Proof. intros N. unfold f_sub. rewrite value_enc, (nan_dec _ N). reflexivity. Qed.
Lemma ham_nan (p q : quad Z) k : value (qw q) = NaN -> value (lane (XMQuaternionMultiply (L:=FL) Scalar p q) k) = NaN.
Proof.
  intros N. unfold XMQuaternionMultiply. change (@tadd FL) with f_add. change (@tsub FL) with f_sub. change (@tmul FL) with f_mul.
  destruct k; cbn [lane qx qy qz qw]; repeat first [apply n_add | apply n_sub]; apply n_mul; exact N.
Qed.
Lemma setup_scalar (lm : Libm FL) (p0 p1 p2 p3 : quad Z) : cos_special lm -> let '(A, B, C) := @XMQuaternionSquadSetup FL lm Scalar p0 p1 p2 p3 in
  forall k, value (lane A k) = NaN /\ value (lane B k) = NaN.
Proof.
  intros H. unfold XMQuaternionSquadSetup. cbv zeta. rewrite (splat_inf (-1) 2) by auto. intros k. split; apply ham_nan, exp_lost, H.
Qed.
