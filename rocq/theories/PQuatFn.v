(** Quaternion exponential, logarithm and axis-angle form over the reals. *)
From Coq Require Import Reals ZArith Lra Psatz.
From Verif Require Import Base F32 Intrin Lane SpecGeom SpecQuat SpecMat SpecTrig SpecRot SpecSlerp MVec MTrig MQuat PReal PVec PQuat PBox PTrigPoly PTrig PTrigFn PArc PSlerp PRotFn.
Open Scope R_scope.

Definition qeps : R := 1 / 8388608.
Lemma near0_R b th : 0 <= th -> XMVectorNearEqual (L:=RL) b (qrep th) vzero (qrep epsilon) = qrep (Rleb th qeps).
Proof.
  intros H. transitivity (@qrep bool (Rleb (Rabs (th - 0)) qeps)).
  - bk b; rcbv; unfold qeps, Rabs; repeat (destruct (Rcase_abs _)); apply (@Qeq bool); repeat rcase; try reflexivity; lra.
  - rewrite Rminus_0_r, Rabs_pos_eq by exact H. reflexivity.
Qed.
Lemma norm_th n th w : unit3 n -> 0 <= th -> norm3 (Q (th * qx n) (th * qy n) (th * qz n) w) = th.
Proof.
  intros U H. unfold norm3. replace (dot3 _ _) with (th * th * dot3 n n) by (unfold dot3; cbn [qx qy qz qw]; ring). rewrite U, Rmult_1_r. apply sqrt_square, H.
Qed.
Lemma quat_exp b n th w : unit3 n -> 0 <= th <= 100000000 ->
  vnear (trig_err th) (XMQuaternionExp (L:=RL) b (Q (th * qx n) (th * qy n) (th * qz n) w)) (quat_about n (2 * th)).
Proof.
  intros U (H0 & H1). unfold XMQuaternionExp. cbv zeta. rewrite Length3_R, norm_th by assumption.
  destruct (sc_vector b (qrep th)) as (s & c & E & N); [intros k; rewrite lane_qrep, Rabs_pos_eq; assumption|].
  assert (N' : forall k, Rabs (lane s k - sin th) <= trig_err th /\ Rabs (lane c k - cos th) <= trig_err th) by (intros k; specialize (N k); rewrite lane_qrep in N; exact N).
  clear N. rt. rewrite E, near0_R, Div_R, Mul_R by exact H0. unfold quat_about. replace (2 * th / 2) with th by field.
  destruct (unit_lane n U) as (X & Y & Z). destruct s as [s0 s1 s2 s3], c as [c0 c1 c2 c3].
  pose proof (N' I0) as (S0 & _). pose proof (N' I1) as (S1 & _). pose proof (N' I2) as (S2 & _). pose proof (N' I3) as (_ & C3). cbn [lane qx qy qz qw] in *. clear N'.
  assert (G : forall m s, Rabs m <= 1 -> Rabs (s - sin th) <= trig_err th -> Rabs ((if Rleb th qeps then th * m else th * m * (s / th)) - m * sin th) <= trig_err th).
  { intros m s M S. destruct (Rleb_spec th qeps) as [L|L].
    - rewrite (Rmult_comm th). apply mul_near; [exact M|]. destruct H0 as [H0| <-]; [|rewrite sin_0, Rminus_0_r, Rabs_R0; left; apply trig_err_pos].
      unfold qeps, trig_err in *. pose proof (Rabs_pos th). pose proof (SIN_bound th). pose proof (sin_lt_x th H0). assert (0 <= sin th) by (apply sin_ge_0; [lra|pose proof PI2_3_2; lra]).
      rewrite (Rabs_pos_eq (th - sin th)) by lra. lra.
    - unfold qeps in L. replace (th * m * (s / th)) with (m * s) by (field; lra). apply mul_near; assumption. }
  intros k. destruct k.
  - exact (G _ _ X S0).
  - exact (G _ _ Y S1).
  - exact (G _ _ Z S2).
  - exact C3.
Qed.
(** ** axis and angle *)
Lemma to_axis_angle b n a : 0 <= a <= 2 * PI -> let r := XMQuaternionToAxisAngle (L:=RL) b (quat_about n a) in
  fst r = quat_about n a /\ Rabs (snd r - a) <= 124 / 100000000.
Proof.
  intros H. cbv zeta. unfold XMQuaternionToAxisAngle. cbn [fst snd]. split; [reflexivity|]. rewrite scalar_acos_R.
  change (@tmul RL (@two RL) (racos (qw (quat_about n a)))) with ((@two RL : R) * racos (cos (a / 2))).
  replace (@two RL : R) with 2 by (unfold two; cbn; unfold Rlit; cbn; lra). pose proof (racos_ok (cos (a / 2))) as E. rewrite acos_cos in E by lra.
  apply rabs_inv in E. apply Rabs_le. lra.
Qed.
(** ** logarithm *)
Definition ln_err (th : R) : R := 63 / 100000000 + 93 / 100000000 * (th / sin th).
Lemma acos_T v T : Rabs (T - acos v) <= 62 / 100000000 -> Rabs T <= 3142 / 1000.
Proof.
  intros H. apply rabs_inv in H. assert (B : 0 <= acos v <= 31416 / 10000) by (pose proof (acos_bound v); pose proof PI_close; unfold PI32 in *; lra). apply Rabs_le. lra.
Qed.
Lemma vsin_rep b (T : R) : Rabs T <= 100000000 -> exists s, XMVectorSin (L:=RL) b (qrep T) = qrep s /\ Rabs (s - sin T) <= trig_err T.
Proof.
  intros H. destruct b as [|s3 s4 f a].
  - exists (sin T). split; [rewrite (proj1 (sin_exact_scalar _)); reflexivity|]. pose proof (trig_err_pos T). rewrite Rminus_diag_eq, Rabs_R0 by reflexivity. lra.
  - exists (sinp (refl (modang T))). split; [rewrite vsin_R by discriminate; reflexivity|].
    destruct (sin_vec (SSE s3 s4 f a) (qrep T) I0) as [E _]; [discriminate|rewrite lane_qrep; exact H|]. rewrite vsin_R in E by discriminate. exact E.
Qed.
(** the logarithm is a multiple of the vector part *)
Lemma ln_R b q : exists T s, Rabs (T - acos (qw q)) <= 62 / 100000000 /\ Rabs (s - sin T) <= trig_err T /\
  XMQuaternionLn (L:=RL) b q = scale (if (Rleb (qw q) near_one && Rleb (- near_one) (qw q))%bool then T / s else 1) (direction q).
Proof.
  unfold XMQuaternionLn. cbv zeta.
  assert (A : exists T, XMVectorACos b (splat I3 q) = qrep T /\ Rabs (T - acos (qw q)) <= 62 / 100000000).
  { change (splat I3 q) with (qrep (qw q)). destruct b as [|s3 s4 f a].
    - exists (acos (qw q)). split; [reflexivity|]. rewrite Rminus_diag_eq, Rabs_R0 by reflexivity. lra.
    - exists (racos (qw q)). split; [rewrite vacos_R by discriminate; reflexivity|apply racos_ok]. }
  destruct A as (T & EA & NA). rt. rewrite EA, InBounds_R. destruct (vsin_rep b T) as (s & ES & NS); [pose proof (acos_T _ _ NA); lra|].
  exists T, s. split; [exact NA|]. split; [exact NS|]. rt. rewrite ES, Div_R, Mul_R. change (@OneMinus1e5 RL) with near_one.
  change (qmap2 (fun x y => (Rleb x y && Rleb (- y) x)%bool) (splat I3 q) (qrep near_one)) with (qrep (Rleb (qw q) near_one && Rleb (- near_one) (qw q))%bool).
  destruct (Rleb (qw q) near_one && Rleb (- near_one) (qw q))%bool; dn q; rl; unfold scale, direction; cbn [qx qy qz qw]; apply (@Qeq R); ring.
Qed.
Lemma ln_mid_err th T s : 0 < sin th -> 4 / 1000 <= sin th -> 0 <= th <= PI -> Rabs (T - th) <= 62 / 100000000 -> Rabs (s - sin T) <= 2965 / 10000000000 ->
  Rabs (T / s * sin th - th) <= 63 / 100000000 + 93 / 100000000 * (th / sin th).
Proof.
  intros P S H HT Hs. pose proof (sin_lip T th) as L. assert (D : Rabs (s - sin th) <= 9165 / 10000000000).
  { replace (s - sin th) with (s - sin T + (sin T - sin th)) by ring. eapply Rle_trans; [apply Rabs_triang|]. lra. }
  apply rabs_inv in D. apply rabs_inv in HT. set (x := sin th) in *. assert (s0 : 0 < s) by lra. assert (sx : 9997 / 10000 * x <= s) by lra.
  replace (T / s * x - th) with (((T - th) * x - th * (s - x)) / s) by (field; lra).
  replace (63 / 100000000 + 93 / 100000000 * (th / x)) with ((63 / 100000000 * x + 93 / 100000000 * th) / x) by (field; lra).
  assert (N : Rabs ((T - th) * x - th * (s - x)) <= 62 / 100000000 * x + 9165 / 10000000000 * th).
  { assert (A1 : - (62 / 100000000 * x) <= (T - th) * x <= 62 / 100000000 * x) by nra. assert (A2 : - (9165 / 10000000000 * th) <= th * (s - x) <= 9165 / 10000000000 * th) by nra. apply Rabs_le. lra. }
  unfold Rdiv at 1. rewrite Rabs_mult, (Rabs_pos_eq (/ s)) by (left; apply Rinv_0_lt_compat; exact s0).
  apply Rmult_le_reg_r with (s * x); [apply Rmult_lt_0_compat; assumption|].
  replace (Rabs ((T - th) * x - th * (s - x)) * / s * (s * x)) with (Rabs ((T - th) * x - th * (s - x)) * x) by (field; lra).
  replace ((63 / 100000000 * x + 93 / 100000000 * th) / x * (s * x)) with ((63 / 100000000 * x + 93 / 100000000 * th) * s) by (field; lra).
  apply Rle_trans with ((62 / 100000000 * x + 9165 / 10000000000 * th) * x); [apply Rmult_le_compat_r; lra|].
  apply Rle_trans with ((63 / 100000000 * x + 93 / 100000000 * th) * (9997 / 10000 * x)); [|apply Rmult_le_compat_l; [nra|exact sx]].
  assert (0 <= x * x) by nra. assert (0 <= th * x) by nra. lra.
Qed.
Lemma th_small th : 0 <= th <= PI -> near_one < cos th -> th < 46 / 10000.
Proof.
  intros H C. destruct (Rlt_dec th (46 / 10000)) as [L|L]; [exact L|]. exfalso. apply Rnot_lt_le in L.
  assert (D : cos th <= cos (46 / 10000)). { destruct L as [L|L]; [|rewrite L; lra]. left. apply cos_decreasing_1; pose proof PI2_3_2; lra. }
  pose proof (cosp_err (46 / 10000)) as E. assert (HH : Rabs (46 / 10000) <= halfPI32) by (rewrite Rabs_pos_eq; unfold halfPI32; lra). specialize (E HH). apply rabs_inv in E.
  unfold cosp, poly_err, near_one in *. lra.
Qed.
Lemma sin_tiny th : 0 <= th <= 46 / 10000 -> Rabs (sin th - th) <= 5 / 100000000.
Proof.
  intros H. pose proof (sinp_err th) as E. assert (HH : Rabs th <= halfPI32) by (rewrite Rabs_pos_eq; unfold halfPI32; lra). specialize (E HH). apply rabs_inv in E.
  assert (S : Rabs (sinp th - th) <= 17 / 1000000000).
  { unfold sinp. cbv zeta. set (z := th * th). assert (Z : 0 <= z <= 2116 / 100000000).
    { unfold z. split; [apply Rmult_le_pos; lra|]. apply Rle_trans with (46 / 10000 * (46 / 10000)); [apply Rmult_le_compat; lra|lra]. }
    match goal with |- Rabs (th * (1 + z * ?p) - th) <= _ => set (r := p); assert (P : - (1669 / 10000) <= r <= 0) end.
    { unfold r. assert (Y : forall c w m, 0 <= m <= 1 -> - m <= w <= m -> c - m * (2116 / 100000000) <= c + z * w <= c + m * (2116 / 100000000)) by (intros c w m M W; nra).
      match goal with |- _ <= ?c + z * ?w <= _ => assert (W : -1 <= w <= 1); [|pose proof (Y c w 1 ltac:(lra) W); lra] end.
      match goal with |- _ <= ?c + z * ?w <= _ => assert (W : -1 <= w <= 1); [|pose proof (Y c w 1 ltac:(lra) W); lra] end.
      match goal with |- _ <= ?c + z * ?w <= _ => assert (W : -1 <= w <= 1); [|pose proof (Y c w 1 ltac:(lra) W); lra] end.
      lra. }
    replace (th * (1 + z * r) - th) with (th * z * r) by ring. assert (T : 0 <= th * z <= 46 / 10000 * (2116 / 100000000)) by (split; [apply Rmult_le_pos; lra|apply Rmult_le_compat; lra]).
    apply Rabs_le. clearbody r z. assert (- (46 / 10000 * (2116 / 100000000) * (1669 / 10000)) <= th * z * r <= 0) by nra. lra. }
  apply rabs_inv in S. unfold poly_err in E. apply Rabs_le. lra.
Qed.
(** the three regions *)
Definition pure (k : R) (n : rvec) : rvec := Q (k * qx n) (k * qy n) (k * qz n) 0.
Lemma about_w n a : qw (quat_about n (2 * a)) = cos a.
Proof. unfold quat_about. cbn [qw]. f_equal. field. Qed.
Lemma about_dir n a k : scale k (direction (quat_about n (2 * a))) = pure (k * sin a) n.
Proof. unfold quat_about, scale, direction, pure. cbn [qx qy qz qw]. replace (2 * a / 2) with a by field. apply (@Qeq R); ring. Qed.
Lemma sin_mid th : 0 <= th <= PI -> - near_one <= cos th <= near_one -> 4 / 1000 <= sin th.
Proof.
  intros H C. pose proof (sin_ge_0 th ltac:(lra) ltac:(lra)) as S. pose proof (sc1 th) as E. unfold near_one in C. destruct (Rle_dec (4 / 1000) (sin th)) as [L|L]; [exact L|]. exfalso. nra.
Qed.
Lemma quat_ln_mid b n th : 0 <= th <= PI -> - near_one <= cos th <= near_one ->
  exists k, XMQuaternionLn (L:=RL) b (quat_about n (2 * th)) = pure k n /\ Rabs (k - th) <= 63 / 100000000 + 93 / 100000000 * (th / sin th).
Proof.
  intros H C. destruct (ln_R b (quat_about n (2 * th))) as (T & s & NT & Ns & E). rewrite about_w in *. rewrite acos_cos in NT by lra.
  exists (T / s * sin th). split.
  - rewrite E, about_dir. destruct (Rleb_spec (cos th) near_one); [|lra]. destruct (Rleb_spec (- near_one) (cos th)); [|lra]. reflexivity.
  - pose proof (sin_mid th H C). apply ln_mid_err; try lra. eapply Rle_trans; [exact Ns|]. unfold trig_err.
    assert (Rabs T <= 3142 / 1000) by (apply (acos_T (cos th)); rewrite acos_cos by lra; exact NT). lra.
Qed.
Lemma quat_ln_small b n th : 0 <= th <= PI -> near_one < cos th ->
  exists k, XMQuaternionLn (L:=RL) b (quat_about n (2 * th)) = pure k n /\ Rabs (k - th) <= 5 / 100000000.
Proof.
  intros H C. destruct (ln_R b (quat_about n (2 * th))) as (T & s & _ & _ & E). rewrite about_w in E. exists (sin th). split.
  - rewrite E, about_dir. destruct (Rleb_spec (cos th) near_one); [lra|]. cbn [andb]. rewrite Rmult_1_l. reflexivity.
  - apply sin_tiny. pose proof (th_small th H C). lra.
Qed.
Lemma quat_ln_minus b n th : cos th < - near_one -> XMQuaternionLn (L:=RL) b (quat_about n (2 * th)) = pure (sin th) n.
Proof.
  intros C. destruct (ln_R b (quat_about n (2 * th))) as (T & s & _ & _ & E). rewrite about_w in E. rewrite E, about_dir.
  destruct (Rleb_spec (- near_one) (cos th)); [lra|]. rewrite andb_false_r, Rmult_1_l. reflexivity.
Qed.
(** there and back *)
Lemma about_near n x y : unit3 n -> vnear (Rabs (x - y)) (quat_about n (2 * x)) (quat_about n (2 * y)).
Proof.
  intros U. unfold quat_about. replace (2 * x / 2) with x by field. replace (2 * y / 2) with y by field. destruct (unit_lane n U) as (X & Y & Z).
  intros k. destruct k; cbn [lane qx qy qz qw]; try (apply mul_near; [assumption|apply sin_lip]). apply cos_lip.
Qed.
Lemma exp_ln_mid b n th : unit3 n -> 0 <= th <= PI -> - near_one <= cos th <= near_one ->
  vnear (4 / 10000000 + (63 / 100000000 + 93 / 100000000 * (th / sin th))) (XMQuaternionExp (L:=RL) b (XMQuaternionLn (L:=RL) b (quat_about n (2 * th)))) (quat_about n (2 * th)).
Proof.
  intros U H C. destruct (quat_ln_mid b n th H C) as (k & -> & K). pose proof (sin_mid th H C) as S.
  assert (Q4 : th / sin th <= 1000) by (apply Rmult_le_reg_r with (sin th); [lra|]; unfold Rdiv; rewrite Rmult_assoc, Rinv_l by lra; pose proof PI_4; lra).
  assert (TH : 4 / 1000 <= th). { destruct (proj1 H) as [P|P]; [pose proof (sin_lt_x th P); lra|rewrite <- P, sin_0 in S; lra]. }
  assert (K' := K). apply rabs_inv in K'. assert (k0 : 0 <= k <= 5) by (pose proof PI_4; lra).
  pose proof (quat_exp b n k 0 U ltac:(lra)) as E. pose proof (about_near n k th U) as A. unfold pure.
  assert (T : trig_err k <= 4 / 10000000) by (unfold trig_err; rewrite Rabs_pos_eq; lra).
  intros i. specialize (E i). specialize (A i).
  replace (lane (XMQuaternionExp b (Q (k * qx n) (k * qy n) (k * qz n) 0)) i - lane (quat_about n (2 * th)) i) with
    (lane (XMQuaternionExp b (Q (k * qx n) (k * qy n) (k * qz n) 0)) i - lane (quat_about n (2 * k)) i + (lane (quat_about n (2 * k)) i - lane (quat_about n (2 * th)) i)) by ring.
  eapply Rle_trans; [apply Rabs_triang|]. apply Rplus_le_compat; [exact (Rle_trans _ _ _ E T)|exact (Rle_trans _ _ _ A K)].
Qed.
