(** The rotation builders as functions of the angle: the polynomial sine and cosine put in. *)
From Coq Require Import Reals ZArith Lra Psatz.
From Verif Require Import Base F32 Intrin Lane SpecGeom SpecQuat SpecMat SpecTrig SpecRot MVec MTrig MQuat MMatrix PReal PVec PQuat PTransf PTrig PTrigFn PTrigPoly PBuild PQuatProps PMatProps.
Open Scope R_scope.

Lemma trig_err_pos a : 0 < trig_err a.
Proof. unfold trig_err. pose proof (Rabs_pos a). lra. Qed.
Lemma sc_scalar (a : R) : Rabs a <= 100000000 -> exists s c, XMScalarSinCos (L:=RL) a = (s, c) /\ Rabs (s - sin a) <= trig_err a /\ Rabs (c - cos a) <= trig_err a.
Proof. intros H. rewrite sincos_scalar_pair. exists (XMScalarSin (L:=RL) a), (XMScalarCos (L:=RL) a). split; [reflexivity|]. exact (sin_scalar a H). Qed.
Lemma sc_vector b (V : rvec) : (forall k, Rabs (lane V k) <= 100000000) -> exists s c, XMVectorSinCos (L:=RL) b V = (s, c) /\
  forall k, Rabs (lane s k - sin (lane V k)) <= trig_err (lane V k) /\ Rabs (lane c k - cos (lane V k)) <= trig_err (lane V k).
Proof.
  intros H. rewrite sincos_pair. exists (XMVectorSin (L:=RL) b V), (XMVectorCos (L:=RL) b V). split; [reflexivity|]. intros k.
  destruct b as [|s3 s4 f a].
  - destruct (sin_exact_scalar V) as [-> ->]. rewrite !lane_qmap. pose proof (trig_err_pos (lane V k)). rewrite !Rminus_diag_eq, Rabs_R0 by reflexivity. lra.
  - apply (sin_vec (SSE s3 s4 f a) V k); [discriminate|apply H].
Qed.
Lemma mrotn_about n a : mrotn n (sin a) (cos a) = rot_about n a.
Proof. dq n. unfold mrotn, rot_about, rodrigues, plus, scale, direction, cross, dot3. cbn [qx qy qz qw]. repeat first [apply (@Qeq (quad R)) | apply (@Qeq R)]; ring. Qed.
Lemma lin2 s c S C x y e : Rabs (s - S) <= e -> Rabs (c - C) <= e -> Rabs x <= 1 -> Rabs y <= 1 -> Rabs ((c - C) * x + (s - S) * y) <= 2 * e.
Proof.
  intros Hs Hc Hx Hy. eapply Rle_trans; [apply Rabs_triang|]. rewrite !Rabs_mult. pose proof (Rabs_pos (s - S)). pose proof (Rabs_pos (c - C)). pose proof (Rabs_pos x). pose proof (Rabs_pos y).
  assert (Rabs (c - C) * Rabs x <= e * 1) by (apply Rmult_le_compat; lra). assert (Rabs (s - S) * Rabs y <= e * 1) by (apply Rmult_le_compat; lra). lra.
Qed.
Lemma mrotn_near n s c S C e : unit3 n -> Rabs (s - S) <= e -> Rabs (c - C) <= e -> mnear (2 * e) (mrotn n s c) (mrotn n S C).
Proof.
  unfold unit3. dq n. unfold dot3. cbn [qx qy qz qw]. intros U Hs Hc.
  pose proof (Rle_0_sqr nx) as X. pose proof (Rle_0_sqr ny) as Y. pose proof (Rle_0_sqr nz) as Z.
  pose proof (Rle_0_sqr (nx - ny)) as XY. pose proof (Rle_0_sqr (nx - nz)) as XZ. pose proof (Rle_0_sqr (ny - nz)) as YZ.
  pose proof (Rle_0_sqr (nx + ny)) as XY'. pose proof (Rle_0_sqr (nx + nz)) as XZ'. pose proof (Rle_0_sqr (ny + nz)) as YZ'. unfold Rsqr in *.
  assert (b1 : forall t, t * t <= 1 -> Rabs t <= 1) by (intros t Ht; apply Rabs_le; nra).
  assert (ex : Rabs nx <= 1) by (apply b1; lra). assert (ey : Rabs ny <= 1) by (apply b1; lra). assert (ez : Rabs nz <= 1) by (apply b1; lra).
  assert (N : forall t, Rabs t <= 1 -> Rabs (- t) <= 1) by (intros t Ht; rewrite Rabs_Ropp; exact Ht).
  assert (O : Rabs 0 <= 1) by (rewrite Rabs_R0; lra).
  assert (xx : Rabs (1 - nx * nx) <= 1) by (apply Rabs_le; lra). assert (yy : Rabs (1 - ny * ny) <= 1) by (apply Rabs_le; lra). assert (zz : Rabs (1 - nz * nz) <= 1) by (apply Rabs_le; lra).
  assert (xy : Rabs (- (nx * ny)) <= 1) by (apply Rabs_le; lra). assert (xz : Rabs (- (nx * nz)) <= 1) by (apply Rabs_le; lra). assert (yz : Rabs (- (ny * nz)) <= 1) by (apply Rabs_le; lra).
  assert (e0 : 0 <= e) by (pose proof (Rabs_pos (s - S)); lra).
  intros i j. destruct i, j; unfold mrotn, entry; cbn [lane qx qy qz qw].
  all: try (rewrite Rminus_diag_eq, Rabs_R0 by reflexivity; lra).
  - replace (_ - _) with ((c - C) * (1 - nx * nx) + (s - S) * 0) by ring. apply lin2; auto.
  - replace (_ - _) with ((c - C) * (- (nx * ny)) + (s - S) * nz) by ring. apply lin2; auto.
  - replace (_ - _) with ((c - C) * (- (nx * nz)) + (s - S) * (- ny)) by ring. apply lin2; auto.
  - replace (_ - _) with ((c - C) * (- (nx * ny)) + (s - S) * (- nz)) by ring. apply lin2; auto.
  - replace (_ - _) with ((c - C) * (1 - ny * ny) + (s - S) * 0) by ring. apply lin2; auto.
  - replace (_ - _) with ((c - C) * (- (ny * nz)) + (s - S) * nx) by ring. apply lin2; auto.
  - replace (_ - _) with ((c - C) * (- (nx * nz)) + (s - S) * ny) by ring. apply lin2; auto.
  - replace (_ - _) with ((c - C) * (- (ny * nz)) + (s - S) * (- nx)) by ring. apply lin2; auto.
  - replace (_ - _) with ((c - C) * (1 - nz * nz) + (s - S) * 0) by ring. apply lin2; auto.
Qed.
Lemma rot_normal b n a : unit3 n -> Rabs a <= 100000000 -> mnear (2 * trig_err a) (XMMatrixRotationNormal (L:=RL) b n a) (rot_about n a).
Proof.
  intros U H. unfold XMMatrixRotationNormal. destruct (sc_scalar a H) as (s & c & -> & Es & Ec). rewrite RotN_R, <- mrotn_about. apply mrotn_near; assumption.
Qed.
Lemma rot_xyz b a : Rabs a <= 100000000 -> mnear (2 * trig_err a) (XMMatrixRotationX (L:=RL) b a) (rot_about ex3 a) /\
  mnear (2 * trig_err a) (XMMatrixRotationY (L:=RL) b a) (rot_about ey3 a) /\ mnear (2 * trig_err a) (XMMatrixRotationZ (L:=RL) b a) (rot_about ez3 a).
Proof.
  intros H. unfold XMMatrixRotationX, XMMatrixRotationY, XMMatrixRotationZ. destruct (sc_scalar a H) as (s & c & -> & Es & Ec).
  rewrite RotX_R, RotY_R, RotZ_R, mrotx_n, mroty_n, mrotz_n, <- !mrotn_about. unfold ex3, ey3, ez3.
  repeat split; apply mrotn_near; try assumption; unfold unit3, dot3; cbn [qx qy qz qw]; lra.
Qed.
Lemma norm_unit v : ~ zero3 v -> unit3 (scale (/ norm3 v) v).
Proof.
  intros N. unfold unit3, norm3. assert (P : 0 < dot3 v v).
  { destruct v as [x y z w]. unfold zero3, dot3 in *. cbn [qx qy qz qw] in *. pose proof (Rle_0_sqr x). pose proof (Rle_0_sqr y). pose proof (Rle_0_sqr z). unfold Rsqr in *.
    destruct (Req_dec x 0) as [->|]; [destruct (Req_dec y 0) as [->|]; [destruct (Req_dec z 0) as [->|]; [exfalso; apply N; auto|]|]|]; nra. }
  pose proof (sqrt_lt_R0 _ P) as S. pose proof (sqrt_sqrt (dot3 v v) ltac:(lra)) as E. set (r := sqrt (dot3 v v)) in *.
  replace (dot3 (scale (/ r) v) (scale (/ r) v)) with (/ r * / r * dot3 v v) by (clearbody r; unfold dot3, scale; cbn [qx qy qz qw]; ring). rewrite <- E. field. lra.
Qed.
Lemma rot_axis b v a : ~ zero3 v -> Rabs a <= 100000000 -> exists M, XMMatrixRotationAxis (L:=RL) b v a = Some M /\ mnear (2 * trig_err a) M (rot_about (scale (/ norm3 v) v) a).
Proof.
  intros N H. unfold XMMatrixRotationAxis. rewrite is_zero3_not, not_inf3 by exact N. cbn [orb]. eexists. split; [reflexivity|]. rewrite Normalize3_R by exact N. apply rot_normal; [apply norm_unit, N|exact H].
Qed.
Lemma axis_zero b v a : zero3 v -> XMMatrixRotationAxis (L:=RL) b v a = None /\ XMQuaternionRotationAxis (L:=RL) b v a = None.
Proof. intros N. unfold XMMatrixRotationAxis, XMQuaternionRotationAxis. apply is_zero3_R in N. rewrite N. auto. Qed.
(** ** quaternions *)
Lemma half_R (a : R) : (@half RL * a)%R = a / 2.
Proof. unfold half. cbn. unfold Rlit. cbn. lra. Qed.
Lemma lane_qrep {A} (x : A) k : lane (qrep x) k = x.
Proof. destruct k; reflexivity. Qed.
Lemma unit_lane n : unit3 n -> Rabs (qx n) <= 1 /\ Rabs (qy n) <= 1 /\ Rabs (qz n) <= 1.
Proof.
  unfold unit3, dot3. intros U. pose proof (Rle_0_sqr (qx n)) as X. pose proof (Rle_0_sqr (qy n)) as Y. pose proof (Rle_0_sqr (qz n)) as Z. unfold Rsqr in *.
  assert (b1 : forall t, t * t <= 1 -> Rabs t <= 1) by (intros t Ht; apply Rabs_le; nra). repeat split; apply b1; lra.
Qed.
Lemma mul_near n s S e : Rabs n <= 1 -> Rabs (s - S) <= e -> Rabs (n * s - n * S) <= e.
Proof. intros H E. rewrite <- Rmult_minus_distr_l, Rabs_mult. pose proof (Rabs_pos n). pose proof (Rabs_pos (s - S)). assert (Rabs n * Rabs (s - S) <= 1 * e) by (apply Rmult_le_compat; lra). lra. Qed.
Lemma quat_normal b n a : unit3 n -> Rabs a <= 200000000 -> vnear (trig_err (a / 2)) (XMQuaternionRotationNormal (L:=RL) b n a) (quat_about n a).
Proof.
  intros U H. assert (H2 : Rabs (a / 2) <= 100000000) by (unfold Rdiv; rewrite Rabs_mult, (Rabs_pos_eq (/ 2)) by lra; lra).
  assert (G : exists s c, XMQuaternionRotationNormal (L:=RL) b n a = rotation_normal_sc (L:=RL) b n s c /\ Rabs (s - sin (a / 2)) <= trig_err (a / 2) /\ Rabs (c - cos (a / 2)) <= trig_err (a / 2)).
  { unfold XMQuaternionRotationNormal. destruct b as [|s3 s4 f av].
    - change (@tmul RL (@half RL) a) with (@half RL * a)%R. rewrite half_R. destruct (sc_scalar (a / 2) H2) as (s & c & -> & E). exists s, c. auto.
    - change (@tmul RL (@half RL) a) with (@half RL * a)%R. rewrite half_R. rt. destruct (sc_vector (SSE s3 s4 f av) (qrep (a / 2))) as (s & c & E0' & E); [intros k; rewrite lane_qrep; exact H2|].
      exists (qx s), (qw c). split; [rewrite E0'; reflexivity|]. destruct (E I0) as [E0 _]. destruct (E I3) as [_ E3]. rewrite lane_qrep in E0, E3. auto. }
  destruct G as (s & c & -> & Es & Ec). rewrite RotNQ_R. destruct (unit_lane n U) as (X & Y & Z). intros k. unfold quat_about. destruct k; cbn [lane qx qy qz qw]; try (apply mul_near; assumption). exact Ec.
Qed.
Lemma quat_axis b v a : ~ zero3 v -> Rabs a <= 200000000 ->
  exists q, XMQuaternionRotationAxis (L:=RL) b v a = Some q /\ vnear (trig_err (a / 2)) q (quat_about (scale (/ norm3 v) v) a).
Proof.
  intros N H. unfold XMQuaternionRotationAxis. rewrite is_zero3_not, not_inf3 by exact N. cbn [orb]. eexists. split; [reflexivity|]. rewrite Normalize3_R by exact N. apply quat_normal; [apply norm_unit, N|exact H].
Qed.
Lemma trig_le1 t : Rabs (sin t) <= 1 /\ Rabs (cos t) <= 1.
Proof. split; apply Rabs_le; [apply SIN_bound|apply COS_bound]. Qed.
Lemma prod3 a b c A B C x y z : Rabs A <= 1 -> Rabs B <= 1 -> Rabs C <= 1 -> Rabs (a - A) <= x -> Rabs (b - B) <= y -> Rabs (c - C) <= z -> x <= / 1000 -> y <= / 1000 -> z <= / 1000 ->
  Rabs (a * b * c - A * B * C) <= 10021 / 10000 * (x + y + z).
Proof.
  intros HA HB HC Ha Hb Hc X Y Z. replace (a * b * c - A * B * C) with ((a - A) * (b * c) + A * ((b - B) * c) + A * (B * (c - C))) by ring.
  assert (b1 : Rabs b <= 1001 / 1000) by (replace b with (b - B + B) by ring; eapply Rle_trans; [apply Rabs_triang|lra]).
  assert (c1 : Rabs c <= 1001 / 1000) by (replace c with (c - C + C) by ring; eapply Rle_trans; [apply Rabs_triang|lra]).
  pose proof (Rabs_pos (a - A)) as a0. pose proof (Rabs_pos (b - B)) as b0. pose proof (Rabs_pos (c - C)) as c0. pose proof (Rabs_pos b). pose proof (Rabs_pos c). pose proof (Rabs_pos A). pose proof (Rabs_pos B).
  assert (bc : Rabs b * Rabs c <= 1001 / 1000 * (1001 / 1000)) by (apply Rmult_le_compat; lra).
  assert (T1 : Rabs ((a - A) * (b * c)) <= x * (1001 / 1000 * (1001 / 1000))) by (rewrite !Rabs_mult; apply Rmult_le_compat; [lra|apply Rmult_le_pos; lra|lra|lra]).
  assert (T2 : Rabs (A * ((b - B) * c)) <= 1 * (y * (1001 / 1000))) by (rewrite !Rabs_mult; apply Rmult_le_compat; [lra|apply Rmult_le_pos; lra|lra|apply Rmult_le_compat; lra]).
  assert (T3 : Rabs (A * (B * (c - C))) <= 1 * (1 * z)) by (rewrite !Rabs_mult; apply Rmult_le_compat; [lra|apply Rmult_le_pos; lra|lra|apply Rmult_le_compat; lra]).
  eapply Rle_trans; [apply Rabs_triang|]. eapply Rle_trans; [apply Rplus_le_compat_r, Rabs_triang|]. lra.
Qed.
Definition rpy_err (p y r : R) : R := trig_err (p / 2) + trig_err (y / 2) + trig_err (r / 2).
Definition rpy_quat (p y r : R) : rvec := ham (ham (quat_about ey3 y) (quat_about ex3 p)) (quat_about ez3 r).
Lemma te_small a : Rabs a <= 50000 -> trig_err (a / 2) <= / 1000 /\ Rabs (a / 2) <= 100000000.
Proof. intros H. assert (Rabs (a / 2) = Rabs a / 2) by (unfold Rdiv; rewrite Rabs_mult, (Rabs_pos_eq (/ 2)) by lra; reflexivity). unfold trig_err. lra. Qed.
Lemma quat_rpy b p y r : Rabs p <= 50000 -> Rabs y <= 50000 -> Rabs r <= 50000 ->
  vnear (201 / 100 * rpy_err p y r) (XMQuaternionRotationRollPitchYaw (L:=RL) b p y r) (rpy_quat p y r).
Proof.
  intros (P1 & P2)%te_small (Y1 & Y2)%te_small (R1 & R2)%te_small. unfold XMQuaternionRotationRollPitchYaw, XMQuaternionRotationRollPitchYawFromVector.
  rewrite Mul_R. change (qmap2 Rmult (Q p y r (@zero RL)) (qrep (@half RL))) with (Q (p * @half RL) (y * @half RL) (r * @half RL) (@zero RL * @half RL))%R.
  assert (Hh : forall t : R, (t * @half RL)%R = t / 2) by (intros t; rewrite Rmult_comm; apply half_R). rewrite !Hh.
  destruct (sc_vector b (Q (p / 2) (y / 2) (r / 2) (@zero RL / 2))) as (s & c & -> & E).
  { intros k. destruct k; cbn [lane qx qy qz qw]; try assumption. change (@zero RL) with 0. unfold Rdiv. rewrite Rmult_0_l, Rabs_R0. lra. }
  rewrite RPY_R. destruct (E I0) as [sx cx]. destruct (E I1) as [sy cy]. destruct (E I2) as [sz cz]. cbn [lane qx qy qz qw] in sx, cx, sy, cy, sz, cz.
  destruct (trig_le1 (p / 2)) as [SP CP]. destruct (trig_le1 (y / 2)) as [SY CY]. destruct (trig_le1 (r / 2)) as [SR CR].
  destruct s as [s0 s1 s2 s3], c as [c0 c1 c2 c3]. cbn [lane qx qy qz qw] in *. unfold rpy_quat, quat_about, ex3, ey3, ez3, rpy_err, ham.
  set (sp := sin (p / 2)) in *. set (cp := cos (p / 2)) in *. set (sY := sin (y / 2)) in *. set (cY := cos (y / 2)) in *. set (sr := sin (r / 2)) in *. set (cr := cos (r / 2)) in *.
  set (ep := trig_err (p / 2)) in *. set (ey := trig_err (y / 2)) in *. set (er := trig_err (r / 2)) in *.
  assert (two : forall u v U V, Rabs (u - U) <= 10021 / 10000 * (ep + ey + er) -> Rabs (v - V) <= 10021 / 10000 * (ep + ey + er) ->
    Rabs ((u + v) - (U + V)) <= 201 / 100 * (ep + ey + er) /\ Rabs ((u - v) - (U - V)) <= 201 / 100 * (ep + ey + er)).
  { intros u v U V Hu Hv. assert (0 < ep + ey + er) by (pose proof (trig_err_pos (p / 2)); pose proof (trig_err_pos (y / 2)); pose proof (trig_err_pos (r / 2)); unfold ep, ey, er; lra).
    split; [replace (u + v - (U + V)) with ((u - U) + (v - V)) by ring|replace (u - v - (U - V)) with ((u - U) + - (v - V)) by ring]; (eapply Rle_trans; [apply Rabs_triang|]); rewrite ?Rabs_Ropp; lra. }
  intros k. destruct k; cbn [lane qx qy qz qw].
  - replace (_ - _) with ((s0 * c1 * c2 + c0 * s1 * s2) - (sp * cY * cr + cp * sY * sr)) by ring. apply two; apply prod3; assumption.
  - replace (_ - _) with ((c0 * s1 * c2 - s0 * c1 * s2) - (cp * sY * cr - sp * cY * sr)) by ring. apply two; apply prod3; assumption.
  - replace (_ - _) with ((c0 * c1 * s2 - s0 * s1 * c2) - (cp * cY * sr - sp * sY * cr)) by ring. apply two; apply prod3; assumption.
  - replace (_ - _) with ((c0 * c1 * c2 + s0 * s1 * s2) - (cp * cY * cr + sp * sY * sr)) by ring. apply two; apply prod3; assumption.
Qed.
(** ** quaternion to matrix *)
Lemma rabs_inv x e : Rabs x <= e -> - e <= x <= e.
Proof. unfold Rabs. destruct (Rcase_abs x); lra. Qed.
Lemma prod2 a b A B d : Rabs A <= 1 -> Rabs B <= 1 -> Rabs (a - A) <= d -> Rabs (b - B) <= d -> d <= / 100 -> Rabs (a * b - A * B) <= 201 / 100 * d.
Proof.
  intros HA HB Ha Hb D. replace (a * b - A * B) with ((a - A) * b + A * (b - B)) by ring. pose proof (Rabs_pos (a - A)). pose proof (Rabs_pos (b - B)). pose proof (Rabs_pos A).
  assert (b1 : Rabs b <= 101 / 100) by (replace b with (b - B + B) by ring; eapply Rle_trans; [apply Rabs_triang|lra]). pose proof (Rabs_pos b).
  eapply Rle_trans; [apply Rabs_triang|]. rewrite !Rabs_mult. assert (Rabs (a - A) * Rabs b <= d * (101 / 100)) by (apply Rmult_le_compat; lra). assert (Rabs A * Rabs (b - B) <= 1 * d) by (apply Rmult_le_compat; lra). lra.
Qed.
Lemma unitq_lane q k : unitq q -> Rabs (lane q k) <= 1.
Proof.
  unfold unitq, dot4. intros U. pose proof (Rle_0_sqr (qx q)) as X. pose proof (Rle_0_sqr (qy q)) as Y. pose proof (Rle_0_sqr (qz q)) as Z. pose proof (Rle_0_sqr (qw q)) as W. unfold Rsqr in *.
  assert (b1 : forall t, t * t <= 1 -> Rabs t <= 1) by (intros t Ht; apply Rabs_le; nra). destruct k; cbn [lane]; apply b1; lra.
Qed.
Lemma qmat_near q p d : unitq p -> vnear d q p -> d <= / 100 -> mnear (81 / 10 * d) (qmat q) (qmat p).
Proof.
  intros U N D. pose proof (unitq_lane p I0 U) as U0. pose proof (unitq_lane p I1 U) as U1. pose proof (unitq_lane p I2 U) as U2. pose proof (unitq_lane p I3 U) as U3.
  pose proof (N I0) as N0. pose proof (N I1) as N1. pose proof (N I2) as N2. pose proof (N I3) as N3. clear N U. destruct q as [x y z w], p as [X Y Z W]. cbn [lane qx qy qz qw] in *.
  assert (d0 : 0 <= d) by (pose proof (Rabs_pos (x - X)); lra).
  assert (S : forall a b A B, Rabs (a - A) <= 201 / 100 * d -> Rabs (b - B) <= 201 / 100 * d -> Rabs (2 * (a + b) - 2 * (A + B)) <= 81 / 10 * d /\ Rabs (2 * (a - b) - 2 * (A - B)) <= 81 / 10 * d /\ Rabs (1 - 2 * (a + b) - (1 - 2 * (A + B))) <= 81 / 10 * d).
  { intros a b A B Ha Hb. apply rabs_inv in Ha. apply rabs_inv in Hb. repeat split; apply Rabs_le; lra. }
  intros i j. destruct i, j; unfold qmat, entry; cbn [lane qx qy qz qw]; try (rewrite Rminus_diag_eq, Rabs_R0 by reflexivity; lra); apply S; apply prod2; assumption.
Qed.
Lemma sc1 a : sin a * sin a + cos a * cos a = 1.
Proof. exact (sin2_cos2 a). Qed.
Lemma dbl_s a : 2 * sin (a / 2) * cos (a / 2) = sin a.
Proof. rewrite <- sin_2a. f_equal. field. Qed.
Lemma dbl_c a : cos (a / 2) * cos (a / 2) - sin (a / 2) * sin (a / 2) = cos a.
Proof. rewrite <- cos_2a. f_equal. field. Qed.
Lemma rpy_quat_R b p y r : rpy_quat p y r = roll_pitch_yaw_sc (L:=RL) b (Q (sin (p / 2)) (sin (y / 2)) (sin (r / 2)) 0) (Q (cos (p / 2)) (cos (y / 2)) (cos (r / 2)) 0).
Proof. rewrite RPY_R. unfold rpy_quat, quat_about, ex3, ey3, ez3. cbn [qx qy qz qw]. rewrite !Rmult_1_l, !Rmult_0_l. reflexivity. Qed.
Lemma rpy_about p y r : unitq (rpy_quat p y r) /\ qmat (rpy_quat p y r) = matmul (matmul (rot_about ez3 r) (rot_about ex3 p)) (rot_about ey3 y).
Proof.
  rewrite (rpy_quat_R Scalar). rewrite <- (RotQuat_R Scalar). rewrite <- !mrotn_about. unfold ex3, ey3, ez3. rewrite <- mrotx_n, <- mroty_n, <- mrotz_n.
  destruct (c31_rpy Scalar (sin (p / 2)) (cos (p / 2)) (sin (y / 2)) (cos (y / 2)) (sin (r / 2)) (cos (r / 2)) 0 0 (sc1 _) (sc1 _) (sc1 _)) as [U E].
  split; [exact U|]. rewrite E, !dbl_s, !dbl_c. reflexivity.
Qed.
Lemma mat_rpy b p y r : Rabs p <= 50000 -> Rabs y <= 50000 -> Rabs r <= 50000 ->
  mnear (17 * rpy_err p y r) (XMMatrixRotationRollPitchYaw (L:=RL) b p y r) (matmul (matmul (rot_about ez3 r) (rot_about ex3 p)) (rot_about ey3 y)).
Proof.
  intros P Y Hr. destruct (rpy_about p y r) as [U <-]. change (XMMatrixRotationRollPitchYaw (L:=RL) b p y r) with (XMMatrixRotationQuaternion (L:=RL) b (XMQuaternionRotationRollPitchYaw (L:=RL) b p y r)).
  rewrite RotQuat_R. pose proof (te_small _ P). pose proof (te_small _ Y). pose proof (te_small _ Hr).
  assert (E : 0 <= rpy_err p y r <= 3 / 1000) by (unfold rpy_err; pose proof (trig_err_pos (p / 2)); pose proof (trig_err_pos (y / 2)); pose proof (trig_err_pos (r / 2)); lra).
  intros i j. eapply Rle_trans; [exact (qmat_near _ _ _ U (quat_rpy b p y r P Y Hr) ltac:(lra) i j)|]. lra.
Qed.
(** ** the 2D transformations *)
Lemma mrotz_near s c a e : Rabs (s - sin a) <= e -> Rabs (c - cos a) <= e -> mnear e (mrotz s c) (rot_about ez3 a).
Proof.
  intros S C. rewrite <- mrotn_about. unfold ez3. rewrite <- mrotz_n. assert (e0 : 0 <= e) by (pose proof (Rabs_pos (s - sin a)); lra).
  intros i j. destruct i, j; unfold mrotz, entry; cbn [lane qx qy qz qw]; try (rewrite Rminus_diag_eq, Rabs_R0 by reflexivity; lra); try assumption.
  replace (- s - - sin a) with (- (s - sin a)) by ring. rewrite Rabs_Ropp. exact S.
Qed.
Lemma transformation2d b so a s ro r t : Rabs a <= 100000000 -> Rabs r <= 100000000 ->
  exists Ma Mr, mnear (trig_err a) Ma (rot_about ez3 a) /\ mnear (trig_err r) Mr (rot_about ez3 r) /\
  XMMatrixTransformation2D (L:=RL) b so a s ro r t =
  matmul (matmul (matmul (matmul (matmul (matmul (matmul (matmul
    (mtrans (opp (flat so))) (transp Ma)) (mscaling (flat_scale s))) Ma) (mtrans (flat so)))
    (mtrans (opp (flat ro)))) Mr) (mtrans (flat ro))) (mtrans (flat t)).
Proof.
  intros A Hr. destruct (sc_scalar a A) as (sa & ca & Ea & Sa & Ca). destruct (sc_scalar r Hr) as (sr & cr & Er & Sr & Cr).
  exists (mrotz sa ca), (mrotz sr cr). split; [apply mrotz_near; assumption|]. split; [apply mrotz_near; assumption|].
  unfold XMMatrixTransformation2D. rewrite Ea, Er. apply Transformation2D_R.
Qed.
Lemma affine2d b s ro r t : Rabs r <= 100000000 ->
  exists Mr, mnear (trig_err r) Mr (rot_about ez3 r) /\ XMMatrixAffineTransformation2D (L:=RL) b s ro r t =
  matmul (matmul (matmul (matmul (mscaling (flat_scale s)) (mtrans (opp (flat ro)))) Mr) (mtrans (flat ro))) (mtrans (flat t)).
Proof.
  intros Hr. destruct (sc_scalar r Hr) as (sr & cr & Er & Sr & Cr). exists (mrotz sr cr). split; [apply mrotz_near; assumption|].
  unfold XMMatrixAffineTransformation2D. rewrite Er. apply Affine2D_R.
Qed.
(** ** the field of view *)
Lemma sin_small x : 1 / 200 <= x <= 157 / 100 -> 499 / 100000 <= sin x.
Proof.
  intros H. assert (P : 157 / 100 <= PI / 2) by (pose proof PI_close; unfold PI32 in *; lra).
  apply Rle_trans with (sin (1 / 200)).
  - pose proof (sinp_err (1 / 200)) as E. assert (L : Rabs (1 / 200) <= halfPI32) by (rewrite Rabs_pos_eq; unfold halfPI32; lra). specialize (E L). apply rabs_inv in E. unfold sinp, poly_err in E. lra.
  - destruct (proj1 H) as [L|L]; [|rewrite <- L; lra]. left. apply sin_increasing_1; lra.
Qed.
Lemma quot_near s c S C e : 0 < S -> 0 < C -> Rabs (s - S) <= e -> Rabs (c - C) <= e -> e <= 505 / 10000000 * S -> e <= 505 / 10000000 * C ->
  0 < s /\ 0 < c /\ Rabs (s / c - S / C) <= 102 / 1000000 * (S / C).
Proof.
  intros HS HC Es Ec eS eC. apply rabs_inv in Es. apply rabs_inv in Ec. assert (s0 : 0 < s) by lra. assert (c0 : 0 < c) by lra. split; [exact s0|]. split; [exact c0|].
  assert (c1 : C * (9999 / 10000) <= c) by lra.
  replace (s / c - S / C) with (((s - S) * C - (c - C) * S) / (c * C)) by (field; lra).
  unfold Rdiv at 1. rewrite Rabs_mult, (Rabs_pos_eq (/ (c * C))) by (left; apply Rinv_0_lt_compat, Rmult_lt_0_compat; assumption).
  apply Rmult_le_reg_r with (c * C); [apply Rmult_lt_0_compat; assumption|].
  rewrite Rmult_assoc, Rinv_l by (apply Rmult_integral_contrapositive_currified; lra). rewrite Rmult_1_r.
  replace (102 / 1000000 * (S / C) * (c * C)) with (102 / 1000000 * (S * c)) by (field; lra).
  assert (A : S * (C * (9999 / 10000)) <= S * c) by (apply Rmult_le_compat_l; lra).
  assert (B1 : Rabs ((s - S) * C) <= 505 / 10000000 * S * C) by (rewrite Rabs_mult, (Rabs_pos_eq C) by lra; apply Rmult_le_compat_r; [lra|]; apply Rabs_le; lra).
  assert (B2 : Rabs ((c - C) * S) <= 505 / 10000000 * C * S) by (rewrite Rabs_mult, (Rabs_pos_eq S) by lra; apply Rmult_le_compat_r; [lra|]; apply Rabs_le; lra).
  apply rabs_inv in B1. apply rabs_inv in B2. apply Rabs_le. lra.
Qed.
Lemma fov_angle b v a n f : 1 / 100 <= v <= 313 / 100 -> exists t, Rabs (t - tan (v / 2)) <= 102 / 1000000 * tan (v / 2) /\
  (forall M, XMMatrixPerspectiveFovLH (L:=RL) b v a n f = Some M -> maps_frustum M (- (a * (n * t))) (a * (n * t)) (- (n * t)) (n * t) n f) /\
  (forall M, XMMatrixPerspectiveFovRH (L:=RL) b v a n f = Some M -> maps_frustum (matmul flipz M) (- (a * (n * t))) (a * (n * t)) (- (n * t)) (n * t) n f).
Proof.
  intros H. assert (X : 1 / 200 <= v / 2 <= 1565 / 1000) by lra. assert (Pb : 1570796 / 1000000 <= PI / 2 <= 1570797 / 1000000) by (pose proof PI_close; unfold PI32 in *; lra).
  destruct (sc_scalar (v / 2)) as (s & c & E & Es & Ec); [rewrite Rabs_pos_eq; lra|].
  assert (S := sin_small (v / 2) ltac:(lra)). assert (C := sin_small (PI / 2 - v / 2) ltac:(lra)). rewrite sin_shift in C.
  assert (T : trig_err (v / 2) <= 2519 / 10000000000) by (unfold trig_err; rewrite Rabs_pos_eq; lra).
  destruct (quot_near s c (sin (v / 2)) (cos (v / 2)) (trig_err (v / 2)) ltac:(lra) ltac:(lra) Es Ec ltac:(lra) ltac:(lra)) as (s0 & c0 & N).
  exists (s / c). split; [exact N|]. apply c39_fov; [exact E|lra|lra].
Qed.
