(** Proofs about view matrices, Euler angles and projections in exact arithmetic. *)
From Coq Require Import Reals Lra Psatz Nsatz Bool.
From Verif Require Import Base F32 Intrin Lane MVec MTrig MQuat MPlane MMatrix SpecGeom SpecQuat SpecMat PReal PVec PQuat PMatrix PRot PTransf PPlane PBuild.
Open Scope R_scope.

Lemma viewm_eye r u f e : vecmat (point e) (viewm r u f e) = Q 0 0 0 1.
Proof. dq r; dq u; dq f; dq e. unfold viewm. ms. apply (@Qeq R); ring. Qed.
Lemma viewm_dir r u f e d : vecmat (direction d) (viewm r u f e) = Q (dot3 d r) (dot3 d u) (dot3 d f) 0.
Proof. dq r; dq u; dq f; dq e; dq d. unfold viewm. ms. apply (@Qeq R); ring. Qed.
Lemma dot3_scale_r k a c : dot3 a (scale k c) = k * dot3 a c.
Proof. dq a; dq c; unfold dot3, scale; cbn [qx qy qz]; ring. Qed.
Lemma dot3_cross_l f r : dot3 f (cross f r) = 0.
Proof. dq f; dq r; ms; ring. Qed.
Lemma dot3_comm a b : dot3 a b = dot3 b a.
Proof. dq a; dq b; ms; ring. Qed.
Lemma norm3_sq d : norm3 d * norm3 d = dot3 d d.
Proof. unfold norm3. apply sqrt_sqrt. dq d; ms; nra. Qed.
Lemma look_to_lh b e d u : ~ zero3 d -> ~ zero3 (cross u d) -> exists M, XMMatrixLookToLH (L:=RL) b e d u = Some M /\ looks M e d u 1.
Proof.
  intros D C. destruct (LookTo_R b e d u D C) as (E & F & R1 & RF & RU & UP). eexists; split; [exact E|].
  pose proof (norm3_pos d D) as N. split; [apply viewm_rigid; assumption|]. split; [apply viewm_eye|].
  set (f := scale (/ norm3 d) d) in *. set (r := scale (/ norm3 (cross u f)) (cross u f)) in *.
  rewrite !viewm_dir. cbn [qx qy]. split.
  - assert (Hd : forall v, dot3 d v = norm3 d * dot3 f v).
    { intros v. unfold f. rewrite (dot3_comm (scale _ _)), dot3_scale_r, (dot3_comm v d). field. lra. }
    rewrite !Hd, dot3_cross_l, F, (dot3_comm f r), RF. apply (@Qeq R); ring.
  - rewrite (dot3_comm u r). split; assumption.
Qed.
Lemma opp_zero3 d : ~ zero3 d -> ~ zero3 (opp d).
Proof. unfold zero3. dq d; ms. intros H (A & B & C). apply H. repeat split; lra. Qed.
Lemma cross_opp u d : ~ zero3 (cross u d) -> ~ zero3 (cross u (opp d)).
Proof. unfold zero3. dq d; dq u; ms. intros H (A & B & C). apply H. repeat split; lra. Qed.
Lemma norm3_opp d : norm3 (opp d) = norm3 d.
Proof. unfold norm3. f_equal. dq d; ms; ring. Qed.
Lemma norm3_opp_eq a c : a = opp c -> norm3 a = norm3 c.
Proof. intros ->. apply norm3_opp. Qed.
Lemma look_to_rh b e d u : ~ zero3 d -> ~ zero3 (cross u d) -> exists M, XMMatrixLookToRH (L:=RL) b e d u = Some M /\ looks M e d u (-1).
Proof.
  intros D C. unfold XMMatrixLookToRH. rewrite Neg_R. rt.
  destruct (look_to_lh b e (opp d) u (opp_zero3 d D) (cross_opp u d C)) as (M & E & R1 & EY & DI & U1 & U2).
  exists M; split; [exact E|]. split; [exact R1|]. split; [exact EY|]. split; [|split; assumption].
  rewrite norm3_opp in DI. 
  assert (L : vecmat (direction d) M = opp (vecmat (direction (opp d)) M)) by (clear; dm M; dq d; ms; apply (@Qeq R); ring).
  rewrite L, DI. unfold opp; cbn [qx qy qz qw]. apply (@Qeq R); ring.
Qed.
Lemma look_lh_rh b e d u : ~ zero3 d -> ~ zero3 (cross u d) -> exists M, XMMatrixLookToLH (L:=RL) b e d u = Some M /\ XMMatrixLookToRH (L:=RL) b e d u = Some (matmul M flipxz).
Proof.
  intros D C. destruct (LookTo_R b e d u D C) as (E & _). destruct (LookTo_R b e (opp d) u (opp_zero3 d D) (cross_opp u d C)) as (E' & _).
  eexists; split; [exact E|]. unfold XMMatrixLookToRH. rewrite Neg_R. rt. rewrite E'. f_equal.
  set (f := scale (/ norm3 d) d) in *.
  replace (scale (/ norm3 (opp d)) (opp d)) with (opp f) by (rewrite norm3_opp; subst f; set (k := / norm3 d); clearbody k; clear; dq d; ms; apply (@Qeq R); ring).
  assert (CO : cross u (opp f) = Q (- qx (cross u f)) (- qy (cross u f)) (- qz (cross u f)) 0) by (clear; clearbody f; dq u; dq f; ms; apply (@Qeq R); ring).
  assert (NO : norm3 (cross u (opp f)) = norm3 (cross u f)) by (unfold norm3; f_equal; rewrite CO; clear; clearbody f; dq u; dq f; ms; ring).
  rewrite NO. set (k := / norm3 (cross u f)). clearbody k f. clear. dq f; dq u; dq e. unfold viewm, flipxz. ms. meq; ring.
Qed.
Lemma look_at_lh b e t u : let d := minus t e in ~ zero3 d -> ~ zero3 (cross u d) ->
  exists M, XMMatrixLookAtLH (L:=RL) b e t u = Some M /\ looks M e d u 1.
Proof.
  intros d D C. unfold XMMatrixLookAtLH. replace (XMVectorSubtract (L:=RL) b t e) with d by (bk b; reflexivity).
  apply look_to_lh; assumption.
Qed.
Lemma look_at_rh b e t u : let d := minus t e in ~ zero3 d -> ~ zero3 (cross u d) ->
  exists M, XMMatrixLookAtRH (L:=RL) b e t u = Some M /\ looks M e d u (-1).
Proof.
  intros d D C. unfold XMMatrixLookAtRH.
  replace (XMVectorSubtract (L:=RL) b e t) with (XMVectorNegate (L:=RL) b d).
  - exact (look_to_rh b e d u D C).
  - rewrite Neg_R. unfold d. dq e; dq t. bk b; rcbv; rt; ms; apply (@Qeq R); ring.
Qed.

(** ** Euler angles *)
Lemma rpy_mat sx cx sy cy sz cz : sx * sx + cx * cx = 1 -> sy * sy + cy * cy = 1 -> sz * sz + cz * cz = 1 ->
  qmat (ham (ham (Q 0 sy 0 cy) (Q sx 0 0 cx)) (Q 0 0 sz cz)) =
  matmul (matmul (mrotz (2 * sz * cz) (cz * cz - sz * sz)) (mrotx (2 * sx * cx) (cx * cx - sx * sx))) (mroty (2 * sy * cy) (cy * cy - sy * sy)).
Proof.
  intros X Y Z.
  assert (Ux : unitq (Q sx 0 0 cx)) by (unfold unitq; ms; lra).
  assert (Uy : unitq (Q 0 sy 0 cy)) by (unfold unitq; ms; lra).
  assert (Uz : unitq (Q 0 0 sz cz)) by (unfold unitq; ms; lra).
  assert (Uxy : unitq (ham (Q 0 sy 0 cy) (Q sx 0 0 cx))) by (unfold unitq in *; rewrite ham_norm, Ux, Uy; ring).
  rewrite qmat_ham, qmat_ham by assumption. rewrite <- matmul_assoc. 
  f_equal; [f_equal|].
  - rewrite mrotz_n, <- (rotnq_mat (Q 0 0 1 0)); [f_equal; apply (@Qeq R); cbn [qx qy qz qw]; ring|unfold unit3; ms; ring|exact Z].
  - rewrite mrotx_n, <- (rotnq_mat (Q 1 0 0 0)); [f_equal; apply (@Qeq R); cbn [qx qy qz qw]; ring|unfold unit3; ms; ring|exact X].
  - rewrite mroty_n, <- (rotnq_mat (Q 0 1 0 0)); [f_equal; apply (@Qeq R); cbn [qx qy qz qw]; ring|unfold unit3; ms; ring|exact Y].
Qed.

(** ** Projections *)
Definition perspm (l r bt t n f : R) : rmat :=
  Q (Q (2 * n / (r - l)) 0 0 0) (Q 0 (2 * n / (t - bt)) 0 0) (Q (- (l + r) / (r - l)) (- (t + bt) / (t - bt)) (f / (f - n)) 1) (Q 0 0 (- (f / (f - n) * n)) 0).
Lemma perspm_dehom l r bt t n f x y z : z <> 0 -> r <> l -> t <> bt -> f <> n ->
  dehom (vecmat (Q x y z 1) (perspm l r bt t n f)) =
  Q ((2 * (x * n) / z - (l + r)) / (r - l)) ((2 * (y * n) / z - (t + bt)) / (t - bt)) (f * (z - n) / (z * (f - n))) 1.
Proof.
  intros. unfold dehom, perspm. ms.
  apply (@Qeq R); field; repeat split; lra.
Qed.
Lemma perspm_maps l r bt t n f : n > 0 -> f > 0 -> r <> l -> t <> bt -> f <> n -> maps_frustum (perspm l r bt t n f) l r bt t n f.
Proof.
  intros N F RL0 TB FN x y z Z. cbv zeta. split; [unfold perspm; ms; ring|]. rewrite perspm_dehom by assumption. cbn [qx qy qz].
  split; [intros ->; field; lra|]. split; [intros ->; field; lra|].
  split; [intros ->; field; lra|]. split; [intros ->; field; lra|]. split; [intros ->; field; lra|]. split; [intros ->; field; lra|].
  intros NF LR BT ZP. unfold in_frustum, in_ndc. cbn [qx qy qz].
  set (X := (2 * (x * n) / z - (l + r)) / (r - l)). set (Y := (2 * (y * n) / z - (t + bt)) / (t - bt)). set (D := f * (z - n) / (z * (f - n))).
  assert (EX : (r - l) * z * X = 2 * (x * n) - (l + r) * z) by (subst X; field; lra).
  assert (EY : (t - bt) * z * Y = 2 * (y * n) - (t + bt) * z) by (subst Y; field; lra).
  assert (ED : (f - n) * z * D = f * (z - n)) by (subst D; field; lra).
  clearbody X Y D.
  assert (PX : 0 < (r - l) * z) by nra. assert (PY : 0 < (t - bt) * z) by nra. assert (PD : 0 < (f - n) * z) by nra.
  split.
  - intros ((A & B) & (A1 & B1) & (A2 & B2)). repeat split.
    + apply Rmult_le_reg_l with ((r - l) * z); [exact PX|]. lra.
    + apply Rmult_le_reg_l with ((r - l) * z); [exact PX|]. lra.
    + apply Rmult_le_reg_l with ((t - bt) * z); [exact PY|]. lra.
    + apply Rmult_le_reg_l with ((t - bt) * z); [exact PY|]. lra.
    + apply Rmult_le_reg_l with ((f - n) * z); [exact PD|]. nra.
    + apply Rmult_le_reg_l with ((f - n) * z); [exact PD|]. nra.
  - intros ((A & B) & (A1 & B1) & (A2 & B2)).
    pose proof (Rmult_le_compat_l _ _ _ (Rlt_le _ _ PX) A). pose proof (Rmult_le_compat_l _ _ _ (Rlt_le _ _ PX) B).
    pose proof (Rmult_le_compat_l _ _ _ (Rlt_le _ _ PY) A1). pose proof (Rmult_le_compat_l _ _ _ (Rlt_le _ _ PY) B1).
    pose proof (Rmult_le_compat_l _ _ _ (Rlt_le _ _ PD) A2). pose proof (Rmult_le_compat_l _ _ _ (Rlt_le _ _ PD) B2).
    assert (n <= z) by nra. assert (z <= f) by nra. repeat split; lra.
Qed.
Lemma eps5_R : eps5 (L:=RL) = eps5R. Proof. unfold eps5, eps5R; cbn; unfold Rlit; cbn; field. Qed.
Lemma distinct_R a c : distinct (L:=RL) a c = true <-> eps5R < Rabs (a - c).
Proof.
  unfold distinct, XMScalarNearEqual. rewrite eps5_R. rl. rewrite negb_true_iff, Rleb_false. lra.
Qed.
Lemma distinct_ne a c : eps5R < Rabs (a - c) -> a <> c.
Proof. intros H ->. rewrite Rminus_diag_eq, Rabs_R0 in H by reflexivity. unfold eps5R in H. lra. Qed.
Lemma near_far_R n f : near_far_ok (L:=RL) n f = true <-> 0 < n /\ 0 < f.
Proof. unfold near_far_ok. rewrite andb_true_iff. unfold tgt; cbn [tlt RL]. rl. rewrite !Rltb_true. lra. Qed.
Lemma persp_rows_R b a c f k m : persp_rows (L:=RL) b a c f k m = Q (Q a 0 0 0) (Q 0 c 0 0) (Q 0 0 f m) (Q 0 0 k 0).
Proof. bk b; reflexivity. Qed.
Lemma ortho_rows_R b a c f k : ortho_rows (L:=RL) b a c f k = Q (Q a 0 0 0) (Q 0 c 0 0) (Q 0 0 f 0) (Q 0 0 k 1).
Proof. bk b; reflexivity. Qed.
Lemma off_rows_R b a c k r2 : offcenter_rows (L:=RL) b a c k r2 = Q (Q a 0 0 0) (Q 0 c 0 0) r2 (Q 0 0 k 0).
Proof. bk b; reflexivity. Qed.
Lemma opt_iff (c : bool) (P : Prop) (A B M : rmat) : (c = true <-> P) -> (P -> A = B) -> ((if c then Some A else None) = Some M <-> P /\ M = B).
Proof.
  intros I E. destruct c.
  - assert (p : P) by (apply I; reflexivity). rewrite (E p). split; [intros H; injection H as <-; auto|intros (_ & ->); reflexivity].
  - split; [discriminate|]. intros (p & _). apply I in p. discriminate.
Qed.
Lemma size_R w h n f : (near_far_ok (L:=RL) n f && distinct (L:=RL) w 0 && distinct (L:=RL) h 0 && distinct (L:=RL) f n)%bool = true <-> size_ok w h n f.
Proof. unfold size_ok. rewrite !andb_true_iff, near_far_R, !distinct_R, !Rminus_0_r. tauto. Qed.
Lemma size_ne w h n f : size_ok w h n f -> w <> 0 /\ h <> 0 /\ f <> n /\ n - f <> 0.
Proof.
  intros (N & F & W & H & D). assert (f <> n) by (apply distinct_ne; exact D).
  repeat split; try lra; apply distinct_ne; rewrite Rminus_0_r; assumption.
Qed.
Ltac fin := rl; unfold perspm, flipz; ms; meq; try field; try lra.
Lemma persp_lh b w h n f M : XMMatrixPerspectiveLH (L:=RL) b w h n f = Some M <-> size_ok w h n f /\ M = perspm (- w / 2) (w / 2) (- h / 2) (h / 2) n f.
Proof.
  apply opt_iff; [apply size_R|]. intros (A & B & C & D)%size_ne. rewrite persp_rows_R. change (one (L:=RL)) with 1. fin.
Qed.
Lemma persp_rh b w h n f M : XMMatrixPerspectiveRH (L:=RL) b w h n f = Some M <-> size_ok w h n f /\ M = matmul flipz (perspm (- w / 2) (w / 2) (- h / 2) (h / 2) n f).
Proof.
  apply opt_iff; [apply size_R|]. intros (A & B & C & D)%size_ne. rewrite persp_rows_R. change (mone (L:=RL)) with (- 1). fin.
Qed.
Lemma window_R l r bt t n f : offcenter_ok (L:=RL) l r bt t n f = true <-> window_ok l r bt t n f.
Proof. unfold offcenter_ok, window_ok. rewrite !andb_true_iff, near_far_R, !distinct_R. tauto. Qed.
Lemma window_ne l r bt t n f : window_ok l r bt t n f -> r <> l /\ t <> bt /\ f <> n /\ n - f <> 0.
Proof.
  intros (N & F & W & H & D). assert (f <> n) by (apply distinct_ne; exact D).
  repeat split; try lra; apply distinct_ne; assumption.
Qed.
Lemma off_lh b l r bt t n f M : XMMatrixPerspectiveOffCenterLH (L:=RL) b l r bt t n f = Some M <-> window_ok l r bt t n f /\ M = perspm l r bt t n f.
Proof.
  apply opt_iff; [apply window_R|]. intros (A & B & C & D)%window_ne. rewrite off_rows_R. change (one (L:=RL)) with 1. fin.
Qed.
Lemma off_rh b l r bt t n f M : XMMatrixPerspectiveOffCenterRH (L:=RL) b l r bt t n f = Some M <-> window_ok l r bt t n f /\ M = matmul flipz (perspm l r bt t n f).
Proof.
  apply opt_iff; [apply window_R|]. intros (A & B & C & D)%window_ne. rewrite off_rows_R. change (one (L:=RL)) with 1. change (mone (L:=RL)) with (- 1). fin.
Qed.
(** field of view: half height at the near plane n * s / c, half width [a] times that *)
Lemma fov_half s c n : s <> 0 -> c <> 0 -> n <> 0 -> n * (s / c) <> 0 /\ c / s = n / (n * (s / c)).
Proof.
  intros. split; [|field; lra]. apply Rmult_integral_contrapositive_currified; [assumption|].
  apply Rmult_integral_contrapositive_currified; [assumption|apply Rinv_neq_0_compat; assumption].
Qed.
Lemma fov_lh_sc b s c a n f : s <> 0 -> c <> 0 -> a <> 0 -> n <> 0 -> f <> n ->
  perspective_fov_lh_sc (L:=RL) b s c a n f = perspm (- (a * (n * (s / c)))) (a * (n * (s / c))) (- (n * (s / c))) (n * (s / c)) n f.
Proof.
  intros S C A N F. destruct (fov_half _ _ _ S C N) as (HH & E). unfold perspective_fov_lh_sc. cbv zeta. rewrite persp_rows_R. change (one (L:=RL)) with 1. rl.
  rewrite E. generalize dependent (n * (s / c)). intros h H _. assert (a * h <> 0) by (apply Rmult_integral_contrapositive_currified; assumption).
  unfold perspm; meq; try field; repeat split; lra.
Qed.
Lemma fov_rh_sc b s c a n f : s <> 0 -> c <> 0 -> a <> 0 -> n <> 0 -> f <> n ->
  perspective_fov_rh_sc (L:=RL) b s c a n f = matmul flipz (perspm (- (a * (n * (s / c)))) (a * (n * (s / c))) (- (n * (s / c))) (n * (s / c)) n f).
Proof.
  intros S C A N F. destruct (fov_half _ _ _ S C N) as (HH & E). unfold perspective_fov_rh_sc. cbv zeta. rewrite persp_rows_R. change (mone (L:=RL)) with (- 1). rl.
  rewrite E. generalize dependent (n * (s / c)). intros h H _. assert (a * h <> 0) by (apply Rmult_integral_contrapositive_currified; assumption).
  unfold perspm, flipz; ms; meq; try field; repeat split; lra.
Qed.
Definition orthm (w h n f : R) : rmat := Q (Q (2 / w) 0 0 0) (Q 0 (2 / h) 0 0) (Q 0 0 (1 / (f - n)) 0) (Q 0 0 (- (1 / (f - n) * n)) 1).
Lemma orthm_maps w h n f : w <> 0 -> h <> 0 -> f <> n -> maps_box (orthm w h n f) (- w / 2) (w / 2) (- h / 2) (h / 2) n f.
Proof.
  intros W H F x y z. cbv zeta.
  replace (vecmat (Q x y z 1) (orthm w h n f)) with (Q (2 * x / w) (2 * y / h) ((z - n) / (f - n)) 1) by (unfold orthm; ms; apply (@Qeq R); field; lra).
  cbn [qx qy qz qw]. split; [reflexivity|].
  split; [intros ->; field; lra|]. split; [intros ->; field; lra|].
  split; [intros ->; field; lra|]. split; [intros ->; field; lra|]. split; [intros ->; field; lra|]. split; [intros ->; field; lra|].
  intros NF LR BT. unfold in_ndc. cbn [qx qy qz].
  assert (0 < w) by lra. assert (0 < h) by lra.
  set (X := 2 * x / w). set (Y := 2 * y / h). set (D := (z - n) / (f - n)).
  assert (EX : w * X = 2 * x) by (subst X; field; lra).
  assert (EY : h * Y = 2 * y) by (subst Y; field; lra).
  assert (ED : (f - n) * D = z - n) by (subst D; field; lra).
  clearbody X Y D. assert (PD : 0 < f - n) by lra.
  split; intros ((A & B) & (A1 & B1) & (A2 & B2)); repeat split; nra.
Qed.
Lemma box_R w h n f : (distinct (L:=RL) w 0 && distinct (L:=RL) h 0 && distinct (L:=RL) f n)%bool = true <-> box_ok w h n f.
Proof. unfold box_ok. rewrite !andb_true_iff, !distinct_R, !Rminus_0_r. tauto. Qed.
Lemma box_ne w h n f : box_ok w h n f -> w <> 0 /\ h <> 0 /\ f <> n /\ n - f <> 0.
Proof.
  intros (W & H & D). assert (f <> n) by (apply distinct_ne; exact D).
  repeat split; try lra; apply distinct_ne; rewrite Rminus_0_r; assumption.
Qed.
Lemma ortho_lh b w h n f M : XMMatrixOrthographicLH (L:=RL) b w h n f = Some M <-> box_ok w h n f /\ M = orthm w h n f.
Proof.
  apply opt_iff; [apply box_R|]. intros (A & B & C & D)%box_ne. rewrite ortho_rows_R. change (one (L:=RL)) with 1. change (two (L:=RL)) with 2.
  rl; unfold orthm; meq; try field; try lra.
Qed.
Lemma ortho_rh b w h n f M : XMMatrixOrthographicRH (L:=RL) b w h n f = Some M <-> box_ok w h n f /\ M = matmul flipz (orthm w h n f).
Proof.
  apply opt_iff; [apply box_R|]. intros (A & B & C & D)%box_ne. rewrite ortho_rows_R. change (one (L:=RL)) with 1. change (two (L:=RL)) with 2.
  rl; unfold orthm, flipz; ms; meq; try field; try lra.
Qed.
Lemma flipz_flipz M : matmul flipz (matmul flipz M) = M.
Proof. rewrite <- matmul_assoc. replace (matmul flipz flipz) with ident by (unfold flipz; ms; meq; ring). apply matmul_1l. Qed.

(** ** Project and Unproject *)
Lemma half_R : half (L:=RL) = / 2. Proof. unfold half; cbn; unfold Rlit; cbn; field. Qed.
Lemma Project_R b v X Y W H Z0 Z1 P V Wo : XMVector3Project (L:=RL) b v X Y W H Z0 Z1 P V Wo =
  to_screen X Y W H Z0 Z1 (dehom (vecmat (point v) (matmul (matmul Wo V) P))).
Proof.
  unfold XMVector3Project. cbv zeta. rewrite TransformCoord3_R, !MMul_R. rt. generalize (dehom (vecmat (point v) (matmul (matmul Wo V) P))). intros u.
  dq u. rewrite half_R. unfold to_screen. bk b; rcbv; rt; apply (@Qeq R); field.
Qed.

Definition from_screen (X Y W H Z0 Z1 : R) (v : rvec) : rvec :=
  Q (2 * (qx v - X) / W - 1) (1 - 2 * (qy v - Y) / H) ((qz v - Z0) / (Z1 - Z0)) (qw v).
Lemma Unproject_R b v X Y W H Z0 Z1 P V Wo : W <> 0 -> H <> 0 -> Z1 <> Z0 -> XMVector3Unproject (L:=RL) b v X Y W H Z0 Z1 P V Wo =
  dehom (vecmat (point (from_screen X Y W H Z0 Z1 v)) (mscale (1 / detM (matmul (matmul Wo V) P)) (adj (matmul (matmul Wo V) P)))).
Proof.
  intros W0 H0 Z. unfold XMVector3Unproject. cbv zeta. rewrite TransformCoord3_R, !MMul_R, Inverse_R. cbn [snd]. rt.
  f_equal. f_equal. f_equal. rewrite half_R. dq v. unfold from_screen. bk b; rcbv; rt; apply (@Qeq R); field; lra.
Qed.
Lemma project_unproject b v X Y W H Z0 Z1 P V Wo : W <> 0 -> H <> 0 -> Z1 <> Z0 ->
  mdet (matmul (matmul Wo V) P) <> 0 -> qw (vecmat (point v) (matmul (matmul Wo V) P)) <> 0 ->
  XMVector3Unproject (L:=RL) b (XMVector3Project (L:=RL) b v X Y W H Z0 Z1 P V Wo) X Y W H Z0 Z1 P V Wo = point v.
Proof.
  intros W0 H0 Z D C. rewrite Unproject_R, Project_R by assumption. set (M := matmul (matmul Wo V) P) in *.
  assert (E : point (from_screen X Y W H Z0 Z1 (to_screen X Y W H Z0 Z1 (dehom (vecmat (point v) M)))) = dehom (vecmat (point v) M)).
  { revert C. generalize (vecmat (point v) M). clear - W0 H0 Z. intros u C. dq u. cbn [qw] in C. unfold from_screen, to_screen, dehom. ms.
    apply (@Qeq R); field; repeat split; lra. }
  rewrite E. change (mdet M) with (detM M) in D.
  assert (I : matmul M (mscale (1 / detM M) (adj M)) = ident).
  { transitivity (mscale (1 / detM M) (matmul M (adj M))).
    - generalize (1 / detM M), (adj M). clear. intros k A. dm M; dm A. unfold mscale. ms. meq; ring.
    - rewrite adj_r. generalize dependent (detM M). clear. intros d D. unfold mscale. ms. meq; field; lra. }
  unfold dehom at 2. set (k := / qw (vecmat (point v) M)).
  assert (K : k <> 0) by (apply Rinv_neq_0_compat; exact C).
  assert (S : forall u A, vecmat (scale k u) A = scale k (vecmat u A)) by (clear; intros u A; dq u; dm A; ms; apply (@Qeq R); ring).
  rewrite S, vecmat_matmul, I, vecmat_ident. clearbody k. clear - K. dq v. unfold dehom. ms. apply (@Qeq R); field; lra.
Qed.
