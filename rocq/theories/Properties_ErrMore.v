(** C76: rounding errors of determinants, reflection, interpolation and planes, on bit patterns.
    Vocabulary of C65; [bounded S x]: every coordinate of x is at most S in size; the "size" of a polynomial form is the
    form with every term replaced by its absolute value. Every statement is for every backend and every finite input in range. *)
From Coq Require Import Reals ZArith Lra Lia.
From Verif Require Import Base F32 F32Facts Intrin Lane SpecF32 SpecGeom SpecMat SpecErr SpecErrR MVec MTrig MQuat MMatrix MInterp MPlane PFloat PErr PErrR PErrDet PErrInt PErrGeo.
From Verif Require PExp PHyp.
Open Scope R_scope.

(** the determinant is within ten roundings of the exact one, relative to the permanent of the absolute values *)
Theorem C76_determinant : forall b M m i S, holdsM M m -> 1 <= S <= pow2 30 -> mbounded S m ->
  within (10 * ulp_half * mperm m + 400 * (S * S) * tiny) (lane (XMMatrixDeterminant (L:=FL) b M) i) (mdet m).
Proof. exact det_err. Qed.
(** so a determinant that is not small against the permanent has the right sign and is not zero *)
Theorem C76_determinant_sign : forall b M m i S, holdsM M m -> 1 <= S <= pow2 30 -> mbounded S m ->
  10 * ulp_half * mperm m + 400 * (S * S) * tiny < Rabs (mdet m) ->
  exists r, value (lane (XMMatrixDeterminant (L:=FL) b M) i) = Fin r /\ (0 < r <-> 0 < mdet m) /\ (r < 0 <-> mdet m < 0) /\ r <> 0.
Proof.
  intros b M m i S HM HS HB H. destruct (C76_determinant b M m i S HM HS HB) as (r & V & E). exists r. split; [exact V|].
  pose proof (Rabs_def2 _ _ (Rle_lt_trans _ _ _ E H)) as (A & B). unfold Rabs in A, B. destruct (Rcase_abs (mdet m)); lra.
Qed.
(** without that proviso: a matrix with determinant 1 whose computed determinant is 0 on every backend *)
Theorem C76_determinant_relative_refuted : exists M m, holdsM M m /\ mdet m = 1 /\ forall b, value (qx (XMMatrixDeterminant (L:=FL) b M)) = Fin 0.
Proof.
  set (n := f_of_Z). exists (Q (Q (n 1) (n 0) (n 0) (n 0)) (Q (n 0) (n 1) (n 0) (n 0)) (Q (n 0) (n 0) (n 4097) (n 4096)) (Q (n 0) (n 0) (n 4098) (n 4097)))%Z.
  exists (Q (Q 1 0 0 0) (Q 0 1 0 0) (Q 0 0 4097 4096) (Q 0 0 4098 4097)). unfold n.
  assert (O : forall k, (Z.abs k <= 2 ^ 24)%Z -> is32 (f_of_Z k) (IZR k)) by (intros k H; split; [apply enc_word|apply of_Z_exact, H]).
  split; [intros i; destruct i; unfold holds4; cbn [lane qx qy qz qw]; refine (Logic.conj _ (Logic.conj _ (Logic.conj _ _))); apply O; vm_compute; discriminate|].
  split; [unfold mdet, det4, det3, det2; cbn [qx qy qz qw]; ring|].
  intros b. assert (D : qx (XMMatrixDeterminant (L:=FL) b (Q (Q (f_of_Z 1) (f_of_Z 0) (f_of_Z 0) (f_of_Z 0)) (Q (f_of_Z 0) (f_of_Z 1) (f_of_Z 0) (f_of_Z 0)) (Q (f_of_Z 0) (f_of_Z 0) (f_of_Z 4097) (f_of_Z 4096)) (Q (f_of_Z 0) (f_of_Z 0) (f_of_Z 4098) (f_of_Z 4097)))) = 0%Z)
    by (destruct b as [|[|] [|] [|] [| |]]; vm_compute; reflexivity).
  rewrite D. apply (of_Z_exact 0). lia.
Qed.
(** the vector perpendicular to three others in four dimensions *)
Theorem C76_cross4 : forall b V1 V2 V3 x y z i S, holds4 V1 x -> holds4 V2 y -> holds4 V3 z -> 1 <= S <= pow2 30 -> bounded S x -> bounded S y -> bounded S z ->
  within (7 * ulp_half * lane (cross4_size (vabs x) (vabs y) (vabs z)) i + 100 * S * tiny) (lane (XMVector4Cross (L:=FL) b V1 V2 V3) i) (lane (cross4 x y z) i).
Proof. exact cross4_err. Qed.
(** reflection about a normal with coordinates up to 2 *)
Theorem C76_reflect2 : forall b V N x n i S, holds2 V x -> holds2 N n -> (i = I0 \/ i = I1) -> 1 <= S <= pow2 100 -> bounded2 S x -> bounded2 2 n ->
  within (9 * ulp_half * (Rabs (lane x i) + 2 * (Rabs (lane n i) * dot2 (vabs x) (vabs n))) + 100 * tiny)
    (lane (XMVector2Reflect (L:=FL) b V N) i) (lane x i - 2 * dot2 x n * lane n i).
Proof. exact reflect2_err. Qed.
Theorem C76_reflect3 : forall b V N x n i S, holds3 V x -> holds3 N n -> i <> I3 -> 1 <= S <= pow2 100 -> bounded3 S x -> bounded3 2 n ->
  within (9 * ulp_half * (Rabs (lane x i) + 2 * (Rabs (lane n i) * dot3 (vabs x) (vabs n))) + 100 * tiny)
    (lane (XMVector3Reflect (L:=FL) b V N) i) (lane x i - 2 * dot3 x n * lane n i).
Proof. exact reflect3_err. Qed.
Theorem C76_reflect4 : forall b V N x n i S, holds4 V x -> holds4 N n -> 1 <= S <= pow2 100 -> bounded S x -> bounded 2 n ->
  within (9 * ulp_half * (Rabs (lane x i) + 2 * (Rabs (lane n i) * dot4 (vabs x) (vabs n))) + 100 * tiny)
    (lane (XMVector4Reflect (L:=FL) b V N) i) (lane x i - 2 * dot4 x n * lane n i).
Proof. exact reflect4_err. Qed.
(** the component along a normal, and the rest *)
Theorem C76_components : forall b V N x n i S, holds3 V x -> holds3 N n -> i <> I3 -> 1 <= S <= pow2 100 -> bounded3 S x -> bounded3 2 n ->
  within (7 * ulp_half * (Rabs (lane n i) * dot3 (vabs x) (vabs n)) + 100 * tiny)
    (lane (fst (XMVector3ComponentsFromNormal (L:=FL) b V N)) i) (dot3 x n * lane n i)
  /\ within (8 * ulp_half * (Rabs (lane x i) + Rabs (lane n i) * dot3 (vabs x) (vabs n)) + 100 * tiny)
    (lane (snd (XMVector3ComponentsFromNormal (L:=FL) b V N)) i) (lane x i - dot3 x n * lane n i).
Proof. exact components_err. Qed.
(** interpolation with parameters in [-1, 1] *)
Theorem C76_barycentric : forall b P0 P1 P2 zf zg p0 p1 p2 f g i S, is32 (lane P0 i) p0 -> is32 (lane P1 i) p1 -> is32 (lane P2 i) p2 -> is32 zf f -> is32 zg g ->
  1 <= S <= pow2 100 -> Rabs p0 <= S -> Rabs p1 <= S -> Rabs p2 <= S -> Rabs f <= 1 -> Rabs g <= 1 ->
  within (5 * ulp_half * (Rabs p0 + Rabs f * (Rabs p1 + Rabs p0) + Rabs g * (Rabs p2 + Rabs p0)) + 20 * tiny)
    (lane (XMVectorBaryCentric (L:=FL) b P0 P1 P2 zf zg) i) (p0 + f * (p1 - p0) + g * (p2 - p0)).
Proof. exact bary_err. Qed.
Theorem C76_barycentricV : forall b P0 P1 P2 F G p0 p1 p2 f g i S, is32 (lane P0 i) p0 -> is32 (lane P1 i) p1 -> is32 (lane P2 i) p2 -> is32 (lane F i) f -> is32 (lane G i) g ->
  1 <= S <= pow2 100 -> Rabs p0 <= S -> Rabs p1 <= S -> Rabs p2 <= S -> Rabs f <= 1 -> Rabs g <= 1 ->
  within (5 * ulp_half * (Rabs p0 + Rabs f * (Rabs p1 + Rabs p0) + Rabs g * (Rabs p2 + Rabs p0)) + 20 * tiny)
    (lane (XMVectorBaryCentricV (L:=FL) b P0 P1 P2 F G) i) (p0 + f * (p1 - p0) + g * (p2 - p0)).
Proof. exact baryV_err. Qed.
Theorem C76_hermite : forall b P0 T0 P1 T1 zt p0 t0 p1 t1 t i S, is32 (lane P0 i) p0 -> is32 (lane T0 i) t0 -> is32 (lane P1 i) p1 -> is32 (lane T1 i) t1 -> is32 zt t ->
  1 <= S <= pow2 100 -> Rabs p0 <= S -> Rabs t0 <= S -> Rabs p1 <= S -> Rabs t1 <= S -> Rabs t <= 1 ->
  within (12 * ulp_half * hermite_size (Rabs p0) (Rabs t0) (Rabs p1) (Rabs t1) (Rabs t) + 200 * S * tiny)
    (lane (XMVectorHermite (L:=FL) b P0 T0 P1 T1 zt) i) (hermite p0 t0 p1 t1 t).
Proof. exact hermite_err. Qed.
(** with one parameter for each of the four coefficients *)
Theorem C76_hermiteV : forall b P0 T0 P1 T1 T p0 t0 p1 t1 t i S, is32 (lane P0 i) p0 -> is32 (lane T0 i) t0 -> is32 (lane P1 i) p1 -> is32 (lane T1 i) t1 -> holds4 T t ->
  1 <= S <= pow2 100 -> Rabs p0 <= S -> Rabs t0 <= S -> Rabs p1 <= S -> Rabs t1 <= S -> bounded 1 t ->
  within (14 * ulp_half * hermite4_size (Rabs p0) (Rabs t0) (Rabs p1) (Rabs t1) (vabs t) + 200 * S * tiny)
    (lane (XMVectorHermiteV (L:=FL) b P0 T0 P1 T1 T) i) (hermite4 p0 t0 p1 t1 t).
Proof. exact hermiteV_err. Qed.
Theorem C76_catmull_rom : forall b P0 P1 P2 P3 zt p0 p1 p2 p3 t i S, is32 (lane P0 i) p0 -> is32 (lane P1 i) p1 -> is32 (lane P2 i) p2 -> is32 (lane P3 i) p3 -> is32 zt t ->
  1 <= S <= pow2 100 -> Rabs p0 <= S -> Rabs p1 <= S -> Rabs p2 <= S -> Rabs p3 <= S -> Rabs t <= 1 ->
  within (14 * ulp_half * catmull_size (Rabs p0) (Rabs p1) (Rabs p2) (Rabs p3) (Rabs t) + 200 * S * tiny)
    (lane (XMVectorCatmullRom (L:=FL) b P0 P1 P2 P3 zt) i) (catmull p0 p1 p2 p3 t).
Proof. exact catmull_err. Qed.
Theorem C76_catmull_romV : forall b P0 P1 P2 P3 T p0 p1 p2 p3 t i S, is32 (lane P0 i) p0 -> is32 (lane P1 i) p1 -> is32 (lane P2 i) p2 -> is32 (lane P3 i) p3 -> is32 (lane T i) t ->
  1 <= S <= pow2 100 -> Rabs p0 <= S -> Rabs p1 <= S -> Rabs p2 <= S -> Rabs p3 <= S -> Rabs t <= 1 ->
  within (14 * ulp_half * catmull_size (Rabs p0) (Rabs p1) (Rabs p2) (Rabs p3) (Rabs t) + 200 * S * tiny)
    (lane (XMVectorCatmullRomV (L:=FL) b P0 P1 P2 P3 T) i) (catmull p0 p1 p2 p3 t).
Proof. exact catmullV_err. Qed.
(** the sizes are at most 17 (Hermite) or 12 (Catmull-Rom) times the largest point *)
Theorem C76_cubic_sizes : forall S p0 p1 p2 p3 t, 0 <= p0 <= S -> 0 <= p1 <= S -> 0 <= p2 <= S -> 0 <= p3 <= S -> 0 <= t <= 1 ->
  hermite_size p0 p1 p2 p3 t <= 17 * S /\ catmull_size p0 p1 p2 p3 t <= 12 * S.
Proof.
  intros S p0 p1 p2 p3 t H0 H1 H2 H3 Ht. assert (T2 : 0 <= t * t <= 1) by nra. assert (T3 : 0 <= t * t * t <= 1) by nra.
  assert (M : forall c C p, 0 <= c <= C -> 0 <= p <= S -> c * p <= C * S) by (intros; apply Rmult_le_compat; lra).
  unfold hermite_size, catmull_size. split.
  - pose proof (M (2 * (t * t * t) + 3 * (t * t) + 1) 6 p0 ltac:(lra) H0). pose proof (M (t * t * t + 2 * (t * t) + t) 4 p1 ltac:(lra) H1).
    pose proof (M (2 * (t * t * t) + 3 * (t * t)) 5 p2 ltac:(lra) H2). pose proof (M (t * t * t + t * t) 2 p3 ltac:(lra) H3). lra.
  - pose proof (M (t * t * t + 2 * (t * t) + t) 4 p0 ltac:(lra) H0). pose proof (M (3 * (t * t * t) + 5 * (t * t) + 2) 10 p1 ltac:(lra) H1).
    pose proof (M (3 * (t * t * t) + 4 * (t * t) + t) 8 p2 ltac:(lra) H2). pose proof (M (t * t * t + t * t) 2 p3 ltac:(lra) H3). lra.
Qed.
(** planes *)
Theorem C76_plane_transform : forall b P M x m i, holds4 P x -> holdsM M m -> safe (lane (vecmat (vabs x) (mabs m)) i) ->
  within (5 * ulp_half * lane (vecmat (vabs x) (mabs m)) i + 14 * tiny) (lane (XMPlaneTransform (L:=FL) b P M) i) (lane (vecmat x m) i).
Proof. exact plane_transform_err. Qed.
Theorem C76_plane_dots : forall b P V x y i,
  (holds4 P x -> holds4 V y -> safe (dot4 (vabs x) (vabs y)) -> within (5 * ulp_half * dot4 (vabs x) (vabs y) + 14 * tiny) (lane (XMPlaneDot (L:=FL) b P V) i) (dot4 x y))
  /\ (holds4 P x -> holds3 V y -> safe (dot4 (vabs x) (vabs (point y))) ->
      within (5 * ulp_half * dot4 (vabs x) (vabs (point y)) + 14 * tiny) (lane (XMPlaneDotCoord (L:=FL) b P V) i) (dot4 x (point y)))
  /\ (holds3 P x -> holds3 V y -> safe (dot3 (vabs x) (vabs y)) -> within (4 * ulp_half * dot3 (vabs x) (vabs y) + 12 * tiny) (lane (XMPlaneDotNormal (L:=FL) b P V) i) (dot3 x y)).
Proof. intros. split; [apply dot4_err|]. split; [apply plane_dot_coord_err|apply dot3_err]. Qed.
Theorem C76_plane_from_point_normal : forall b P N x n i, holds3 P x -> holds3 N n -> safe (dot3 (vabs x) (vabs n)) ->
  (i <> I3 -> lane (XMPlaneFromPointNormal (L:=FL) b P N) i = lane N i)
  /\ within (4 * ulp_half * dot3 (vabs x) (vabs n) + 12 * tiny) (qw (XMPlaneFromPointNormal (L:=FL) b P N)) (- dot3 x n).
Proof. exact plane_from_point_normal_err. Qed.

(** ** the hypotheses hold of ordinary data: the determinant of diag(2, 3, 5, 7) is 210 within 0.0002 *)
Example C76_ex : forall b, exists M m, holdsM M m /\ mbounded 7 m /\ mdet m = 210 /\ mperm m = 210 /\ within (2 / 10000) (qx (XMMatrixDeterminant (L:=FL) b M)) 210.
Proof.
  intros b. set (n := f_of_Z). exists (Q (Q (n 2) (n 0) (n 0) (n 0)) (Q (n 0) (n 3) (n 0) (n 0)) (Q (n 0) (n 0) (n 5) (n 0)) (Q (n 0) (n 0) (n 0) (n 7)))%Z.
  exists (Q (Q 2 0 0 0) (Q 0 3 0 0) (Q 0 0 5 0) (Q 0 0 0 7)). set (m := Q (Q 2 0 0 0) _ _ _). set (M := Q _ _ _ _).
  assert (O : forall k, (Z.abs k <= 2 ^ 24)%Z -> is32 (f_of_Z k) (IZR k)) by (intros k H; split; [apply enc_word|apply of_Z_exact, H]).
  assert (HM : holdsM M m) by (intros i; destruct i; unfold holds4, M, m, n; cbn [lane qx qy qz qw]; refine (Logic.conj _ (Logic.conj _ (Logic.conj _ _))); apply O; vm_compute; discriminate).
  assert (HB : mbounded 7 m) by (intros i j; destruct i, j; unfold m; cbn [lane qx qy qz qw]; rewrite Rabs_pos_eq; lra).
  assert (HD : mdet m = 210) by (unfold mdet, det4, det3, det2, m; cbn [qx qy qz qw]; ring).
  assert (HP : mperm m = 210) by (unfold mperm, perm4, perm3, perm2, mabs, vabs, m; cbn [qx qy qz qw]; rewrite ?Rabs_R0, !Rabs_pos_eq by lra; ring).
  split; [exact HM|]. split; [exact HB|]. split; [exact HD|]. split; [exact HP|].
  assert (HS : 1 <= 7 <= pow2 30) by (unfold pow2; cbn; lra).
  destruct (C76_determinant b M m I0 7 HM HS HB) as (r & V & E). exists r. split; [exact V|]. rewrite HD, HP in E. eapply Rle_trans; [exact E|]. unfold ulp_half. assert (tiny <= / 1000000000) by (rewrite tiny_eta; pose proof Verif.PExp.eta_small; lra). lra.
Qed.
(** every other hypothesis, of V = (3, -4, 12, 5), the normal (1, 0, -1, 1) and the parameter 1/2 *)
Example C76_ex_hyps : exists V N Z T x n z t h, holds4 V x /\ holds4 N n /\ holds4 Z z /\ holds4 T t /\ is32 (lane T I1) h /\ h = / 2
  /\ holds3 V x /\ holds3 N n /\ holds2 V x /\ holds2 N n
  /\ bounded 12 x /\ bounded 2 n /\ bounded 12 z /\ bounded 1 t /\ bounded3 12 x /\ bounded3 2 n /\ bounded2 12 x /\ bounded2 2 n /\ Rabs h <= 1 /\ 1 <= 12 <= pow2 30 /\ 1 <= 12 <= pow2 100
  /\ dot3 x n = -9 /\ lane x I0 - 2 * dot3 x n * lane n I0 = 21 /\ hermite 3 (-4) 12 5 h = 51 / 8 /\ catmull 3 (-4) 12 5 h = 4 /\ 3 + h * (-4 - 3) + h * (12 - 3) = 4
  /\ cross4 x n z <> qrep 0.
Proof.
  set (w := f_of_Z). exists (Q (w 3) (w (-4)) (w 12) (w 5))%Z, (Q (w 1) (w 0) (w (-1)) (w 1))%Z, (Q (w 2) (w 7) (w 1) (w 8))%Z, (qrep 0x3f000000%Z), (Q 3 (-4) 12 5), (Q 1 0 (-1) 1), (Q 2 7 1 8), (qrep (/ 2)), (/ 2).
  assert (O : forall k, (Z.abs k <= 2 ^ 24)%Z -> is32 (f_of_Z k) (IZR k)) by (intros k H; split; [apply enc_word|apply of_Z_exact, H]).
  assert (HH : is32 0x3f000000 (/ 2)) by (split; [unfold word; lia|exact Verif.PHyp.val_half]).
  assert (P : 1 <= 12 <= pow2 30 /\ 1 <= 12 <= pow2 100) by (split; (split; [lra|]); change (IZR 12 <= IZR (2 ^ 30)) || change (IZR 12 <= IZR (2 ^ 100)); apply IZR_le; vm_compute; discriminate).
  repeat match goal with |- _ /\ _ => split end; try exact HH; try apply P; try reflexivity;
    unfold bounded, bounded3, bounded2, holds4, holds3, holds2, qrep, w, dot3, hermite, catmull; cbn [lane qx qy qz qw]; repeat match goal with |- _ /\ _ => split end;
    try exact HH; try (apply O; vm_compute; discriminate); try match goal with |- forall i : idx, _ => intros i; destruct i end; cbn [lane qx qy qz qw]; try (apply Rabs_le; lra); try lra.
  intros E. apply (f_equal (@qx R)) in E. revert E. unfold cross4, qrep, det3, det2. cbn [qx qy qz qw]. lra.
Qed.
