(** C75: the forms of a function that take a vector where the plain form takes a number. *)
From Coq Require Import Reals Lra Psatz List Bool.
From Verif Require Import Base F32 Intrin Lane MVec MTrig MQuat MInterp MPlane MMatrix.
From Verif Require Import SpecGeom SpecQuat SpecMat SpecTrig SpecRot PReal PVec PQuat PRot PMatrix.
Open Scope R_scope.

(** all lanes carry the number in lane 0 *)
Definition same_lanes (v : rvec) : Prop := forall k, lane v k = lane v I0.
Lemma same_rep v : same_lanes v -> v = qrep (qx v).
Proof. intros H. destruct v as [x y z w]. pose proof (H I1) as h1. pose proof (H I2) as h2. pose proof (H I3) as h3. cbn in *. unfold qrep. subst. reflexivity. Qed.

(** ** ClampLengthV: lane [k] is scaled to the length clamped to the range given in lane [k] *)
Definition clamped (V lo hi W : rvec) (n : R) : Prop := forall k,
  (lane lo k <= lane hi k -> lane W k = clampR (lane lo k) (lane hi k) n / n * lane V k) /\
  (** a range given the wrong way round: inside it nothing happens *)
  (lane hi k < n < lane lo k -> lane W k = lane V k).
Lemma clamp_lanes b V lo hi d : 0 < d -> clamped V lo hi (clamp_length (L:=RL) b V lo hi (qrep d)) (sqrt d).
Proof.
  intros D. assert (S : 0 < sqrt d) by (apply sqrt_lt_R0; lra).
  assert (E : d * (1 / sqrt d) = sqrt d).
  { transitivity (sqrt d * sqrt d * (1 / sqrt d)); [rewrite sqrt_sqrt by lra; reflexivity | field; lra]. }
  assert (F : forall v l h, (l <= h -> (if Bool.eqb (Rltb h (sqrt d)) (Rltb (sqrt d) l) then v else v * (1 / sqrt d) * (if Rltb (sqrt d) l then l else if Rltb h (sqrt d) then h else sqrt d)) = clampR l h (sqrt d) / sqrt d * v) /\
    (h < sqrt d < l -> (if Bool.eqb (Rltb h (sqrt d)) (Rltb (sqrt d) l) then v else v * (1 / sqrt d) * (if Rltb (sqrt d) l then l else if Rltb h (sqrt d) then h else sqrt d)) = v)).
  { intros v l h. destruct (Rltb_spec h (sqrt d)); destruct (Rltb_spec (sqrt d) l); cbn [Bool.eqb]; (split; intros H; try lra).
    - unfold clampR. rewrite (Rmax_right l (sqrt d)), Rmin_left by lra. field; lra.
    - unfold clampR. rewrite (Rmax_left l (sqrt d)), Rmin_right by lra. field; lra.
    - unfold clampR. rewrite (Rmax_right l (sqrt d)), Rmin_right by lra. field; lra. }
  destruct V as [v0 v1 v2 v3], lo as [l0 l1 l2 l3], hi as [h0 h1 h2 h3]. unfold clamp_length. rewrite RSqrt_R, !Mul_R. cbv zeta. intros k.
  destruct (Reqb_spec d 0) as [Z|Z]; [lra|].
  destruct k; rcbv; (destruct (Reqb_spec d 0); [lra|]); rewrite E; apply F.
Qed.
Theorem C75_clamp3 b V lo hi : ~ zero3 V -> clamped V lo hi (XMVector3ClampLengthV (L:=RL) b V lo hi) (norm3 V).
Proof. intros N. unfold XMVector3ClampLengthV. rewrite LengthSq3_R. apply clamp_lanes. pose proof (dot3_nonneg V). rewrite <- dot3_0 in N. lra. Qed.
(** the 2D form stops unless the x and y lanes agree and hold a proper range; the other lanes are not looked at *)
Theorem C75_clamp2 b V lo hi :
  (lane lo I1 = lane lo I0 /\ lane hi I1 = lane hi I0 /\ 0 <= lane lo I0 <= lane hi I0 <-> XMVector2ClampLengthV (L:=RL) b V lo hi <> None) /\
  (forall W, ~ zero2 V -> XMVector2ClampLengthV (L:=RL) b V lo hi = Some W -> clamped V lo hi W (norm2 V)).
Proof.
  assert (A : forall (c : bool) (x : rvec), (if c then Some x else None) <> None <-> c = true) by (intros [] x; split; congruence).
  unfold XMVector2ClampLengthV. split.
  - rewrite A, !andb_true_iff. destruct lo as [a0 a1 a2 a3], hi as [c0 c1 c2 c3]; cbn [lane qx qy]. rl. rewrite !Rleb_true, !Reqb_true. lra.
  - intros W N. match goal with |- (if ?c then _ else _) = _ -> _ => destruct c end; [|discriminate]. intros H; injection H as <-. rewrite LengthSq2_R.
    apply clamp_lanes. pose proof (dot2_nonneg V). rewrite <- dot2_0 in N. lra.
Qed.
Theorem C75_clamp4 b V lo hi :
  (same_lanes lo /\ same_lanes hi /\ 0 <= lane lo I0 <= lane hi I0 <-> XMVector4ClampLengthV (L:=RL) b V lo hi <> None) /\
  (forall W, ~ zero4 V -> XMVector4ClampLengthV (L:=RL) b V lo hi = Some W -> clamped V lo hi W (norm4 V)).
Proof.
  assert (A : forall (c : bool) (x : rvec), (if c then Some x else None) <> None <-> c = true) by (intros [] x; split; congruence).
  unfold XMVector4ClampLengthV. cbv zeta. split.
  - rewrite A, !andb_true_iff. destruct lo as [a0 a1 a2 a3], hi as [c0 c1 c2 c3]; unfold same_lanes, mask_all, qall; cbn [lane qx qy]. rl. rewrite !andb_true_iff, !Rleb_true, !Reqb_true. split.
    + intros (H & K & B). pose proof (H I1). pose proof (H I2). pose proof (H I3). pose proof (K I1). pose proof (K I2). pose proof (K I3). cbn [lane qx qy qz qw] in *. lra.
    + intros H. split; [|split; [|lra]]; intros []; cbn [lane qx qy qz qw]; lra.
  - intros W N. match goal with |- (if ?c then _ else _) = _ -> _ => destruct c end; [|discriminate]. intros H; injection H as <-. rewrite LengthSq4_R.
    apply clamp_lanes. pose proof (dot4_nonneg V). rewrite <- dot4_0 in N. lra.
Qed.

(** ** RefractV: lane [k] uses the index in lane [k], as long as no lane is reflected totally *)
Definition refracted (i n m : rvec) (d : R) (W : rvec) : Prop := forall k,
  lane W k = lane m k * lane i k - (lane m k * d + sqrt (snell d (lane m k))) * lane n k.
Definition snells (d : R) (m : rvec) : rvec := Q (snell d (qx m)) (snell d (qy m)) (snell d (qz m)) (snell d (qw m)).
Lemma refract_tail b i n m d : refract_body (L:=RL) b i n m (qrep d) =
  if mask_all (vle (L:=RL) (snells d m) vzero) then qrep 0 else
  qmap3 (fun x y z => z - x * y) n (qmap3 (fun x y z => x * y + z) m (qrep d) (qmap sqrt (snells d m))) (qmap2 Rmult m i).
Proof.
  unfold refract_body.
  assert (E1 : XMVectorNegativeMultiplySubtract (L:=RL) b
     (XMVectorMultiply b (XMVectorNegativeMultiplySubtract b (qrep d) (qrep d) vone) m) m vone
     = snells d m) by (dq m; rewrite !NMulSub_R, Mul_R; unfold snells, snell; rcbv; qring).
  assert (E2 : FNMADD (L:=RL) b (FNMADD b (qrep d) (qrep d) vone) (vmul m m) vone = snells d m)
    by (dq m; rewrite !FNMADD_R; unfold snells, snell; rcbv; qring).
  destruct b as [|s3 s4 f a]; cbv zeta; rewrite ?E1, ?E2; (match goal with |- context [mask_all ?x] => destruct (mask_all x) end; [reflexivity|]).
  - rewrite Sqrt_R, MulAdd_R, Mul_R, NMulSub_R. reflexivity.
  - rewrite FMADD_R, FNMADD_R. dq i; dq n; dq m. unfold snells. cbn [qx qy qz qw]. qeq; ring.
Qed.
Lemma refract_lanes b i n m d : (forall k, 0 < snell d (lane m k)) -> refracted i n m d (refract_body (L:=RL) b i n m (qrep d)).
Proof.
  intros K. rewrite refract_tail. assert (M : mask_all (vle (L:=RL) (snells d m) vzero) = false).
  { pose proof (K I0) as K0. destruct m as [m0 m1 m2 m3]. cbn [lane qx] in K0. unfold mask_all, qall, snells; rl. destruct (Rleb_spec (snell d m0) 0) as [H|H]; [lra|reflexivity]. }
  rewrite M. intros k. destruct i, n, m, k; cbn; ring.
Qed.
Theorem C75_refract b i n m :
  ((forall k, 0 < snell (dot3 i n) (lane m k)) -> refracted i n m (dot3 i n) (XMVector3RefractV (L:=RL) b i n m)) /\
  ((forall k, 0 < snell (dot4 i n) (lane m k)) -> refracted i n m (dot4 i n) (XMVector4RefractV (L:=RL) b i n m)).
Proof. unfold XMVector3RefractV, XMVector4RefractV. rewrite Dot3_R, Dot4_R. split; apply refract_lanes. Qed.
(** total reflection needs every lane: then the answer is zero *)
Theorem C75_refract_total b i n m :
  ((forall k, snell (dot3 i n) (lane m k) <= 0) -> XMVector3RefractV (L:=RL) b i n m = qrep 0) /\
  ((forall k, snell (dot4 i n) (lane m k) <= 0) -> XMVector4RefractV (L:=RL) b i n m = qrep 0).
Proof.
  unfold XMVector3RefractV, XMVector4RefractV. rewrite Dot3_R, Dot4_R.
  assert (G : forall d, (forall k, snell d (lane m k) <= 0) -> refract_body (L:=RL) b i n m (qrep d) = qrep 0).
  { intros d K. rewrite refract_tail. assert (M : mask_all (vle (L:=RL) (snells d m) vzero) = true); [|rewrite M; reflexivity].
    destruct m as [m0 m1 m2 m3]. unfold mask_all, qall, snells; rl. rewrite !andb_true_iff, !Rleb_true. pose proof (K I0). pose proof (K I1). pose proof (K I2). pose proof (K I3). cbn in *. repeat split; assumption. }
  split; apply G.
Qed.
(** ** SlerpV, SquadV: stop unless the four lanes of t agree, and are then the plain forms *)
Theorem C75_slerp b p q t : (XMQuaternionSlerpV (L:=RL) b p q t <> None <-> same_lanes t) /\ (same_lanes t -> XMQuaternionSlerpV (L:=RL) b p q t = XMQuaternionSlerp b p q (lane t I0)).
Proof.
  split.
  - unfold XMQuaternionSlerpV, lanes_equal. destruct t as [a c d e]; cbn [qx qy qz qw]. rl. unfold same_lanes.
    destruct (Reqb_spec c a) as [->|N1]; [destruct (Reqb_spec d a) as [->|N2]; [destruct (Reqb_spec e a) as [->|N3]|]|]; cbn [andb]; (split; [intros H|intros H]); try discriminate; try (intros []; reflexivity); try (exfalso; apply H; reflexivity); exfalso.
    + apply N3. exact (H I3).
    + apply N2. exact (H I2).
    + apply N1. exact (H I1).
  - intros H. unfold XMQuaternionSlerp. rewrite (same_rep t H) at 1. reflexivity.
Qed.
Theorem C75_squad b p0 p1 p2 p3 t : (~ same_lanes t -> XMQuaternionSquadV (L:=RL) b p0 p1 p2 p3 t = None) /\ (same_lanes t -> XMQuaternionSquadV (L:=RL) b p0 p1 p2 p3 t = XMQuaternionSquad b p0 p1 p2 p3 (lane t I0)).
Proof.
  split.
  - intros H. pose proof (proj1 (C75_slerp b p0 p3 t)) as K. unfold XMQuaternionSquadV. unfold XMQuaternionSlerpV in K at 1. destruct (lanes_equal t); [|reflexivity]. exfalso. apply H, K. discriminate.
  - intros H. unfold XMQuaternionSquad. rewrite (same_rep t H) at 1. reflexivity.
Qed.
(** ** Roll, pitch and yaw from a vector: lanes x, y, z are pitch, yaw, roll; lane w is not read *)
Theorem C75_roll_pitch_yaw b A :
  XMQuaternionRotationRollPitchYawFromVector (L:=RL) b A = XMQuaternionRotationRollPitchYaw b (qx A) (qy A) (qz A) /\
  XMMatrixRotationRollPitchYawFromVector (L:=RL) b A = XMMatrixRotationRollPitchYaw b (qx A) (qy A) (qz A).
Proof.
  assert (H : XMQuaternionRotationRollPitchYawFromVector (L:=RL) b A = XMQuaternionRotationRollPitchYaw b (qx A) (qy A) (qz A)).
  { destruct A as [x y z w]. cbn [qx qy qz]. unfold XMQuaternionRotationRollPitchYaw. destruct b as [|[|] [|] [|] [| |]]; reflexivity. }
  split; [exact H|]. unfold XMMatrixRotationRollPitchYaw, XMMatrixRotationRollPitchYawFromVector. rewrite H. reflexivity.
Qed.
(** ** Quaternion measures and the entry-wise matrix *)
Theorem C75_measures b p q : XMQuaternionDot (L:=RL) b p q = qrep (qx p * qx q + qy p * qy q + qz p * qz q + qw p * qw q) /\
  XMQuaternionLengthSq (L:=RL) b q = qrep (dot4 q q) /\ XMQuaternionReciprocalLength (L:=RL) b q = qrep (1 / sqrt (dot4 q q)).
Proof. unfold XMQuaternionDot, XMQuaternionLengthSq, XMQuaternionReciprocalLength. rewrite Dot4_R, LengthSq4_R, RLength4_R. repeat split. Qed.
Theorem C75_matrix_set (f : idx -> idx -> R) i j :
  lane (lane (XMMatrixSet (L:=RL) (f I0 I0) (f I0 I1) (f I0 I2) (f I0 I3) (f I1 I0) (f I1 I1) (f I1 I2) (f I1 I3) (f I2 I0) (f I2 I1) (f I2 I2) (f I2 I3) (f I3 I0) (f I3 I1) (f I3 I2) (f I3 I3)) i) j = f i j.
Proof. destruct i, j; reflexivity. Qed.
Example C75_ex : let lo := Q 1 1 7 (-3) in let hi := Q 2 2 0 5 in let V := Q 3 4 0 0 in
  ~ zero2 V /\ ~ zero3 V /\ (lane lo I1 = lane lo I0 /\ lane hi I1 = lane hi I0 /\ 0 <= lane lo I0 <= lane hi I0) /\ same_lanes (qrep 2) /\
  lane hi I2 < norm3 V < lane lo I2 /\ (forall k, 0 < snell (-1) (lane (Q 1 2 (1/2) 3) k)) /\ (forall k, snell 0 (lane (Q 1 2 (3/2) 3) k) <= 0).
Proof.
  intros lo hi V. unfold lo, hi, V, zero2, zero3, same_lanes, snell; cbn [lane qx qy qz qw].
  assert (N : norm3 (Q 3 4 0 0) = 5) by (unfold norm3, dot3; cbn; replace (3 * 3 + 4 * 4 + 0 * 0) with (5 * 5) by ring; apply sqrt_square; lra).
  rewrite N. repeat split; try lra.
  - intros []; reflexivity.
  - intros []; cbn [lane qx qy qz qw]; lra.
  - intros []; cbn [lane qx qy qz qw]; lra.
Qed.
