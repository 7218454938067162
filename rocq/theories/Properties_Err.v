(** C65: rounding errors of the vector, quaternion and matrix arithmetic, on bit patterns.
    [holdsN V x]: the first N lanes of the register V hold the real vector x; [within e z y]: the lane z is finite and within e of y;
    [ulp_half] = 2^-24, [tiny] = 2^-150; [safe a]: a is at most 2^126. Every statement is for every backend and every finite input in range. *)
From Coq Require Import Reals ZArith Lra Lia.
From Verif Require Import Base F32 F32Facts Intrin Lane SpecF32 SpecGeom SpecQuat SpecErr MVec MTrig MQuat MMatrix MInterp PFloat PErr PErrVec PErrNorm PErrMat.
Open Scope R_scope.

(** dot products: relative to the sum of the absolute products *)
Theorem C65_dot2 : forall b V1 V2 x y i, holds2 V1 x -> holds2 V2 y -> safe (dot2 (vabs x) (vabs y)) ->
  within (3 * ulp_half * dot2 (vabs x) (vabs y) + 6 * tiny) (lane (XMVector2Dot (L:=FL) b V1 V2) i) (dot2 x y).
Proof. exact dot2_err. Qed.
Theorem C65_dot3 : forall b V1 V2 x y i, holds3 V1 x -> holds3 V2 y -> safe (dot3 (vabs x) (vabs y)) ->
  within (4 * ulp_half * dot3 (vabs x) (vabs y) + 12 * tiny) (lane (XMVector3Dot (L:=FL) b V1 V2) i) (dot3 x y).
Proof. exact dot3_err. Qed.
Theorem C65_dot4 : forall b V1 V2 x y i, holds4 V1 x -> holds4 V2 y -> safe (dot4 (vabs x) (vabs y)) ->
  within (5 * ulp_half * dot4 (vabs x) (vabs y) + 14 * tiny) (lane (XMVector4Dot (L:=FL) b V1 V2) i) (dot4 x y).
Proof. exact dot4_err. Qed.
(** cross products *)
Theorem C65_cross2 : forall b V1 V2 x y i, holds2 V1 x -> holds2 V2 y -> safe (Rabs (qx x) * Rabs (qy y) + Rabs (qy x) * Rabs (qx y)) ->
  within (3 * ulp_half * (Rabs (qx x) * Rabs (qy y) + Rabs (qy x) * Rabs (qx y)) + 6 * tiny) (lane (XMVector2Cross (L:=FL) b V1 V2) i) (qx x * qy y - qy x * qx y).
Proof. exact cross2_err. Qed.
Theorem C65_cross3 : forall b V1 V2 x y i, holds3 V1 x -> holds3 V2 y -> safe (lane (cross_abs x y) i) ->
  within (3 * ulp_half * lane (cross_abs x y) i + 6 * tiny) (lane (XMVector3Cross (L:=FL) b V1 V2) i) (lane (cross x y) i).
Proof. exact cross3_err. Qed.
(** vector times matrix, lane by lane *)
Theorem C65_transform2 : forall b V M x m i, holds2 V x -> holdsM M m -> safe (lane (vecmat (vabs (point2 x)) (mabs m)) i) ->
  within (4 * ulp_half * lane (vecmat (vabs (point2 x)) (mabs m)) i + 10 * tiny) (lane (XMVector2Transform (L:=FL) b V M) i) (lane (vecmat (point2 x) m) i).
Proof. exact transform2_err. Qed.
Theorem C65_transform2_normal : forall b V M x m i, holds2 V x -> holdsM M m -> safe (lane (vecmat (vabs (direction2 x)) (mabs m)) i) ->
  within (3 * ulp_half * lane (vecmat (vabs (direction2 x)) (mabs m)) i + 6 * tiny) (lane (XMVector2TransformNormal (L:=FL) b V M) i) (lane (vecmat (direction2 x) m) i).
Proof. exact transform2n_err. Qed.
Theorem C65_transform3 : forall b V M x m i, holds3 V x -> holdsM M m -> safe (lane (vecmat (vabs (point x)) (mabs m)) i) ->
  within (5 * ulp_half * lane (vecmat (vabs (point x)) (mabs m)) i + 14 * tiny) (lane (XMVector3Transform (L:=FL) b V M) i) (lane (vecmat (point x) m) i).
Proof. exact transform3_err. Qed.
Theorem C65_transform3_normal : forall b V M x m i, holds3 V x -> holdsM M m -> safe (lane (vecmat (vabs (direction x)) (mabs m)) i) ->
  within (4 * ulp_half * lane (vecmat (vabs (direction x)) (mabs m)) i + 10 * tiny) (lane (XMVector3TransformNormal (L:=FL) b V M) i) (lane (vecmat (direction x) m) i).
Proof. exact transform3n_err. Qed.
Theorem C65_transform4 : forall b V M x m i, holds4 V x -> holdsM M m -> safe (lane (vecmat (vabs x) (mabs m)) i) ->
  within (5 * ulp_half * lane (vecmat (vabs x) (mabs m)) i + 14 * tiny) (lane (XMVector4Transform (L:=FL) b V M) i) (lane (vecmat x m) i).
Proof. exact transform4_err. Qed.
(** matrix product, every element *)
Theorem C65_matrix_multiply : forall b A M x m i j, holdsM A x -> holdsM M m -> safe (mij (matmul (mabs x) (mabs m)) i j) ->
  within (5 * ulp_half * mij (matmul (mabs x) (mabs m)) i j + 14 * tiny) (mij (XMMatrixMultiply (L:=FL) b A M) i j) (mij (matmul x m) i j).
Proof. exact matmul_err. Qed.
(** lengths and reciprocal lengths: plain relative error *)
Theorem C65_length2 : forall b V x i, holds2 V x -> mid_range (norm2 x) ->
  within (4 * ulp_half * norm2 x) (lane (XMVector2Length (L:=FL) b V) i) (norm2 x)
  /\ within (5 * ulp_half * / norm2 x) (lane (XMVector2ReciprocalLength (L:=FL) b V) i) (/ norm2 x).
Proof. exact length2_err. Qed.
Theorem C65_length3 : forall b V x i, holds3 V x -> mid_range (norm3 x) ->
  within (4 * ulp_half * norm3 x) (lane (XMVector3Length (L:=FL) b V) i) (norm3 x)
  /\ within (5 * ulp_half * / norm3 x) (lane (XMVector3ReciprocalLength (L:=FL) b V) i) (/ norm3 x).
Proof. exact length3_err. Qed.
Theorem C65_length4 : forall b V x i, holds4 V x -> mid_range (norm4 x) ->
  within (4 * ulp_half * norm4 x) (lane (XMVector4Length (L:=FL) b V) i) (norm4 x)
  /\ within (5 * ulp_half * / norm4 x) (lane (XMVector4ReciprocalLength (L:=FL) b V) i) (/ norm4 x).
Proof. exact length4_err. Qed.
(** normalisation: every lane is accurate and the result has length 1 up to one millionth *)
Theorem C65_normalize2 : forall b V x, holds2 V x -> mid_range (norm2 x) -> exists r : rvec,
  value (qx (XMVector2Normalize (L:=FL) b V)) = Fin (qx r) /\ value (qy (XMVector2Normalize (L:=FL) b V)) = Fin (qy r)
  /\ Rabs (qx r - qx x / norm2 x) <= 6 * ulp_half * Rabs (qx x / norm2 x) + 2 * tiny /\ Rabs (qy r - qy x / norm2 x) <= 6 * ulp_half * Rabs (qy x / norm2 x) + 2 * tiny
  /\ Rabs (norm2 r - 1) <= / 1000000.
Proof. exact normalize2_err. Qed.
Theorem C65_normalize3 : forall b V x, holds3 V x -> mid_range (norm3 x) -> exists r : rvec,
  value (qx (XMVector3Normalize (L:=FL) b V)) = Fin (qx r) /\ value (qy (XMVector3Normalize (L:=FL) b V)) = Fin (qy r) /\ value (qz (XMVector3Normalize (L:=FL) b V)) = Fin (qz r)
  /\ Rabs (qx r - qx x / norm3 x) <= 6 * ulp_half * Rabs (qx x / norm3 x) + 2 * tiny /\ Rabs (qy r - qy x / norm3 x) <= 6 * ulp_half * Rabs (qy x / norm3 x) + 2 * tiny
  /\ Rabs (qz r - qz x / norm3 x) <= 6 * ulp_half * Rabs (qz x / norm3 x) + 2 * tiny /\ Rabs (norm3 r - 1) <= / 1000000.
Proof. exact normalize3_err. Qed.
Theorem C65_normalize4 : forall b V x, holds4 V x -> mid_range (norm4 x) -> exists r : rvec,
  (forall i, value (lane (XMVector4Normalize (L:=FL) b V) i) = Fin (lane r i) /\ Rabs (lane r i - lane x i / norm4 x) <= 6 * ulp_half * Rabs (lane x i / norm4 x) + 2 * tiny)
  /\ Rabs (norm4 r - 1) <= / 1000000.
Proof. exact normalize4_err. Qed.
(** quaternion product, rotation of a vector, linear interpolation *)
Theorem C65_quaternion_multiply : forall b P V p x i, holds4 P p -> holds4 V x -> safe (lane (ham_abs x p) i) ->
  within (5 * ulp_half * lane (ham_abs x p) i + 14 * tiny) (lane (XMQuaternionMultiply (L:=FL) b P V) i) (lane (ham x p) i).
Proof. exact quatmul_err. Qed.
Theorem C65_rotate : forall b V Qt v q i, holds3 V v -> holds4 Qt q -> norm4 q <= 2 -> safe (8 * norm3 v) ->
  within (72 * ulp_half * norm3 v + 126 * tiny) (lane (XMVector3Rotate (L:=FL) b V Qt) i) (lane (qrot q v) i)
  /\ within (72 * ulp_half * norm3 v + 126 * tiny) (lane (XMVector3InverseRotate (L:=FL) b V Qt) i) (lane (qrot (conj q) v) i).
Proof. exact rotate_err. Qed.
Theorem C65_lerp : forall b V0 V1 z x0 x1 t i, is32 (lane V0 i) x0 -> is32 (lane V1 i) x1 -> is32 z t -> Rabs t <= 1 -> safe (2 * Rabs x0 + Rabs x1) ->
  within (5 * ulp_half * (Rabs x0 + Rabs t * (Rabs x1 + Rabs x0)) + 10 * tiny) (lane (XMVectorLerp (L:=FL) b V0 V1 z) i) (x0 + t * (x1 - x0)).
Proof. exact lerp_err. Qed.

(** ** where the accuracy ends *)
(** the dot product is not accurate relative to its own value: 2^24 + 1 - 2^24 is computed as 0 *)
Theorem C65_dot_relative_refuted : exists V1 V2 x y, holds3 V1 x /\ holds3 V2 y /\ dot3 x y = 1 /\ forall b, value (qx (XMVector3Dot (L:=FL) b V1 V2)) = Fin 0.
Proof.
  exists (Q (f_of_Z 16777216) (f_of_Z 1) (f_of_Z (-16777216)) 0%Z), (Q (f_of_Z 1) (f_of_Z 1) (f_of_Z 1) 0%Z), (Q (IZR 16777216) (IZR 1) (IZR (-16777216)) 0), (Q (IZR 1) (IZR 1) (IZR 1) 0).
  assert (O : forall n, (Z.abs n <= 2 ^ 24)%Z -> is32 (f_of_Z n) (IZR n)) by (intros n H; split; [apply enc_word|apply of_Z_exact, H]).
  unfold holds3. cbn [qx qy qz qw]. split; [|split; [|split]]; [| |unfold dot3; cbn [qx qy qz]; lra|].
  1, 2: refine (Logic.conj _ (Logic.conj _ _)); apply O; vm_compute; discriminate.
  assert (E : forall b, qx (XMVector3Dot (L:=FL) b (Q (f_of_Z 16777216) (f_of_Z 1) (f_of_Z (-16777216)) 0%Z) (Q (f_of_Z 1) (f_of_Z 1) (f_of_Z 1) 0%Z)) = f_of_Z 0)
    by (intros [|[|] [|] [|] [| |]]; vm_compute; reflexivity).
  intros b. rewrite E. apply (of_Z_exact 0). lia.
Qed.
(** a short or a long but finite vector does not normalise to a unit vector: the squared length under- or overflows *)
Theorem C65_normalize_short_refuted : exists V, (forall i, exists x, value (lane V i) = Fin x) /\ value (qx V) = Fin (pow2 (-100)) /\
  forall b, XMVector3Normalize (L:=FL) b V = (Q 0 0 0 0)%Z.
Proof.
  exists (Q 226492416 0 0 0)%Z. assert (Z0 : value 0 = Fin 0) by (apply (of_Z_exact 0); lia).
  assert (E : value 226492416 = Fin (pow2 (-100))) by (change (Fin (8388608 * pow2 (-123)) = Fin (pow2 (-100))); f_equal; unfold pow2; cbn; lra).
  split; [intros i; destruct i; eexists; [exact E|exact Z0|exact Z0|exact Z0]|]. split; [exact E|]. intros [|[|] [|] [|] [| |]]; vm_compute; reflexivity.
Qed.
Theorem C65_normalize_long_refuted : exists V, (forall i, exists x, value (lane V i) = Fin x) /\ value (qx V) = Fin (pow2 100) /\
  XMVector3Normalize (L:=FL) Scalar V = (Q 0 0 0 0)%Z /\ forall s3 s4 f av, value (qx (XMVector3Normalize (L:=FL) (SSE s3 s4 f av) V)) = NaN.
Proof.
  exists (Q 1904214016 0 0 0)%Z. assert (Z0 : value 0 = Fin 0) by (apply (of_Z_exact 0); lia).
  assert (E : value 1904214016 = Fin (pow2 100)) by (change (Fin (8388608 * pow2 77) = Fin (pow2 100)); f_equal; unfold pow2; cbn; lra).
  split; [intros i; destruct i; eexists; [exact E|exact Z0|exact Z0|exact Z0]|]. split; [exact E|]. split; [vm_compute; reflexivity|].
  assert (N : forall s3 s4 f av, qx (XMVector3Normalize (L:=FL) (SSE s3 s4 f av) (Q 1904214016 0 0 0)%Z) = 2143289344%Z) by (intros [|] [|] [|] [| |]; vm_compute; reflexivity).
  intros. rewrite N. reflexivity.
Qed.

(** ** the hypotheses hold of ordinary data *)
Definition ex_V : quad Z := Q (f_of_Z 3) (f_of_Z (-4)) (f_of_Z 12) (f_of_Z 84).
Definition ex_x : rvec := Q 3 (-4) 12 84.
Example C65_ex_holds : holds4 ex_V ex_x /\ holdsM (Q ex_V ex_V ex_V ex_V) (Q ex_x ex_x ex_x ex_x).
Proof.
  assert (O : forall n, (Z.abs n <= 2 ^ 24)%Z -> is32 (f_of_Z n) (IZR n)) by (intros n H; split; [apply enc_word|apply of_Z_exact, H]).
  assert (H : holds4 ex_V ex_x) by (unfold holds4, ex_V, ex_x; cbn [qx qy qz qw]; refine (Logic.conj _ (Logic.conj _ (Logic.conj _ _))); apply O; vm_compute; discriminate).
  split; [exact H|]. intros i; destruct i; exact H.
Qed.
Example C65_ex_range : norm3 ex_x = 13 /\ mid_range (norm3 ex_x) /\ norm4 ex_x = 85 /\ mid_range (norm4 ex_x) /\ safe (dot4 (vabs ex_x) (vabs ex_x)) /\ safe (8 * norm3 ex_x).
Proof.
  assert (N3 : norm3 ex_x = 13) by (unfold norm3, dot3, ex_x; cbn [qx qy qz]; replace (3 * 3 + -4 * -4 + 12 * 12) with (13 * 13) by ring; apply sqrt_square; lra).
  assert (N4 : norm4 ex_x = 85) by (unfold norm4, dot4, ex_x; cbn [qx qy qz qw]; replace (3 * 3 + -4 * -4 + 12 * 12 + 84 * 84) with (85 * 85) by ring; apply sqrt_square; lra).
  assert (L : pow2 (-48) <= 1) by (unfold pow2; cbn; lra). assert (U : 100000 <= pow2 63 /\ 100000 <= pow2 126) by (unfold pow2; cbn; lra).
  rewrite N3, N4. unfold mid_range, safe, vabs, dot4, ex_x. cbn [qx qy qz qw]. rewrite (Rabs_left (-4)), !Rabs_pos_eq by lra. lra.
Qed.
(** and the bound is a real restriction: the length of (3,-4,12) is 13 within 3.1e-6 *)
Example C65_ex_length : forall b, within (31 / 10000000) (qx (XMVector3Length (L:=FL) b ex_V)) 13.
Proof.
  intros b. destruct C65_ex_holds as (H & _). destruct C65_ex_range as (E & M & _).
  assert (H3 : holds3 ex_V ex_x) by (destruct H as (A & B & C & _); exact (Logic.conj A (Logic.conj B C))).
  destruct (C65_length3 b ex_V ex_x I0 H3 M) as ((r & V & D) & _). exists r. split; [exact V|]. rewrite E in D. eapply Rle_trans; [exact D|]. unfold ulp_half. lra.
Qed.
