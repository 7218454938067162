(** C30: spherical interpolation between unit quaternions, over exact real arithmetic with the library's coefficients.
    [near_one] is the code's 0.99999 threshold: above it the code blends linearly. *)
From Coq Require Import Reals ZArith Lra.
From Verif Require Import Base F32 Intrin Lane SpecGeom SpecQuat SpecSlerp MVec MTrig MQuat PReal PTrig PTrigFn PArc PSlerp.
Open Scope R_scope.

Definition aligned (p q : rvec) : R := hemi p q * dot4 p q.

(** nearly parallel (or antiparallel) inputs: every backend gives the straight-line blend, whose squared length is off by at most
    2.1e-5 t (1 - t) *)
Theorem C30_near_parallel b p q t : near_one <= aligned p q -> XMQuaternionSlerp b p q t = Some (lerp_hemi p q t).
Proof.
  intros H. destruct b as [|s3 s4 f a]; [rewrite slerp_scalar|rewrite slerp_sse by discriminate]; rewrite slerp_with_near by exact H; reflexivity.
Qed.
Theorem C30_near_parallel_length p q t : unitq p -> unitq q -> near_one <= aligned p q ->
  Rabs (dot4 (lerp_hemi p q t) (lerp_hemi p q t) - 1) <= 21 / 1000000 * Rabs (t * (1 - t)).
Proof. exact (lerp_length p q t). Qed.
(** the vector form takes the fraction in all four lanes and agrees with the scalar form *)
Theorem C30_vector_form b p q (tv : rvec) r : XMQuaternionSlerpV b p q tv = Some r ->
  tv = qrep (qx tv) /\ XMQuaternionSlerp b p q (qx tv) = Some r.
Proof.
  intros H. split; [|exact (slerpV_some b p q tv r H)]. revert H. unfold XMQuaternionSlerpV, lanes_equal. destruct tv as [x y z w].
  cbn [qx qy qz qw]. change (@teq RL) with Reqb. destruct (Reqb_spec y x); [|discriminate]. destruct (Reqb_spec z x); [|discriminate].
  destruct (Reqb_spec w x); [|discriminate]. subst. reflexivity.
Qed.

(** portable backend with exact library sine and arc tangent: exactly the great arc, for every fraction *)
Theorem C30_scalar_arc p q t : unitq p -> unitq q -> aligned p q < near_one -> XMQuaternionSlerp Scalar p q t = Some (slerp p q t).
Proof. intros Hp Hq H. rewrite slerp_scalar, slerp_with_exact by assumption. reflexivity. Qed.
(** what the great arc is: unit length, at angle t w from Q0 and (1 - t) w from Q1's representative, w in (0, pi/2] *)
Theorem C30_arc p q t : unitq p -> unitq q -> aligned p q < near_one -> let w := arc_angle p q in
  unitq (slerp p q t) /\ dot4 (slerp p q t) p = cos (t * w) /\ hemi p q * dot4 (slerp p q t) q = cos ((1 - t) * w) /\
  0 < w <= PI / 2 /\ 4 / 1000 < sin w.
Proof.
  intros Hp Hq H. cbv zeta. destruct (slerp_arc p q t Hp Hq H) as (A & B & C). destruct (angle_facts p q Hp Hq H) as (_ & S & P & W & _).
  rewrite S. repeat split; try assumption; apply W.
Qed.
Theorem C30_scalar_endpoints p q : unitq p -> unitq q ->
  XMQuaternionSlerp Scalar p q 0 = Some p /\ XMQuaternionSlerp Scalar p q 1 = Some (scale (hemi p q) q).
Proof. intros Hp Hq. rewrite !slerp_scalar. destruct (slerp_ends p q Hp Hq) as [-> ->]. auto. Qed.

(** vector backends, whose sine and arc tangent are polynomials: close to the great arc and to unit length *)
Theorem C30_sse_arc b p q t : b <> Scalar -> unitq p -> unitq q -> aligned p q < near_one -> 0 <= t <= 1 ->
  exists r, XMQuaternionSlerp b p q t = Some r /\
    (forall k, Rabs (lane r k - lane (slerp p q t) k) <= 77 / 100000000 / sin (arc_angle p q)) /\
    Rabs (dot4 r r - 1) <= 155 / 100000000 / sin (arc_angle p q).
Proof.
  intros Hb Hp Hq H Ht. eexists. split; [apply slerp_sse, Hb|]. destruct (angle_facts p q Hp Hq H) as (_ & -> & _). exact (slerp_sse_err p q t Hp Hq H Ht).
Qed.
Theorem C30_sse_extrapolate b p q t : b <> Scalar -> unitq p -> unitq q -> aligned p q < near_one -> Rabs t <= 10000000 ->
  let d := (412 / 1000000000 + 575 / 1000000000 * (Rabs t + Rabs (1 - t))) / sin (arc_angle p q) in
  exists r, XMQuaternionSlerp b p q t = Some r /\
    (forall k, Rabs (lane r k - lane (slerp p q t) k) <= d) /\ Rabs (dot4 r r - 1) <= 2 * d + d * d.
Proof.
  intros Hb Hp Hq H Ht. cbv zeta. eexists. split; [apply slerp_sse, Hb|]. destruct (angle_facts p q Hp Hq H) as (_ & -> & _). exact (slerp_sse_any p q t Hp Hq H Ht).
Qed.
(** the endpoints have the right direction exactly; the length is a hair off one *)
Theorem C30_sse_endpoints b p q : b <> Scalar -> unitq p -> unitq q -> aligned p q < near_one ->
  exists m, XMQuaternionSlerp b p q 0 = Some (scale m p) /\ XMQuaternionSlerp b p q 1 = Some (scale (m * hemi p q) q) /\
    Rabs (m - 1) <= 65 / 100000000 / sin (arc_angle p q).
Proof.
  intros Hb Hp Hq H. destruct (slerp_sse_ends p q Hp Hq H) as (m & E0 & E1 & E). exists m. rewrite !slerp_sse by exact Hb.
  rewrite E0, E1. destruct (angle_facts p q Hp Hq H) as (_ & -> & _). auto.
Qed.
(** a negative dot product: the arc runs to minus Q1 *)
Example C30_ex_flip : let p := Q 1 0 0 0 in let q := Q (-3/5) (4/5) 0 0 in unitq p /\ unitq q /\ hemi p q = -1 /\ aligned p q = 3/5 /\ aligned p q < near_one.
Proof.
  cbv zeta. assert (D : dot4 (Q 1 0 0 0) (Q (-3/5) (4/5) 0 0) = -3/5) by (unfold dot4; cbn [qx qy qz qw]; lra).
  assert (H : hemi (Q 1 0 0 0) (Q (-3/5) (4/5) 0 0) = -1) by (unfold hemi; rewrite D; destruct (Rlt_dec _ _); lra).
  unfold aligned, near_one. rewrite H, D. unfold unitq, dot4. cbn [qx qy qz qw]. repeat split; lra.
Qed.
Example C30_ex_flip_end : XMQuaternionSlerp Scalar (Q 1 0 0 0) (Q (-3/5) (4/5) 0 0) 1 = Some (Q (3/5) (-4/5) 0 0).
Proof.
  destruct C30_ex_flip as (P & S & H & _). rewrite (proj2 (C30_scalar_endpoints _ _ P S)), H. f_equal. unfold scale. cbn [qx qy qz qw]. apply (@Qeq R); lra.
Qed.
Example C30_ex_parallel : let p := Q 1 0 0 0 in unitq p /\ near_one <= aligned p p /\ lerp_hemi p p (1/3) = p.
Proof.
  cbv zeta. assert (D : dot4 (Q 1 0 0 0) (Q 1 0 0 0) = 1) by (unfold dot4; cbn [qx qy qz qw]; lra).
  assert (H : hemi (Q 1 0 0 0) (Q 1 0 0 0) = 1) by (unfold hemi; rewrite D; destruct (Rlt_dec _ _); lra).
  unfold aligned, near_one, lerp_hemi, unitq. rewrite H, D. repeat split; try lra. unfold plus, scale. cbn [qx qy qz qw]. apply (@Qeq R); lra.
Qed.
(** binary32, SSE with FMA: halfway from the identity to a quarter turn about x, one unit in the last place below sin and cos of 22.5 degrees *)
Example C30_ex_bits (lm : Libm FL) : @XMQuaternionSlerp FL lm (SSE true true true AVX2) (Q 0 0 0 0x3F800000)%Z (Q 0x3F3504F3 0 0 0x3F3504F3)%Z 0x3F000000%Z
  = Some (Q 0x3EC3EF14 0 0 0x3F6C835D)%Z.
Proof. vm_compute. auto. Qed.
