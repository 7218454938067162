(** C43, C44: planes and the Fresnel term, on every backend [b]. *)
From Coq Require Import ZArith Reals Lra.
From Verif Require Import Base F32 Intrin Lane MVec MTrig MQuat MPlane MMatrix SpecGeom SpecQuat SpecMat PReal PVec PQuat PMatrix PTransf PAgree PPlane PPlaneProps.
Open Scope R_scope.

(** ** C43 *)
Theorem C43_from_point_normal : forall b p n, let P := XMPlaneFromPointNormal (L:=RL) b p n in
  on_plane P p /\ eq3 P n /\ forall x, on_plane P x <-> dot3 n (minus x p) = 0.
Proof. exact from_point_normal. Qed.
Theorem C43_from_points : forall b A B C, ~ zero3 (cross (minus A B) (minus A C)) ->
  let P := XMPlaneFromPoints (L:=RL) b A B C in unit3 P /\ on_plane P A /\ on_plane P B /\ on_plane P C.
Proof. exact from_points. Qed.
Theorem C43_normalize : forall b P, ~ zero3 P ->
  unit3 (XMPlaneNormalize (L:=RL) b P) /\ (forall x, on_plane (XMPlaneNormalize (L:=RL) b P) x <-> on_plane P x) /\
  (forall x, plane_at (XMPlaneNormalize (L:=RL) b P) x * norm3 P = plane_at P x).
Proof. exact plane_normalize. Qed.
(** The threshold is the library's epsilon, 2^-23. *)
Theorem C43_intersect_line : forall b P A B, / 8388608 < Rabs (dot3 P A - dot3 P B) ->
  on_plane P (XMPlaneIntersectLine (L:=RL) b P A B) /\ exists t, XMPlaneIntersectLine (L:=RL) b P A B = along A B t.
Proof. exact intersect_line. Qed.
Theorem C43_intersect_plane : forall b P1 P2, / 8388608 < dot3 (cross P2 P1) (cross P2 P1) ->
  let r := XMPlaneIntersectPlane (L:=RL) b P1 P2 in
  on_plane P1 (fst r) /\ on_plane P2 (fst r) /\ on_plane P1 (snd r) /\ on_plane P2 (snd r) /\ ~ eq3 (fst r) (snd r).
Proof. exact intersect_plane. Qed.
(** two equal points do not span a line: the result is NaN in every lane on bit patterns, when the dot product does not
    overflow *)
Theorem C43_parallel_line_float : forall b P A, f_fin (qx (XMVector3Dot (L:=FL) b P A)) = true ->
  qmap f_isnan (XMPlaneIntersectLine (L:=FL) b P A A) = qrep true.
Proof. exact parallel_line_float. Qed.
Theorem C43_transform : forall b P M x, mdet M <> 0 ->
  dot4 (XMPlaneTransform (L:=RL) b P (XMMatrixTranspose b (snd (XMMatrixInverse b M)))) (vecmat (point x) M) = plane_at P x.
Proof. exact plane_transform. Qed.
Theorem C43_dots : forall b P v, XMPlaneDot (L:=RL) b P v = qrep (dot4 P v)
  /\ XMPlaneDotCoord (L:=RL) b P v = qrep (plane_at P v) /\ XMPlaneDotNormal (L:=RL) b P v = qrep (dot3 P v).
Proof. exact plane_dots. Qed.
(** "Both backends agree on finite inputs" is false for a zero normal: the scalar build returns zeros, the others divide zero by zero. *)
Theorem C43_normalize_zero_refuted : exists P : fvec, XMPlaneNormalize (L:=FL) Scalar P = qrep 0%Z
  /\ qmap f_isnan (XMPlaneNormalize (L:=FL) (SSE true true true AVX2) P) = qrep true.
Proof. exact normalize_zero_float. Qed.
Example C43_ex : ~ zero3 (cross (minus (Q 1 0 0 0) (Q 0 1 0 0)) (minus (Q 1 0 0 0) (Q 0 0 1 0)))
  /\ / 8388608 < Rabs (dot3 (Q 1 1 1 0) (Q 1 0 0 0) - dot3 (Q 1 1 1 0) (Q 0 0 0 0))
  /\ / 8388608 < dot3 (cross (Q 1 0 0 2) (Q 0 1 0 3)) (cross (Q 1 0 0 2) (Q 0 1 0 3)).
Proof. unfold zero3; ms. split; [lra|]. split; [|lra]. unfold Rabs; destruct Rcase_abs; lra. Qed.

(** ** C44 *)
(** the reflectance of unpolarised light by Fresnel's equations, with Snell's law for the transmitted angle *)
Theorem C44_fresnel : forall b c n, exists r, XMFresnelTerm (L:=RL) b c n = Some r /\ forall i,
  0 <= lane r i <= 1 /\
  (0 < lane c i <= 1 -> 1 <= lane n i ->
   let ct := sqrt (1 - (1 - lane c i * lane c i) / (lane n i * lane n i)) in
   let rs := (lane c i - lane n i * ct) / (lane c i + lane n i * ct) in
   let rp := (lane n i * lane c i - ct) / (lane n i * lane c i + ct) in
   lane r i = (rs * rs + rp * rp) / 2).
Proof. exact c44_fresnel. Qed.
Theorem C44_backends_agree : forall b b' c n, XMFresnelTerm (L:=RL) b c n = XMFresnelTerm (L:=RL) b' c n.
Proof. exact c44_agree. Qed.
(** on bit patterns: in [0, 1] whatever the inputs, except that the scalar build lets a NaN through *)
Theorem C44_range_float : forall b c n r, XMFresnelTerm (L:=FL) b c n = Some r -> forall i,
  (f_le 0 (lane r i) = true /\ f_le (lane r i) 0x3F800000 = true) \/ (b = Scalar /\ f_isnan (lane r i) = true).
Proof. exact fresnel_float. Qed.
(** "agrees across backends" fails on finite inputs: 0/0 (index 1 at grazing incidence) is NaN in the scalar build and 0 in
    the others. *)
Theorem C44_agree_refuted : exists c n : fvec, qmap f_fin c = qrep true /\ qmap f_fin n = qrep true
  /\ XMFresnelTerm (L:=FL) Scalar c n <> XMFresnelTerm (L:=FL) (SSE true true true AVX2) c n.
Proof. exact c44_disagree. Qed.
Example C44_ex : XMFresnelTerm (L:=RL) Scalar (qrep 1) (qrep 2) = Some (qrep (1 / 9)).
Proof. exact c44_ex. Qed.
