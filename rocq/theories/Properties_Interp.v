(** C26: interpolation and splines. *)
From Coq Require Import ZArith Reals Lra.
From Verif Require Import Base F32 Lane MVec MInterp SpecGeom PReal PInterp.
Open Scope R_scope.

(** C26: Lerp is the straight line from V0 (t = 0) to V1 (t = 1), lane by lane, and constant on constant data. *)
Theorem C26_lerp_line : forall b (V0 V1 t : rvec),
  XMVectorLerpV (L:=RL) b V0 V1 t = qmap3 (fun x y k => (1 - k) * x + k * y) V0 V1 t.
Proof. exact LerpV_R. Qed.
Theorem C26_lerp_ends : forall b (V0 V1 : rvec),
  XMVectorLerp (L:=RL) b V0 V1 0 = V0 /\ XMVectorLerp (L:=RL) b V0 V1 1 = V1 /\ forall t, XMVectorLerp (L:=RL) b V0 V0 t = V0.
Proof. exact lerp_ends. Qed.
(** The number and vector parameter forms run the same arithmetic: equal bit for bit, on every backend. *)
Theorem C26_lerp_forms_agree : forall (L : Lane) b (V0 V1 : quad (T L)) t, XMVectorLerp b V0 V1 t = XMVectorLerpV b V0 V1 (qrep t).
Proof. exact @Lerp_any. Qed.
Theorem C26_barycentric_forms_agree : forall (L : Lane) b (P0 P1 P2 : quad (T L)) f g,
  XMVectorBaryCentric b P0 P1 P2 f g = XMVectorBaryCentricV b P0 P1 P2 (qrep f) (qrep g).
Proof. exact @Bary_any. Qed.
(** Hermite passes through its positions with the given tangents. *)
Theorem C26_hermite_ends : forall b (P0 T0 P1 T1 : rvec),
  XMVectorHermite (L:=RL) b P0 T0 P1 T1 0 = P0 /\ XMVectorHermite (L:=RL) b P0 T0 P1 T1 1 = P1.
Proof. exact hermite_ends. Qed.
Theorem C26_hermite_tangents : forall b (P0 T0 P1 T1 : rvec) i,
  derivable_pt_lim (fun t => lane (XMVectorHermite (L:=RL) b P0 T0 P1 T1 t) i) 0 (lane T0 i) /\
  derivable_pt_lim (fun t => lane (XMVectorHermite (L:=RL) b P0 T0 P1 T1 t) i) 1 (lane T1 i).
Proof. exact hermite_tangents. Qed.
Theorem C26_hermite_constant : forall b (P : rvec) t, XMVectorHermite (L:=RL) b P (Q 0 0 0 0) P (Q 0 0 0 0) t = P.
Proof. exact hermite_const. Qed.
Theorem C26_hermite_forms_and_backends_agree : forall b1 b2 (P0 T0 P1 T1 : rvec) t,
  XMVectorHermite (L:=RL) b1 P0 T0 P1 T1 t = XMVectorHermiteV b2 P0 T0 P1 T1 (qrep t).
Proof. exact hermite_forms. Qed.
(** Catmull-Rom passes through the middle points, with the chord tangents that make adjacent segments join smoothly. *)
Theorem C26_catmullrom_ends : forall b (P0 P1 P2 P3 : rvec),
  XMVectorCatmullRom (L:=RL) b P0 P1 P2 P3 0 = P1 /\ XMVectorCatmullRom (L:=RL) b P0 P1 P2 P3 1 = P2.
Proof. exact catmull_ends. Qed.
Theorem C26_catmullrom_tangents : forall b (P0 P1 P2 P3 : rvec) i,
  derivable_pt_lim (fun t => lane (XMVectorCatmullRom (L:=RL) b P0 P1 P2 P3 t) i) 0 ((lane P2 i - lane P0 i) / 2) /\
  derivable_pt_lim (fun t => lane (XMVectorCatmullRom (L:=RL) b P0 P1 P2 P3 t) i) 1 ((lane P3 i - lane P1 i) / 2).
Proof. exact catmull_tangents. Qed.
Theorem C26_catmullrom_constant : forall b (P : rvec) t, XMVectorCatmullRom (L:=RL) b P P P P t = P.
Proof. exact catmull_const. Qed.
Theorem C26_catmullrom_forms_and_backends_agree : forall b1 b2 (P0 P1 P2 P3 : rvec) t,
  XMVectorCatmullRom (L:=RL) b1 P0 P1 P2 P3 t = XMVectorCatmullRomV b2 P0 P1 P2 P3 (qrep t).
Proof. exact catmull_forms. Qed.
(** Barycentric coordinates: the vertices, and the affine combination in general. *)
Theorem C26_barycentric_vertices : forall b (P0 P1 P2 : rvec),
  XMVectorBaryCentric (L:=RL) b P0 P1 P2 0 0 = P0 /\ XMVectorBaryCentric (L:=RL) b P0 P1 P2 1 0 = P1 /\
  XMVectorBaryCentric (L:=RL) b P0 P1 P2 0 1 = P2.
Proof. exact bary_vertices. Qed.
Theorem C26_barycentric_combination : forall b (P0 P1 P2 : rvec) f g,
  XMVectorBaryCentric (L:=RL) b P0 P1 P2 f g = plus (plus (scale (1 - f - g) P0) (scale f P1)) (scale g P2).
Proof. exact bary_plane. Qed.
(** In binary32 the end point is not always hit: from 1e8 to 1 with t = 1 every backend returns 0. *)
Theorem C26_lerp_end_rounding_refuted : exists V0 V1 : quad Z, forall b,
  XMVectorLerp (L:=FL) b V0 V1 (f_of_Z 1) <> V1.
Proof. exact lerp_end_rounding. Qed.

Example C26_ex_lerp : XMVectorLerp (L:=RL) Scalar (Q 0 1 2 3) (Q 4 5 6 7) (/ 4) = Q 1 2 3 4.
Proof. rewrite Lerp_any, LerpV_R. qeq; lra. Qed.
Example C26_ex_hermite : XMVectorHermite (L:=RL) (SSE true true true AVX2) (Q 0 0 0 0) (Q 1 0 0 0) (Q 1 1 0 0) (Q 1 0 0 0) (/ 2) = Q (/ 2) (/ 2) 0 0.
Proof. rewrite Hermite_R. unfold plus, scale. qeq; lra. Qed.
Example C26_ex_catmull : XMVectorCatmullRom (L:=RL) Scalar (Q 0 0 0 0) (Q 1 0 0 0) (Q 2 4 0 0) (Q 3 0 0 0) (/ 2) = Q (3 / 2) (9 / 4) 0 0.
Proof. rewrite Catmull_R. unfold cr. qeq; lra. Qed.
Example C26_ex_lerp_float : XMVectorLerp (L:=FL) Scalar (qrep (f_of_Z 2)) (qrep (f_of_Z 6)) (f_lit 1 (-2)) = qrep (f_of_Z 3).
Proof. vm_compute. reflexivity. Qed.
