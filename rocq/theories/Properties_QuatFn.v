(** C63: quaternion exponential, logarithm, axis and angle. C64: squad and barycentric interpolation.
    [quat_about n a] = (n sin(a/2), cos(a/2)); [vnear e]: every lane within e; over the reals unless [FL] is named. *)
From Coq Require Import Reals ZArith Lra.
From Verif Require Import Base F32 Intrin Lane SpecF32 SpecGeom SpecQuat SpecMat SpecTrig SpecRot SpecSlerp MVec MTrig MQuat PReal PQuat PSlerp PTrigPoly PRotFn PQuatFn PSquad PSetup.
Open Scope R_scope.

(** ** C63 *)
(** the exponential of th n (whatever its w) *)
Theorem C63_exp : forall b n th w, unit3 n -> 0 <= th <= 100000000 ->
  vnear (trig_err th) (XMQuaternionExp (L:=RL) b (Q (th * qx n) (th * qy n) (th * qz n) w)) (quat_about n (2 * th)).
Proof. exact quat_exp. Qed.
(** the logarithm lies exactly along the axis. Away from the poles and near +1 its length is the half angle ... *)
Theorem C63_ln : forall b n th, 0 <= th <= PI -> - near_one <= cos th <= near_one ->
  exists k, XMQuaternionLn (L:=RL) b (quat_about n (2 * th)) = Q (k * qx n) (k * qy n) (k * qz n) 0 /\
    Rabs (k - th) <= 63 / 100000000 + 93 / 100000000 * (th / sin th).
Proof. exact quat_ln_mid. Qed.
Theorem C63_ln_near_one : forall b n th, 0 <= th <= PI -> near_one < cos th ->
  exists k, XMQuaternionLn (L:=RL) b (quat_about n (2 * th)) = Q (k * qx n) (k * qy n) (k * qz n) 0 /\ Rabs (k - th) <= 5 / 100000000.
Proof. exact quat_ln_small. Qed.
(** ... but near -1 it is sin th instead of th: off by nearly pi *)
Theorem C63_ln_near_minus_one_refuted : exists n th, unit3 n /\ 0 <= th <= PI /\
  forall b, ~ vnear 3 (XMQuaternionLn (L:=RL) b (quat_about n (2 * th))) (Q (th * qx n) (th * qy n) (th * qz n) 0).
Proof.
  exists ex3, PI. split; [unfold unit3, ex3, dot3; cbn [qx qy qz]; lra|]. split; [pose proof PI_RGT_0; lra|]. intros b N.
  rewrite quat_ln_minus in N by (rewrite cos_PI; unfold near_one; lra). specialize (N I0). unfold pure, ex3 in N. cbn [lane qx qy qz qw] in N. rewrite sin_PI in N.
  replace (0 * 1 - PI * 1) with (- PI) in N by ring. rewrite Rabs_Ropp, Rabs_pos_eq in N by (pose proof PI_RGT_0; lra). pose proof PI_close. unfold PI32 in *. lra.
Qed.
Theorem C63_exp_ln : forall b n th, unit3 n -> 0 <= th <= PI -> - near_one <= cos th <= near_one ->
  vnear (4 / 10000000 + (63 / 100000000 + 93 / 100000000 * (th / sin th)))
    (XMQuaternionExp (L:=RL) b (XMQuaternionLn (L:=RL) b (quat_about n (2 * th)))) (quat_about n (2 * th)).
Proof. exact exp_ln_mid. Qed.
Theorem C63_ln_conjugate : forall b q, XMQuaternionLn (L:=RL) b (conj q) = scale (-1) (XMQuaternionLn (L:=RL) b q).
Proof. exact ln_conj. Qed.
(** the axis comes back as the quaternion itself (not normalised), the angle within 1.24e-6 *)
Theorem C63_axis_angle : forall b n a, 0 <= a <= 2 * PI -> let r := XMQuaternionToAxisAngle (L:=RL) b (quat_about n a) in
  direction (fst r) = scale (sin (a / 2)) (direction n) /\ Rabs (snd r - a) <= 124 / 100000000.
Proof.
  intros b n a H. destruct (to_axis_angle b n a H) as [E A]. cbv zeta. split; [|exact A]. rewrite E. unfold quat_about, direction, scale. cbn [qx qy qz qw]. apply (@Qeq R); ring.
Qed.
Example C63_ex : unit3 (Q 0 (3/5) (4/5) 0) /\ - near_one <= cos (PI / 3) <= near_one /\ quat_about (Q 0 (3/5) (4/5) 0) (2 * (PI / 2)) = Q 0 (3/5) (4/5) 0.
Proof.
  split; [unfold unit3, dot3; cbn [qx qy qz]; lra|]. split; [rewrite cos_PI3; unfold near_one; lra|].
  unfold quat_about. cbn [qx qy qz qw]. replace (2 * (PI / 2) / 2) with (PI / 2) by field. rewrite sin_PI2, cos_PI2. apply (@Qeq R); ring.
Qed.

(** ** C64 *)
Theorem C64_squad : forall b p0 p1 p2 p3 t, exists r03 r12, XMQuaternionSlerp b p0 p3 t = Some r03 /\ XMQuaternionSlerp b p1 p2 t = Some r12 /\
  XMQuaternionSquad (L:=RL) b p0 p1 p2 p3 t = XMQuaternionSlerp b r03 r12 (2 * t * (1 - t)).
Proof. exact squad_form. Qed.
(** portable backend: the documented nesting of great arcs, of unit length *)
Theorem C64_squad_arcs : forall p0 p1 p2 p3 t, unitq p0 -> unitq p1 -> unitq p2 -> unitq p3 ->
  hemi p0 p3 * dot4 p0 p3 < near_one -> hemi p1 p2 * dot4 p1 p2 < near_one ->
  hemi (slerp p0 p3 t) (slerp p1 p2 t) * dot4 (slerp p0 p3 t) (slerp p1 p2 t) < near_one ->
  let r := slerp (slerp p0 p3 t) (slerp p1 p2 t) (2 * t * (1 - t)) in XMQuaternionSquad Scalar p0 p1 p2 p3 t = Some r /\ unitq r.
Proof. exact squad_scalar. Qed.
Theorem C64_squad_endpoints : forall p0 p1 p2 p3, unitq p0 -> unitq p1 -> unitq p2 -> unitq p3 ->
  XMQuaternionSquad Scalar p0 p1 p2 p3 0 = Some p0 /\ XMQuaternionSquad Scalar p0 p1 p2 p3 1 = Some (scale (hemi p0 p3) p3).
Proof. exact squad_ends. Qed.
(** control points, vector backends: c is p2 on p1's hemisphere; each knot u between a and c gets
    exp(-(ln(a u* ) + ln(c u* ))/4) u *)
Theorem C64_setup : forall b p0 p1 p2 p3, b <> Scalar -> unitq p1 -> unitq p2 ->
  let knot u a c := ham (XMQuaternionExp (L:=RL) b (scale (- (1 / 4)) (plus (XMQuaternionLn (L:=RL) b (ham a (conj u))) (XMQuaternionLn (L:=RL) b (ham c (conj u)))))) u in
  let c := scale (hemi p1 p2) p2 in
  XMQuaternionSquadSetup (L:=RL) b p0 p1 p2 p3 = (knot p1 (scale (hemi p1 p0) p0) c, knot c p1 (scale (hemi c p3) p3), c).
Proof. exact setup_R. Qed.
(** steady rotation by r: the control points are the knots themselves *)
Theorem C64_setup_steady : forall b u r, b <> Scalar -> unitq u -> unitq r -> 0 <= qw r ->
  XMQuaternionSquadSetup (L:=RL) b (ham (conj r) u) u (ham r u) (ham r (ham r u)) = (u, ham r u, ham r u).
Proof. exact setup_uniform. Qed.
(** portable backend, on bit patterns, every input: both control points are NaN in all lanes, because the constant -1/4 comes
    out as infinity. [cos_special]: the platform's cosine of a NaN or of infinity is a NaN. *)
Theorem C64_setup_portable : forall (lm : Libm FL) (p0 p1 p2 p3 : quad Z),
  (forall z, value z = NaN \/ value z = Inf false -> value (m_cos (Libm:=lm) z) = NaN) ->
  let '(A, B, C) := @XMQuaternionSquadSetup FL lm Scalar p0 p1 p2 p3 in forall k, value (lane A k) = NaN /\ value (lane B k) = NaN.
Proof. exact setup_scalar. Qed.
Theorem C64_setup_portable_refuted : exists p : quad Z, forall lm : Libm FL,
  (forall z, value z = NaN \/ value z = Inf false -> value (m_cos (Libm:=lm) z) = NaN) ->
  let '(A, B, C) := @XMQuaternionSquadSetup FL lm Scalar p p p p in exists k, value (lane A k) <> value (lane p k).
Proof.
  exists (Q 0 0 0 0x3F800000)%Z. intros lm H. pose proof (setup_scalar lm (Q 0 0 0 0x3F800000)%Z (Q 0 0 0 0x3F800000)%Z (Q 0 0 0 0x3F800000)%Z (Q 0 0 0 0x3F800000)%Z H) as E.
  destruct (XMQuaternionSquadSetup Scalar _ _ _ _) as [[A B] C]. exists I0. rewrite (proj1 (E I0)). discriminate.
Qed.

Theorem C64_barycentric_small : forall b p0 p1 p2 (f g : R), Rabs (f + g) < 2748779 / 274877906944 -> XMQuaternionBaryCentric (L:=RL) b p0 p1 p2 f g = Some p0.
Proof. exact bary_small. Qed.
Theorem C64_barycentric : forall b p0 p1 p2 (f g : R), 2748779 / 274877906944 <= Rabs (f + g) ->
  exists r1 r2, XMQuaternionSlerp b p0 p1 (f + g) = Some r1 /\ XMQuaternionSlerp b p0 p2 (f + g) = Some r2 /\
  XMQuaternionBaryCentric (L:=RL) b p0 p1 p2 f g = XMQuaternionSlerp b r1 r2 (g / (f + g)).
Proof. exact bary_form. Qed.
(** along the two edges at p0 it is the slerp of the edge (up to sign on the second) *)
Theorem C64_barycentric_edges : forall p0 p1 p2 s, unitq p0 -> unitq p1 -> unitq p2 ->
  hemi p0 p1 * dot4 p0 p1 < near_one -> hemi p0 p2 * dot4 p0 p2 < near_one -> 2748779 / 274877906944 <= Rabs s ->
  XMQuaternionBaryCentric (L:=RL) Scalar p0 p1 p2 s 0 = Some (slerp p0 p1 s) /\
  XMQuaternionBaryCentric (L:=RL) Scalar p0 p1 p2 0 s = Some (scale (hemi (slerp p0 p1 s) (slerp p0 p2 s)) (slerp p0 p2 s)).
Proof. exact bary_edges. Qed.
(** the vector form agrees on vector backends for weights above 2^-16 *)
Theorem C64_barycentric_vector : forall b p0 p1 p2 (f g : R), b <> Scalar -> / 65536 < Rabs (f + g) ->
  XMQuaternionBaryCentricV (L:=RL) b p0 p1 p2 (qrep f) (qrep g) = XMQuaternionBaryCentric (L:=RL) b p0 p1 p2 f g.
Proof. exact baryV_sse. Qed.
(** on the portable backend it returns p0 whatever the weights: its epsilon is infinite *)
Theorem C64_barycentric_vector_portable : forall (lm : Libm FL) (p0 p1 p2 : quad Z) f g, value (f_add f g) <> NaN ->
  @XMQuaternionBaryCentricV FL lm Scalar p0 p1 p2 (qrep f) (qrep g) = Some p0.
Proof. exact baryV_scalar. Qed.
(** weight one on the first vertex *)
Theorem C64_barycentric_vector_refuted : exists p0 p1 p2 : quad Z, p0 <> p1 /\ forall lm : Libm FL,
  @XMQuaternionBaryCentricV FL lm Scalar p0 p1 p2 (qrep 0x3F800000%Z) (qrep 0%Z) = Some p0.
Proof.
  exists (Q 0 0 0 0x3F800000)%Z, (Q 0x3F800000 0 0 0)%Z, (Q 0 0x3F800000 0 0)%Z. split; [discriminate|]. intros lm. apply baryV_scalar.
  replace (f_add 0x3F800000 0) with 0x3F800000%Z by (vm_compute; reflexivity). discriminate.
Qed.
Example C64_ex_squad : let p := Q 1 0 0 0 in let q := Q 0 1 0 0 in unitq p /\ unitq q /\ hemi p q * dot4 p q < near_one.
Proof.
  cbv zeta. assert (D : dot4 (Q 1 0 0 0) (Q 0 1 0 0) = 0) by (unfold dot4; cbn [qx qy qz qw]; ring). rewrite D. unfold unitq, dot4, near_one. cbn [qx qy qz qw]. lra.
Qed.
Example C64_ex_steady : unitq (Q 0 0 (3/5) (4/5)) /\ ham (Q 0 0 (3/5) (4/5)) (Q 0 0 0 1) = Q 0 0 (3/5) (4/5).
Proof. unfold unitq, dot4, ham. cbn [qx qy qz qw]. split; [lra|apply (@Qeq R); ring]. Qed.
