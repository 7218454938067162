(** Proofs about interpolation. *)
From Coq Require Import Reals Lra Psatz.
From Verif Require Import Base F32 Intrin Lane MVec MInterp SpecGeom PReal PVec.
Open Scope R_scope.

Ltac unf := unfold three, four, five.
Lemma LerpV_R b u v t : XMVectorLerpV (L:=RL) b u v t = qmap3 (fun x y k => (1 - k) * x + k * y) u v t.
Proof. destruct b as [|s3 s4 [|] a]; dq u; dq v; dq t; rcbv; qring. Qed.
Lemma Lerp_any {L : Lane} b (u v : quad (T L)) t : XMVectorLerp b u v t = XMVectorLerpV b u v (qrep t).
Proof. destruct b; reflexivity. Qed.
Lemma Bary_any {L : Lane} b (u v w : quad (T L)) f g : XMVectorBaryCentric b u v w f g = XMVectorBaryCentricV b u v w (qrep f) (qrep g).
Proof. destruct b; reflexivity. Qed.
Lemma Hermite_R b p0 t0 p1 t1 t : XMVectorHermite (L:=RL) b p0 t0 p1 t1 t =
  plus (plus (scale (2*t*t*t - 3*t*t + 1) p0) (scale (t*t*t - 2*t*t + t) t0)) (plus (scale (- 2*t*t*t + 3*t*t) p1) (scale (t*t*t - t*t) t1)).
Proof. destruct b as [|s3 s4 [|] a]; dq p0; dq t0; dq p1; dq t1; rcbv; qring. Qed.
Lemma HermiteV_R b p0 t0 p1 t1 t : XMVectorHermiteV (L:=RL) b p0 t0 p1 t1 t =
  plus (plus (scale (2*qx t*qx t*qx t - 3*qx t*qx t + 1) p0) (scale (qy t*qy t*qy t - 2*qy t*qy t + qy t) t0))
       (plus (scale (- 2*qz t*qz t*qz t + 3*qz t*qz t) p1) (scale (qw t*qw t*qw t - qw t*qw t) t1)).
Proof. destruct b as [|s3 s4 [|] a]; dq p0; dq t0; dq p1; dq t1; dq t; rcbv; qring. Qed.
(** the uniform Catmull-Rom polynomial through p1 (t = 0) and p2 (t = 1) *)
Definition cr (t a b c d : R) : R :=
  (2 * b + (c - a) * t + (2 * a - 5 * b + 4 * c - d) * (t * t) + (3 * b - a - 3 * c + d) * (t * t * t)) / 2.
Lemma Catmull_R b p0 p1 p2 p3 t : XMVectorCatmullRom (L:=RL) b p0 p1 p2 p3 t =
  Q (cr t (qx p0) (qx p1) (qx p2) (qx p3)) (cr t (qy p0) (qy p1) (qy p2) (qy p3))
    (cr t (qz p0) (qz p1) (qz p2) (qz p3)) (cr t (qw p0) (qw p1) (qw p2) (qw p3)).
Proof. destruct b as [|s3 s4 [|] a]; dq p0; dq p1; dq p2; dq p3; unfold cr; rcbv; apply (@Qeq R); field. Qed.
Lemma CatmullV_R b p0 p1 p2 p3 t : XMVectorCatmullRomV (L:=RL) b p0 p1 p2 p3 t =
  Q (cr (qx t) (qx p0) (qx p1) (qx p2) (qx p3)) (cr (qy t) (qy p0) (qy p1) (qy p2) (qy p3))
    (cr (qz t) (qz p0) (qz p1) (qz p2) (qz p3)) (cr (qw t) (qw p0) (qw p1) (qw p2) (qw p3)).
Proof. destruct b as [|s3 s4 [|] a]; dq p0; dq p1; dq p2; dq p3; dq t; unfold cr; rcbv; apply (@Qeq R); field. Qed.
Lemma BaryV_R b p0 p1 p2 f g : XMVectorBaryCentricV (L:=RL) b p0 p1 p2 f g =
  Q ((1 - qx f - qx g) * qx p0 + qx f * qx p1 + qx g * qx p2) ((1 - qy f - qy g) * qy p0 + qy f * qy p1 + qy g * qy p2)
    ((1 - qz f - qz g) * qz p0 + qz f * qz p1 + qz g * qz p2) ((1 - qw f - qw g) * qw p0 + qw f * qw p1 + qw g * qw p2).
Proof. destruct b as [|s3 s4 [|] a]; dq p0; dq p1; dq p2; dq f; dq g; rcbv; qring. Qed.

Lemma lerp_ends b u v : XMVectorLerp (L:=RL) b u v 0 = u /\ XMVectorLerp (L:=RL) b u v 1 = v /\ forall t, XMVectorLerp (L:=RL) b u u t = u.
Proof. rewrite !Lerp_any, !LerpV_R. dq u; dq v. repeat split; try (intros t; rewrite Lerp_any, LerpV_R); qring. Qed.
Lemma cubic_deriv (f : R -> R) a b c d x : (forall t, f t = a + b * t + c * (t * t) + d * (t * t * t)) ->
  derivable_pt_lim f x (b + 2 * c * x + 3 * d * (x * x)).
Proof.
  intros H.
  set (F := plus_fct (plus_fct (plus_fct (fct_cte a) (mult_fct (fct_cte b) id)) (mult_fct (fct_cte c) (mult_fct id id)))
     (mult_fct (fct_cte d) (mult_fct (mult_fct id id) id))).
  assert (D : exists l, derivable_pt_lim F x l /\ l = b + 2 * c * x + 3 * d * (x * x)).
  { eexists; split.
    - subst F. repeat first [eapply derivable_pt_lim_plus | eapply derivable_pt_lim_mult | apply derivable_pt_lim_const | apply derivable_pt_lim_id].
    - unfold mult_fct, fct_cte, id. ring. }
  destruct D as (l & D & <-). subst F.
  intros eps He. destruct (D eps He) as [del Hd]. exists del. intros h h0 hl. specialize (Hd h h0 hl).
  rewrite !H. unfold plus_fct, mult_fct, fct_cte, id in Hd. rewrite !Rmult_assoc in *. exact Hd.
Qed.
Lemma cubic_deriv' (f : R -> R) a b c d x l : (forall t, f t = a + b * t + c * (t * t) + d * (t * t * t)) ->
  l = b + 2 * c * x + 3 * d * (x * x) -> derivable_pt_lim f x l.
Proof. intros H ->. exact (cubic_deriv f a b c d x H). Qed.
Lemma hermite_ends b p0 t0 p1 t1 : XMVectorHermite (L:=RL) b p0 t0 p1 t1 0 = p0 /\ XMVectorHermite (L:=RL) b p0 t0 p1 t1 1 = p1.
Proof. rewrite !Hermite_R. dq p0; dq t0; dq p1; dq t1. split; unfold plus, scale; qring. Qed.
Lemma hermite_tangents b p0 t0 p1 t1 i :
  derivable_pt_lim (fun t => lane (XMVectorHermite (L:=RL) b p0 t0 p1 t1 t) i) 0 (lane t0 i) /\
  derivable_pt_lim (fun t => lane (XMVectorHermite (L:=RL) b p0 t0 p1 t1 t) i) 1 (lane t1 i).
Proof.
  assert (H : forall t, lane (XMVectorHermite (L:=RL) b p0 t0 p1 t1 t) i =
    lane p0 i + lane t0 i * t + (- 3 * lane p0 i - 2 * lane t0 i + 3 * lane p1 i - lane t1 i) * (t * t)
    + (2 * lane p0 i + lane t0 i - 2 * lane p1 i + lane t1 i) * (t * t * t)).
  { intros t. rewrite Hermite_R. destruct i; unfold plus, scale; cbn [lane qx qy qz qw]; rt; ring. }
  split.
  - eapply cubic_deriv'; [exact H|rt; field].
  - eapply cubic_deriv'; [exact H|rt; field].
Qed.
Lemma hermite_const b p t : XMVectorHermite (L:=RL) b p (Q 0 0 0 0) p (Q 0 0 0 0) t = p.
Proof. rewrite !Hermite_R. dq p. unfold plus, scale; qring. Qed.
Lemma hermite_forms b1 b2 p0 t0 p1 t1 t : XMVectorHermite (L:=RL) b1 p0 t0 p1 t1 t = XMVectorHermiteV b2 p0 t0 p1 t1 (qrep t).
Proof. rewrite Hermite_R, HermiteV_R. reflexivity. Qed.
Lemma catmull_ends b p0 p1 p2 p3 : XMVectorCatmullRom (L:=RL) b p0 p1 p2 p3 0 = p1 /\ XMVectorCatmullRom (L:=RL) b p0 p1 p2 p3 1 = p2.
Proof. rewrite !Catmull_R. unfold cr. dq p0; dq p1; dq p2; dq p3. split; apply (@Qeq R); cbn [qx qy qz qw]; field. Qed.
Lemma catmull_const b p t : XMVectorCatmullRom (L:=RL) b p p p p t = p.
Proof. rewrite !Catmull_R. unfold cr. dq p. apply (@Qeq R); cbn [qx qy qz qw]; field. Qed.
Lemma catmull_tangents b p0 p1 p2 p3 i :
  derivable_pt_lim (fun t => lane (XMVectorCatmullRom (L:=RL) b p0 p1 p2 p3 t) i) 0 ((lane p2 i - lane p0 i) / 2) /\
  derivable_pt_lim (fun t => lane (XMVectorCatmullRom (L:=RL) b p0 p1 p2 p3 t) i) 1 ((lane p3 i - lane p1 i) / 2).
Proof.
  assert (H : forall t, lane (XMVectorCatmullRom (L:=RL) b p0 p1 p2 p3 t) i =
    lane p1 i + (lane p2 i - lane p0 i) / 2 * t + (2 * lane p0 i - 5 * lane p1 i + 4 * lane p2 i - lane p3 i) / 2 * (t * t)
    + (3 * lane p1 i - lane p0 i - 3 * lane p2 i + lane p3 i) / 2 * (t * t * t)).
  { intros t. rewrite Catmull_R. unfold cr. destruct i; cbn [lane qx qy qz qw]; rt; field. }
  split.
  - eapply cubic_deriv'; [exact H|rt; field].
  - eapply cubic_deriv'; [exact H|rt; field].
Qed.
Lemma catmull_forms b1 b2 p0 p1 p2 p3 t : XMVectorCatmullRom (L:=RL) b1 p0 p1 p2 p3 t = XMVectorCatmullRomV b2 p0 p1 p2 p3 (qrep t).
Proof. rewrite Catmull_R, CatmullV_R. reflexivity. Qed.
Lemma bary_vertices b p0 p1 p2 :
  XMVectorBaryCentric (L:=RL) b p0 p1 p2 0 0 = p0 /\ XMVectorBaryCentric (L:=RL) b p0 p1 p2 1 0 = p1 /\ XMVectorBaryCentric (L:=RL) b p0 p1 p2 0 1 = p2.
Proof. rewrite !Bary_any, !BaryV_R. dq p0; dq p1; dq p2. repeat split; qring. Qed.
Lemma bary_plane b p0 p1 p2 f g : XMVectorBaryCentric (L:=RL) b p0 p1 p2 f g = plus (plus (scale (1 - f - g) p0) (scale f p1)) (scale g p2).
Proof. rewrite !Bary_any, !BaryV_R. dq p0; dq p1; dq p2. unfold plus, scale; qring. Qed.
Lemma lerp_end_rounding : exists V0 V1 : quad Z, forall b, XMVectorLerp (L:=FL) b V0 V1 (f_of_Z 1) <> V1.
Proof.
  exists (qrep (f_of_Z 100000000)), (qrep (f_of_Z 1)). intros b E.
  assert (H : qx (XMVectorLerp (L:=FL) b (qrep (f_of_Z 100000000)) (qrep (f_of_Z 1)) (f_of_Z 1)) = 0%Z).
  { destruct b as [|s3 s4 [|] a]; vm_compute; reflexivity. }
  rewrite E in H. revert H. vm_compute. discriminate.
Qed.
