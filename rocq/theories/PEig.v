(** The cubic solver and the eigenvectors behind BoundingOrientedBox::CreateFromPoints, in exact arithmetic. *)
From Coq Require Import Reals Lra Psatz Bool List.
From Verif Require Import Base F32 Intrin Lane MVec MTrig MQuat MInterp MPlane MMatrix Shapes MCollide SpecGeom SpecTrig SpecEig PReal PVec PTrig PTrigFn PArc.
Open Scope R_scope.

(** ** the discriminant *)
Definition depq (e f g : R) : R := g - e * f / 3 + e * e * e * 2 / 27.
Definition depp (e f : R) : R := f - e * e / 3.
Definition dish (e f g : R) : R := depq e f g * depq e f g / 4 + depp e f * depp e f * depp e f / 27.
Lemma sos a b c d e f : let E := - (a + d + f) in let F := a * d + d * f + f * a - b * b - c * c - e * e in let G := b * b * f + c * c * d + e * e * a - b * e * c * 2 - a * d * f in
  - 108 * dish E F G = 1 * (det3 1 1 1 a d f (a*a+b*b+c*c) (b*b+d*d+e*e) (c*c+e*e+f*f))² + 2 * (det3 1 1 0 a d b (a*a+b*b+c*c) (b*b+d*d+e*e) (a*b+b*d+c*e))² + 2 * (det3 1 1 0 a d c (a*a+b*b+c*c) (b*b+d*d+e*e) (a*c+b*e+c*f))² + 2 * (det3 1 1 0 a d e (a*a+b*b+c*c) (b*b+d*d+e*e) (b*c+d*e+e*f))² + 2 * (det3 1 1 0 a f b (a*a+b*b+c*c) (c*c+e*e+f*f) (a*b+b*d+c*e))² + 2 * (det3 1 1 0 a f c (a*a+b*b+c*c) (c*c+e*e+f*f) (a*c+b*e+c*f))² + 2 * (det3 1 1 0 a f e (a*a+b*b+c*c) (c*c+e*e+f*f) (b*c+d*e+e*f))² + 4 * (det3 1 0 0 a b c (a*a+b*b+c*c) (a*b+b*d+c*e) (a*c+b*e+c*f))² + 4 * (det3 1 0 0 a b e (a*a+b*b+c*c) (a*b+b*d+c*e) (b*c+d*e+e*f))² + 4 * (det3 1 0 0 a c e (a*a+b*b+c*c) (a*c+b*e+c*f) (b*c+d*e+e*f))² + 2 * (det3 1 1 0 d f b (b*b+d*d+e*e) (c*c+e*e+f*f) (a*b+b*d+c*e))² + 2 * (det3 1 1 0 d f c (b*b+d*d+e*e) (c*c+e*e+f*f) (a*c+b*e+c*f))² + 2 * (det3 1 1 0 d f e (b*b+d*d+e*e) (c*c+e*e+f*f) (b*c+d*e+e*f))² + 4 * (det3 1 0 0 d b c (b*b+d*d+e*e) (a*b+b*d+c*e) (a*c+b*e+c*f))² + 4 * (det3 1 0 0 d b e (b*b+d*d+e*e) (a*b+b*d+c*e) (b*c+d*e+e*f))² + 4 * (det3 1 0 0 d c e (b*b+d*d+e*e) (a*c+b*e+c*f) (b*c+d*e+e*f))² + 4 * (det3 1 0 0 f b c (c*c+e*e+f*f) (a*b+b*d+c*e) (a*c+b*e+c*f))² + 4 * (det3 1 0 0 f b e (c*c+e*e+f*f) (a*b+b*d+c*e) (b*c+d*e+e*f))² + 4 * (det3 1 0 0 f c e (c*c+e*e+f*f) (a*c+b*e+c*f) (b*c+d*e+e*f))².
Proof. intros E F G. unfold E, F, G, dish, depp, depq, det3, det2, Rsqr. field. Qed.
Lemma sym_disc a b c d e f : dish (- (a + d + f)) (a * d + d * f + f * a - b * b - c * c - e * e) (b * b * f + c * c * d + e * e * a - b * e * c * 2 - a * d * f) <= 0.
Proof.
  pose proof (sos a b c d e f) as H. cbv zeta in H. set (h := dish _ _ _) in *.
  assert (K : forall x y, 0 <= x -> 0 <= y -> 0 <= x + y) by (intros; lra).
  assert (M : forall k x : R, 0 <= k -> 0 <= k * x²) by (intros k x Hk; apply Rmult_le_pos; [exact Hk|apply Rle_0_sqr]).
  assert (0 <= - 108 * h); [|lra]. rewrite H. repeat (apply K); apply M; lra.
Qed.
Lemma roots_coeff e f g t u v : roots e f g t u v -> e = - (t + u + v) /\ f = t * u + u * v + v * t /\ g = - (t * u * v).
Proof.
  intros H. pose proof (H 0) as H0. pose proof (H 1) as H1. pose proof (H (-1)) as H2. unfold cubic in *. repeat split; lra.
Qed.
Lemma roots_disc e f g t u v : roots e f g t u v -> dish e f g <= 0.
Proof.
  intros H. apply roots_coeff in H as (-> & -> & ->).
  assert (K : -108 * dish (- (t + u + v)) (t * u + u * v + v * t) (- (t * u * v)) = ((t - u) * (u - v) * (v - t))²) by (unfold dish, depp, depq, Rsqr; field).
  pose proof (Rle_0_sqr ((t - u) * (u - v) * (v - t))). lra.
Qed.
Lemma coeff_roots e f g t u v : e = - (t + u + v) -> f = t * u + u * v + v * t -> g = - (t * u * v) -> roots e f g t u v.
Proof. intros -> -> -> x. unfold cubic. ring. Qed.

(** ** the model in closed form *)
Section Cubic.
Variable cbrt : R -> R.
Hypothesis CB : cube_root cbrt.
Lemma solve_R e f g : SolveCubic (L:=RL) cbrt e f g =
  if Rltb 0 (dish e f g) then None
  else if (Reqb (dish e f g) 0 && Reqb (depq e f g) 0)%bool then Some (- e / 3, - e / 3, - e / 3)
  else
    let q := depq e f g in
    let d := sqrt (q * q / 4 - dish e f g) in
    let rc := if Rltb d 0 then - cbrt (- d) else cbrt d in
    let th := XMScalarACos (L:=RL) (- q / (2 * d)) in
    let c := XMScalarCos (L:=RL) (th / 3) in
    let s := sqrt 3 * XMScalarSin (L:=RL) (th / 3) in
    Some (2 * rc * c - e / 3, - rc * (c + s) - e / 3, - rc * (c - s) - e / 3).
Proof.
  unfold SolveCubic, c3, c27, c4, two, zero, tgt.
  assert (L3 : tlit (L:=RL) 3 0 = 3) by (cbn; unfold Rlit; cbn; field).
  assert (L2 : tlit (L:=RL) 2 0 = 2) by (cbn; unfold Rlit; cbn; field).
  assert (L4 : tlit (L:=RL) 4 0 = 4) by (cbn; unfold Rlit; cbn; field).
  assert (L27 : tlit (L:=RL) 27 0 = 27) by (cbn; unfold Rlit; cbn; field).
  assert (L0 : tlit (L:=RL) 0 0 = 0) by (cbn; unfold Rlit; cbn; field).
  rewrite L3, L2, L4, L27, L0. reflexivity.
Qed.
Lemma none_R e f g : SolveCubic (L:=RL) cbrt e f g = None <-> 0 < dish e f g.
Proof.
  rewrite solve_R. destruct (Rltb_spec 0 (dish e f g)) as [H|H]; [easy|]. split; [|lra]. destruct (Reqb _ _ && _)%bool; cbv zeta; discriminate.
Qed.
Lemma cos_3 x : cos (3 * x) = 4 * (cos x * cos x * cos x) - 3 * cos x.
Proof.
  replace (3 * x) with (2 * x + x) by ring. rewrite cos_plus, cos_2a, sin_2a. pose proof (sin2_cos2 x) as H. unfold Rsqr in H.
  replace (sin x * sin x) with (1 - cos x * cos x) by lra. replace (2 * sin x * cos x * sin x) with (2 * cos x * (sin x * sin x)) by ring.
  replace (sin x * sin x) with (1 - cos x * cos x) by lra. ring.
Qed.
(** the trigonometric solution *)
Lemma viete e f g r th : depp e f = - 3 * (r * r) -> depq e f g = - 2 * (r * r * r) * cos (3 * th) ->
  roots e f g (2 * r * cos th - e / 3) (- r * (cos th + sqrt 3 * sin th) - e / 3) (- r * (cos th - sqrt 3 * sin th) - e / 3).
Proof.
  intros P Q. rewrite cos_3 in Q. pose proof (sin2_cos2 th) as S. unfold Rsqr in S. pose proof (sqrt_sqrt 3 ltac:(lra)) as T.
  set (c := cos th) in *. set (s := sin th) in *. set (k := sqrt 3) in *. unfold depp, depq in *.
  assert (S2 : s * s = 1 - c * c) by lra.
  assert (KS : (k * s) * (k * s) = 3 * (1 - c * c)) by (replace (k * s * (k * s)) with (k * k * (s * s)) by ring; rewrite T, S2; ring).
  set (w := k * s) in *. clearbody w. clear S S2.
  apply coeff_roots.
  - field.
  - transitivity (- 3 * (r * r) + e * e / 3); [lra|].
    transitivity (r * r * (c * c - w * w) - 4 * (r * r) * (c * c) + e * e / 3); [rewrite KS; field|field].
  - transitivity (- 2 * (r * r * r) * (4 * (c * c * c) - 3 * c) + e * f / 3 - e * e * e * 2 / 27); [lra|].
    replace f with (- 3 * (r * r) + e * e / 3) by lra.
    transitivity (- (2 * r * c * (r * r) * (c * c - w * w)) + e / 3 * (r * r * (c * c - w * w) - 4 * (r * r) * (c * c)) + e * e * e / 27); [rewrite KS; field|field].
Qed.
Lemma some3 (a b c t u v : R) : Some (a, b, c) = Some (t, u, v) -> a = t /\ b = u /\ c = v.
Proof. intros [= -> -> ->]. auto. Qed.
(** the three values against exact roots; [r] is the spread of the roots about their mean *)
Lemma solve_close e f g t u v : SolveCubic (L:=RL) cbrt e f g = Some (t, u, v) ->
  exists t' u' v' r, roots e f g t' u' v' /\ 0 <= r /\ r * r = (e * e - 3 * f) / 9 /\
    Rabs (t - t') <= 13 / 10000000 * r /\ Rabs (u - u') <= 13 / 10000000 * r /\ Rabs (v - v') <= 13 / 10000000 * r.
Proof.
  rewrite solve_R. destruct (Rltb_spec 0 (dish e f g)) as [H|H]; [discriminate|]. apply Rnot_lt_le in H || idtac.
  destruct (Reqb (dish e f g) 0 && Reqb (depq e f g) 0)%bool eqn:B.
  - intros E. injection E as <- <- <-. rt. apply andb_prop in B as [B1 B2]. destruct (Reqb_spec (dish e f g) 0) as [D|D]; [|discriminate]. destruct (Reqb_spec (depq e f g) 0) as [Q0|Q0]; [|discriminate].
    assert (P0 : depp e f = 0).
    { unfold dish in D. rewrite Q0 in D. assert (depp e f * depp e f * depp e f = 0) by lra.
      destruct (Req_dec (depp e f) 0) as [Z|Z]; [exact Z|]. exfalso. assert (depp e f * (depp e f * depp e f) <> 0) by (repeat apply Rmult_integral_contrapositive_currified; exact Z). lra. }
    exists (- e / 3), (- e / 3), (- e / 3), 0. unfold depp, depq in *.
    assert (F : f = e * e / 3) by lra. split; [apply coeff_roots; [field|rewrite F; field|]|].
    + assert (G : g = e * f / 3 - e * e * e * 2 / 27) by lra. rewrite G, F. field.
    + split; [lra|]. split; [rewrite F; field|]. rewrite Rminus_diag_eq by reflexivity. rewrite Rabs_R0. lra.
  - cbv zeta. intros E. apply some3 in E as (<- & <- & <-). set (q := depq e f g) in *. set (d := sqrt _).
    assert (P : depp e f <= 0).
    { apply Rnot_lt_le. intros P. assert (0 < depp e f * depp e f * depp e f) by (repeat apply Rmult_lt_0_compat; exact P). unfold dish in H. fold q in H. pose proof (Rle_0_sqr q). unfold Rsqr in *. lra. }
    assert (DD : d * d = - (depp e f * depp e f * depp e f) / 27).
    { unfold d. rewrite sqrt_sqrt; [unfold dish; fold q; field|]. unfold dish. fold q. assert (0 <= - depp e f * (- depp e f * - depp e f)) by (repeat apply Rmult_le_pos; lra). lra. }
    pose proof (sqrt_pos (q * q / 4 - dish e f g)) as D0. fold d in D0.
    destruct (Rltb_spec d 0) as [W|_]; [lra|]. destruct (CB d D0) as [R0 RC]. set (r := cbrt d) in *.
    assert (PR : depp e f = - 3 * (r * r)).
    { assert (A : (r * r) * (r * r) * (r * r) = (- depp e f / 3) * (- depp e f / 3) * (- depp e f / 3)).
      { transitivity (d * d); [rewrite <- RC; ring|rewrite DD; field]. }
      set (a := r * r) in *. set (c := - depp e f / 3) in *. assert (0 <= a) by (unfold a; nra). assert (0 <= c) by (unfold c; lra).
      assert (a = c); [|unfold c in *; lra]. assert (Z : (a - c) * (a * a + a * c + c * c) = 0) by lra. apply Rmult_integral in Z as [Z|Z]; [lra|]. assert (a * a = 0) by nra. assert (c * c = 0) by nra. nra. }
    assert (DP : d <> 0).
    { intros D1. rewrite D1 in *. assert (r = 0) by (destruct (Req_dec r 0); [assumption|assert (0 < r) by lra; assert (0 < r * r * r) by (repeat apply Rmult_lt_0_compat; assumption); lra]).
      assert (P0 : depp e f = 0) by (rewrite PR; subst r; rewrite H0; ring).
      assert (Q0 : q * q / 4 = 0). { unfold dish in H. fold q in H. rewrite P0 in H. pose proof (Rle_0_sqr q). unfold Rsqr in *. lra. }
      assert (q = 0) by nra. assert (dish e f g = 0) by (unfold dish; fold q; rewrite P0; nra).
      destruct (Reqb_spec (dish e f g) 0); [|contradiction]. destruct (Reqb_spec q 0); [discriminate|contradiction]. }
    assert (DL : 0 < d) by lra.
    set (x := - q / (2 * d)). assert (X : -1 <= x <= 1).
    { assert (q * q <= (2 * d) * (2 * d)) by (replace (2 * d * (2 * d)) with (4 * (d * d)) by ring; rewrite DD; unfold dish in H; fold q in H; lra).
      assert (- (2 * d) <= q <= 2 * d) by (split; nra). unfold x. split; apply (Rmult_le_reg_r (2 * d)); try lra; unfold Rdiv; rewrite Rmult_assoc, Rinv_l by lra; lra. }
    set (th := XMScalarACos (L:=RL) x).
    assert (TH : Rabs (th - acos x) <= 62 / 100000000) by (unfold th; rewrite scalar_acos_R; exact (racos_ok x)).
    pose proof (acos_bound x) as AB. pose proof PI_4 as P4. assert (T0 : Rabs (th / 3 - acos x / 3) <= 207 / 1000000000).
    { replace (th / 3 - acos x / 3) with ((th - acos x) / 3) by field. unfold Rdiv. rewrite Rabs_mult, (Rabs_pos_eq (/ 3)) by lra. lra. }
    assert (T1 : Rabs (th / 3) <= 134 / 100) by (unfold Rabs in *; repeat destruct Rcase_abs; lra).
    destruct (sin_scalar (th / 3)) as [SS SC]; [unfold ang_max; lra|]. unfold within, trig_err in SS, SC.
    pose proof (sin_lip (th / 3) (acos x / 3)) as LS. pose proof (cos_lip (th / 3) (acos x / 3)) as LC.
    set (C := XMScalarCos (L:=RL) (th / 3)) in *. set (S := XMScalarSin (L:=RL) (th / 3)) in *. set (a := acos x / 3) in *.
    assert (EC : Rabs (C - cos a) <= 4505 / 10000000000) by (unfold Rabs in *; repeat destruct Rcase_abs; lra).
    assert (ES : Rabs (S - sin a) <= 4505 / 10000000000) by (unfold Rabs in *; repeat destruct Rcase_abs; lra).
    clear SS SC LS LC. clearbody C S. rt.
    assert (K : 0 <= sqrt 3 <= 1733 / 1000). { split; [apply sqrt_pos|]. rewrite <- (sqrt_Rsqr (1733 / 1000)) by lra. apply sqrt_le_1_alt. unfold Rsqr. lra. }
    exists (2 * r * cos a - e / 3), (- r * (cos a + sqrt 3 * sin a) - e / 3), (- r * (cos a - sqrt 3 * sin a) - e / 3), r.
    split; [apply viete; [exact PR|]|].
    { replace (3 * a) with (acos x) by (unfold a; field). rewrite cos_acos by exact X. rewrite RC. fold q. unfold x. field. exact DP. }
    split; [exact R0|]. split; [unfold depp in PR; lra|].
    assert (EK : Rabs (sqrt 3 * S - sqrt 3 * sin a) <= 78075 / 100000000000).
    { replace (sqrt 3 * S - sqrt 3 * sin a) with (sqrt 3 * (S - sin a)) by ring. rewrite Rabs_mult, (Rabs_pos_eq (sqrt 3)) by lra.
      eapply Rle_trans; [apply Rmult_le_compat; [lra|apply Rabs_pos|apply K|exact ES]|]. lra. }
    assert (G : forall k m : R, Rabs m <= 13 / 10000000 -> Rabs k = r -> Rabs (k * m) <= 13 / 10000000 * r).
    { intros k m Hm Hk. rewrite Rabs_mult, Hk, (Rmult_comm _ r). apply Rmult_le_compat_l; [exact R0|exact Hm]. }
    split; [|split].
    + replace (2 * r * C - e / 3 - (2 * r * cos a - e / 3)) with (r * (2 * (C - cos a))) by ring. apply G; [|apply Rabs_pos_eq, R0]. unfold Rabs in *; repeat destruct Rcase_abs; lra.
    + replace (- r * (C + sqrt 3 * S) - e / 3 - (- r * (cos a + sqrt 3 * sin a) - e / 3)) with (- r * ((C - cos a) + (sqrt 3 * S - sqrt 3 * sin a))) by ring.
      apply G; [|rewrite Rabs_Ropp; apply Rabs_pos_eq, R0]. set (z := sqrt 3 * S - sqrt 3 * sin a) in *. unfold Rabs in *; repeat destruct Rcase_abs; lra.
    + replace (- r * (C - sqrt 3 * S) - e / 3 - (- r * (cos a - sqrt 3 * sin a) - e / 3)) with (- r * ((C - cos a) - (sqrt 3 * S - sqrt 3 * sin a))) by ring.
      apply G; [|rewrite Rabs_Ropp; apply Rabs_pos_eq, R0]. set (z := sqrt 3 * S - sqrt 3 * sin a) in *. unfold Rabs in *; repeat destruct Rcase_abs; lra.
Qed.
End Cubic.
