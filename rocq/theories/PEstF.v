(** Binary32 rounding errors of the estimate forms of the angle functions. *)
From Coq Require Import Reals Lra Lia ZArith Bool Psatz Ratan.
From Flocq Require Import Core IEEE754.BinarySingleNaN.
From Verif Require Import Base F32 F32Facts Intrin Lane MVec MTrig MEst SpecF32 PF32 PFloat PExp PReal PTrigPoly PArcPoly PTrig PArc PCompare PEstPoly PEst SpecErr PErr PFix PTrigF PArcF.
Open Scope R_scope.

(** ** polynomials *)
Ltac ecbv := lazy beta iota zeta delta [vsin_est_poly vcos_est_poly sin_est_poly cos_est_poly FMADD FNMADD vmul vadd vsub vone vzero vneg_one qmap qmap2 qmap3 qrep lane qx qy qz qw
  T tadd tsub tmul tdiv tsqrt tneg tabs tfma tlt tle teq tlit trint tsgn FL SE1 SE2 SE3 CE1 CE2 CE3 one half zero two].
Lemma sin_est_poly_F z y : value z = Fin y -> Rabs y <= halfPI32 -> within (470 / 1000000000) (@sin_est_poly FL z) (sine y).
Proof. intros V H. pose proof (half_fx z y V H) as F. ecbv. eapply (fx_within 470); [ptail sine|vm_compute; reflexivity]. Qed.
Lemma cos_est_poly_F z y : value z = Fin y -> Rabs y <= halfPI32 -> within (470 / 1000000000) (@cos_est_poly FL z) (cose y).
Proof. intros V H. pose proof (half_fx z y V H) as F. ecbv. eapply (fx_within 470); [ptail cose|vm_compute; reflexivity]. Qed.
Lemma vsin_est_poly_F b X k y : value (lane X k) = Fin y -> Rabs y <= halfPI32 -> within (470 / 1000000000) (lane (@vsin_est_poly FL b X) k) (sine y).
Proof.
  intros V H. pose proof (half_fx _ y V H) as F. destruct X as [x0 x1 x2 x3].
  destruct b as [|s3 s4 [|] av]; destruct k; cbn [lane qx qy qz qw] in F; ecbv; (eapply (fx_within 470); [ptail sine|vm_compute; reflexivity]).
Qed.
Lemma vcos_est_poly_F b X S k y s : value (lane X k) = Fin y -> Rabs y <= halfPI32 -> value (lane S k) = Fin s -> s = 1 \/ s = -1 ->
  within (640 / 1000000000) (lane (@vcos_est_poly FL b X S) k) (s * cose y).
Proof.
  intros V H VS Hs. pose proof (half_fx _ y V H) as F. assert (G : fx S60 0 (lane S k) s).
  { apply fx_exact; [exact VS|]. unfold unit60, S60. destruct Hs; subst s; [rewrite Rabs_R1|rewrite Rabs_left by lra]; lra. }
  destruct X as [x0 x1 x2 x3]. destruct S as [s0 s1 s2 s3].
  destruct b as [|s3' s4 [|] av]; destruct k; cbn [lane qx qy qz qw] in F, G; ecbv; (eapply (fx_within 640); [ptail cose|vm_compute; reflexivity]).
Qed.
(** from the precise polynomial at the reduced angle to the estimate *)
Lemma to_sine y a e : Rabs y <= halfPI32 -> Rabs (sinp y - sin a) <= e -> Rabs (sine y - sin a) <= e + sine_err + poly_err.
Proof.
  intros H E. pose proof (sine_ok y H) as A. pose proof (sinp_err y H) as B.
  replace (sine y - sin a) with ((sine y - sin y) + - (sinp y - sin y) + (sinp y - sin a) + 0) by ring. eapply Rle_trans; [apply abs4|]. rewrite Rabs_Ropp, Rabs_R0. lra.
Qed.
Lemma to_cose y a e s : Rabs y <= halfPI32 -> s = 1 \/ s = -1 -> Rabs (s * cosp y - cos a) <= e -> Rabs (s * cose y - cos a) <= e + cose_err + poly_err.
Proof.
  intros H S E. pose proof (cose_ok y H) as A. pose proof (cosp_err y H) as B. assert (SA : Rabs s = 1) by (destruct S; subst s; [apply Rabs_R1|rewrite Rabs_left; lra]).
  replace (s * cose y - cos a) with (s * (cose y - cos y) + - (s * (cosp y - cos y)) + (s * cosp y - cos a) + 0) by ring.
  eapply Rle_trans; [apply abs4|]. rewrite Rabs_Ropp, Rabs_R0, !Rabs_mult, SA. lra.
Qed.
Definition sine_tot (a : R) : R := 34 / 10000000 + 1 / 10000000 * Rabs a.
Definition cose_tot (a : R) : R := 112 / 10000000 + 1 / 10000000 * Rabs a.
Theorem vector_sincos_est_F (lm : Libm FL) b V k a : b <> Scalar -> is32 (lane V k) a -> Rabs a <= amax ->
  within (sine_tot a) (lane (XMVectorSinEst b V) k) (sin a) /\ within (cose_tot a) (lane (XMVectorCosEst b V) k) (cos a).
Proof.
  intros Hb I H. destruct (lane_sincos (fma_of b) _ a I H) as (r & y & W & Vr & Vy & Hy & C & S1 & S2 & _). destruct (reflect_lane b V k Hb) as (R1 & R2).
  assert (ES : XMVectorSinEst b V = @vsin_est_poly FL b (fst (@trig_reflect FL b V))) by (destruct b; [congruence|reflexivity]).
  assert (EC : XMVectorCosEst b V = @vcos_est_poly FL b (fst (@trig_reflect FL b V)) (vsel vneg_one vone (snd (@trig_reflect FL b V))))
    by (destruct b; [congruence|]; cbn [XMVectorCosEst]; destruct (@trig_reflect FL _ V); reflexivity).
  apply (eq_trans (f_equal value R1)) in Vy. pose proof (vsin_est_poly_F b _ k y Vy Hy) as PS. rewrite <- ES in PS.
  assert (VS : value (lane (@vsel FL vneg_one vone (snd (@trig_reflect FL b V))) k) = Fin (rsgn r)).
  { unfold rsgn. rewrite <- (eq_trans R2 C). generalize (snd (@trig_reflect FL b V)). intros q.
    assert (E1 : value (f_lit 1 0) = Fin 1) by exact val_one. pose proof val_m1 as E2. destruct q as [[] [] [] []], k; (exact E1 || exact E2). }
  assert (SG : rsgn r = 1 \/ rsgn r = -1) by (unfold rsgn; destruct (Rleb _ _); auto).
  pose proof (vcos_est_poly_F b _ _ k y _ Vy Hy VS SG) as PC. rewrite <- EC in PC.
  split; (eapply within_le; [eapply within_add; [eassumption|first [eapply to_sine; eassumption|eapply to_cose; eassumption]]|]);
    unfold sine_tot, cose_tot, sincos_err, sine_err, cose_err, poly_err; lra.
Qed.
(** the scalar reduction *)
Lemma scalar_reduce_F z a : is32 z a -> Rabs a <= amax -> exists y s y' s', @scalar_reduce FL z = (y, s) /\ value y = Fin y' /\ Rabs y' <= halfPI32 /\
  value s = Fin s' /\ (s' = 1 \/ s' = -1) /\ Rabs (sinp y' - sin a) <= sincos_err a - 64 / 100000000 /\ Rabs (s' * cosp y' - cos a) <= sincos_err a - 64 / 100000000.
Proof.
  intros I H. destruct (quot_lane_ok z a I H) as (n & Vn & Hn). pose proof (n_bound a n H Hn) as NB. destruct (reduced_F a n H Hn) as (RD & _).
  assert (Wq : word (quot_lane z)) by (unfold quot_lane; cbv zeta; destruct (f_le _ _); apply enc_word).
  destruct (periods_F false z _ a n I H Wq Vn Hn) as (r & Vr & Er & _). cbv iota in Vr. rewrite f_mul_comm in Vr. pose proof (Rabs_pos a) as PA.
  assert (RM : Rabs r <= PI32 + halfPI32).
  { replace r with ((r - (a - IZR n * twoPI32)) + (a - IZR n * twoPI32)) by ring. eapply Rle_trans; [apply Rabs_triang|].
    unfold red_err, ulp_half, PI32, halfPI32, amax in *. lra. }
  destruct (scalar_refl _ r (enc_word _) Vr RM) as (y & s & E & y' & Vy & Hy & Ey & Vs).
  assert (SR : @scalar_reduce FL z = (y, s)) by (rewrite <- E; unfold quot_lane; reflexivity).
  destruct (near_sin y' r a n _ Ey Hy Er) as (S1 & S2).
  assert (B : poly_err + refl_err + pi_err + red_err a + Rabs (IZR n) * (2 * pi_err) <= sincos_err a - 64 / 100000000).
  { unfold poly_err, refl_err, pi_err, red_err, sincos_err, ulp_half in *. lra. }
  assert (SG : rsgn r = 1 \/ rsgn r = -1) by (unfold rsgn; destruct (Rleb _ _); auto).
  exists y, s, y', (rsgn r). split; [exact SR|]. split; [exact Vy|]. split; [exact Hy|]. split; [exact Vs|]. split; [exact SG|]. split; lra.
Qed.
Lemma mul_sgn' e z x s r : within e z x -> value s = Fin r -> r = 1 \/ r = -1 -> within e (f_mul s z) (r * x).
Proof.
  intros (v & V & E) VS R. assert (RA : Rabs r = 1) by (destruct R; subst r; [apply Rabs_R1|rewrite Rabs_left; lra]).
  assert (FV : fmt (r * v)).
  { destruct (value_fmt _ _ V) as (F & _). destruct R; subst r; [rewrite Rmult_1_l; exact F|]. replace (-1 * v) with (- v) by ring. apply fmt_opp, F. }
  exists (r * v). split; [apply mul_exact; [exact VS|exact V|exact FV|]|].
  - rewrite Rabs_mult, RA, Rmult_1_l. apply (value_fmt _ _ V).
  - replace (r * v - r * x) with (r * (v - x)) by ring. rewrite Rabs_mult, RA, Rmult_1_l. exact E.
Qed.
Theorem scalar_sincos_est_F z a : is32 z a -> Rabs a <= amax ->
  within (sine_tot a) (@XMScalarSinEst FL z) (sin a) /\ within (cose_tot a) (@XMScalarCosEst FL z) (cos a).
Proof.
  intros I H. destruct (scalar_reduce_F z a I H) as (y & s & y' & s' & SR & Vy & Hy & Vs & SG & S1 & S2). split.
  - unfold XMScalarSinEst. rewrite SR. cbn [fst]. eapply within_le; [eapply within_add; [apply sin_est_poly_F; eassumption|eapply to_sine; eassumption]|].
    unfold sine_tot, sincos_err, sine_err, poly_err; lra.
  - unfold XMScalarCosEst. rewrite SR. cbv zeta. cbn [fst snd]. eapply within_le; [eapply within_add; [|eapply to_cose; eassumption]|].
    + apply mul_sgn'; [apply cos_est_poly_F; eassumption|exact Vs|exact SG].
    + unfold cose_tot, sincos_err, cose_err, poly_err; lra.
Qed.

(** ** arc sine and arc cosine *)
Ltac gcbv := lazy beta iota zeta delta [varc_est FMADD FNMADD vmul vadd vsub vone vzero vneg_one qmap qmap2 qmap3 qrep lane qx qy qz qw
  T tadd tsub tmul tdiv tsqrt tneg tabs tfma tlt tle teq tlit FL AE0 AE1 AE2 AE3 one half zero two vsel vsqrt vmax vge tge].
Lemma scalar_arc_est_F z v : is32 z v -> Rabs v <= 1 -> fx arcM arcE (@scalar_arc_est FL z) (arcec v).
Proof.
  intros (W & V) H. pose proof (Rabs_pos v) as P. pose proof (abs_val z v W V) as VA. destruct (root_fx _ _ VA (conj P H) _ eq_refl) as (L & R). pose proof (arc_fx _ _ VA (conj P H)) as X.
  unfold scalar_arc_est. cbv zeta. change (@tabs FL z) with (f_abs z). set (xx := f_abs z) in *. set (oo := @tsub FL one xx). change (f_sub (f_lit 1 0) xx) with oo in *.
  change (@tlt FL oo zero) with (f_lt oo (f_lit 0 0)). rewrite L. unfold arcec. rewrite Rmax_right by lra. clearbody oo xx.
  gcbv. eapply fx_le'; [eapply fx_x; [fxt|]; rl; unfold arce; generalize (sqrt (1 - Rabs v)); intros; field|vm_compute; reflexivity|vm_compute; reflexivity].
Qed.
Theorem scalar_acos_est_F z v : is32 z v -> Rabs v <= 1 ->
  within (721 / 10000000) (@XMScalarACosEst FL z) (acos v) /\ within (722 / 10000000) (@XMScalarASinEst FL z) (asin v).
Proof.
  intros I H. pose proof (scalar_arc_est_F z v I H) as F. destruct I as (W & V). split.
  - eapply within_le; [eapply tri2; [|apply racose_ok]|unfold acos_est_err; instantiate (1 := 960 / 1000000000); lra].
    unfold XMScalarACosEst. cbv zeta. unfold tge. change (@tle FL zero z) with (f_le (f_lit 0 0) z). rewrite (ge0_val z v V). unfold racose.
    change (@tsub FL) with f_sub. pose proof PI_fx. destruct (Rleb 0 v); eapply (fx_within 960); [fxt|vm_compute; reflexivity|fxt|vm_compute; reflexivity].
  - eapply within_le; [eapply tri2; [|apply racose_asin]|instantiate (1 := 900 / 1000000000); lra].
    unfold XMScalarASinEst. cbv zeta. unfold tge. change (@tle FL zero z) with (f_le (f_lit 0 0) z). rewrite (ge0_val z v V). unfold racose.
    change (@tsub FL) with f_sub. pose proof hPI_fx. destruct (Rleb 0 v); (eapply (fx_within 900); [eapply fx_x; [fxt|unfold halfPI32, PI32; lra]|vm_compute; reflexivity]).
Qed.
Definition arc_est_lane (fma : bool) (z : Z) : Z :=
  let fmadd x y c := if fma then f_fma x y c else f_add (f_mul x y) c in
  let m := f_sub (f_lit 0 0) z in
  let x := if f_lt m z then z else m in
  let o := f_sub (f_lit 1 0) x in
  let o := if f_lt o (f_lit 0 0) then f_lit 0 0 else o in
  let r := f_sqrt o in
  let t := fmadd (@AE3 FL) x (@AE2 FL) in
  let t := fmadd t x (@AE1 FL) in
  let t := fmadd t x (@AE0 FL) in
  let t := f_mul t r in
  if f_le (f_lit 0 0) z then t else f_sub (@XM_PI FL) t.
Lemma varc_est_lane b V k : lane (@varc_est FL b V) k = arc_est_lane (fma_of b) (lane V k).
Proof. destruct b as [|s3 s4 [|] av]; destruct V as [v0 v1 v2 v3], k; unfold arc_est_lane, fma_of; gcbv; reflexivity. Qed.
Lemma arc_est_lane_ok fma z v : is32 z v -> Rabs v <= 1 -> fx 5920000000000000000 1120000000000 (arc_est_lane fma z) (racose v).
Proof.
  intros I H. pose proof (Rabs_pos v) as P. pose proof (vabs_val z v I) as VA. destruct (root_fx _ _ VA (conj P H) _ eq_refl) as (L & R). pose proof (arc_fx _ _ VA (conj P H)) as X.
  destruct I as (W & V). unfold arc_est_lane. cbv zeta. rewrite (ge0_val z v V). set (xx := if f_lt _ z then z else _) in *. rewrite L.
  set (oo := f_sub (f_lit 1 0) xx) in *. clearbody oo xx. unfold racose, arcec. rewrite Rmax_right by lra. generalize dependent (sqrt (1 - Rabs v)). intros s R. pose proof PI_fx as PF.
  unfold AE0, AE1, AE2, AE3. change (@tlit FL) with f_lit.
  destruct fma; destruct (Rleb 0 v); (eapply fx_le'; [eapply fx_x; [fxt|]; rl; unfold arce; field|vm_compute; reflexivity|vm_compute; reflexivity]).
Qed.
Theorem vector_acos_est_F (lm : Libm FL) b V k v : b <> Scalar -> is32 (lane V k) v -> Rabs v <= 1 ->
  within (721 / 10000000) (lane (XMVectorACosEst b V) k) (acos v) /\ within (726 / 10000000) (lane (XMVectorASinEst b V) k) (asin v).
Proof.
  intros Hb I H. pose proof (arc_est_lane_ok (fma_of b) _ v I H) as F.
  assert (EC : lane (XMVectorACosEst b V) k = arc_est_lane (fma_of b) (lane V k)) by (rewrite <- varc_est_lane; destruct b; [congruence|reflexivity]).
  assert (ES : lane (XMVectorASinEst b V) k = f_sub (@XM_PIDIV2 FL) (arc_est_lane (fma_of b) (lane V k))).
  { rewrite <- varc_est_lane. destruct b as [|s3 s4 f av]; [congruence|]. unfold XMVectorASinEst. destruct (@varc_est FL (SSE s3 s4 f av) V), k; reflexivity. }
  pose proof hPI_fx as HF. rewrite EC, ES. split.
  - eapply within_le; [eapply tri2; [|apply racose_ok]|]; [eapply (fx_within 973); [exact F|vm_compute; reflexivity]|unfold acos_est_err; lra].
  - eapply within_le; [eapply tri2; [|apply racose_asin]|]; [eapply (fx_within 1372); [fxt|vm_compute; reflexivity]|lra].
Qed.

(** ** arc tangent *)
Definition atan_est_tail (fma : bool) (x : Z) : Z :=
  let fmadd x y c := if fma then f_fma x y c else f_add (f_mul x y) c in
  let x2 := f_mul x x in
  let t := fmadd (@TE4 FL) x2 (@TE3 FL) in
  let t := fmadd t x2 (@TE2 FL) in
  let t := fmadd t x2 (@TE1 FL) in
  let t := fmadd t x2 (@TE0 FL) in
  f_mul t x.
Definition atan_est_lane (fma : bool) (z : Z) : Z :=
  let m := f_sub (f_lit 0 0) z in
  let a := if f_lt z m then m else z in
  let i := f_div (f_lit 1 0) z in
  let s := if f_lt (f_lit 1 0) z then f_lit 1 0 else f_lit (-1) 0 in
  let c := f_le a (f_lit 1 0) in
  let s := if c then f_lit 0 0 else s in
  let x := if c then z else i in
  let t := atan_est_tail fma x in
  if f_eq s (f_lit 0 0) then t else f_sub (f_mul s (@XM_PIDIV2 FL)) t.
Ltac hcbv := lazy beta iota zeta delta [XMVectorATanEst XMVectorAbs FMADD FNMADD vmul vadd vsub vdiv vone vzero vneg_one qmap qmap2 qmap3 qrep lane qx qy qz qw
  T tadd tsub tmul tdiv tsqrt tneg tabs tfma tlt tle teq tlit FL TE0 TE1 TE2 TE3 TE4 one half zero two vsel vsqrt vmax vge tge vgt tgt vle veq XM_PIDIV2].
Lemma vatan_est_lane (lm : Libm FL) b V k : b <> Scalar -> lane (XMVectorATanEst b V) k = atan_est_lane (fma_of b) (lane V k).
Proof. intros H. destruct b as [|s3 s4 [|] av]; [congruence|..]; destruct V as [v0 v1 v2 v3], k; unfold atan_est_lane, atan_est_tail, fma_of; hcbv; reflexivity. Qed.
Lemma atan_est_tail_ok fma x v : value x = Fin v -> Rabs v <= 1 -> fx atM atE (atan_est_tail fma x) (atane v).
Proof.
  intros V H. assert (X : fx S60 0 x v) by (apply fx_exact; [exact V|unfold unit60, S60; lra]).
  unfold atan_est_tail, TE0, TE1, TE2, TE3, TE4. cbv zeta. change (@tlit FL) with f_lit.
  destruct fma; (eapply fx_le'; [eapply fx_x; [fxt|]; rl; unfold atane; cbv zeta; field|vm_compute; reflexivity|vm_compute; reflexivity]).
Qed.
Lemma atan_est_split fma z : let c := f_le (if f_lt z (f_sub (f_lit 0 0) z) then f_sub (f_lit 0 0) z else z) (f_lit 1 0) in
  atan_est_lane fma z = if c then atan_est_tail fma z else f_sub (f_mul (if f_lt (f_lit 1 0) z then f_lit 1 0 else f_lit (-1) 0) (@XM_PIDIV2 FL)) (atan_est_tail fma (f_div (f_lit 1 0) z)).
Proof.
  cbv zeta. unfold atan_est_lane. cbv zeta. destruct (f_le _ (f_lit 1 0)).
  - replace (f_eq (f_lit 0 0) (f_lit 0 0)) with true by (vm_compute; reflexivity). reflexivity.
  - destruct (f_lt (f_lit 1 0) z).
    + replace (f_eq (f_lit 1 0) (f_lit 0 0)) with false by (vm_compute; reflexivity). reflexivity.
    + replace (f_eq (f_lit (-1) 0) (f_lit 0 0)) with false by (vm_compute; reflexivity). reflexivity.
Qed.
(** the reduction, for any polynomial close to the arc tangent *)
Lemma atan_red (tail : Z -> Z) (p : R -> R) (ep : R) z : word z -> value z <> NaN ->
  (forall x v, value x = Fin v -> Rabs v <= 1 -> fx atM atE (tail x) (p v)) -> (forall v, Rabs v <= 1 -> Rabs (p v - atan v) <= ep) -> 0 <= ep ->
  within (ep + 11 / 10000000)
    (if f_le (if f_lt z (f_sub (f_lit 0 0) z) then f_sub (f_lit 0 0) z else z) (f_lit 1 0) then tail z
     else f_sub (f_mul (if f_lt (f_lit 1 0) z then f_lit 1 0 else f_lit (-1) 0) (@XM_PIDIV2 FL)) (tail (f_div (f_lit 1 0) z))) (atan_of (value z)).
Proof.
  intros W NN TO PO EP. pose proof (value_absmax z W) as VA. change (f_lit 0 0) with 0%Z. set (aa := if f_lt z (f_sub 0 z) then _ else z) in *. clearbody aa.
  pose proof halfPI32_err as HE. destruct (value z) as [|s|v] eqn:V; [congruence| |]; cbn [xabs] in VA.
  - replace (f_le aa (f_lit 1 0)) with false.
    2:{ symmetry. destruct (f_le aa (f_lit 1 0)) eqn:E; [|reflexivity]. apply f_le_spec in E. rewrite VA, val_one in E. destruct E as [E|E]; cbn in E; contradiction. }
    pose proof (div_inf _ z 1 s val_one V) as D. assert (Z0 : Rabs 0 <= 1) by (rewrite Rabs_R0; lra). pose proof (TO _ 0 D Z0) as F.
    assert (S : f_lt (f_lit 1 0) z = negb s).
    { destruct (f_lt (f_lit 1 0) z) eqn:E; destruct s; try reflexivity; exfalso.
      - apply f_lt_spec in E. rewrite V, val_one in E. exact E.
      - assert (f_lt (f_lit 1 0) z = true); [|congruence]. apply f_lt_spec. rewrite V, val_one. exact I. }
    rewrite S. pose proof (outer_fx (negb s) _ _ F) as O. pose proof (PO 0 Z0) as P0. rewrite atan_0, Rminus_0_r in P0.
    eapply within_le; [eapply tri2; [eapply (fx_within 963); [exact O|vm_compute; reflexivity]|]|].
    + cbn [atan_of]. instantiate (1 := 4372 / 100000000000 + ep). apply Rabs_le. apply Rabs_le_inv in HE. apply Rabs_le_inv in P0. destruct s; cbn [negb]; lra.
    + lra.
  - rewrite (le_val _ _ _ _ VA val_one). destruct (Rleb_spec (Rabs v) 1) as [L|L].
    + eapply within_le; [eapply tri2; [eapply (fx_within 651); [eapply TO; eassumption|vm_compute; reflexivity]|apply PO, L]|lra].
    + apply Rnot_le_lt in L. destruct (inv_bound v L) as (N & I1 & I2).
      assert (D : value (f_div (f_lit 1 0) z) = Fin (RN (1 / v))) by (apply div_val; [exact val_one|exact V|exact N|apply small_huge'; lra]).
      pose proof (TO _ _ D I2) as F. rewrite (lt1_val z v V). pose proof (outer_fx (Rltb 1 v) _ _ F) as O.
      eapply within_le; [eapply tri2; [eapply (fx_within 963); [exact O|vm_compute; reflexivity]|]|].
      * instantiate (1 := 4372 / 100000000000 + (ep + 6 / 100000000)). cbn [atan_of]. rewrite <- (atan_inv_any v L).
        pose proof (PO _ I2) as A. pose proof (atan_lip (RN (1 / v)) (1 / v)) as AL. pose proof (RN_err' (1 / v)) as RE.
        apply Rabs_le. apply Rabs_le_inv in A. apply Rabs_le_inv in HE. assert (AL2 : Rabs (atan (RN (1 / v)) - atan (1 / v)) <= 6 / 100000000) by (unfold u24 in RE; lra).
        apply Rabs_le_inv in AL2. destruct (Rltb 1 v); lra.
      * lra.
Qed.
Theorem vector_atan_est_F (lm : Libm FL) b V k : b <> Scalar -> word (lane V k) -> value (lane V k) <> NaN ->
  within (142 / 10000000) (lane (XMVectorATanEst b V) k) (atan_of (value (lane V k))).
Proof.
  intros Hb W N. rewrite vatan_est_lane by exact Hb. rewrite atan_est_split. cbv zeta.
  eapply within_le; [apply (atan_red (atan_est_tail (fma_of b)) atane atane_err); [exact W|exact N|intros; apply atan_est_tail_ok; assumption|exact atane_ok|unfold atane_err; lra]|unfold atane_err; lra].
Qed.

(** ** clamping just outside [-1, 1] *)
Lemma root_out z x : value z = Fin x -> 1 <= x <= 65536 -> let o := f_sub (f_lit 1 0) z in
  value (f_sqrt (if f_lt o (f_lit 0 0) then f_lit 0 0 else o)) = Fin 0.
Proof.
  intros V H o. assert (VO : value o = Fin (RN (1 - x))) by (apply sub_val; [exact val_one|exact V|apply small_huge'; apply Rabs_le; lra]).
  assert (O0 : RN (1 - x) <= 0) by (rewrite <- (RN_fmt 0 fmt_0); apply RN_le; lra).
  rewrite (lt_val' _ _ _ _ VO val_zero). destruct (Rltb_spec (RN (1 - x)) 0) as [L|L].
  - rewrite (sqrt_val _ 0 val_zero); [|lra]. rewrite sqrt_0, (RN_fmt 0 fmt_0). reflexivity.
  - replace (RN (1 - x)) with 0 in VO by lra. rewrite (sqrt_val _ 0 VO); [|lra]. rewrite sqrt_0, (RN_fmt 0 fmt_0). reflexivity.
Qed.
Lemma mul_zero p r M E x : fx M E p x -> value r = Fin 0 -> value (f_mul p r) = Fin 0.
Proof.
  intros (_ & _ & _ & v & V & _) R. rewrite (mul_val p r v 0 V R); rewrite Rmult_0_r, (RN_fmt 0 fmt_0); [reflexivity|]. rewrite Rabs_R0. apply bpow_gt_0.
Qed.
Lemma out_fx z x : value z = Fin x -> 1 <= x <= 65536 -> fx (65536 * S60) 0 z x.
Proof. intros V H. apply fx_exact; [exact V|]. rewrite Rabs_pos_eq by lra. rewrite mult_IZR. change (IZR S60) with unit60. unfold unit60. lra. Qed.
Lemma scalar_arc_out z v : is32 z v -> 1 <= Rabs v <= 65536 -> value (@scalar_arc FL z) = Fin 0.
Proof.
  intros (W & V) H. pose proof (abs_val z v W V) as VA. pose proof (root_out _ _ VA H) as R. pose proof (out_fx _ _ VA H) as X.
  unfold scalar_arc. cbv zeta. change (@tabs FL z) with (f_abs z). set (xx := f_abs z) in *. set (oo := @tsub FL one xx). change (f_sub (f_lit 1 0) xx) with oo in *.
  cbv zeta in R. change (@tlt FL oo zero) with (f_lt oo (f_lit 0 0)). change (@tsqrt FL) with f_sqrt. change (@zero FL) with (f_lit 0 0).
  set (rr := f_sqrt _) in *. clearbody oo xx rr. acbv. eapply mul_zero; [fxt|exact R].
Qed.
Lemma arc_lane_out fma z v : is32 z v -> 1 <= Rabs v <= 65536 -> value (arc_lane fma z) = Fin (if Rleb 0 v then 0 else PI32).
Proof.
  intros I H. pose proof (vabs_val z v I) as VA. pose proof (root_out _ _ VA H) as R. pose proof (out_fx _ _ VA H) as X. destruct I as (W & V).
  unfold arc_lane. cbv zeta. rewrite (ge0_val z v V). set (xx := if f_lt _ z then z else _) in *. cbv zeta in R. set (rr := f_sqrt _) in *. clearbody xx rr.
  unfold AC0, AC1, AC2, AC3, AC4, AC5, AC6, AC7. change (@tlit FL) with f_lit.
  match goal with |- value (if _ then ?t0 else _) = _ => set (t := t0); assert (T0 : value t = Fin 0) end.
  { unfold t; clear t; destruct fma; cbv iota; match goal with |- value (f_mul ?p _) = _ => assert (PP : exists M E x, fx M E p x) end.
    all: try (do 3 eexists; fxt).
    all: destruct PP as (M & E & x & PP); exact (mul_zero _ _ _ _ _ PP R). }
  clearbody t.
  destruct (Rleb 0 v); [exact T0|]. rewrite (sub_val _ _ _ _ val_PI T0); rewrite Rminus_0_r, (RN_fmt PI32 (proj1 (value_fmt _ _ val_PI))); [reflexivity|].
  apply (value_fmt _ _ val_PI).
Qed.
Lemma acos_out v : 1 <= Rabs v -> acos v = if Rleb 0 v then 0 else PI.
Proof.
  intros H. destruct (Rleb_spec 0 v) as [L|L]; unfold acos.
  - rewrite Rabs_pos_eq in H by exact L. destruct (Rle_dec v (-1)); [lra|]. destruct (Rle_dec 1 v); [reflexivity|lra].
  - rewrite Rabs_left in H by lra. destruct (Rle_dec v (-1)); [reflexivity|lra].
Qed.
Lemma asin_out v : 1 <= Rabs v -> asin v = if Rleb 0 v then PI / 2 else - (PI / 2).
Proof.
  intros H. destruct (Rleb_spec 0 v) as [L|L]; unfold asin.
  - rewrite Rabs_pos_eq in H by exact L. destruct (Rle_dec v (-1)); [lra|]. destruct (Rle_dec 1 v); [reflexivity|lra].
  - rewrite Rabs_left in H by lra. destruct (Rle_dec v (-1)); [reflexivity|lra].
Qed.
Lemma near_fin e z r x : value z = Fin r -> Rabs (r - x) <= e -> within e z x. Proof. intros V H. exists r. split; assumption. Qed.
Lemma sub_0 a t x : value a = Fin x -> value t = Fin 0 -> value (f_sub a t) = Fin x.
Proof. intros A B. rewrite (sub_val _ _ _ _ A B); rewrite Rminus_0_r, (RN_fmt x (proj1 (value_fmt _ _ A))); [reflexivity|]. apply (value_fmt _ _ A). Qed.
Theorem scalar_arc_clamp_F z v : is32 z v -> 1 <= Rabs v <= 65536 ->
  within (1 / 10000000) (@XMScalarACos FL z) (acos v) /\ within (1 / 10000000) (@XMScalarASin FL z) (asin v).
Proof.
  intros I H. pose proof (scalar_arc_out z v I H) as A. destruct I as (W & V). rewrite (acos_out v (proj1 H)), (asin_out v (proj1 H)). pose proof PI32_err as PE. pose proof halfPI32_err as HE. unfold pi_err in PE.
  apply Rabs_le_inv in PE. apply Rabs_le_inv in HE.
  unfold XMScalarACos, XMScalarASin. cbv zeta. unfold tge. change (@tle FL zero z) with (f_le (f_lit 0 0) z). rewrite (ge0_val z v V). change (@tsub FL) with f_sub.
  set (t := @scalar_arc FL z) in *. clearbody t.
  destruct (Rleb 0 v); split; (eapply near_fin; [|apply Rabs_le]).
  - exact A.
  - lra.
  - exact (sub_0 _ _ _ val_PIDIV2 A).
  - lra.
  - exact (sub_0 _ _ _ val_PI A).
  - lra.
  - assert (F : fmt (0 - halfPI32)) by (rewrite Rminus_0_l; apply fmt_opp, (value_fmt _ _ val_PIDIV2)).
    rewrite (sub_val _ _ _ _ A val_PIDIV2); rewrite (RN_fmt _ F); [reflexivity|]. rewrite Rminus_0_l, Rabs_Ropp. apply (value_fmt _ _ val_PIDIV2).
  - lra.
Qed.
Theorem vector_arc_clamp_F (lm : Libm FL) b V k v : b <> Scalar -> is32 (lane V k) v -> 1 <= Rabs v <= 65536 ->
  within (1 / 10000000) (lane (XMVectorACos b V) k) (acos v) /\ within (1 / 10000000) (lane (XMVectorASin b V) k) (asin v).
Proof.
  intros Hb I H. pose proof (arc_lane_out (fma_of b) _ v I H) as A. pose proof PI32_err as PE. pose proof halfPI32_err as HE. unfold pi_err in PE.
  apply Rabs_le_inv in PE. apply Rabs_le_inv in HE. rewrite (acos_out v (proj1 H)), (asin_out v (proj1 H)).
  assert (EC : lane (XMVectorACos b V) k = arc_lane (fma_of b) (lane V k)) by (rewrite <- varc_lane; destruct b; [congruence|reflexivity]).
  assert (ES : lane (XMVectorASin b V) k = f_sub (@XM_PIDIV2 FL) (arc_lane (fma_of b) (lane V k))).
  { rewrite <- varc_lane. destruct b as [|s3 s4 f av]; [congruence|]. unfold XMVectorASin. destruct (@varc FL (SSE s3 s4 f av) V), k; reflexivity. }
  rewrite EC, ES. set (t := arc_lane _ _) in *. clearbody t. destruct (Rleb 0 v); split; (eapply near_fin; [|apply Rabs_le]).
  - exact A.
  - lra.
  - exact (sub_0 _ _ _ val_PIDIV2 A).
  - lra.
  - exact A.
  - lra.
  - assert (E : halfPI32 - PI32 = - halfPI32) by (unfold halfPI32, PI32; lra).
    rewrite (sub_val _ _ _ _ val_PIDIV2 A); rewrite E, (RN_fmt _ (fmt_opp _ (proj1 (value_fmt _ _ val_PIDIV2)))); [reflexivity|]. rewrite Rabs_Ropp. apply (value_fmt _ _ val_PIDIV2).
  - lra.
Qed.
