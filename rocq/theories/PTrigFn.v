(** The modelled angle functions in terms of the reduction and polynomials of PTrig.v, and the resulting bounds. *)
From Coq Require Import Reals ZArith Lra Lia Psatz.
From Flocq Require Import Core.
From Verif Require Import Base F32 Intrin Lane SpecGeom MVec MTrig PReal PPoly PTrigPoly SpecTrig PTrig.
Open Scope R_scope.
Notation rv := (quad R).

(** ** Closed forms *)
Lemma sin_poly_R (y : R) : @sin_poly RL y = sinp y.
Proof. rcbv. unfold sinp. cbv zeta. field. Qed.
Lemma cos_poly_R (y : R) : @cos_poly RL y = cosp y.
Proof. rcbv. unfold cosp. cbv zeta. field. Qed.
Lemma vsin_poly_R b (x : rv) : @vsin_poly RL b x = qmap sinp x.
Proof. bk b; dq x; rcbv; unfold sinp; cbv zeta; apply (@Qeq R); field. Qed.
Lemma vcos_poly_R b (x s : rv) : @vcos_poly RL b x s = qmap2 (fun s x => s * cosp x) s x.
Proof. bk b; dq x; dq s; rcbv; unfold cosp; cbv zeta; apply (@Qeq R); field. Qed.
Definition modang (a : R) : R := a - Rrint (a * inv2PI32) * twoPI32.
Lemma modangles_sse b (V : rv) : b <> Scalar -> @XMVectorModAngles RL b V = qmap modang V.
Proof. intros H. bk b; [congruence|..]; dq V; unfold modang, inv2PI32, twoPI32; rcbv; apply (@Qeq R); ring. Qed.
Lemma trig_reflect_sse b (V : rv) : b <> Scalar ->
  @trig_reflect RL b V = (qmap (fun a => refl (modang a)) V, qmap (fun a => Rleb (Rabs (modang a)) halfPI32) V).
Proof.
  intros H. unfold trig_reflect. cbv zeta. rewrite modangles_sse by exact H. dq V. unfold refl, PI32, halfPI32.
  cbn [qmap]. generalize (modang Vx), (modang Vy), (modang Vz), (modang Vw). intros. rcbv. reflexivity.
Qed.
Lemma vsin_R b (V : rv) : b <> Scalar -> XMVectorSin b V = qmap (fun a => sinp (refl (modang a))) V.
Proof.
  intros H. transitivity (@vsin_poly RL b (fst (@trig_reflect RL b V))); [destruct b; [congruence|reflexivity]|].
  rewrite trig_reflect_sse by exact H. cbn [fst]. rewrite vsin_poly_R. destruct V; reflexivity.
Qed.
Lemma vcos_R b (V : rv) : b <> Scalar -> XMVectorCos b V = qmap (fun a => rsgn (modang a) * cosp (refl (modang a))) V.
Proof.
  intros H. transitivity (let '(x, comp) := @trig_reflect RL b V in @vcos_poly RL b x (vsel vneg_one vone comp));
    [destruct b; [congruence|reflexivity]|].
  rewrite trig_reflect_sse by exact H. rewrite vcos_poly_R. unfold rsgn. destruct V. reflexivity.
Qed.
Lemma modang_int a : exists n, modang a = a - IZR n * twoPI32 /\ Rabs (a * inv2PI32 - IZR n) <= / 2.
Proof. destruct (Rrint_int (a * inv2PI32)) as (n & E & H). exists n. unfold modang. rewrite E. auto. Qed.

(** the scalar reduction *)
Definition sc_max : R := 13000000000.
Lemma quotient_R v : Rabs v <= sc_max -> exists n : Z,
  (if Rleb 0 v then Rtrunc32 (inv2PI32 * v + / 2) else Rtrunc32 (inv2PI32 * v - / 2)) = IZR n /\ Rabs (v * inv2PI32 - IZR n) <= / 2.
Proof.
  intros H. assert (P : forall v, 0 <= v <= sc_max -> exists n : Z, Rtrunc32 (inv2PI32 * v + / 2) = IZR n /\ Rabs (v * inv2PI32 - IZR n) <= / 2).
  { intros x Hx. assert (R : 0 <= inv2PI32 * x + / 2 < 2147483648) by (unfold inv2PI32, sc_max in *; lra).
    exists (Ztrunc (inv2PI32 * x + / 2)). split; [apply trunc32_pos; exact R|].
    destruct (trunc_bounds (inv2PI32 * x + / 2)) as [[A B] C]; [lra|]. apply Rabs_le. lra. }
  apply Rabs_le_inv in H. destruct (Rleb_spec 0 v) as [L|L]; [apply P; lra|].
  destruct (P (- v)) as (n & E & N); [lra|]. exists (- n)%Z. rewrite opp_IZR. split.
  - replace (inv2PI32 * v - / 2) with (- (inv2PI32 * - v + / 2)) by ring. rewrite trunc32_opp, E; [reflexivity|].
    rewrite Rabs_pos_eq; unfold inv2PI32, sc_max in *; lra.
  - replace (v * inv2PI32 - - IZR n) with (- (- v * inv2PI32 - IZR n)) by ring. rewrite Rabs_Ropp. exact N.
Qed.
Lemma scalar_reduce_R (v : R) : Rabs v <= sc_max -> exists n : Z, Rabs (v * inv2PI32 - IZR n) <= / 2 /\
  @scalar_reduce RL v = (refl (v - IZR n * twoPI32), rsgn (v - IZR n * twoPI32)).
Proof.
  intros H. destruct (quotient_R v H) as (n & E & N). exists n. split; [exact N|].
  unfold scalar_reduce. cbv zeta.
  replace (@tmul RL XM_1DIV2PI v) with (inv2PI32 * v) by (rcbv; reflexivity).
  change (@ttrunc32 RL) with Rtrunc32. change (@tge RL v zero) with (Rleb 0 v).
  replace (@tadd RL (inv2PI32 * v) half) with (inv2PI32 * v + / 2) by (rcbv; lra).
  replace (@tsub RL (inv2PI32 * v) half) with (inv2PI32 * v - / 2) by (rcbv; lra).
  rt. rewrite E. replace (@tsub RL v (@tmul RL XM_2PI (IZR n))) with (v - IZR n * twoPI32) by (rcbv; unfold twoPI32; ring).
  generalize (v - IZR n * twoPI32). intros r.
  replace (@tgt RL r XM_PIDIV2) with (Rltb halfPI32 r) by (rcbv; reflexivity).
  replace (@tlt RL r (@tneg RL XM_PIDIV2)) with (Rltb r (- halfPI32)) by (rcbv; reflexivity).
  replace (@tsub RL XM_PI r) with (PI32 - r) by (rcbv; reflexivity).
  replace (@tsub RL (@tneg RL XM_PI) r) with (- PI32 - r) by (rcbv; reflexivity).
  change (@tlit RL (-1) 0) with (-1). change (@one RL) with 1.
  unfold refl, rsgn. assert (0 < halfPI32) by (unfold halfPI32; lra).
  destruct (Rleb_spec (Rabs r) halfPI32) as [L|L].
  - apply Rabs_le_inv in L. destruct (Rltb_spec halfPI32 r); [lra|]. destruct (Rltb_spec r (- halfPI32)); [lra|]. reflexivity.
  - unfold Rabs in L. destruct (Rcase_abs r).
    + destruct (Rltb_spec halfPI32 r); [lra|]. destruct (Rltb_spec r (- halfPI32)); [|lra]. destruct (Rltb_spec r 0); [reflexivity|lra].
    + destruct (Rltb_spec halfPI32 r); [|lra]. destruct (Rltb_spec r 0); [lra|reflexivity].
Qed.

(** ** Bounds *)
Lemma lane_qmap {A B} (f : A -> B) (V : quad A) k : lane (qmap f V) k = f (lane V k).
Proof. destruct V, k; reflexivity. Qed.

Lemma sin_vec b (V : rv) k : b <> Scalar -> Rabs (lane V k) <= ang_max ->
  within (trig_err (lane V k)) (lane (XMVectorSin b V) k) (sin (lane V k)) /\
  within (trig_err (lane V k)) (lane (XMVectorCos b V) k) (cos (lane V k)).
Proof.
  intros Hb Ha. rewrite vsin_R, vcos_R by exact Hb. rt. rewrite !lane_qmap. unfold within.
  destruct (modang_int (lane V k)) as (n & -> & N). destruct (total_sin _ n N Ha) as [S C].
  pose proof (err_sum _ n N). split; lra.
Qed.
Lemma sin_scalar (v : R) : Rabs v <= ang_max ->
  within (trig_err v) (XMScalarSin v) (sin v) /\ within (trig_err v) (XMScalarCos v) (cos v).
Proof.
  intros Ha. destruct (scalar_reduce_R v) as (n & N & E); [unfold ang_max, sc_max in *; lra|].
  unfold XMScalarSin, XMScalarCos. cbv zeta. rt. rewrite E. cbn [fst snd]. rewrite sin_poly_R, cos_poly_R. unfold within.
  destruct (total_sin _ n N Ha) as [S C]. pose proof (err_sum _ n N). split; [lra|]. change (@tmul RL) with Rmult. lra.
Qed.
(** sharper when no period is taken off *)
Lemma near_zero a : Rabs a <= PI32 -> Rabs (a * inv2PI32 - 0) <= / 2 /\ modang a = a.
Proof.
  intros H. assert (Rabs (a * inv2PI32) <= / 2).
  { rewrite Rabs_mult, (Rabs_pos_eq inv2PI32); unfold inv2PI32, PI32 in *; lra. }
  split; [rewrite Rminus_0_r; assumption|]. unfold modang. rewrite Rrint_0 by assumption. ring.
Qed.
Lemma principal_sin a : Rabs a <= PI32 -> Rabs (sinp (refl a) - sin a) <= 12 / 100000000 /\ Rabs (rsgn a * cosp (refl a) - cos a) <= 12 / 100000000.
Proof.
  intros H. destruct (near_zero a H) as [N _].
  destruct (total_sin a 0 N) as [S C]; [unfold PI32, ang_max in *; lra|].
  replace (a - 0 * twoPI32) with a in * by ring. rewrite Rabs_R0 in *. unfold poly_err, pi_err in *. split; lra.
Qed.
Lemma sin_vec_principal b (V : rv) k : b <> Scalar -> Rabs (lane V k) <= XM_PI_c ->
  within (12 / 100000000) (lane (XMVectorSin b V) k) (sin (lane V k)) /\
  within (12 / 100000000) (lane (XMVectorCos b V) k) (cos (lane V k)).
Proof.
  intros Hb Ha. rewrite vsin_R, vcos_R by exact Hb. rt. rewrite !lane_qmap. unfold within.
  change XM_PI_c with PI32 in Ha. destruct (near_zero _ Ha) as [_ ->]. exact (principal_sin _ Ha).
Qed.
Lemma sin_exact_scalar (V : rv) : XMVectorSin Scalar V = qmap sin V /\ XMVectorCos Scalar V = qmap cos V.
Proof. split; reflexivity. Qed.

(** SinCos is the pair, over any arithmetic *)
Lemma sincos_pair (L : Lane) (lm : Libm L) b (V : quad (T L)) : XMVectorSinCos b V = (XMVectorSin b V, XMVectorCos b V).
Proof.
  destruct b; [reflexivity|]. unfold XMVectorSinCos, XMVectorSin, XMVectorCos. destruct (trig_reflect _ V). reflexivity.
Qed.
Lemma sincos_scalar_pair (L : Lane) (v : T L) : XMScalarSinCos v = (XMScalarSin v, XMScalarCos v).
Proof. reflexivity. Qed.

(** ** Angle reduction *)
Lemma modangles_sse_ok b (V : rv) k : b <> Scalar ->
  let a := lane V k in let r := lane (@XMVectorModAngles RL b V) k in
  congruent XM_2PI_c a r /\ Rabs r <= XM_PI_c + Rabs a / 70000000 /\ (Rabs a <= XM_PI_c -> r = a).
Proof.
  intros Hb. cbv zeta. rewrite modangles_sse by exact Hb. rewrite lane_qmap.
  destruct (modang_int (lane V k)) as (n & E & N). split; [|split].
  - exists n. rewrite E. reflexivity.
  - rewrite E. eapply Rle_trans; [apply reduced; exact N|]. change XM_PI_c with PI32. unfold kappa. pose proof (Rabs_pos (lane V k)). lra.
  - intros H. apply near_zero. exact H.
Qed.
(** against the true period: the distance to the exactly reduced angle *)
Lemma modangles_sse_true b (V : rv) k : b <> Scalar ->
  exists r', congruent (2 * PI) (lane V k) r' /\ within (9 / 100000000 + 3 / 100000000 * Rabs (lane V k)) (lane (@XMVectorModAngles RL b V) k) r'.
Proof.
  intros Hb. rewrite modangles_sse by exact Hb. rewrite lane_qmap.
  destruct (modang_int (lane V k)) as (n & E & N). exists (lane V k - IZR n * (2 * PI)). split; [exists n; reflexivity|].
  unfold within. rewrite E. eapply Rle_trans; [apply shift_err|]. pose proof (periods_n _ n N) as P.
  unfold pi_err, inv2PI32 in *. pose proof (Rabs_pos (lane V k)). nra.
Qed.
Lemma round_nearest_R x : exists n : Z, @round_to_nearest RL x = IZR n /\ Rabs (x - IZR n) <= / 2.
Proof.
  unfold round_to_nearest. cbv zeta. change (@tfloor RL x) with (IZR (Zfloor x)).
  pose proof (Zfloor_lb x). pose proof (Zfloor_ub x).
  assert (Hh : @half RL = / 2) by (rcbv; lra).
  change (@tsub RL x (IZR (Zfloor x))) with (x - IZR (Zfloor x)).
  change (@tlt RL (x - IZR (Zfloor x)) half) with (Rltb (x - IZR (Zfloor x)) (@half RL)).
  change (@tgt RL (x - IZR (Zfloor x)) half) with (Rltb (@half RL) (x - IZR (Zfloor x))). rewrite Hh.
  assert (S : @tadd RL (IZR (Zfloor x)) one = IZR (Zfloor x + 1)) by (rewrite plus_IZR; reflexivity).
  destruct (Rltb_spec (x - IZR (Zfloor x)) (/ 2)).
  { exists (Zfloor x). split; [reflexivity|]. rewrite Rabs_pos_eq; lra. }
  assert (U : Rabs (x - IZR (Zfloor x + 1)) <= / 2) by (rewrite plus_IZR; apply Rabs_le; lra).
  destruct (Rltb_spec (/ 2) (x - IZR (Zfloor x))); [exists (Zfloor x + 1)%Z; split; [exact S|exact U]|].
  destruct (teq _ _).
  - exists (Zfloor x). split; [reflexivity|]. rewrite Rabs_pos_eq; lra.
  - exists (Zfloor x + 1)%Z. split; [exact S|exact U].
Qed.
(** the no-intrinsics path: every lane loses the number of periods of lane 0 *)
Lemma modangles_scalar (V : rv) : exists n : Z, Rabs (qx V * inv2PI32 - IZR n) <= / 2 /\
  @XMVectorModAngles RL Scalar V = qmap (fun a => a - IZR n * twoPI32) V.
Proof.
  destruct (round_nearest_R (qx V * inv2PI32)) as (n & E & N). exists n. split; [exact N|].
  assert (F : @XMVectorRound RL Scalar (XMVectorMultiply Scalar V (qrep XM_1DIV2PI)) = qrep (IZR n)).
  { rewrite <- E. unfold XMVectorRound. rewrite Mul_R. destruct V. reflexivity. }
  unfold XMVectorModAngles. cbv zeta. rt. rewrite F. dq V. unfold twoPI32. rcbv. apply (@Qeq R); ring.
Qed.
Lemma modangles_scalar_x (V : rv) : let a := qx V in let r := qx (@XMVectorModAngles RL Scalar V) in
  congruent XM_2PI_c a r /\ Rabs r <= XM_PI_c + Rabs a / 70000000.
Proof.
  destruct (modangles_scalar V) as (n & N & ->). dq V. cbn [qmap qx] in *. split; [exists n; reflexivity|].
  eapply Rle_trans; [apply reduced; exact N|]. change XM_PI_c with PI32. unfold kappa. pose proof (Rabs_pos Vx). lra.
Qed.
Lemma modangles_scalar_congruent (V : rv) k : congruent XM_2PI_c (lane V k) (lane (@XMVectorModAngles RL Scalar V) k).
Proof. destruct (modangles_scalar V) as (n & N & ->). rewrite lane_qmap. exists n. reflexivity. Qed.
Lemma modangles_scalar_wrong : exists V : rv, Rabs (qy (@XMVectorModAngles RL Scalar V)) > XM_PI_c + 90.
Proof.
  exists (Q 0 100 0 0). destruct (modangles_scalar (Q 0 100 0 0)) as (n & N & ->). cbn [qx qy qmap] in *.
  rewrite Rmult_0_l in N. assert (n = 0)%Z.
  { replace (0 - IZR n) with (IZR (- n)) in N by (rewrite opp_IZR; ring). rewrite <- abs_IZR in N.
    assert (Z.abs (- n) < 1)%Z by (apply lt_IZR; lra). lia. }
  subst n. rewrite Rmult_0_l, Rminus_0_r, Rabs_pos_eq; unfold XM_PI_c; lra.
Qed.

(** misc.rs XMScalarModAngle *)
Lemma scalar_modangle_R (a : R) : Rabs (a + XM_PI_c) < 2147483648 * XM_2PI_c ->
  congruent XM_2PI_c a (XMScalarModAngle a) /\ Rabs (XMScalarModAngle a) <= XM_PI_c.
Proof.
  intros H. set (r := XMScalarModAngle a).
  assert (E : r = let t := Rabs (a + PI32) - twoPI32 * Rtrunc32 (Rabs (a + PI32) / twoPI32) - PI32 in if Rltb (a + PI32) 0 then - t else t).
  { subst r. unfold PI32, twoPI32. rcbv. reflexivity. }
  cbv zeta in E. clearbody r. change XM_PI_c with PI32 in *. change XM_2PI_c with twoPI32 in *.
  assert (P : 0 < twoPI32) by (unfold twoPI32; lra). set (t := Rabs (a + PI32)) in *.
  assert (T0 : 0 <= t) by apply Rabs_pos.
  assert (D : 0 <= t / twoPI32 < 2147483648).
  { split; [apply Rle_mult_inv_pos; lra|]. apply (Rmult_lt_reg_r twoPI32); [lra|]. unfold Rdiv. rewrite Rmult_assoc, Rinv_l by lra. lra. }
  rewrite trunc32_pos in E by exact D. destruct (trunc_bounds (t / twoPI32)) as [[A B] C]; [lra|].
  set (n := Ztrunc (t / twoPI32)) in *.
  assert (B' : IZR n * twoPI32 <= t) by (apply (Rmult_le_compat_r twoPI32) in B; [unfold Rdiv in B; rewrite Rmult_assoc, Rinv_l in B by lra; lra|lra]).
  assert (C' : t < IZR n * twoPI32 + twoPI32) by (apply (Rmult_lt_compat_r twoPI32) in C; [unfold Rdiv in C; rewrite Rmult_assoc, Rinv_l in C by lra; lra|lra]).
  assert (TP : twoPI32 = 2 * PI32) by (unfold twoPI32, PI32; lra).
  split.
  - destruct (Rltb_spec (a + PI32) 0) as [L|L].
    + exists (- (n + 1))%Z. rewrite E, opp_IZR, plus_IZR. unfold t. rewrite Rabs_left by exact L. rewrite TP. ring.
    + exists n. rewrite E. unfold t. rewrite Rabs_pos_eq by lra. ring.
  - rewrite E. apply Rabs_le. destruct (Rltb (a + PI32) 0); lra.
Qed.
Lemma scalar_modangle_true (a : R) : Rabs a <= 10000000000 ->
  exists r', congruent (2 * PI) a r' /\ within (27 / 100000000 + 3 / 100000000 * Rabs a) (XMScalarModAngle a) r'.
Proof.
  intros H. destruct (scalar_modangle_R a) as [[n E] B].
  { apply Rabs_le_inv in H. apply Rabs_lt. unfold XM_PI_c, XM_2PI_c. lra. }
  exists (a - IZR n * (2 * PI)). split; [exists n; reflexivity|]. unfold within. rewrite E in *.
  change XM_2PI_c with twoPI32 in *. change XM_PI_c with PI32 in *. eapply Rle_trans; [apply shift_err|].
  assert (N : Rabs (IZR n) * twoPI32 <= PI32 + Rabs a).
  { replace (Rabs (IZR n) * twoPI32) with (Rabs (IZR n * twoPI32)) by (rewrite Rabs_mult, (Rabs_pos_eq twoPI32); [ring|unfold twoPI32; lra]).
    replace (IZR n * twoPI32) with (- (a - IZR n * twoPI32) + a) by ring. eapply Rle_trans; [apply Rabs_triang|]. rewrite Rabs_Ropp. lra. }
  unfold pi_err, twoPI32, PI32 in *. pose proof (Rabs_pos a). pose proof (Rabs_pos (IZR n)). lra.
Qed.
(** the quotient saturates at 2^31 - 1 *)
Lemma scalar_modangle_wrong : exists a : R, Rabs (XMScalarModAngle a) > XM_PI_c + 1000000.
Proof.
  exists 20000000000.
  assert (E : XMScalarModAngle (20000000000 : T RL) =
    let t := Rabs (20000000000 + PI32) - twoPI32 * Rtrunc32 (Rabs (20000000000 + PI32) / twoPI32) - PI32 in if Rltb (20000000000 + PI32) 0 then - t else t).
  { unfold PI32, twoPI32. rcbv. reflexivity. }
  cbv zeta in E. rt. rewrite E. destruct (Rltb_spec (20000000000 + PI32) 0) as [L|L]; [unfold PI32 in L; lra|].
  assert (G : Rtrunc32 (Rabs (20000000000 + PI32) / twoPI32) <= 2147483647).
  { unfold Rtrunc32. apply IZR_le. lia. }
  rewrite (Rabs_pos_eq (20000000000 + PI32)) in * by (unfold PI32; lra).
  assert (20000000000 + PI32 - twoPI32 * Rtrunc32 ((20000000000 + PI32) / twoPI32) - PI32 > XM_PI_c + 1000000).
  { unfold XM_PI_c. unfold twoPI32 at 1. lra. }
  rewrite Rabs_pos_eq; [lra|]. unfold XM_PI_c in *. lra.
Qed.
(** binary32: 5 pi reduces to the float above XM_PI on every SSE configuration *)
Lemma modangles_sse_wrong : exists a, forall b, b <> Scalar ->
  f_lt (@XM_PI FL) (qx (@XMVectorModAngles FL b (qrep a))) = true.
Proof. exists 0x417b53d2%Z. intros b Hb. bk b; [congruence|..]; vm_compute; reflexivity. Qed.
