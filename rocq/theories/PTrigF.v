(** Binary32 rounding errors of the angle functions: range reduction, reflection and the sine and cosine polynomials on bit patterns. *)
From Coq Require Import Reals Lra Lia ZArith Bool Psatz.
From Flocq Require Import Core IEEE754.BinarySingleNaN.
From Verif Require Import Base F32 F32Facts Intrin Lane MVec MTrig SpecF32 PF32 PFloat PExp SpecConvert PConvertInt PReal PTrigPoly PTrig SpecErr PErr PFix.
Open Scope R_scope.

Ltac tcbv := lazy beta iota zeta delta [vsin_poly vcos_poly sin_poly cos_poly FMADD FNMADD vmul vadd vsub vone vzero vneg_one qmap qmap2 qmap3 qrep lane qx qy qz qw
  T tadd tsub tmul tdiv tsqrt tneg tabs tfma tlt tle teq tlit trint tsgn FL SC0 SC1 SC2 SC3 SC4 CC0 CC1 CC2 CC3 CC4 one half zero two].
Lemma half_fx z y : value z = Fin y -> Rabs y <= halfPI32 -> fx 1811004914915082240 0 z y.
Proof. intros V H. apply fx_exact; [exact V|]. unfold unit60, halfPI32 in *. lra. Qed.
Ltac ptail p := eapply fx_x; [fxt|]; rl; unfold p; cbv zeta; field.
Ltac show K := match goal with |- (?a <=? _)%Z = _ => let x := eval vm_compute in (a / 1152921504)%Z in idtac x end.
Lemma sin_poly_F z y : value z = Fin y -> Rabs y <= halfPI32 -> within (480 / 1000000000) (@sin_poly FL z) (sinp y).
Proof. intros V H. pose proof (half_fx z y V H) as F. tcbv. eapply (fx_within 480); [ptail sinp|vm_compute; reflexivity]. Qed.
Lemma cos_poly_F z y : value z = Fin y -> Rabs y <= halfPI32 -> within (480 / 1000000000) (@cos_poly FL z) (cosp y).
Proof. intros V H. pose proof (half_fx z y V H) as F. tcbv. eapply (fx_within 480); [ptail cosp|vm_compute; reflexivity]. Qed.
Lemma vsin_poly_F b X k y : value (lane X k) = Fin y -> Rabs y <= halfPI32 -> within (480 / 1000000000) (lane (@vsin_poly FL b X) k) (sinp y).
Proof.
  intros V H. pose proof (half_fx _ y V H) as F. destruct X as [x0 x1 x2 x3].
  destruct b as [|s3 s4 [|] av]; destruct k; cbn [lane qx qy qz qw] in F; tcbv; (eapply (fx_within 480); [ptail sinp|vm_compute; reflexivity]).
Qed.

Lemma vcos_poly_F b X S k y s : value (lane X k) = Fin y -> Rabs y <= halfPI32 -> value (lane S k) = Fin s -> s = 1 \/ s = -1 ->
  within (640 / 1000000000) (lane (@vcos_poly FL b X S) k) (s * cosp y).
Proof.
  intros V H VS Hs. pose proof (half_fx _ y V H) as F. assert (G : fx S60 0 (lane S k) s).
  { apply fx_exact; [exact VS|]. unfold unit60, S60. destruct Hs; subst s; [rewrite Rabs_R1|rewrite Rabs_left by lra]; lra. }
  destruct X as [x0 x1 x2 x3]. destruct S as [s0 s1 s2 s3].
  destruct b as [|s3' s4 [|] av]; destruct k; cbn [lane qx qy qz qw] in F, G; tcbv; (eapply (fx_within 640); [ptail cosp|vm_compute; reflexivity]).
Qed.

(** ** Range reduction *)
Definition red_err (a : R) : R := ulp_half * (12 / 10 * Rabs a + 8).
Lemma RN_err' x : Rabs (RN x - x) <= u24 * Rabs x + / 1000000000000000000000000000000.
Proof.
  pose proof (RN_err x). assert (eta <= / 1000000000000000000000000000000); [|lra]. unfold eta. apply Rle_trans with (bpow radix2 (-100)); [apply bpow_le; lia|].
  change (bpow radix2 (-100)) with (/ IZR (2 ^ 100)). apply Rinv_le; [lra|]. apply IZR_le. vm_compute. discriminate.
Qed.
Lemma small_huge' x : Rabs x <= 1000000000000 -> Rabs (RN x) < huge.
Proof.
  intros H. pose proof (RN_err' x) as E. unfold u24 in E.
  assert (huge > 1125899906842624) by (unfold huge; apply Rle_lt_trans with (bpow radix2 50); [change (bpow radix2 50) with (IZR (2 ^ 50)); right; reflexivity|apply bpow_lt; lia]).
  replace (RN x) with (RN x - x + x) by ring. eapply Rle_lt_trans; [apply Rabs_triang|]. lra.
Qed.
Lemma val_2PI : value (@XM_2PI FL) = Fin twoPI32.
Proof. transitivity (Fin (Rl 13176795 (-21))); [|rl; reflexivity]. rewrite Rl_bpow. apply lit_exact; lia. Qed.
Lemma val_PI : value (@XM_PI FL) = Fin PI32.
Proof. transitivity (Fin (Rl 13176795 (-22))); [|rl; reflexivity]. rewrite Rl_bpow. apply lit_exact; lia. Qed.
Lemma val_PIDIV2 : value (@XM_PIDIV2 FL) = Fin halfPI32.
Proof. transitivity (Fin (Rl 13176795 (-23))); [|rl; reflexivity]. rewrite Rl_bpow. apply lit_exact; lia. Qed.
Lemma val_1DIV2PI : value (@XM_1DIV2PI FL) = Fin inv2PI32.
Proof. transitivity (Fin (Rl 10680707 (-26))); [|rl; reflexivity]. rewrite Rl_bpow. apply lit_exact; lia. Qed.
(** the number of periods found *)
Definition pers (a : R) : Z := ZnearestE (RN (a * inv2PI32)).

Lemma pers_close a : Rabs (a * inv2PI32 - IZR (pers a)) <= / 2 + ulp_half * (Rabs a + 1).
Proof.
  unfold pers. pose proof (Znearest_half (fun n => negb (Z.even n)) (RN (a * inv2PI32))) as H. pose proof (RN_err' (a * inv2PI32)) as E.
  rewrite Rabs_mult in E. rewrite (Rabs_pos_eq inv2PI32) in E by (unfold inv2PI32; lra).
  replace (a * inv2PI32 - IZR (ZnearestE (RN (a * inv2PI32)))) with (- (RN (a * inv2PI32) - a * inv2PI32) + (RN (a * inv2PI32) - IZR (ZnearestE (RN (a * inv2PI32))))) by ring.
  eapply Rle_trans; [apply Rabs_triang|]. rewrite Rabs_Ropp. pose proof (Rabs_pos a). unfold u24, ulp_half, inv2PI32 in *. lra.
Qed.
Lemma pers_0 a : Rabs a <= PI32 -> IZR (pers a) = 0.
Proof.
  intros H. apply (Rrint_0 (RN (a * inv2PI32))). apply Rabs_le_inv in H. assert (F : fmt (/ 2)) by (apply (fmt_pow (-1)); lia).
  unfold PI32, inv2PI32 in *. apply Rabs_le. split.
  - rewrite <- (RN_fmt _ (fmt_opp _ F)). apply RN_le. lra.
  - rewrite <- (RN_fmt _ F). apply RN_le. lra.
Qed.
Definition amax : R := 1000000.
Lemma reduced_F a n : Rabs a <= amax -> Rabs (a * inv2PI32 - IZR n) <= / 2 + ulp_half * (Rabs a + 1) -> Rabs (a - IZR n * twoPI32) <= PI32 + 63 / 100000000 * (Rabs a + 1) /\ (Z.abs n <= 2 ^ 24)%Z.
Proof.
  intros Ha H. pose proof (Rabs_pos a) as P. split.
  - replace (a - IZR n * twoPI32) with (twoPI32 * (a * inv2PI32 - IZR n) + kappa * a).
    2:{ replace (twoPI32 * (a * inv2PI32 - IZR n)) with (a * (twoPI32 * inv2PI32) - IZR n * twoPI32) by ring. rewrite per_inv. ring. }
    eapply Rle_trans; [apply Rabs_triang|]. rewrite !Rabs_mult. rewrite (Rabs_pos_eq twoPI32), (Rabs_pos_eq kappa) by (unfold twoPI32, kappa; lra).
    apply Rle_trans with (twoPI32 * (/ 2 + ulp_half * (Rabs a + 1)) + kappa * Rabs a); [apply Rplus_le_compat_r, Rmult_le_compat_l; [unfold twoPI32; lra|exact H]|].
    unfold twoPI32, PI32, ulp_half, kappa, amax in *. lra.
  - apply le_IZR. rewrite abs_IZR. replace (IZR n) with (- (a * inv2PI32 - IZR n) + a * inv2PI32) by ring. eapply Rle_trans; [apply Rabs_triang|].
    rewrite Rabs_Ropp, Rabs_mult, (Rabs_pos_eq inv2PI32) by (unfold inv2PI32; lra). change (IZR (2 ^ 24)) with 16777216. unfold inv2PI32, ulp_half, amax in *. lra.
Qed.
(** subtracting the periods, fused or not *)
Lemma periods_F (fma : bool) za zn a n : is32 za a -> Rabs a <= amax -> word zn -> value zn = Fin (IZR n) -> Rabs (a * inv2PI32 - IZR n) <= / 2 + ulp_half * (Rabs a + 1) ->
  exists r, value (if fma then f_fma (f_neg zn) (@XM_2PI FL) za else f_sub za (f_mul zn (@XM_2PI FL))) = Fin r /\ Rabs (r - (a - IZR n * twoPI32)) <= red_err a /\ (n = 0%Z -> r = a).
Proof.
  intros (_ & Va) Ha Wn Vn Hn. destruct (reduced_F a n Ha Hn) as (R & N). pose proof (Rabs_pos a) as P.
  assert (FA : RN a = a) by (apply RN_fmt, (value_fmt _ _ Va)).
  assert (Q : Rabs (IZR n * twoPI32) <= 10001 / 10000 * Rabs a + 4).
  { replace (IZR n * twoPI32) with (- (a - IZR n * twoPI32) + a) by ring. eapply Rle_trans; [apply Rabs_triang|]. rewrite Rabs_Ropp. unfold PI32 in R. lra. }
  destruct fma.
  - exists (RN (- IZR n * twoPI32 + a)). assert (E : - IZR n * twoPI32 + a = a - IZR n * twoPI32) by ring. split; [|split].
    + apply fma_val; [apply neg_val; assumption|exact val_2PI|exact Va|]. rewrite E. apply small_huge'. unfold PI32, amax in *. lra.
    + rewrite E. eapply Rle_trans; [apply RN_err'|]. unfold red_err, u24, ulp_half, PI32, amax in *. lra.
    + intros ->. replace (- 0 * twoPI32 + a) with a by ring. exact FA.
  - pose proof (RN_err' (IZR n * twoPI32)) as E1. set (m := RN (IZR n * twoPI32)) in *. pose proof (RN_err' (a - m)) as E2.
    assert (D : Rabs (a - m) <= PI32 + 63 / 100000000 * (Rabs a + 1) + (u24 * Rabs (IZR n * twoPI32) + / 1000000000000000000000000000000)).
    { replace (a - m) with ((a - IZR n * twoPI32) + - (m - IZR n * twoPI32)) by ring. eapply Rle_trans; [apply Rabs_triang|]. rewrite Rabs_Ropp. lra. }
    exists (RN (a - m)). split; [|split].
    + apply sub_val; [exact Va| |apply small_huge'; unfold PI32, u24, amax in *; lra]. apply mul_val; [exact Vn|exact val_2PI|]. apply small_huge'. unfold amax in *. lra.
    + replace (RN (a - m) - (a - IZR n * twoPI32)) with ((RN (a - m) - (a - m)) + - (m - IZR n * twoPI32)) by ring. eapply Rle_trans; [apply Rabs_triang|]. rewrite Rabs_Ropp.
      unfold red_err, u24, ulp_half, PI32, amax in *. lra.
    + intros ->. unfold m. rewrite Rmult_0_l, (RN_fmt 0 fmt_0), Rminus_0_r. exact FA.
Qed.
Lemma rint_val z x : value z = Fin x -> value (f_rint z) = Fin (IZR (ZnearestE x)).
Proof. intros V. apply (near_val mode_NE z x V). Qed.
Lemma quot_val z a : value z = Fin a -> Rabs a <= amax -> value (f_mul z (@XM_1DIV2PI FL)) = Fin (RN (a * inv2PI32)).
Proof.
  intros V H. apply mul_val; [exact V|exact val_1DIV2PI|]. apply small_huge'. rewrite Rabs_mult, (Rabs_pos_eq inv2PI32) by (unfold inv2PI32; lra). unfold inv2PI32, amax in *.
  pose proof (Rabs_pos a). lra.
Qed.
Definition fma_of (b : backend) : bool := match b with SSE _ _ true _ => true | _ => false end.
Definition mod_lane (fma : bool) (z : Z) : Z :=
  let q := f_rint (f_mul z (@XM_1DIV2PI FL)) in if fma then f_fma (f_neg q) (@XM_2PI FL) z else f_sub z (f_mul q (@XM_2PI FL)).
Lemma modangles_lane b V k : b <> Scalar -> lane (@XMVectorModAngles FL b V) k = mod_lane (fma_of b) (lane V k).
Proof. intros H. destruct b as [|s3 s4 [|] av]; [congruence|..]; destruct V, k; unfold mod_lane, fma_of, XMVectorModAngles, XMVectorRound; tcbv; reflexivity. Qed.
Lemma mod_lane_ok fma z a : is32 z a -> Rabs a <= amax -> exists n r, value (mod_lane fma z) = Fin r /\ word (mod_lane fma z) /\
  Rabs (a * inv2PI32 - IZR n) <= / 2 + ulp_half * (Rabs a + 1) /\ Rabs (r - (a - IZR n * twoPI32)) <= red_err a /\ (Rabs a <= PI32 -> n = 0%Z /\ r = a).
Proof.
  intros I H. exists (pers a). destruct I as (W & V). pose proof (rint_val _ _ (quot_val z a V H)) as Q.
  destruct (periods_F fma z _ a (pers a) (conj W V) H (enc_word _) Q (pers_close a)) as (r & Vr & Er & Zr). exists r. split; [exact Vr|]. split; [destruct fma; apply enc_word|].
  split; [apply pers_close|]. split; [exact Er|]. intros K. assert (N : pers a = 0%Z) by (apply eq_IZR, pers_0, K). split; [exact N|apply Zr, N].
Qed.
(** ** Reflection *)
Definition refl_lane (x : Z) : Z := if f_le (f_abs x) (@XM_PIDIV2 FL) then x else f_sub (if f_sgn x then f_neg (@XM_PI FL) else @XM_PI FL) x.

Lemma sgn_bit z : word z -> f_sgn z = bit_sign z.
Proof.
  intros W. unfold f_sgn, bit_sign, word in *. rewrite Z.testbit_eqb by lia. destruct (Z.leb_spec (2 ^ 31) z) as [H|H].
  - replace (z / 2 ^ 31)%Z with 1%Z; [reflexivity|]. apply Z.div_unique with (z - 2 ^ 31)%Z; lia.
  - rewrite Z.div_small by lia. reflexivity.
Qed.
Lemma Fin_inj x y : Fin x = Fin y -> x = y. Proof. congruence. Qed.
Lemma sgn_val z x : word z -> value z = Fin x -> x <> 0 -> f_sgn z = Rltb x 0.
Proof.
  intros W V N. rewrite sgn_bit by exact W. assert (P : forall m e, (0 <= m)%Z -> 0 <= IZR m * pow2 e).
  { intros m e Hm. rewrite pow2_bpow. apply Rmult_le_pos; [apply IZR_le, Hm|apply bpow_ge_0]. }
  assert (S : exists r, 0 <= r /\ x = signed (bit_sign z) r).
  { unfold value in V. destruct (bit_exp z =? 255)%Z; [destruct (bit_frac z =? 0)%Z; discriminate|].
    assert (0 <= bit_frac z)%Z by (unfold bit_frac; apply Z.mod_pos_bound; reflexivity).
    destruct (bit_exp z =? 0)%Z; apply Fin_inj in V; eexists; (split; [|symmetry; exact V]); apply P; lia. }
  destruct S as (r & R & ->). destruct (bit_sign z); cbn [signed] in *; destruct (Rltb_spec (- r) 0); destruct (Rltb_spec r 0); try lra; reflexivity.
Qed.
Lemma abs_val z x : word z -> value z = Fin x -> value (f_abs z) = Fin (Rabs x).
Proof. intros W V. rewrite value_abs, V by exact W. reflexivity. Qed.
Lemma le_val a b x y : value a = Fin x -> value b = Fin y -> f_le a b = Rleb x y.
Proof.
  intros A B. destruct (Rleb_spec x y) as [H|H].
  - apply f_le_spec. rewrite A, B. unfold xle; cbn. destruct H; [left|right]; assumption.
  - destruct (f_le a b) eqn:E; [|reflexivity]. apply f_le_spec in E. rewrite A, B in E. unfold xle in E; cbn in E. lra.
Qed.
Lemma fmt_halfPI : fmt halfPI32. Proof. exact (proj1 (value_fmt _ _ val_PIDIV2)). Qed.
Definition refl_err : R := 1 / 10000000.
Lemma refl_lane_ok z r : word z -> value z = Fin r -> Rabs r <= PI32 + halfPI32 ->
  exists y, value (refl_lane z) = Fin y /\ Rabs y <= halfPI32 /\ Rabs (y - refl r) <= refl_err /\ f_le (f_abs z) (@XM_PIDIV2 FL) = Rleb (Rabs r) halfPI32.
Proof.
  intros W V H. pose proof (le_val _ _ _ _ (abs_val z r W V) val_PIDIV2) as C. unfold refl_lane. rewrite C. pose proof (refl_range r H) as RR. unfold refl in *.
  destruct (Rleb_spec (Rabs r) halfPI32) as [L|L].
  - exists r. split; [exact V|]. split; [exact L|]. split; [|reflexivity]. replace (r - r) with 0 by ring. rewrite Rabs_R0. unfold refl_err. lra.
  - assert (N : r <> 0) by (intros ->; rewrite Rabs_R0 in L; unfold halfPI32 in L; lra). rewrite (sgn_val z r W V N).
    set (c := if Rltb r 0 then - PI32 else PI32) in *.
    assert (VC : value (if Rltb r 0 then f_neg (@XM_PI FL) else @XM_PI FL) = Fin c).
    { unfold c. destruct (Rltb r 0); [apply neg_val; [apply enc_word|exact val_PI]|exact val_PI]. }
    exists (RN (c - r)). split; [apply sub_val; [exact VC|exact V|apply small_huge'; unfold halfPI32 in RR; lra]|].
    split; [|split; [|reflexivity]].
    + apply Rabs_le_inv in RR. apply Rabs_le. split.
      * rewrite <- (RN_fmt _ (fmt_opp _ fmt_halfPI)). apply RN_le. lra.
      * rewrite <- (RN_fmt _ fmt_halfPI). apply RN_le. lra.
    + eapply Rle_trans; [apply RN_err'|]. unfold refl_err, u24, halfPI32 in *. lra.
Qed.
(** ** The whole error *)
Lemma abs4 a b c d : Rabs (a + b + c + d) <= Rabs a + Rabs b + Rabs c + Rabs d.
Proof. pose proof (Rabs_triang (a + b + c) d). pose proof (Rabs_triang (a + b) c). pose proof (Rabs_triang a b). lra. Qed.
Lemma near_sin y r a n e : Rabs (y - refl r) <= refl_err -> Rabs y <= halfPI32 -> Rabs (r - (a - IZR n * twoPI32)) <= e ->
  Rabs (sinp y - sin a) <= poly_err + refl_err + pi_err + e + Rabs (IZR n) * (2 * pi_err) /\
  Rabs (rsgn r * cosp y - cos a) <= poly_err + refl_err + pi_err + e + Rabs (IZR n) * (2 * pi_err).
Proof.
  intros Hy HY Hr. destruct (sin_nper a n) as [P1 P2]. pose proof (shift_err a n) as S.
  assert (RA : Rabs (r - (a - IZR n * (2 * PI))) <= e + Rabs (IZR n) * (2 * pi_err)).
  { replace (r - (a - IZR n * (2 * PI))) with ((r - (a - IZR n * twoPI32)) + (a - IZR n * twoPI32 - (a - IZR n * (2 * PI)))) by ring. eapply Rle_trans; [apply Rabs_triang|lra]. }
  assert (G : Rabs (rsgn r) = 1) by (unfold rsgn; destruct (Rleb _ _); [apply Rabs_R1|]; rewrite Rabs_left; lra).
  split.
  - rewrite <- P1. replace (sinp y - sin (a - IZR n * (2 * PI))) with ((sinp y - sin y) + (sin y - sin (refl r)) + (sin (refl r) - sin r) + (sin r - sin (a - IZR n * (2 * PI)))) by ring.
    pose proof (sinp_err y HY). pose proof (sin_lip y (refl r)). pose proof (refl_sin r). pose proof (sin_lip r (a - IZR n * (2 * PI))).
    eapply Rle_trans; [apply abs4|]. lra.
  - rewrite <- P2. replace (rsgn r * cosp y - cos (a - IZR n * (2 * PI)))
      with (rsgn r * (cosp y - cos y) + rsgn r * (cos y - cos (refl r)) + (rsgn r * cos (refl r) - cos r) + (cos r - cos (a - IZR n * (2 * PI)))) by ring.
    pose proof (cosp_err y HY). pose proof (cos_lip y (refl r)). pose proof (refl_cos r). pose proof (cos_lip r (a - IZR n * (2 * PI))).
    eapply Rle_trans; [apply abs4|]. rewrite !Rabs_mult, G, !Rmult_1_l. lra.
Qed.
(** 1.5e-6 + 1e-7 |a| up to a million radians, 9e-7 on [-XM_PI, XM_PI] *)
Definition sincos_err (a : R) : R := 15 / 10000000 + 1 / 10000000 * Rabs a.
Definition princ_err : R := 9 / 10000000.
Lemma n_bound a n : Rabs a <= amax -> Rabs (a * inv2PI32 - IZR n) <= / 2 + ulp_half * (Rabs a + 1) -> Rabs (IZR n) <= 16 / 100 * Rabs a + 6 / 10.
Proof.
  intros Ha H. replace (IZR n) with (- (a * inv2PI32 - IZR n) + a * inv2PI32) by ring. eapply Rle_trans; [apply Rabs_triang|].
  rewrite Rabs_Ropp, Rabs_mult, (Rabs_pos_eq inv2PI32) by (unfold inv2PI32; lra). pose proof (Rabs_pos a). unfold inv2PI32, ulp_half, amax in *. lra.
Qed.
Lemma lane_sincos fma z a : is32 z a -> Rabs a <= amax -> let m := mod_lane fma z in
  exists r y, word m /\ value m = Fin r /\ value (refl_lane m) = Fin y /\ Rabs y <= halfPI32 /\ f_le (f_abs m) (@XM_PIDIV2 FL) = Rleb (Rabs r) halfPI32 /\
    Rabs (sinp y - sin a) <= sincos_err a - 64 / 100000000 /\ Rabs (rsgn r * cosp y - cos a) <= sincos_err a - 64 / 100000000 /\
    (Rabs a <= PI32 -> Rabs (sinp y - sin a) <= princ_err - 64 / 100000000 /\ Rabs (rsgn r * cosp y - cos a) <= princ_err - 64 / 100000000).
Proof.
  intros I H. destruct (mod_lane_ok fma z a I H) as (n & r & Vr & Wr & Hn & Er & Z0). cbv zeta. exists r.
  destruct (reduced_F a n H Hn) as (RD & _). pose proof (n_bound a n H Hn) as NB. pose proof (Rabs_pos a) as PA.
  assert (RM : Rabs r <= PI32 + halfPI32).
  { replace r with ((r - (a - IZR n * twoPI32)) + (a - IZR n * twoPI32)) by ring. eapply Rle_trans; [apply Rabs_triang|].
    unfold red_err, ulp_half, PI32, halfPI32, amax in *. lra. }
  destruct (refl_lane_ok _ r Wr Vr RM) as (y & Vy & Hy & Ey & C). exists y. split; [exact Wr|]. split; [exact Vr|]. split; [exact Vy|]. split; [exact Hy|]. split; [exact C|].
  destruct (near_sin y r a n _ Ey Hy Er) as (S1 & S2).
  assert (B : poly_err + refl_err + pi_err + red_err a + Rabs (IZR n) * (2 * pi_err) <= sincos_err a - 64 / 100000000).
  { unfold poly_err, refl_err, pi_err, red_err, sincos_err, ulp_half in *. lra. }
  split; [lra|]. split; [lra|]. intros HP. destruct (Z0 HP) as (-> & ->).
  assert (E0 : Rabs (a - (a - 0 * twoPI32)) <= 0) by (replace (a - (a - 0 * twoPI32)) with 0 by ring; rewrite Rabs_R0; lra).
  destruct (near_sin y a a 0 _ Ey Hy E0) as (T1 & T2). rewrite Rabs_R0, Rmult_0_l in T1, T2. unfold poly_err, refl_err, pi_err, princ_err in *. lra.
Qed.
Lemma reflect_lane b V k : b <> Scalar -> lane (fst (@trig_reflect FL b V)) k = refl_lane (mod_lane (fma_of b) (lane V k)) /\
  lane (snd (@trig_reflect FL b V)) k = f_le (f_abs (mod_lane (fma_of b) (lane V k))) (@XM_PIDIV2 FL).
Proof.
  intros H. rewrite <- (modangles_lane b V k H). unfold trig_reflect. generalize (@XMVectorModAngles FL b V). intros X. destruct X, k; split; reflexivity.
Qed.
Lemma within_add e1 e2 z x y : within e1 z x -> Rabs (x - y) <= e2 -> within (e1 + e2) z y.
Proof. intros (r & V & E) H. exists r. split; [exact V|]. replace (r - y) with ((r - x) + (x - y)) by ring. eapply Rle_trans; [apply Rabs_triang|lra]. Qed.
Theorem vector_sincos_F (lm : Libm FL) b V k a : b <> Scalar -> is32 (lane V k) a -> Rabs a <= amax ->
  (within (sincos_err a) (lane (XMVectorSin b V) k) (sin a) /\ within (sincos_err a) (lane (XMVectorCos b V) k) (cos a)) /\
  (Rabs a <= PI32 -> within princ_err (lane (XMVectorSin b V) k) (sin a) /\ within princ_err (lane (XMVectorCos b V) k) (cos a)).
Proof.
  intros Hb I H. destruct (lane_sincos (fma_of b) _ a I H) as (r & y & W & Vr & Vy & Hy & C & S1 & S2 & SP). destruct (reflect_lane b V k Hb) as (R1 & R2).
  assert (ES : XMVectorSin b V = @vsin_poly FL b (fst (@trig_reflect FL b V))) by (destruct b; [congruence|reflexivity]).
  assert (EC : XMVectorCos b V = @vcos_poly FL b (fst (@trig_reflect FL b V)) (vsel vneg_one vone (snd (@trig_reflect FL b V))))
    by (destruct b; [congruence|]; cbn [XMVectorCos]; destruct (@trig_reflect FL _ V); reflexivity).
  apply (eq_trans (f_equal value R1)) in Vy. pose proof (vsin_poly_F b _ k y Vy Hy) as PS. rewrite <- ES in PS.
  assert (VS : value (lane (@vsel FL vneg_one vone (snd (@trig_reflect FL b V))) k) = Fin (rsgn r)).
  { unfold rsgn. rewrite <- (eq_trans R2 C). generalize (snd (@trig_reflect FL b V)). intros q.
    assert (E1 : value (f_lit 1 0) = Fin 1) by exact val_one. assert (E2 : value (f_lit (-1) 0) = Fin (-1)) by (change (f_lit (-1) 0) with (f_of_Z (-1)); apply (of_Z_exact (-1)); lia).
    destruct q as [[] [] [] []], k; (exact E1 || exact E2). }
  assert (SG : rsgn r = 1 \/ rsgn r = -1) by (unfold rsgn; destruct (Rleb _ _); auto).
  pose proof (vcos_poly_F b _ _ k y _ Vy Hy VS SG) as PC. rewrite <- EC in PC.
  split; [split|intros HP; destruct (SP HP); split]; (eapply within_le; [eapply within_add; [eassumption|eassumption]|lra]).
Qed.

(** ** The scalar forms *)
Lemma lt_val' a b x y : value a = Fin x -> value b = Fin y -> f_lt a b = Rltb x y.
Proof.
  intros A B. destruct (Rltb_spec x y) as [H|H].
  - apply f_lt_spec. rewrite A, B. exact H.
  - destruct (f_lt a b) eqn:E; [|reflexivity]. apply f_lt_spec in E. rewrite A, B in E. cbn in E. lra.
Qed.
Lemma trunc32_val z x : value z = Fin x -> Rabs x <= 16777216 -> value (f_of_Z (f_to_i32 z)) = Fin (IZR (Ztrunc x)) /\ (Z.abs (Ztrunc x) <= 2 ^ 24)%Z.
Proof.
  intros V H. assert (B : (Z.abs (Ztrunc x) <= 2 ^ 24)%Z).
  { apply Rabs_le_inv in H. assert (L : (Ztrunc (- (16777216)) <= Ztrunc x)%Z) by (apply Ztrunc_le; lra). assert (U : (Ztrunc x <= Ztrunc 16777216)%Z) by (apply Ztrunc_le; lra).
    change (- (16777216)) with (IZR (-16777216)) in L. rewrite !Ztrunc_IZR in *. lia. }
  split; [|exact B]. rewrite (to_i32_val z x V). replace (clamp (- 2 ^ 31) (2 ^ 31 - 1) (Ztrunc x)) with (Ztrunc x) by (unfold clamp; lia). apply of_Z_exact, B.
Qed.
Definition quot_lane (z : Z) : Z :=
  let q := f_mul (@XM_1DIV2PI FL) z in if f_le (f_lit 0 0) z then f_of_Z (f_to_i32 (f_add q (f_lit 1 (-1)))) else f_of_Z (f_to_i32 (f_sub q (f_lit 1 (-1)))).
Lemma val_half : value (f_lit 1 (-1)) = Fin (/ 2).
Proof. rewrite lit_exact by lia. f_equal. change (bpow radix2 (-1)) with (/ 2). lra. Qed.
Lemma quot_lane_ok z a : is32 z a -> Rabs a <= amax -> exists n, value (quot_lane z) = Fin (IZR n) /\ Rabs (a * inv2PI32 - IZR n) <= / 2 + ulp_half * (Rabs a + 1).
Proof.
  intros (W & V) H. unfold quot_lane. cbv zeta. rewrite f_mul_comm. pose proof (quot_val z a V H) as Q. pose proof (RN_err' (a * inv2PI32)) as E. pose proof (Rabs_pos a) as PA.
  rewrite (le_val _ _ _ _ val_zero V).
  rewrite Rabs_mult, (Rabs_pos_eq inv2PI32) in E by (unfold inv2PI32; lra). set (q := RN (a * inv2PI32)) in *.
  assert (QB : Rabs q <= 2 / 10 * Rabs a + / 1000).
  { replace q with ((q - a * inv2PI32) + a * inv2PI32) by ring. eapply Rle_trans; [apply Rabs_triang|]. rewrite Rabs_mult, (Rabs_pos_eq inv2PI32) by (unfold inv2PI32; lra).
    unfold u24, inv2PI32 in *. lra. }
  assert (G : forall s, s = / 2 \/ s = - / 2 -> (s = / 2 -> 0 <= a) -> (s = - / 2 -> a < 0) -> Rabs (RN (q + s)) < huge /\
    Rabs (RN (q + s)) <= 16777216 /\ Rabs (a * inv2PI32 - IZR (Ztrunc (RN (q + s)))) <= / 2 + ulp_half * (Rabs a + 1)).
  { intros s Hs Sp Sn. assert (AS : Rabs s = / 2) by (destruct Hs; subst s; [apply Rabs_pos_eq|rewrite Rabs_Ropp; apply Rabs_pos_eq]; lra).
    pose proof (RN_err' (q + s)) as E2. pose proof (Rabs_triang q s) as T. rewrite AS in T. set (t := RN (q + s)) in *.
    assert (TB : Rabs t <= 16777216).
    { replace t with ((t - (q + s)) + (q + s)) by ring. eapply Rle_trans; [apply Rabs_triang|]. unfold u24, amax in *. lra. }
    split; [apply small_huge'; unfold amax in *; lra|]. split; [exact TB|].
    assert (F0 : fmt 0) by exact fmt_0.
    assert (TR : Rabs (t - s - IZR (Ztrunc t)) <= / 2).
    { destruct Hs as [Es|Es].
      - assert (A0 : 0 <= a) by (apply Sp, Es). assert (0 <= q) by (unfold q; rewrite <- (RN_fmt 0 F0); apply RN_le; unfold inv2PI32; lra).
        assert (0 <= t) by (unfold t; rewrite <- (RN_fmt 0 F0); apply RN_le; lra). destruct (trunc_bounds t) as [[X Y] Z]; [lra|]. apply Rabs_le. lra.
      - assert (A0 : a < 0) by (apply Sn, Es). assert (q <= 0) by (unfold q; rewrite <- (RN_fmt 0 F0); apply RN_le; unfold inv2PI32; lra).
        assert (t <= 0) by (unfold t; rewrite <- (RN_fmt 0 F0); apply RN_le; lra). destruct (trunc_bounds (- t)) as [[X Y] Z]; [lra|]. rewrite Ztrunc_opp, opp_IZR in *. apply Rabs_le. lra. }
    replace (a * inv2PI32 - IZR (Ztrunc t)) with (- (q - a * inv2PI32) + - (t - (q + s)) + (t - s - IZR (Ztrunc t)) + 0) by ring.
    eapply Rle_trans; [apply abs4|]. rewrite !Rabs_Ropp, Rabs_R0. unfold u24, ulp_half, inv2PI32, amax in *. lra. }
  destruct (Rleb_spec 0 a) as [A0|A0].
  - destruct (G (/ 2)) as (G1 & G2 & G3); [lra|lra|lra|]. exists (Ztrunc (RN (q + / 2))). split; [|exact G3].
    apply (trunc32_val _ _ (add_val _ _ _ _ Q val_half G1) G2).
  - destruct (G (- / 2)) as (G1 & G2 & G3); [lra|lra|lra|]. exists (Ztrunc (RN (q + - / 2))). split; [|exact G3].
    apply (trunc32_val _ _ (sub_val _ _ _ _ Q val_half G1) G2).
Qed.
Lemma scalar_refl z r : word z -> value z = Fin r -> Rabs r <= PI32 + halfPI32 ->
  exists y s, (if f_lt (@XM_PIDIV2 FL) z then (f_sub (@XM_PI FL) z, f_lit (-1) 0) else if f_lt z (f_neg (@XM_PIDIV2 FL)) then (f_sub (f_neg (@XM_PI FL)) z, f_lit (-1) 0) else (z, f_lit 1 0)) = (y, s) /\
    exists y', value y = Fin y' /\ Rabs y' <= halfPI32 /\ Rabs (y' - refl r) <= refl_err /\ value s = Fin (rsgn r).
Proof.
  intros W V H. destruct (refl_lane_ok z r W V H) as (y' & Vy & Hy & Ey & C). unfold refl_lane in Vy. rewrite C in Vy. clear C.
  assert (VN : value (f_neg (@XM_PIDIV2 FL)) = Fin (- halfPI32)) by (apply neg_val; [apply enc_word|exact val_PIDIV2]).
  assert (Vm : value (f_lit (-1) 0) = Fin (-1)) by (change (f_lit (-1) 0) with (f_of_Z (-1)); apply (of_Z_exact (-1)); lia).
  rewrite (lt_val' _ _ _ _ val_PIDIV2 V), (lt_val' _ _ _ _ V VN). unfold rsgn.
  destruct (Rleb_spec (Rabs r) halfPI32) as [L|L].
  - apply Rabs_le_inv in L. destruct (Rltb_spec halfPI32 r); [lra|]. destruct (Rltb_spec r (- halfPI32)); [lra|].
    exists z, (f_lit 1 0). split; [reflexivity|]. exists y'. split; [exact Vy|]. split; [exact Hy|]. split; [exact Ey|exact val_one].
  - assert (N : r <> 0) by (intros ->; rewrite Rabs_R0 in L; unfold halfPI32 in L; lra). rewrite (sgn_val z r W V N) in Vy.
    assert (HP : 0 < halfPI32) by (unfold halfPI32; lra).
    destruct (Rltb_spec r 0) as [S|S].
    + rewrite Rabs_left in L by lra. destruct (Rltb_spec halfPI32 r); [lra|]. destruct (Rltb_spec r (- halfPI32)); [|lra].
      do 2 eexists. split; [reflexivity|]. exists y'. split; [exact Vy|]. split; [exact Hy|]. split; [exact Ey|exact Vm].
    + rewrite Rabs_pos_eq in L by lra. destruct (Rltb_spec halfPI32 r); [|lra].
      do 2 eexists. split; [reflexivity|]. exists y'. split; [exact Vy|]. split; [exact Hy|]. split; [exact Ey|exact Vm].
Qed.
Lemma mul_sgn z x s r : within (480 / 1000000000) z x -> Rabs x <= 1 + / 1000000 -> value s = Fin r -> r = 1 \/ r = -1 -> within (64 / 100000000) (f_mul s z) (r * x).
Proof.
  intros (v & V & E) H VS R. assert (RA : Rabs r = 1) by (destruct R; subst r; [apply Rabs_R1|rewrite Rabs_left; lra]).
  assert (VB : Rabs v <= 2) by (replace v with ((v - x) + x) by ring; eapply Rle_trans; [apply Rabs_triang|lra]).
  assert (FV : fmt (r * v)).
  { destruct (value_fmt _ _ V) as (F & _). destruct R; subst r; [rewrite Rmult_1_l; exact F|]. replace (-1 * v) with (- v) by ring. apply fmt_opp, F. }
  exists (r * v). split; [apply mul_exact; [exact VS|exact V|exact FV|]|].
  - rewrite Rabs_mult, RA, Rmult_1_l. apply (value_fmt _ _ V).
  - replace (r * v - r * x) with (r * (v - x)) by ring. rewrite Rabs_mult, RA, Rmult_1_l. lra.
Qed.
Theorem scalar_sincos_F z a : is32 z a -> Rabs a <= amax ->
  within (sincos_err a) (@XMScalarSin FL z) (sin a) /\ within (sincos_err a) (@XMScalarCos FL z) (cos a).
Proof.
  intros I H. destruct (quot_lane_ok z a I H) as (n & Vn & Hn). pose proof (n_bound a n H Hn) as NB. destruct (reduced_F a n H Hn) as (RD & _).
  assert (Wq : word (quot_lane z)) by (unfold quot_lane; cbv zeta; destruct (f_le _ _); apply enc_word).
  destruct (periods_F false z _ a n I H Wq Vn Hn) as (r & Vr & Er & _). cbv iota in Vr. rewrite f_mul_comm in Vr. pose proof (Rabs_pos a) as PA.
  assert (RM : Rabs r <= PI32 + halfPI32).
  { replace r with ((r - (a - IZR n * twoPI32)) + (a - IZR n * twoPI32)) by ring. eapply Rle_trans; [apply Rabs_triang|].
    unfold red_err, ulp_half, PI32, halfPI32, amax in *. lra. }
  destruct (scalar_refl _ r (enc_word _) Vr RM) as (y & s & E & y' & Vy & Hy & Ey & Vs).
  assert (SR : @scalar_reduce FL z = (y, s)) by (rewrite <- E; unfold quot_lane; reflexivity).
  destruct (near_sin y' r a n _ Ey Hy Er) as (S1 & S2).
  assert (B : poly_err + refl_err + pi_err + red_err a + Rabs (IZR n) * (2 * pi_err) <= sincos_err a - 64 / 100000000).
  { unfold poly_err, refl_err, pi_err, red_err, sincos_err, ulp_half in *. lra. }
  assert (SG : rsgn r = 1 \/ rsgn r = -1) by (unfold rsgn; destruct (Rleb _ _); auto).
  split.
  - unfold XMScalarSin. rewrite SR. cbn [fst]. eapply within_le; [eapply within_add; [apply sin_poly_F; eassumption|exact S1]|lra].
  - unfold XMScalarCos. rewrite SR. cbn [fst snd]. cbv zeta. eapply within_le; [eapply within_add; [|exact S2]|].
    + apply mul_sgn; [apply cos_poly_F; eassumption| |exact Vs|exact SG]. pose proof (cosp_err y' Hy) as CE. pose proof (COS_bound y'). unfold poly_err in CE.
      apply Rabs_le_inv in CE. apply Rabs_le. lra.
    + lra.
Qed.
