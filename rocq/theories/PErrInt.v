(** Rounding errors of the interpolation forms, of reflection and of the decomposition along a normal, on bit patterns. *)
From Coq Require Import Reals Lra Lia ZArith Bool.
From Flocq Require Import Core Relative IEEE754.BinarySingleNaN.
From Verif Require Import Base F32 F32Facts Intrin Lane MVec MTrig MQuat MInterp MMatrix SpecF32 PF32 SpecRound PFloat PExp SpecGeom SpecMat SpecErr SpecErrR PErr PErrVec PErrMat PFix PErrR PErrDet.
Open Scope R_scope.
Local Opaque f_add f_sub f_mul f_div f_sqrt f_fma f_lit f_neg f_eq f_lt.

Lemma scale1_facts S : 1 <= S <= pow2 100 -> 1 <= S /\ 1024 * S <= big /\ 0 < eta /\ eta <= eta * S /\ eta * S <= / 1000000000.
Proof.
  intros (H1 & H2). pose proof eta_pos as E0. change (pow2 100) with (bpow radix2 100) in H2.
  assert (EQ : eta * S <= eta * bpow radix2 100) by (apply Rmult_le_compat_l; lra).
  assert (E60 : eta * bpow radix2 100 <= / 1000000000).
  { rewrite <- tiny_eta. unfold tiny. change (pow2 (-150)) with (bpow radix2 (-150)). rewrite <- bpow_plus. change (-150 + 100)%Z with (-50)%Z.
    apply Rle_trans with (bpow radix2 (-30)); [apply bpow_le; lia|]. change (bpow radix2 (-30)) with (/ 1073741824). lra. }
  assert (BB : 1024 * bpow radix2 100 <= big). { change 1024 with (bpow radix2 10). rewrite <- bpow_plus. apply bpow_le. lia. }
  assert (eta <= eta * S) by (replace eta with (eta * 1) at 1 by ring; apply Rmult_le_compat_l; lra).
  repeat split; lra.
Qed.

Lemma val_half : value (f_lit 1 (-1)) = Fin (/ 2).
Proof. rewrite lit_exact by lia. f_equal. change (bpow radix2 (-1)) with (/ 2). lra. Qed.
Lemma val_2 : value (f_lit 2 0) = Fin 2. Proof. change (f_lit 2 0) with (f_of_Z 2). apply (of_Z_exact 2). lia. Qed.
Lemma val_m2 : value (f_lit (-2) 0) = Fin (-2). Proof. change (f_lit (-2) 0) with (f_of_Z (-2)). apply (of_Z_exact (-2)). lia. Qed.
Lemma val_3 : value (f_lit 3 0) = Fin 3. Proof. change (f_lit 3 0) with (f_of_Z 3). apply (of_Z_exact 3). lia. Qed.
Lemma val_m3 : value (f_lit (-3) 0) = Fin (-3). Proof. change (f_lit (-3) 0) with (f_of_Z (-3)). apply (of_Z_exact (-3)). lia. Qed.
Lemma val_4 : value (f_lit 4 0) = Fin 4. Proof. change (f_lit 4 0) with (f_of_Z 4). apply (of_Z_exact 4). lia. Qed.
Lemma val_5 : value (f_lit 5 0) = Fin 5. Proof. change (f_lit 5 0) with (f_of_Z 5). apply (of_Z_exact 5). lia. Qed.
Lemma ab_half : Rabs (/ 2) = / 2. Proof. apply Rabs_pos_eq. lra. Qed.
Lemma ab_2 : Rabs 2 = 2. Proof. apply Rabs_pos_eq. lra. Qed.
Lemma ab_m2 : Rabs (-2) = 2. Proof. rewrite Rabs_left; lra. Qed.
Lemma ab_m1 : Rabs (-1) = 1. Proof. rewrite Rabs_left; lra. Qed.
Lemma ab_3 : Rabs 3 = 3. Proof. apply Rabs_pos_eq. lra. Qed.
Lemma ab_m3 : Rabs (-3) = 3. Proof. rewrite Rabs_left; lra. Qed.
Lemma ab_4 : Rabs 4 = 4. Proof. apply Rabs_pos_eq. lra. Qed.
Lemma ab_5 : Rabs 5 = 5. Proof. apply Rabs_pos_eq. lra. Qed.
Ltac consts := pose proof val_half as C0; pose proof val_one as C1; pose proof val_2 as C2; pose proof val_m2 as C3; pose proof val_3 as C4; pose proof val_m3 as C5; pose proof val_4 as C6; pose proof val_5 as C7;
  pose proof val_mone as C8; pose proof (word_lit 2 0) as D0; pose proof (word_lit 3 0) as D1;
  pose proof (Req_le _ _ ab_half) as B0; pose proof (Req_le _ _ Rabs_R1) as B1; pose proof (Req_le _ _ ab_2) as B2; pose proof (Req_le _ _ ab_m2) as B3; pose proof (Req_le _ _ ab_3) as B4;
  pose proof (Req_le _ _ ab_m3) as B5; pose proof (Req_le _ _ ab_4) as B6; pose proof (Req_le _ _ ab_5) as B7; pose proof (Req_le _ _ ab_m1) as B8.
Ltac hidec := try (set (h0 := f_lit 2 0) in *; clearbody h0); try (set (h1 := f_lit 3 0) in *; clearbody h1); try (set (h2 := f_lit 4 0) in *; clearbody h2); try (set (h3 := f_lit 5 0) in *; clearbody h3);
  try (set (h4 := f_lit 1 (-1)) in *; clearbody h4); try (set (h5 := f_lit (-2) 0) in *; clearbody h5); try (set (h6 := f_lit (-3) 0) in *; clearbody h6).
Ltac flx := flm; cbv beta iota zeta delta [three four five mone mask_y IdR0 vand FMADD FNMADD catmull_lane]; flm.
Ltac abss := rewrite ?Rabs_mult, ?Rabs_Ropp, ?Rabs_mult, ?ab_half, ?Rabs_R1, ?ab_2, ?ab_m2, ?ab_3, ?ab_m3, ?ab_4, ?ab_5, ?ab_m1.
Ltac rfix := eapply r_fin; [rbt; sside|first [ring | field]|right; abss; first [ring | field]|kside|rewrite ?tiny_eta; lra].
Lemma bary_err b P0 P1 P2 zf zg p0 p1 p2 f g i S : is32 (lane P0 i) p0 -> is32 (lane P1 i) p1 -> is32 (lane P2 i) p2 -> is32 zf f -> is32 zg g ->
  1 <= S <= pow2 100 -> Rabs p0 <= S -> Rabs p1 <= S -> Rabs p2 <= S -> Rabs f <= 1 -> Rabs g <= 1 ->
  within (5 * ulp_half * (Rabs p0 + Rabs f * (Rabs p1 + Rabs p0) + Rabs g * (Rabs p2 + Rabs p0)) + 20 * tiny)
    (lane (XMVectorBaryCentric b P0 P1 P2 zf zg) i) (p0 + f * (p1 - p0) + g * (p2 - p0)).
Proof.
  intros (W0 & V0) (W1 & V1) (W2 & V2) (W3 & V3) (W4 & V4) HS U0 U1 U2 U3 U4. apply scale1_facts in HS. destruct HS as (S1 & S2 & E0 & E1 & E2). assert (BP := big_pos).
  destruct P0 as [a0 a1 a2 a3], P1 as [b0 b1 b2 b3], P2 as [c0 c1 c2 c3].
  destruct b as [|s3 s4 [|] av]; destruct i; cbv beta iota zeta delta [XMVectorBaryCentric]; flx; cbn [lane qx qy qz qw] in *; rfix.
Qed.
Lemma baryV_err b P0 P1 P2 F G p0 p1 p2 f g i S : is32 (lane P0 i) p0 -> is32 (lane P1 i) p1 -> is32 (lane P2 i) p2 -> is32 (lane F i) f -> is32 (lane G i) g ->
  1 <= S <= pow2 100 -> Rabs p0 <= S -> Rabs p1 <= S -> Rabs p2 <= S -> Rabs f <= 1 -> Rabs g <= 1 ->
  within (5 * ulp_half * (Rabs p0 + Rabs f * (Rabs p1 + Rabs p0) + Rabs g * (Rabs p2 + Rabs p0)) + 20 * tiny)
    (lane (XMVectorBaryCentricV b P0 P1 P2 F G) i) (p0 + f * (p1 - p0) + g * (p2 - p0)).
Proof.
  intros (W0 & V0) (W1 & V1) (W2 & V2) (W3 & V3) (W4 & V4) HS U0 U1 U2 U3 U4. apply scale1_facts in HS. destruct HS as (S1 & S2 & E0 & E1 & E2). assert (BP := big_pos).
  destruct P0 as [a0 a1 a2 a3], P1 as [b0 b1 b2 b3], P2 as [c0 c1 c2 c3], F as [f0 f1 f2 f3], G as [g0 g1 g2 g3].
  destruct b as [|s3 s4 [|] av]; destruct i; cbv beta iota zeta delta [XMVectorBaryCentricV]; flx; cbn [lane qx qy qz qw] in *; rfix.
Qed.

Ltac rwk := eapply r_weak; [rbt; sside|ring|abss; ring|split; kside|split; lra|split; lra].
(** the four Hermite coefficients; the terms may be fused or not *)
Lemma hcoef zt t : is32 zt t -> Rabs t <= 1 ->
  bdr 6 (40 * eta) 6 (f_add (f_sub (f_mul (f_lit 2 0) (f_mul zt (f_mul zt zt))) (f_mul (f_lit 3 0) (f_mul zt zt))) (f_lit 1 0)) (2 * (t * t * t) - 3 * (t * t) + 1) (2 * (Rabs t * Rabs t * Rabs t) + 3 * (Rabs t * Rabs t) + 1)
  /\ bdr 6 (40 * eta) 4 (f_add (f_sub (f_mul zt (f_mul zt zt)) (f_mul (f_lit 2 0) (f_mul zt zt))) zt) (t * t * t - 2 * (t * t) + t) (Rabs t * Rabs t * Rabs t + 2 * (Rabs t * Rabs t) + Rabs t)
  /\ bdr 6 (40 * eta) 5 (f_add (f_mul (f_neg (f_lit 2 0)) (f_mul zt (f_mul zt zt))) (f_mul (f_lit 3 0) (f_mul zt zt))) (- 2 * (t * t * t) + 3 * (t * t)) (2 * (Rabs t * Rabs t * Rabs t) + 3 * (Rabs t * Rabs t))
  /\ bdr 6 (40 * eta) 2 (f_sub (f_mul zt (f_mul zt zt)) (f_mul zt zt)) (t * t * t - t * t) (Rabs t * Rabs t * Rabs t + Rabs t * Rabs t).
Proof.
  intros (W4 & V4) U4. pose proof eta_pos as E0. pose proof eta_small as E1. assert (BP := big_pos). consts. split; [|split; [|split]].
  - rwk.
  - rwk.
  - rwk.
  - rwk.
Qed.
Lemma hermite_err b P0 T0 P1 T1 zt p0 t0 p1 t1 t i S : is32 (lane P0 i) p0 -> is32 (lane T0 i) t0 -> is32 (lane P1 i) p1 -> is32 (lane T1 i) t1 -> is32 zt t ->
  1 <= S <= pow2 100 -> Rabs p0 <= S -> Rabs t0 <= S -> Rabs p1 <= S -> Rabs t1 <= S -> Rabs t <= 1 ->
  within (12 * ulp_half * hermite_size (Rabs p0) (Rabs t0) (Rabs p1) (Rabs t1) (Rabs t) + 200 * S * tiny)
    (lane (XMVectorHermite b P0 T0 P1 T1 zt) i) (hermite p0 t0 p1 t1 t).
Proof.
  intros (W0 & V0) (W1 & V1) (W2 & V2) (W3 & V3) Ht HS U0 U1 U2 U3 U4. apply scale1_facts in HS. destruct HS as (S1 & S2 & E0 & E1 & E2). assert (BP := big_pos).
  destruct (hcoef zt t Ht U4) as (K0 & K1 & K2 & K3).
  destruct P0 as [a0 a1 a2 a3], P1 as [b0 b1 b2 b3], T0 as [c0 c1 c2 c3], T1 as [d0 d1 d2 d3]. unfold hermite, hermite_size.
  destruct b as [|s3 s4 [|] av]; cbv beta iota zeta delta [XMVectorHermite]; flx;
  set (h0 := f_add (f_sub (f_mul (f_lit 2 0) _) _) _) in *; set (h1 := f_add (f_sub (f_mul zt _) _) _) in *; set (h2 := f_add (f_mul (f_neg _) _) _) in *; set (h3 := f_sub _ (f_mul zt zt)) in *;
  clearbody h0 h1 h2 h3; destruct i; cbn [lane qx qy qz qw] in *; rfix.
Qed.
(** ** Catmull-Rom, scalar parameter *)
Lemma ccoef zt t : is32 zt t -> Rabs t <= 1 ->
  bdr 8 (40 * eta) 2 (f_mul (f_sub (f_add (f_neg (f_mul zt (f_mul zt zt))) (f_mul (f_lit 2 0) (f_mul zt zt))) zt) (f_lit 1 (-1))) ((- (t * t * t) + 2 * (t * t) - t) / 2) ((Rabs t * Rabs t * Rabs t + 2 * (Rabs t * Rabs t) + Rabs t) / 2)
  /\ bdr 8 (40 * eta) 5 (f_mul (f_add (f_sub (f_mul (f_lit 3 0) (f_mul zt (f_mul zt zt))) (f_mul (f_lit 5 0) (f_mul zt zt))) (f_lit 2 0)) (f_lit 1 (-1))) ((3 * (t * t * t) - 5 * (t * t) + 2) / 2) ((3 * (Rabs t * Rabs t * Rabs t) + 5 * (Rabs t * Rabs t) + 2) / 2)
  /\ bdr 8 (40 * eta) 4 (f_mul (f_add (f_add (f_mul (f_neg (f_lit 3 0)) (f_mul zt (f_mul zt zt))) (f_mul (f_lit 4 0) (f_mul zt zt))) zt) (f_lit 1 (-1))) ((- 3 * (t * t * t) + 4 * (t * t) + t) / 2) ((3 * (Rabs t * Rabs t * Rabs t) + 4 * (Rabs t * Rabs t) + Rabs t) / 2)
  /\ bdr 8 (40 * eta) 1 (f_mul (f_sub (f_mul zt (f_mul zt zt)) (f_mul zt zt)) (f_lit 1 (-1))) ((t * t * t - t * t) / 2) ((Rabs t * Rabs t * Rabs t + Rabs t * Rabs t) / 2).
Proof.
  intros (W4 & V4) U4. pose proof eta_pos as E0. pose proof eta_small as E1. assert (BP := big_pos). consts.
  split; [|split; [|split]]; (eapply r_weak; [rbt; sside|field|abss; field|split; kside|split; lra|split; lra]).
Qed.
Lemma catmull_err b P0 P1 P2 P3 zt p0 p1 p2 p3 t i S : is32 (lane P0 i) p0 -> is32 (lane P1 i) p1 -> is32 (lane P2 i) p2 -> is32 (lane P3 i) p3 -> is32 zt t ->
  1 <= S <= pow2 100 -> Rabs p0 <= S -> Rabs p1 <= S -> Rabs p2 <= S -> Rabs p3 <= S -> Rabs t <= 1 ->
  within (14 * ulp_half * catmull_size (Rabs p0) (Rabs p1) (Rabs p2) (Rabs p3) (Rabs t) + 200 * S * tiny)
    (lane (XMVectorCatmullRom b P0 P1 P2 P3 zt) i) (catmull p0 p1 p2 p3 t).
Proof.
  intros (W0 & V0) (W1 & V1) (W2 & V2) (W3 & V3) Ht HS U0 U1 U2 U3 U4. apply scale1_facts in HS. destruct HS as (S1 & S2 & E0 & E1 & E2). assert (BP := big_pos).
  destruct (ccoef zt t Ht U4) as (K0 & K1 & K2 & K3).
  destruct P0 as [a0 a1 a2 a3], P1 as [b0 b1 b2 b3], P2 as [c0 c1 c2 c3], P3 as [d0 d1 d2 d3]. unfold catmull, catmull_size.
  destruct b as [|s3 s4 [|] av]; cbv beta iota zeta delta [XMVectorCatmullRom]; flx;
  set (h0 := f_mul (f_sub (f_add _ _) _) _) in *; set (h1 := f_mul (f_add (f_sub _ _) _) _) in *; set (h2 := f_mul (f_add (f_add _ _) _) _) in *; set (h3 := f_mul (f_sub _ _) _) in *;
  clearbody h0 h1 h2 h3; destruct i; cbn [lane qx qy qz qw] in *; rfix.
Qed.
(** ** Catmull-Rom, one parameter per lane: the coefficients before halving, in the portable and the vector order *)
Lemma ccoefV zt t : is32 zt t -> Rabs t <= 1 ->
  (bdr 8 (40 * eta) 4 (f_sub (f_add (f_mul (f_mul (f_neg zt) zt) zt) (f_mul (f_mul (f_lit 2 0) zt) zt)) zt) (- (t * t * t) + 2 * (t * t) - t) (Rabs t * Rabs t * Rabs t + 2 * (Rabs t * Rabs t) + Rabs t)
  /\ bdr 8 (40 * eta) 10 (f_add (f_sub (f_mul (f_mul (f_mul (f_lit 3 0) zt) zt) zt) (f_mul (f_mul (f_lit 5 0) zt) zt)) (f_lit 2 0)) (3 * (t * t * t) - 5 * (t * t) + 2) (3 * (Rabs t * Rabs t * Rabs t) + 5 * (Rabs t * Rabs t) + 2)
  /\ bdr 8 (40 * eta) 8 (f_add (f_add (f_mul (f_mul (f_mul (f_neg (f_lit 3 0)) zt) zt) zt) (f_mul (f_mul (f_lit 4 0) zt) zt)) zt) (- 3 * (t * t * t) + 4 * (t * t) + t) (3 * (Rabs t * Rabs t * Rabs t) + 4 * (Rabs t * Rabs t) + Rabs t)
  /\ bdr 8 (40 * eta) 2 (f_sub (f_mul (f_mul zt zt) zt) (f_mul zt zt)) (t * t * t - t * t) (Rabs t * Rabs t * Rabs t + Rabs t * Rabs t))
  /\ bdr 8 (40 * eta) 4 (f_sub (f_sub (f_add (f_mul zt zt) (f_mul zt zt)) zt) (f_mul zt (f_mul zt zt))) (- (t * t * t) + 2 * (t * t) - t) (Rabs t * Rabs t * Rabs t + 2 * (Rabs t * Rabs t) + Rabs t)
  /\ bdr 8 (40 * eta) 2 (f_sub (f_mul zt (f_mul zt zt)) (f_mul zt zt)) (t * t * t - t * t) (Rabs t * Rabs t * Rabs t + Rabs t * Rabs t)
  /\ (bdr 8 (40 * eta) 10 (f_add (f_sub (f_mul (f_mul zt (f_mul zt zt)) (f_lit 3 0)) (f_mul (f_mul zt zt) (f_lit 5 0))) (f_lit 2 0)) (3 * (t * t * t) - 5 * (t * t) + 2) (3 * (Rabs t * Rabs t * Rabs t) + 5 * (Rabs t * Rabs t) + 2)
  /\ bdr 8 (40 * eta) 8 (f_add (f_sub (f_mul (f_mul zt zt) (f_lit 4 0)) (f_mul (f_mul zt (f_mul zt zt)) (f_lit 3 0))) zt) (- 3 * (t * t * t) + 4 * (t * t) + t) (3 * (Rabs t * Rabs t * Rabs t) + 4 * (Rabs t * Rabs t) + Rabs t)).
Proof.
  intros (W4 & V4) U4. pose proof eta_pos as E0. pose proof eta_small as E1. assert (BP := big_pos). consts.
  repeat match goal with |- _ /\ _ => split end; (eapply r_weak; [rbt; sside|ring|abss; ring|split; kside|split; lra|split; lra]).
Qed.
Lemma ccoefV_fused zt t : is32 zt t -> Rabs t <= 1 ->
  bdr 8 (40 * eta) 10 (f_add (f_fma (f_neg (f_mul zt zt)) (f_lit 5 0) (f_mul (f_mul zt (f_mul zt zt)) (f_lit 3 0))) (f_lit 2 0)) (3 * (t * t * t) - 5 * (t * t) + 2) (3 * (Rabs t * Rabs t * Rabs t) + 5 * (Rabs t * Rabs t) + 2)
  /\ bdr 8 (40 * eta) 8 (f_add (f_fma (f_neg (f_mul zt (f_mul zt zt))) (f_lit 3 0) (f_mul (f_mul zt zt) (f_lit 4 0))) zt) (- 3 * (t * t * t) + 4 * (t * t) + t) (3 * (Rabs t * Rabs t * Rabs t) + 4 * (Rabs t * Rabs t) + Rabs t).
Proof.
  intros (W4 & V4) U4. pose proof eta_pos as E0. pose proof eta_small as E1. assert (BP := big_pos). consts.
  repeat match goal with |- _ /\ _ => split end; (eapply r_weak; [rbt; sside|ring|abss; ring|split; kside|split; lra|split; lra]).
Qed.
Lemma catmullV_err b P0 P1 P2 P3 T p0 p1 p2 p3 t i S : is32 (lane P0 i) p0 -> is32 (lane P1 i) p1 -> is32 (lane P2 i) p2 -> is32 (lane P3 i) p3 -> is32 (lane T i) t ->
  1 <= S <= pow2 100 -> Rabs p0 <= S -> Rabs p1 <= S -> Rabs p2 <= S -> Rabs p3 <= S -> Rabs t <= 1 ->
  within (14 * ulp_half * catmull_size (Rabs p0) (Rabs p1) (Rabs p2) (Rabs p3) (Rabs t) + 200 * S * tiny)
    (lane (XMVectorCatmullRomV b P0 P1 P2 P3 T) i) (catmull p0 p1 p2 p3 t).
Proof.
  intros (W0 & V0) (W1 & V1) (W2 & V2) (W3 & V3) Ht HS U0 U1 U2 U3 U4. apply scale1_facts in HS. destruct HS as (S1 & S2 & E0 & E1 & E2). assert (BP := big_pos).
  destruct (ccoefV _ t Ht U4) as ((K0 & K1 & K2 & K3) & K4 & K5 & K6 & K7). destruct (ccoefV_fused _ t Ht U4) as (K8 & K9). clear Ht.
  pose proof val_half as C0. pose proof (Req_le _ _ ab_half) as B0.
  destruct P0 as [a0 a1 a2 a3], P1 as [b0 b1 b2 b3], P2 as [c0 c1 c2 c3], P3 as [d0 d1 d2 d3], T as [y0 y1 y2 y3]. unfold catmull, catmull_size.
  destruct b as [|s3 s4 [|] av]; cbv beta iota zeta delta [XMVectorCatmullRomV]; flx; destruct i; cbn [lane qx qy qz qw] in *.
  1-4: match type of K0 with bdr _ _ _ ?z _ _ => set (h0 := z) in * end; match type of K1 with bdr _ _ _ ?z _ _ => set (h1 := z) in * end; match type of K2 with bdr _ _ _ ?z _ _ => set (h2 := z) in * end; match type of K3 with bdr _ _ _ ?z _ _ => set (h3 := z) in * end;
    clearbody h0 h1 h2 h3; clear K4 K5 K6 K7 K8 K9; set (hh := f_lit 1 (-1)) in *; clearbody hh; rfix.
  1-4: match type of K4 with bdr _ _ _ ?z _ _ => set (h0 := z) in * end; match type of K8 with bdr _ _ _ ?z _ _ => set (h1 := z) in * end; match type of K9 with bdr _ _ _ ?z _ _ => set (h2 := z) in * end; match type of K5 with bdr _ _ _ ?z _ _ => set (h3 := z) in * end;
    clearbody h0 h1 h2 h3; clear K0 K1 K2 K3 K6 K7; set (hh := f_lit 1 (-1)) in *; clearbody hh; rfix.
  all: match type of K4 with bdr _ _ _ ?z _ _ => set (h0 := z) in * end; match type of K6 with bdr _ _ _ ?z _ _ => set (h1 := z) in * end; match type of K7 with bdr _ _ _ ?z _ _ => set (h2 := z) in * end; match type of K5 with bdr _ _ _ ?z _ _ => set (h3 := z) in * end;
    clearbody h0 h1 h2 h3; clear K0 K1 K2 K3 K8 K9; set (hh := f_lit 1 (-1)) in *; clearbody hh; rfix.
Qed.
(** ** Hermite, one parameter per coefficient: lane x of [T] gives the first coefficient, and so on *)
Lemma hcoefV zt t : is32 zt t -> Rabs t <= 1 ->
  (bdr 8 (40 * eta) 6 (f_add (f_add (f_add (f_mul (f_mul zt (f_mul zt zt)) (f_lit 2 0)) (f_mul (f_mul zt zt) (f_lit (-3) 0))) (f_lit 0 0)) (f_lit 1 0)) (2 * (t * t * t) - 3 * (t * t) + 1) (2 * (Rabs t * Rabs t * Rabs t) + 3 * (Rabs t * Rabs t) + 1)
  /\ bdr 8 (40 * eta) 4 (f_add (f_add (f_add (f_mul (f_mul zt (f_mul zt zt)) (f_lit 1 0)) (f_mul (f_mul zt zt) (f_lit (-2) 0))) zt) (f_lit 0 0)) (t * t * t - 2 * (t * t) + t) (Rabs t * Rabs t * Rabs t + 2 * (Rabs t * Rabs t) + Rabs t)
  /\ bdr 8 (40 * eta) 5 (f_add (f_add (f_add (f_mul (f_mul zt (f_mul zt zt)) (f_lit (-2) 0)) (f_mul (f_mul zt zt) (f_lit 3 0))) (f_lit 0 0)) (f_lit 0 0)) (- 2 * (t * t * t) + 3 * (t * t)) (2 * (Rabs t * Rabs t * Rabs t) + 3 * (Rabs t * Rabs t))
  /\ bdr 8 (40 * eta) 2 (f_add (f_add (f_add (f_mul (f_mul zt (f_mul zt zt)) (f_lit 1 0)) (f_mul (f_mul zt zt) (f_lit (-1) 0))) (f_lit 0 0)) (f_lit 0 0)) (t * t * t - t * t) (Rabs t * Rabs t * Rabs t + Rabs t * Rabs t))
  /\ (bdr 8 (40 * eta) 6 (f_add (f_add (f_fma (f_mul zt (f_mul zt zt)) (f_lit 2 0) (f_mul (f_mul zt zt) (f_lit (-3) 0))) (f_lit 0 0)) (f_lit 1 0)) (2 * (t * t * t) - 3 * (t * t) + 1) (2 * (Rabs t * Rabs t * Rabs t) + 3 * (Rabs t * Rabs t) + 1)
  /\ bdr 8 (40 * eta) 4 (f_add (f_add (f_fma (f_mul zt (f_mul zt zt)) (f_lit 1 0) (f_mul (f_mul zt zt) (f_lit (-2) 0))) zt) (f_lit 0 0)) (t * t * t - 2 * (t * t) + t) (Rabs t * Rabs t * Rabs t + 2 * (Rabs t * Rabs t) + Rabs t)
  /\ bdr 8 (40 * eta) 5 (f_add (f_add (f_fma (f_mul zt (f_mul zt zt)) (f_lit (-2) 0) (f_mul (f_mul zt zt) (f_lit 3 0))) (f_lit 0 0)) (f_lit 0 0)) (- 2 * (t * t * t) + 3 * (t * t)) (2 * (Rabs t * Rabs t * Rabs t) + 3 * (Rabs t * Rabs t))
  /\ bdr 8 (40 * eta) 2 (f_add (f_add (f_fma (f_mul zt (f_mul zt zt)) (f_lit 1 0) (f_mul (f_mul zt zt) (f_lit (-1) 0))) (f_lit 0 0)) (f_lit 0 0)) (t * t * t - t * t) (Rabs t * Rabs t * Rabs t + Rabs t * Rabs t)).
Proof.
  intros (W4 & V4) U4. pose proof eta_pos as E0. pose proof eta_small as E1. assert (BP := big_pos). consts.
  repeat match goal with |- _ /\ _ => split end; (eapply r_weak; [rbt; sside|ring|abss; ring|split; kside|split; lra|split; lra]).
Qed.
Lemma hermiteV_err b P0 T0 P1 T1 T p0 t0 p1 t1 t i S : is32 (lane P0 i) p0 -> is32 (lane T0 i) t0 -> is32 (lane P1 i) p1 -> is32 (lane T1 i) t1 -> holds4 T t ->
  1 <= S <= pow2 100 -> Rabs p0 <= S -> Rabs t0 <= S -> Rabs p1 <= S -> Rabs t1 <= S -> bounded 1 t ->
  within (14 * ulp_half * hermite4_size (Rabs p0) (Rabs t0) (Rabs p1) (Rabs t1) (vabs t) + 200 * S * tiny)
    (lane (XMVectorHermiteV b P0 T0 P1 T1 T) i) (hermite4 p0 t0 p1 t1 t).
Proof.
  intros (W0 & V0) (W1 & V1) (W2 & V2) (W3 & V3) (Hx & Hy & Hz & Hw) HS U0 U1 U2 U3 U4. apply scale1_facts in HS. destruct HS as (S1 & S2 & E0 & E1 & E2). assert (BP := big_pos).
  pose proof (U4 I0) as Ux. pose proof (U4 I1) as Uy. pose proof (U4 I2) as Uz. pose proof (U4 I3) as Uw. clear U4. destruct t as [x0 x1 x2 x3], T as [y0 y1 y2 y3]. cbn [lane qx qy qz qw] in *.
  destruct (hcoef _ _ Hx Ux) as (K0 & _). destruct (hcoef _ _ Hy Uy) as (_ & K1 & _). destruct (hcoef _ _ Hz Uz) as (_ & _ & K2 & _). destruct (hcoef _ _ Hw Uw) as (_ & _ & _ & K3).
  destruct (hcoefV _ _ Hx Ux) as ((L0 & _) & (M0 & _)). destruct (hcoefV _ _ Hy Uy) as ((_ & L1 & _) & (_ & M1 & _)). destruct (hcoefV _ _ Hz Uz) as ((_ & _ & L2 & _) & (_ & _ & M2 & _)).
  destruct (hcoefV _ _ Hw Uw) as ((_ & _ & _ & L3) & (_ & _ & _ & M3)). clear Hx Hy Hz Hw.
  destruct P0 as [a0 a1 a2 a3], P1 as [b0 b1 b2 b3], T0 as [c0 c1 c2 c3], T1 as [d0 d1 d2 d3]. unfold hermite4, hermite4_size, vabs.
  destruct b as [|s3 s4 [|] av]; cbv beta iota zeta delta [XMVectorHermiteV]; flx; cbn [lane qx qy qz qw] in *.
  1: match type of K0 with bdr _ _ _ ?z _ _ => set (h0 := z) in * end; match type of K1 with bdr _ _ _ ?z _ _ => set (h1 := z) in * end; match type of K2 with bdr _ _ _ ?z _ _ => set (h2 := z) in * end; match type of K3 with bdr _ _ _ ?z _ _ => set (h3 := z) in * end;
    clearbody h0 h1 h2 h3; clear L0 L1 L2 L3 M0 M1 M2 M3; destruct i; cbn [lane qx qy qz qw] in *; rfix.
  1: match type of M0 with bdr _ _ _ ?z _ _ => set (h0 := z) in * end; match type of M1 with bdr _ _ _ ?z _ _ => set (h1 := z) in * end; match type of M2 with bdr _ _ _ ?z _ _ => set (h2 := z) in * end; match type of M3 with bdr _ _ _ ?z _ _ => set (h3 := z) in * end;
    clearbody h0 h1 h2 h3; clear K0 K1 K2 K3 L0 L1 L2 L3; destruct i; cbn [lane qx qy qz qw] in *; rfix.
  all: match type of L0 with bdr _ _ _ ?z _ _ => set (h0 := z) in * end; match type of L1 with bdr _ _ _ ?z _ _ => set (h1 := z) in * end; match type of L2 with bdr _ _ _ ?z _ _ => set (h2 := z) in * end; match type of L3 with bdr _ _ _ ?z _ _ => set (h3 := z) in * end;
    clearbody h0 h1 h2 h3; clear K0 K1 K2 K3 M0 M1 M2 M3; destruct i; cbn [lane qx qy qz qw] in *; rfix.
Qed.
