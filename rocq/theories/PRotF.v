(** Binary32 rounding errors of the rotation builders that take angles. *)
From Coq Require Import Reals Lra Lia ZArith Bool.
From Flocq Require Import Core IEEE754.BinarySingleNaN.
From Verif Require Import Base F32 F32Facts Intrin Lane MVec MTrig MQuat MMatrix SpecF32 PF32 PFloat PExp PReal SpecGeom SpecQuat SpecMat SpecRot PTransf PQuat PRotFn PTrigPoly PTrig PTrigFn SpecErr PErr PErrNorm PFix PTrigF PArcF PEstF.
Open Scope R_scope.

Ltac rotc := lazy beta iota zeta delta [T tadd tsub tmul tdiv tsqrt tneg tabs tfma tlt tle teq tlit FL
  qx qy qz qw qmap qmap2 qmap3 qrep lane setlane zero one two half tge tgt vadd vsub vmul vone vzero
  add_ss sub_ss mul_ss vand vsel mask3 splat permute_ps shuffle set_ss set_ps unpacklo perm swz pick
  XMVectorMultiplyAdd XMVectorNegativeMultiplySubtract XMVectorAdd XMVectorSubtract XMVectorMultiply FMADD FNMADD mone
  IdR0 IdR1 IdR2 IdR3 g_XMNegateX g_XMNegateY g_XMNegateZ rotation_x_sc rotation_y_sc rotation_z_sc matrix_rotation_normal_sc rotation_normal_sc roll_pitch_yaw_sc XMMatrixRotationQuaternion].
(** sine and cosine of an angle up to 10 radians, to 2.5e-6 *)
Definition scE : Z := 2882303761518.
Lemma near_fx e E z x : within e z x -> Rabs x <= 1 -> e * unit60 <= IZR E -> fx S60 E z x.
Proof.
  intros (r & V & D) X H. pose proof (Rabs_pos (r - x)). pose proof unit60_pos as UP. split; [vm_compute; discriminate|].
  assert (DE : Rabs (r - x) * unit60 <= IZR E) by (eapply Rle_trans; [apply Rmult_le_compat_r; [lra|exact D]|exact H]).
  split; [apply le_IZR; nra|]. split; [change (IZR S60) with unit60; nra|]. exists r. split; [exact V|exact DE].
Qed.
Lemma sc_fx z a : is32 z a -> Rabs a <= 10 -> fx S60 scE (@XMScalarSin FL z) (sin a) /\ fx S60 scE (@XMScalarCos FL z) (cos a).
Proof.
  intros I H. destruct (scalar_sincos_F z a I) as (S & C); [unfold amax; lra|]. destruct (trig_le1 a) as (S1 & C1).
  assert (E : sincos_err a * unit60 <= IZR scE) by (unfold sincos_err, unit60, scE; lra). split; (eapply near_fx; [eassumption|assumption|exact E]).
Qed.
Lemma one_fx z x : is32 z x -> Rabs x <= 1 -> fx S60 0 z x.
Proof. intros (W & V) H. apply fx_exact; [exact V|]. change (IZR S60) with unit60. pose proof unit60_pos. nra. Qed.
(** ** X, Y, Z *)
Lemma w_lit m e x d : value (f_lit m e) = Fin x -> 0 <= d -> within d (f_lit m e) x.
Proof. intros V H. exists x. split; [exact V|]. rewrite Rminus_diag_eq by reflexivity. rewrite Rabs_R0. exact H. Qed.
Lemma w_neg d z x : word z -> within d z x -> within d (f_neg z) (- x).
Proof. intros W (r & V & D). exists (- r). split; [apply neg_val; assumption|]. replace (- r - - x) with (- (r - x)) by ring. rewrite Rabs_Ropp. exact D. Qed.
Lemma w_mul1 d z x : within d z x -> within d (f_mul z (f_lit 1 0)) x.
Proof. intros H. rewrite f_mul_comm. replace x with (1 * x) by ring. apply mul_sgn'; [exact H|exact val_one|auto]. Qed.
Lemma w_mulm1 d z x : within d z x -> within d (f_mul z (f_lit (-1) 0)) (- x).
Proof. intros H. rewrite f_mul_comm. replace (- x) with (-1 * x) by ring. apply mul_sgn'; [exact H|exact val_m1|auto]. Qed.
Definition wM (d : R) (M : quad (quad Z)) (m : rmat) : Prop := forall i j, within d (lane (lane M i) j) (lane (lane m i) j).
Ltac wrot := match goal with
  | |- within _ (f_lit 0 0) _ => apply w_lit; [exact val_zero|assumption]
  | |- within _ (f_lit 1 0) _ => apply w_lit; [exact val_one|assumption]
  | |- within _ (f_mul _ (f_lit 1 0)) _ => apply w_mul1; wrot
  | |- within _ (f_mul _ (f_lit (-1) 0)) (- _) => apply w_mulm1; wrot
  | |- within _ (f_neg _) (- _) => apply w_neg; [assumption|wrot]
  | H : within _ ?z _ |- within _ ?z _ => exact H
  | |- _ => idtac end.
Definition mrotz' (s c : R) : rmat := Q (Q c s 0 0) (Q (- s) c 0 0) (Q 0 0 1 0) (Q 0 0 0 1).
Lemma rotx_F b s c x y d : 0 <= d -> word s -> within d s x -> within d c y -> wM d (rotation_x_sc (L:=FL) b s c) (mrotx x y) /\
  wM d (rotation_y_sc (L:=FL) b s c) (mroty x y) /\ wM d (rotation_z_sc (L:=FL) b s c) (mrotz' x y).
Proof.
  intros D W S C. split; [|split]; intros i j; destruct b, i, j; unfold mrotx, mroty, mrotz'; rotc; try wrot.
Qed.
Lemma word_sin z : word (@XMScalarSin FL z).
Proof. unfold XMScalarSin. destruct (@scalar_reduce FL z) as [y s]. cbn [fst]. unfold sin_poly. cbv zeta. apply enc_word. Qed.
Lemma rot_xyz_F b z a : is32 z a -> Rabs a <= amax -> let d := sincos_err a in
  wM d (XMMatrixRotationX (L:=FL) b z) (rot_about ex3 a) /\ wM d (XMMatrixRotationY (L:=FL) b z) (rot_about ey3 a) /\ wM d (XMMatrixRotationZ (L:=FL) b z) (rot_about ez3 a).
Proof.
  intros I H d. destruct (scalar_sincos_F z a I H) as (S & C). assert (D : 0 <= d) by (unfold d, sincos_err; pose proof (Rabs_pos a); lra).
  destruct (rotx_F b _ _ _ _ d D (word_sin z) S C) as (X & Y & Z). unfold XMMatrixRotationX, XMMatrixRotationY, XMMatrixRotationZ. rewrite (sincos_scalar_pair FL z).
  rewrite <- !mrotn_about.
  assert (EX : mrotn ex3 (sin a) (cos a) = mrotx (sin a) (cos a)) by (unfold mrotn, mrotx, ex3; cbn [qx qy qz]; f_equal; apply (@Qeq R); ring).
  assert (EY : mrotn ey3 (sin a) (cos a) = mroty (sin a) (cos a)) by (unfold mrotn, mroty, ey3; cbn [qx qy qz]; f_equal; apply (@Qeq R); ring).
  assert (EZ : mrotn ez3 (sin a) (cos a) = mrotz' (sin a) (cos a)) by (unfold mrotn, mrotz', ez3; cbn [qx qy qz]; f_equal; apply (@Qeq R); ring).
  rewrite EX, EY, EZ. auto.
Qed.
(** ** about an axis *)
Definition le1 (n : rvec) : Prop := Rabs (qx n) <= 1 /\ Rabs (qy n) <= 1 /\ Rabs (qz n) <= 1.
Definition nE : Z := 412500000000.
Lemma rotn_F b N n s c x y : fx S60 0 (qx N) (qx n) -> fx S60 0 (qy N) (qy n) -> fx S60 0 (qz N) (qz n) -> fx S60 scE s x -> fx S60 scE c y ->
  wM (60 / 10000000) (matrix_rotation_normal_sc (L:=FL) b N s c) (mrotn n x y).
Proof.
  intros FX FY FZ S C. destruct N as [n0 n1 n2 n3], n as [x0 x1 x2 x3]; cbn [qx qy qz] in *. intros i j. eapply (within_le (6000 / 1000000000)); [|lra].
  destruct b, i, j; unfold mrotn; rotc; (eapply (fx_within 6000); [eapply fx_x; [fxt|rl; field]|vm_compute; reflexivity]).
Qed.
Lemma rotn_F' b N n s c x y : fx S60 nE (qx N) (qx n) -> fx S60 nE (qy N) (qy n) -> fx S60 nE (qz N) (qz n) -> fx S60 scE s x -> fx S60 scE c y ->
  wM (80 / 10000000) (matrix_rotation_normal_sc (L:=FL) b N s c) (mrotn n x y).
Proof.
  intros FX FY FZ S C. destruct N as [n0 n1 n2 n3], n as [x0 x1 x2 x3]; cbn [qx qy qz] in *. intros i j. eapply (within_le (8000 / 1000000000)); [|lra].
  destruct b, i, j; unfold mrotn; rotc; (eapply (fx_within 8000); [eapply fx_x; [fxt|rl; field]|vm_compute; reflexivity]).
Qed.
Lemma holds_fx N n : holds3 N n -> le1 n -> fx S60 0 (qx N) (qx n) /\ fx S60 0 (qy N) (qy n) /\ fx S60 0 (qz N) (qz n).
Proof. intros (HX & HY & HZ) (LX & LY & LZ). split; [|split]; apply one_fx; assumption. Qed.
Theorem rot_normal_F b N n z a : holds3 N n -> le1 n -> is32 z a -> Rabs a <= 10 -> wM (60 / 10000000) (XMMatrixRotationNormal (L:=FL) b N z) (rot_about n a).
Proof.
  intros HN L I H. destruct (sc_fx z a I H) as (S & C). destruct (holds_fx N n HN L) as (X & Y & Z). unfold XMMatrixRotationNormal. rewrite (sincos_scalar_pair FL z). rewrite <- mrotn_about. apply rotn_F; assumption.
Qed.
(** the normalised axis *)
Lemma norm_fx z r x : value z = Fin r -> Rabs x <= 1 -> Rabs (r - x) <= 6 * u24 * Rabs x + 2 * eta -> fx S60 nE z x.
Proof.
  intros V X D. apply (near_fx (35765 / 100000000000)); [|exact X|unfold unit60, nE; lra]. exists r. split; [exact V|].
  assert (T : eta <= / 1000000000000) by (unfold eta; change (bpow radix2 (-150)) with (/ IZR (2 ^ 150)); apply Rinv_le_contravar; [lra|apply IZR_le; vm_compute; discriminate]).
  pose proof (Rabs_pos x). unfold u24 in D. lra.
Qed.
Definition axis_of (v : rvec) : rvec := scale (/ norm3 v) v.
Lemma axis_fx b V v : holds3 V v -> mid_range (norm3 v) -> let N := XMVector3Normalize (L:=FL) b V in
  fx S60 nE (qx N) (qx (axis_of v)) /\ fx S60 nE (qy N) (qy (axis_of v)) /\ fx S60 nE (qz N) (qz (axis_of v)).
Proof.
  intros H M. cbv zeta.
  assert (S0 : 0 < dot3 v v).
  { assert (N0 : 0 < norm3 v) by (destruct M as (M & _); assert (0 < pow2 (-48)) by (change (pow2 (-48)) with (/ IZR (2 ^ 48)); apply Rinv_0_lt_compat, IZR_lt; reflexivity); lra).
    unfold norm3 in *. destruct (Rle_lt_dec (dot3 v v) 0) as [L|L]; [|exact L]. rewrite sqrt_neg_0 in N0; [lra|exact L]. }
  assert (C0 : Rabs (qx v / norm3 v) <= 1) by (apply component_le; [unfold dot3; nra|exact S0]).
  assert (C1 : Rabs (qy v / norm3 v) <= 1) by (apply component_le; [unfold dot3; nra|exact S0]).
  assert (C2 : Rabs (qz v / norm3 v) <= 1) by (apply component_le; [unfold dot3; nra|exact S0]).
  pose proof H as ((_ & HX) & (_ & HY) & (_ & HZ)).
  destruct (normalize3_lane b V v I0 H M HX C0) as (r0 & V0 & D0). destruct (normalize3_lane b V v I1 H M HY C1) as (r1 & V1 & D1). destruct (normalize3_lane b V v I2 H M HZ C2) as (r2 & V2 & D2).
  unfold axis_of, scale. cbn [qx qy qz]. rewrite !(Rmult_comm (/ norm3 v)). split; [|split]; eapply norm_fx; eassumption.
Qed.
Lemma axis_checks V v : holds3 V v -> mid_range (norm3 v) -> (is_zero3 (L:=FL) V || is_inf3 (L:=FL) V)%bool = false.
Proof.
  intros (HX & HY & HZ) M.
  assert (Z3 : is_zero3 (L:=FL) V = (Reqb (qx v) 0 && Reqb (qy v) 0 && Reqb (qz v) 0)%bool)
    by exact (f_equal2 andb (f_equal2 andb (eq0_val _ _ (proj2 HX)) (eq0_val _ _ (proj2 HY))) (eq0_val _ _ (proj2 HZ))).
  assert (I3 : is_inf3 (L:=FL) V = false)
    by exact (f_equal2 orb (f_equal2 orb (fin_not_inf _ _ (proj1 HX) (proj2 HX)) (fin_not_inf _ _ (proj1 HY) (proj2 HY))) (fin_not_inf _ _ (proj1 HZ) (proj2 HZ))).
  rewrite Z3, I3. destruct (Reqb_spec (qx v) 0) as [X|X], (Reqb_spec (qy v) 0) as [Y|Y], (Reqb_spec (qz v) 0) as [Z|Z]; try reflexivity.
  exfalso. assert (N : norm3 v = 0) by (unfold norm3, dot3; rewrite X, Y, Z; replace (0 * 0 + 0 * 0 + 0 * 0) with 0 by ring; apply sqrt_0).
  destruct M as (M & _). rewrite N in M. assert (0 < pow2 (-48)) by (change (pow2 (-48)) with (/ IZR (2 ^ 48)); apply Rinv_0_lt_compat, IZR_lt; reflexivity). lra.
Qed.
Theorem rot_axis_F b V v z a : holds3 V v -> mid_range (norm3 v) -> is32 z a -> Rabs a <= 10 ->
  exists M, XMMatrixRotationAxis (L:=FL) b V z = Some M /\ wM (80 / 10000000) M (rot_about (axis_of v) a).
Proof.
  intros HV MR I H. unfold XMMatrixRotationAxis. rewrite (axis_checks V v HV MR). eexists. split; [reflexivity|].
  destruct (axis_fx b V v HV MR) as (X & Y & Z). destruct (sc_fx z a I H) as (S & C). unfold XMMatrixRotationNormal. rewrite (sincos_scalar_pair FL z). rewrite <- mrotn_about. apply rotn_F'; assumption.
Qed.

(** ** quaternions *)
Lemma half_err a : fmt a -> Rabs (RN (a / 2) - a / 2) <= / 1000000000000000000000000000000.
Proof.
  intros F. apply FLT_format_generic in F; [|reflexivity]. destruct F as [f E M Ex]. destruct (Z.eq_dec (Fexp f) (-149)) as [K|K].
  - eapply Rle_trans; [apply RN_err|]. assert (B : Rabs a <= bpow radix2 (-125)).
    { rewrite E. unfold F2R. rewrite K, Rabs_mult, <- abs_IZR, (Rabs_pos_eq (bpow _ _)) by apply bpow_ge_0. replace (bpow radix2 (-125)) with (bpow radix2 24 * bpow radix2 (-149)) by (rewrite <- bpow_plus; reflexivity).
      apply Rmult_le_compat_r; [apply bpow_ge_0|]. change (bpow radix2 24) with (IZR (2 ^ 24)). apply IZR_le. cbn in M. lia. }
    unfold eta. unfold Rdiv. rewrite Rabs_mult, (Rabs_pos_eq (/ 2)) by lra.
    assert (X1 : bpow radix2 (-125) <= / 10000000000000000000000000000000) by (change (bpow radix2 (-125)) with (/ IZR (2 ^ 125)); apply Rinv_le; [lra|]; apply IZR_le; vm_compute; discriminate).
    assert (X2 : bpow radix2 (-150) <= bpow radix2 (-125)) by (apply bpow_le; lia). unfold u24. lra.
  - assert (G : fmt (a / 2)).
    { replace (a / 2) with (IZR (Fnum f) * bpow radix2 (Fexp f - 1)); [apply fmt_scaled; [cbn in M; lia|lia]|]. rewrite E. unfold F2R, Zminus. rewrite bpow_plus. change (bpow radix2 (- (1))) with (/ 2). unfold Rdiv. ring. }
    rewrite (RN_fmt _ G), Rminus_diag_eq, Rabs_R0 by reflexivity. lra.
Qed.
Definition hE : Z := 2317372224262.
Lemma sin_cos_half h a : Rabs (h - a / 2) <= / 1000000000000000000000000000000 -> Rabs (sin h - sin (a / 2)) <= / 1000000000 /\ Rabs (cos h - cos (a / 2)) <= / 1000000000.
Proof. intros H. pose proof (sin_lip h (a / 2)). pose proof (cos_lip h (a / 2)). lra. Qed.
Lemma half_is32 z a : is32 z a -> Rabs a <= 10 -> is32 (f_mul (f_lit 1 (-1)) z) (RN (a / 2)) /\ is32 (f_mul z (f_lit 1 (-1))) (RN (a / 2)) /\ Rabs (RN (a / 2)) <= 5001 / 1000.
Proof.
  intros (W & V) H. pose proof (half_err a (proj1 (value_fmt _ _ V))) as E. assert (B : Rabs (RN (a / 2)) <= 5001 / 1000).
  { replace (RN (a / 2)) with ((RN (a / 2) - a / 2) + a / 2) by ring. eapply Rle_trans; [apply Rabs_triang|]. unfold Rdiv at 3. rewrite Rabs_mult, (Rabs_pos_eq (/ 2)) by lra. lra. }
  assert (G : value (f_mul z (f_lit 1 (-1))) = Fin (RN (a / 2))) by (apply mul_val; [exact V|exact val_half|apply small_huge'; unfold Rdiv; rewrite Rabs_mult, (Rabs_pos_eq (/ 2)) by lra; lra]).
  split; [|split; [|exact B]]; (split; [apply enc_word|]); [rewrite f_mul_comm; exact G|exact G].
Qed.
Lemma half_fxs e zs h a (f : R -> R) : (f = sin \/ f = cos) -> within e zs (f h) -> Rabs (h - a / 2) <= / 1000000000000000000000000000000 -> e <= 20003 / 10000000000 -> fx S60 hE zs (f (a / 2)).
Proof.
  intros F W H E. destruct (sin_cos_half h a H) as (S & C). apply (near_fx (e + / 1000000000)).
  - eapply within_add; [exact W|]. destruct F; subst f; assumption.
  - destruct (trig_le1 (a / 2)). destruct F; subst f; assumption.
  - unfold unit60, hE. lra.
Qed.
Lemma sincos_err5 h : Rabs h <= 5001 / 1000 -> sincos_err h <= 20003 / 10000000000.
Proof. intros H. unfold sincos_err. lra. Qed.
Lemma qn_fx (lm : Libm FL) b z a : is32 z a -> Rabs a <= 10 -> exists s c, (match b with Scalar => XMScalarSinCos (@tmul FL half z) | _ => let '(vs, vc) := XMVectorSinCos b (qrep (@tmul FL half z)) in (qx vs, qw vc) end) = (s, c) /\
  fx S60 hE s (sin (a / 2)) /\ fx S60 hE c (cos (a / 2)).
Proof.
  intros I H. destruct (half_is32 z a I H) as (IH & _ & B). pose proof (half_err a (proj1 (value_fmt _ _ (proj2 I)))) as HE. pose proof (sincos_err5 _ B) as SE. assert (AM : Rabs (RN (a / 2)) <= amax) by (unfold amax; lra).
  change (@tmul FL half z) with (f_mul (f_lit 1 (-1)) z). set (hz := f_mul (f_lit 1 (-1)) z) in *. destruct b as [|s3 s4 fm av].
  - rewrite (sincos_scalar_pair FL hz). destruct (scalar_sincos_F hz _ IH AM) as (S & C). eexists _, _. split; [reflexivity|]. split; (eapply half_fxs; [auto|eassumption|exact HE|exact SE]).
  - rewrite sincos_pair. assert (NB : SSE s3 s4 fm av <> Scalar) by discriminate.
    destruct (vector_sincos_F lm _ (qrep hz) I0 _ NB IH AM) as ((S & _) & _). destruct (vector_sincos_F lm _ (qrep hz) I3 _ NB IH AM) as ((_ & C) & _).
    eexists _, _. split; [reflexivity|]. split; (eapply half_fxs; [auto|eassumption|exact HE|exact SE]).
Qed.
Lemma quat_sc_F b N n s c x y : fx S60 nE (qx N) (qx n) -> fx S60 nE (qy N) (qy n) -> fx S60 nE (qz N) (qz n) -> fx S60 hE s x -> fx S60 hE c y ->
  forall k, within (25 / 10000000) (lane (rotation_normal_sc (L:=FL) b N s c) k) (lane (Q (qx n * x) (qy n * x) (qz n * x) y) k).
Proof.
  intros FX FY FZ S C k. destruct N as [n0 n1 n2 n3], n as [x0 x1 x2 x3]. cbn [qx qy qz] in *. eapply (within_le (2500 / 1000000000)); [|lra].
  destruct b, k; rotc; (eapply (fx_within 2500); [eapply fx_x; [fxt|rl; field]|vm_compute; reflexivity]).
Qed.
Lemma fx0_nE z x : fx S60 0 z x -> fx S60 nE z x. Proof. intros H. eapply fx_le; [exact H|]. vm_compute. discriminate. Qed.
Lemma qn_unfold (lm : Libm FL) b N z : XMQuaternionRotationNormal (L:=FL) b N z = let '(s, c) := (match b with Scalar => XMScalarSinCos (@tmul FL half z) | _ => let '(vs, vc) := XMVectorSinCos b (qrep (@tmul FL half z)) in (qx vs, qw vc) end) in rotation_normal_sc b N s c.
Proof. destruct b; [reflexivity|]. unfold XMQuaternionRotationNormal. destruct (XMVectorSinCos _ _); reflexivity. Qed.
Theorem quat_normal_F (lm : Libm FL) b N n z a : holds3 N n -> le1 n -> is32 z a -> Rabs a <= 10 ->
  forall k, within (25 / 10000000) (lane (XMQuaternionRotationNormal (L:=FL) b N z) k) (lane (quat_about n a) k).
Proof.
  intros HN L I H k. destruct (qn_fx lm b z a I H) as (s & c & E & S & C). rewrite qn_unfold, E. destruct (holds_fx N n HN L) as (X & Y & Z).
  apply quat_sc_F; [apply fx0_nE; exact X|apply fx0_nE; exact Y|apply fx0_nE; exact Z|exact S|exact C].
Qed.
Theorem quat_axis_F (lm : Libm FL) b V v z a : holds3 V v -> mid_range (norm3 v) -> is32 z a -> Rabs a <= 10 ->
  exists q, XMQuaternionRotationAxis (L:=FL) b V z = Some q /\ forall k, within (25 / 10000000) (lane q k) (lane (quat_about (axis_of v) a) k).
Proof.
  intros HV MR I H. unfold XMQuaternionRotationAxis. rewrite (axis_checks V v HV MR). eexists. split; [reflexivity|]. intros k.
  destruct (axis_fx b V v HV MR) as (X & Y & Z). destruct (qn_fx lm b z a I H) as (s & c & E & S & C). rewrite qn_unfold, E. apply quat_sc_F; assumption.
Qed.

(** ** the matrix of a quaternion *)
Definition le1q (q : rvec) : Prop := forall k, Rabs (lane q k) <= 1.
Lemma mat_quat_F b N q : holds4 N q -> le1q q -> wM (1000 / 1000000000) (XMMatrixRotationQuaternion (L:=FL) b N) (qmat q).
Proof.
  intros (X & Y & Z & W) L i j. pose proof (one_fx _ _ X (L I0)) as FX. pose proof (one_fx _ _ Y (L I1)) as FY. pose proof (one_fx _ _ Z (L I2)) as FZ. pose proof (one_fx _ _ W (L I3)) as FW.
  clear X Y Z W L. destruct N as [n0 n1 n2 n3], q as [x0 x1 x2 x3]. cbn [qx qy qz qw lane] in *. unfold qmat.
  destruct b, i, j; rotc; (eapply (fx_within 1000); [eapply fx_x; [fxt|rl; field]|vm_compute; reflexivity]).
Qed.
Definition qE : Z := 17000000000000.
Lemma mat_quat_F' b N q : (forall k, fx S60 qE (lane N k) (lane q k)) -> wM (150 / 1000000) (XMMatrixRotationQuaternion (L:=FL) b N) (qmat q).
Proof.
  intros F i j. pose proof (F I0) as FX. pose proof (F I1) as FY. pose proof (F I2) as FZ. pose proof (F I3) as FW.
  clear F. destruct N as [n0 n1 n2 n3], q as [x0 x1 x2 x3]. cbn [qx qy qz qw lane] in *. unfold qmat. eapply (within_le (150000 / 1000000000)); [|lra].
  destruct b, i, j; rotc; (eapply (fx_within 150000); [eapply fx_x; [fxt|rl; field]|vm_compute; reflexivity]).
Qed.
(** ** roll, pitch and yaw, on the vector backends (the portable code calls the platform's sine and cosine) *)
Lemma half_lane b V k : lane (XMVectorMultiply (L:=FL) b V (qrep half)) k = f_mul (lane V k) (f_lit 1 (-1)).
Proof. destruct V; destruct b, k; reflexivity. Qed.
Lemma half_lanes_fx (lm : Libm FL) b V a k : b <> Scalar -> is32 (lane V k) a -> Rabs a <= 10 ->
  let SC := XMVectorSinCos b (XMVectorMultiply b V (qrep half)) in fx S60 hE (lane (fst SC) k) (sin (a / 2)) /\ fx S60 hE (lane (snd SC) k) (cos (a / 2)).
Proof.
  intros NB I H. cbv zeta. destruct (half_is32 _ a I H) as (_ & IH & B). rewrite <- half_lane with (b := b) in IH.
  pose proof (half_err a (proj1 (value_fmt _ _ (proj2 I)))) as HE. pose proof (sincos_err5 _ B) as SE. assert (AM : Rabs (RN (a / 2)) <= amax) by (unfold amax; lra).
  rewrite sincos_pair. cbn [fst snd]. destruct (vector_sincos_F lm b _ k _ NB IH AM) as ((S & C) & _).
  split; (eapply half_fxs; [auto|eassumption|exact HE|exact SE]).
Qed.
Lemma rpy_sc_F b S C s c : fx S60 hE (qx S) (qx s) -> fx S60 hE (qy S) (qy s) -> fx S60 hE (qz S) (qz s) -> fx S60 hE (qx C) (qx c) -> fx S60 hE (qy C) (qy c) -> fx S60 hE (qz C) (qz c) ->
  forall k, within (14 / 1000000) (lane (roll_pitch_yaw_sc (L:=FL) b S C) k) (lane (roll_pitch_yaw_sc (L:=RL) b s c) k).
Proof.
  intros X Y Z X' Y' Z' k. rewrite RPY_R. destruct S as [s0 s1 s2 s3], C as [c0 c1 c2 c3], s as [x0 x1 x2 x3], c as [y0 y1 y2 y3]. cbn [qx qy qz] in *. eapply (within_le (14000 / 1000000000)); [|lra].
  unfold ham. destruct b as [|se3 se4 [] av], k; rotc; (eapply (fx_within 14000); [eapply fx_x; [fxt|rl; field]|vm_compute; reflexivity]).
Qed.
Theorem quat_rpy_F (lm : Libm FL) b zp zy zr p y r : b <> Scalar -> is32 zp p -> is32 zy y -> is32 zr r -> Rabs p <= 10 -> Rabs y <= 10 -> Rabs r <= 10 ->
  forall k, within (14 / 1000000) (lane (XMQuaternionRotationRollPitchYaw (L:=FL) b zp zy zr) k) (lane (rpy_quat p y r) k).
Proof.
  intros NB IP IY IR HP HY HR k. rewrite (rpy_quat_R b). unfold XMQuaternionRotationRollPitchYaw, XMQuaternionRotationRollPitchYawFromVector.
  destruct (half_lanes_fx lm b (Q zp zy zr (@zero FL)) p I0 NB IP HP) as (S0 & C0). destruct (half_lanes_fx lm b (Q zp zy zr (@zero FL)) y I1 NB IY HY) as (S1 & C1). destruct (half_lanes_fx lm b (Q zp zy zr (@zero FL)) r I2 NB IR HR) as (S2 & C2).
  destruct (XMVectorSinCos b _) as [S C]. cbn [fst snd lane] in *. apply rpy_sc_F; assumption.
Qed.
Lemma unitq_le1 q : unitq q -> le1q q.
Proof.
  unfold unitq, dot4. intros U k. destruct q as [x y z w]. cbn [qx qy qz qw] in U. assert (forall t, t * t <= 1 -> Rabs t <= 1) as K by (intros t Ht; apply Rabs_le; nra).
  destruct k; cbn [lane qx qy qz qw]; apply K; nra.
Qed.
Theorem mat_rpy_F (lm : Libm FL) b zp zy zr p y r : b <> Scalar -> is32 zp p -> is32 zy y -> is32 zr r -> Rabs p <= 10 -> Rabs y <= 10 -> Rabs r <= 10 ->
  wM (150 / 1000000) (XMMatrixRotationRollPitchYaw (L:=FL) b zp zy zr) (matmul (matmul (rot_about ez3 r) (rot_about ex3 p)) (rot_about ey3 y)).
Proof.
  intros NB IP IY IR HP HY HR. destruct (rpy_about p y r) as [U <-]. change (XMMatrixRotationRollPitchYaw (L:=FL) b zp zy zr) with (XMMatrixRotationQuaternion (L:=FL) b (XMQuaternionRotationRollPitchYaw (L:=FL) b zp zy zr)).
  apply mat_quat_F'. intros k. eapply near_fx; [apply quat_rpy_F; eassumption|apply unitq_le1; exact U|unfold unit60, qE; lra].
Qed.
