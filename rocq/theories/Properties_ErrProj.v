(** C78: rounding errors of the projection matrices, of the matrix and the inverse of a quaternion and of plane normalisation, on bit
    patterns. Every entry of a projection matrix is within 5 units of 2^-24 of the exact one,
    relatively, so entries that should be 0, 1 or -1 are close in that sense too (a zero is a zero). *)
From Coq Require Import Reals ZArith Lra Lia.
From Verif Require Import Base F32 F32Facts Intrin Lane SpecF32 SpecGeom SpecQuat SpecMat SpecErr SpecErrR SpecErrP MVec MTrig MQuat MPlane MMatrix PFloat PErr PErrProj PErrRotQ PErrUnit PErrFov.
From Verif Require PView PReal PExp.
Open Scope R_scope.
Local Ltac meq := repeat match goal with |- Q _ _ _ _ = Q _ _ _ _ => f_equal end.

Lemma ofz k : (Z.abs k <= 2 ^ 24)%Z -> is32 (f_of_Z k) (IZR k). Proof. intros K. split; [apply enc_word|apply of_Z_exact, K]. Qed.
Ltac sp := unfold span, span', pow2; cbn [Z.leb Z.compare Z.opp Z.pow Z.pow_pos Pos.iter Z.mul Pos.mul]; first [left; lra | rewrite Rabs_pos_eq by lra; lra | rewrite Rabs_left by lra; lra | right; rewrite Rabs_pos_eq by lra; lra | right; rewrite Rabs_left by lra; lra].
(** the exact matrices of SpecErrP.v are the projections: they map the view volume onto normalised device coordinates *)
Lemma flip_twice M M' : M' = matmul flipz M -> matmul flipz M' = M. Proof. intros ->. apply PView.flipz_flipz. Qed.
Theorem C78_textbook_off : forall l r bt t n f, n > 0 -> f > 0 -> r <> l -> t <> bt -> f <> n ->
  maps_frustum (persp_off_lh l r bt t n f) l r bt t n f /\ maps_frustum (matmul flipz (persp_off_rh l r bt t n f)) l r bt t n f.
Proof.
  intros l r bt t n f N F A B C. split; [apply (PView.perspm_maps l r bt t n f); assumption|].
  rewrite (flip_twice (PView.perspm l r bt t n f)); [apply PView.perspm_maps; assumption|].
  unfold persp_off_rh, PView.perspm, flipz. unfold matmul, mscaling. cbv [vecmat plus scale qx qy qz qw]. meq; try field; lra.
Qed.
Theorem C78_textbook : forall w h n f, n > 0 -> f > 0 -> w <> 0 -> h <> 0 -> f <> n ->
  maps_frustum (persp_lh w h n f) (- w / 2) (w / 2) (- h / 2) (h / 2) n f /\ maps_frustum (matmul flipz (persp_rh w h n f)) (- w / 2) (w / 2) (- h / 2) (h / 2) n f /\
  maps_box (ortho_lh w h n f) (- w / 2) (w / 2) (- h / 2) (h / 2) n f /\ maps_box (matmul flipz (ortho_rh w h n f)) (- w / 2) (w / 2) (- h / 2) (h / 2) n f.
Proof.
  intros w h n f N F A B C. assert (X : w / 2 <> - w / 2) by lra. assert (Y : h / 2 <> - h / 2) by lra. destruct (C78_textbook_off (- w / 2) (w / 2) (- h / 2) (h / 2) n f N F X Y C) as (P & P').
  assert (E : persp_lh w h n f = persp_off_lh (- w / 2) (w / 2) (- h / 2) (h / 2) n f) by (unfold persp_lh, persp_off_lh; meq; try field; lra).
  assert (E' : persp_rh w h n f = persp_off_rh (- w / 2) (w / 2) (- h / 2) (h / 2) n f) by (unfold persp_rh, persp_off_rh; meq; try field; lra).
  rewrite E, E'. split; [exact P|]. split; [exact P'|]. split; [apply (PView.orthm_maps w h n f); assumption|].
  rewrite (flip_twice (PView.orthm w h n f)); [apply PView.orthm_maps; assumption|].
  unfold ortho_rh, PView.orthm, flipz. unfold matmul, mscaling. cbv [vecmat plus scale qx qy qz qw]. meq; try field; lra.
Qed.
(** ** perspective by view size *)
Theorem C78_perspective_lh : forall b zw zh zn zf w h n f M, XMMatrixPerspectiveLH (L:=FL) b zw zh zn zf = Some M -> is32 zw w -> is32 zh h -> is32 zn n -> is32 zf f ->
  span' 30 w -> span' 30 h -> span' 30 n -> span' 30 f -> span' 40 (f - n) -> mclose 5 M (persp_lh w h n f).
Proof. exact persp_lh_err. Qed.
Theorem C78_perspective_rh : forall b zw zh zn zf w h n f M, XMMatrixPerspectiveRH (L:=FL) b zw zh zn zf = Some M -> is32 zw w -> is32 zh h -> is32 zn n -> is32 zf f ->
  span' 30 w -> span' 30 h -> span' 30 n -> span' 30 f -> span' 40 (n - f) -> mclose 5 M (persp_rh w h n f).
Proof. exact persp_rh_err. Qed.
(** ** orthographic; the near distance may be zero or negative *)
Theorem C78_orthographic_lh : forall b zw zh zn zf w h n f M, XMMatrixOrthographicLH (L:=FL) b zw zh zn zf = Some M -> is32 zw w -> is32 zh h -> is32 zn n -> is32 zf f ->
  span' 30 w -> span' 30 h -> span 30 n -> span' 40 (f - n) -> mclose 5 M (ortho_lh w h n f).
Proof. exact ortho_lh_err. Qed.
Theorem C78_orthographic_rh : forall b zw zh zn zf w h n f M, XMMatrixOrthographicRH (L:=FL) b zw zh zn zf = Some M -> is32 zw w -> is32 zh h -> is32 zn n -> is32 zf f ->
  span' 30 w -> span' 30 h -> span 30 n -> span' 40 (n - f) -> mclose 5 M (ortho_rh w h n f).
Proof. exact ortho_rh_err. Qed.
(** ** perspective by window *)
Theorem C78_off_center_lh : forall b zn zf n f M zl zr zb zt l r bt t, XMMatrixPerspectiveOffCenterLH (L:=FL) b zl zr zb zt zn zf = Some M ->
  is32 zl l -> is32 zr r -> is32 zb bt -> is32 zt t -> is32 zn n -> is32 zf f ->
  span' 40 (r - l) -> span' 40 (t - bt) -> span 40 (l + r) -> span 40 (t + bt) -> span' 30 n -> span' 30 f -> span' 40 (f - n) -> mclose 5 M (persp_off_lh l r bt t n f).
Proof. exact off_lh_err. Qed.
Theorem C78_off_center_rh : forall b zn zf n f M zl zr zb zt l r bt t, XMMatrixPerspectiveOffCenterRH (L:=FL) b zl zr zb zt zn zf = Some M ->
  is32 zl l -> is32 zr r -> is32 zb bt -> is32 zt t -> is32 zn n -> is32 zf f ->
  span' 40 (r - l) -> span' 40 (t - bt) -> span 40 (l + r) -> span 40 (t + bt) -> span' 30 n -> span' 30 f -> span' 40 (n - f) -> mclose 5 M (persp_off_rh l r bt t n f).
Proof. exact off_rh_err. Qed.
(** ** perspective by field of view, relative to the sine and cosine the program computes for half the angle *)
Theorem C78_fov_lh : forall b zn zf n f M zv za a zs zc s c, XMMatrixPerspectiveFovLH (L:=FL) b zv za zn zf = Some M -> XMScalarSinCos (L:=FL) (tmul (half (L:=FL)) zv) = (zs, zc) ->
  value zs = Fin s -> value zc = Fin c -> is32 za a -> is32 zn n -> is32 zf f -> span' 30 s -> span 30 c -> span' 30 a -> span' 30 n -> span' 30 f -> span' 40 (f - n) -> mclose 5 M (persp_fov_lh s c a n f).
Proof. exact fov_lh_err. Qed.
Theorem C78_fov_rh : forall b zn zf n f M zv za a zs zc s c, XMMatrixPerspectiveFovRH (L:=FL) b zv za zn zf = Some M -> XMScalarSinCos (L:=FL) (tmul (half (L:=FL)) zv) = (zs, zc) ->
  value zs = Fin s -> value zc = Fin c -> is32 za a -> is32 zn n -> is32 zf f -> span' 30 s -> span 30 c -> span' 30 a -> span' 30 n -> span' 30 f -> span' 40 (n - f) -> mclose 5 M (persp_fov_rh s c a n f).
Proof. exact fov_rh_err. Qed.
(** relative to the true sine and cosine of half the angle: 1800 units (1.1e-4) for angles between 0.1 and 3 radians *)
Theorem C78_fov_lh_true : forall b zn zf n f M zv za v a, XMMatrixPerspectiveFovLH (L:=FL) b zv za zn zf = Some M -> is32 zv v -> is32 za a -> is32 zn n -> is32 zf f -> 1 / 10 <= v <= 3 ->
  span' 30 a -> span' 30 n -> span' 30 f -> span' 40 (f - n) -> mclose 1800 M (persp_fov_lh (sin (v / 2)) (cos (v / 2)) a n f).
Proof. exact fov_true_lh. Qed.
Theorem C78_fov_rh_true : forall b zn zf n f M zv za v a, XMMatrixPerspectiveFovRH (L:=FL) b zv za zn zf = Some M -> is32 zv v -> is32 za a -> is32 zn n -> is32 zf f -> 1 / 10 <= v <= 3 ->
  span' 30 a -> span' 30 n -> span' 30 f -> span' 40 (n - f) -> mclose 1800 M (persp_fov_rh (sin (v / 2)) (cos (v / 2)) a n f).
Proof. exact fov_true_rh. Qed.
(** ** the rotation matrix of a quaternion: [qmatrix] is what the code computes in exact arithmetic, and 5 units of the sizes of the terms bound the error *)
Theorem C78_rotation_quaternion_exact : forall b q, XMMatrixRotationQuaternion (L:=RL) b q = qmatrix q.
Proof. exact rotq_real. Qed.
Theorem C78_rotation_quaternion : forall b V q i j, holds4 V q -> bounded 4 q ->
  within (5 * ulp_half * entry (qmatrix_size q) i j + 100 * tiny) (entry (XMMatrixRotationQuaternion (L:=FL) b V) i j) (entry (qmatrix q) i j).
Proof. exact rotq_err. Qed.
(** ** the inverse of a quaternion: conjugate over squared norm, within 7 units relatively *)
Theorem C78_quaternion_inverse : forall b V q i, holds4 V q -> (forall j, span 30 (lane q j)) -> span' 60 (dot4 q q) -> pow2 (-22) <= dot4 q q ->
  exists v, value (lane (XMQuaternionInverse (L:=FL) b V) i) = Fin v /\ Rabs (v - lane (conj q) i / dot4 q q) <= 7 * ulp_half * Rabs (lane (conj q) i / dot4 q q).
Proof. exact qinv_err. Qed.
(** the lower limit on the norm is needed: below it the result is zero *)
Theorem C78_quaternion_inverse_small_refuted : exists V q, holds4 V q /\ (forall j, span 30 (lane q j)) /\ span' 60 (dot4 q q) /\
  forall b, value (qw (XMQuaternionInverse (L:=FL) b V)) = Fin 0 /\ qw (conj q) / dot4 q q = 4096.
Proof.
  exists (Q (f_lit 0 0) (f_lit 0 0) (f_lit 0 0) (f_lit 1 (-12))), (Q 0 0 0 (/ 4096)).
  assert (D : dot4 (Q 0 0 0 (/ 4096)) (Q 0 0 0 (/ 4096)) = / 16777216) by (unfold dot4; cbn [qx qy qz qw]; field).
  assert (Z0 : is32 (f_lit 0 0) 0) by (split; [apply enc_word|exact val_zero]).
  split; [|split; [|split]].
  - unfold holds4; cbn [qx qy qz qw]. split; [exact Z0|]. split; [exact Z0|]. split; [exact Z0|]. split; [apply enc_word|]. rewrite PFix.lit_exact by lia. f_equal. change (Flocq.Core.Raux.bpow Flocq.Core.Zaux.radix2 (-12)) with (/ 4096). ring.
  - intros j. destruct j; cbn [lane qx qy qz qw]; sp.
  - rewrite D. sp.
  - intros b. split; [|rewrite D; cbn [conj qw]; field]. match goal with |- value ?z = _ => assert (E : z = 0%Z) by (destruct b as [|[|] [|] [|] [| |]]; vm_compute; reflexivity); rewrite E end. exact val_zero.
Qed.
(** ** planes: every coefficient over the length of the normal, within 7 units relatively *)
Theorem C78_plane_normalize : forall b V p i, holds4 V p -> (forall j, span 30 (lane p j)) -> span' 60 (dot3 p p) ->
  exists v, value (lane (XMPlaneNormalize (L:=FL) b V) i) = Fin v /\ Rabs (v - lane p i / norm3 p) <= 7 * ulp_half * Rabs (lane p i / norm3 p).
Proof. exact pnorm_err. Qed.
(** ** the hypotheses hold of ordinary data *)
Example C78_ex_perspective : forall b, exists M, XMMatrixPerspectiveLH (L:=FL) b (f_of_Z 16) (f_of_Z 9) (f_of_Z 1) (f_of_Z 100) = Some M /\
  entry (persp_lh 16 9 1 100) I2 I2 = 100 / 99 /\ within (/ 1000000) (entry M I2 I2) (100 / 99) /\ value (entry M I2 I1) = Fin 0.
Proof.
  intros b. assert (P : (near_far_ok (L:=FL) (f_of_Z 1) (f_of_Z 100) && distinct (L:=FL) (f_of_Z 16) zero && distinct (L:=FL) (f_of_Z 9) zero && distinct (L:=FL) (f_of_Z 100) (f_of_Z 1))%bool = true) by (vm_compute; reflexivity).
  pose proof (C78_perspective_lh b (f_of_Z 16) (f_of_Z 9) (f_of_Z 1) (f_of_Z 100) 16 9 1 100) as H. unfold XMMatrixPerspectiveLH in *. rewrite P in *.
  eexists. split; [reflexivity|]. split; [unfold entry, persp_lh; cbn [lane qx qy qz qw]; field|].
  specialize (H _ eq_refl (ofz 16 ltac:(lia)) (ofz 9 ltac:(lia)) (ofz 1 ltac:(lia)) (ofz 100 ltac:(lia)) ltac:(sp) ltac:(sp) ltac:(sp) ltac:(sp) ltac:(sp)). split.
  - destruct (H I2 I2) as (v & V & E). exists v. split; [exact V|]. replace (entry (persp_lh 16 9 1 100) I2 I2) with (100 / 99) in E by (unfold entry, persp_lh; cbn [lane qx qy qz qw]; field).
    eapply Rle_trans; [exact E|]. rewrite Rabs_pos_eq by lra. unfold ulp_half. lra.
  - destruct (H I2 I1) as (v & V & E). eapply eq_trans; [exact V|]. f_equal. change (entry (persp_lh 16 9 1 100) I2 I1) with 0 in E. rewrite Rabs_R0, Rmult_0_r in E. replace (v - 0) with v in E by ring. pose proof (Rabs_pos v) as Q0.
    destruct (Req_dec v 0) as [|N]; [assumption|]. pose proof (Rabs_pos_lt v N). lra.
Qed.
Example C78_ex_off_center : forall b, exists M, XMMatrixPerspectiveOffCenterRH (L:=FL) b (f_of_Z (-1)) (f_of_Z 2) (f_of_Z (-1)) (f_of_Z 1) (f_of_Z 1) (f_of_Z 10) = Some M /\
  mclose 5 M (persp_off_rh (-1) 2 (-1) 1 1 10) /\ within (/ 1000000) (entry M I2 I0) (1 / 3).
Proof.
  intros b. assert (P : offcenter_ok (L:=FL) (f_of_Z (-1)) (f_of_Z 2) (f_of_Z (-1)) (f_of_Z 1) (f_of_Z 1) (f_of_Z 10) = true) by (vm_compute; reflexivity).
  pose proof (C78_off_center_rh b (f_of_Z 1) (f_of_Z 10) 1 10) as H. unfold XMMatrixPerspectiveOffCenterRH in *.
  specialize (fun M => H M (f_of_Z (-1)) (f_of_Z 2) (f_of_Z (-1)) (f_of_Z 1) (-1) 2 (-1) 1). rewrite P in *.
  eexists. split; [reflexivity|].
  specialize (H _ eq_refl (ofz (-1) ltac:(lia)) (ofz 2 ltac:(lia)) (ofz (-1) ltac:(lia)) (ofz 1 ltac:(lia)) (ofz 1 ltac:(lia)) (ofz 10 ltac:(lia)) ltac:(sp) ltac:(sp) ltac:(sp) ltac:(sp) ltac:(sp) ltac:(sp) ltac:(sp)).
  split; [exact H|]. destruct (H I2 I0) as (v & V & E). exists v. split; [exact V|]. replace (entry (persp_off_rh (-1) 2 (-1) 1 1 10) I2 I0) with (1 / 3) in E by (unfold entry, persp_off_rh; cbn [lane qx qy qz qw]; field).
  eapply Rle_trans; [exact E|]. rewrite Rabs_pos_eq by lra. unfold ulp_half. lra.
Qed.
Example C78_ex_quaternion : forall b, exists V q, holds4 V q /\ bounded 4 q /\ dot4 q q = 25 /\ within (/ 1000000) (qx (XMQuaternionInverse (L:=FL) b V)) (- 2 / 25) /\
  within (/ 100000) (entry (XMMatrixRotationQuaternion (L:=FL) b V) I0 I1) 16.
Proof.
  intros b. exists (Q (f_of_Z 2) (f_of_Z 2) (f_of_Z 4) (f_of_Z 1)), (Q 2 2 4 1).
  assert (HV : holds4 (Q (f_of_Z 2) (f_of_Z 2) (f_of_Z 4) (f_of_Z 1)) (Q 2 2 4 1)) by (unfold holds4; cbn [qx qy qz qw]; split; [|split; [|split]]; apply ofz; lia).
  assert (D : dot4 (Q 2 2 4 1) (Q 2 2 4 1) = 25) by (unfold dot4; cbn [qx qy qz qw]; ring).
  assert (HB : bounded 4 (Q 2 2 4 1)) by (intros i; destruct i; cbn [lane qx qy qz qw]; rewrite Rabs_pos_eq; lra).
  split; [exact HV|]. split; [exact HB|]. split; [exact D|]. split.
  - destruct (C78_quaternion_inverse b _ _ I0 HV) as (v & V & E); [intros j; destruct j; cbn [lane qx qy qz qw]; sp|rewrite D; sp|rewrite D; unfold pow2; cbn; lra|].
    exists v. split; [exact V|]. cbn [lane conj qx] in E. rewrite D in E. eapply Rle_trans; [exact E|]. rewrite Rabs_left by lra. unfold ulp_half. lra.
  - destruct (C78_rotation_quaternion b _ _ I0 I1 HV HB) as (v & V & E). exists v. split; [exact V|]. unfold entry, qmatrix, qmatrix_size in E. cbn [lane qx qy qz qw] in E. rewrite (Rabs_pos_eq 2), (Rabs_pos_eq 4), (Rabs_pos_eq 1) in E by lra.
    replace (2 * 2 * 2 + 2 * 4 * 1) with 16 in E by ring. eapply Rle_trans; [exact E|]. unfold ulp_half. rewrite tiny_eta. pose proof PExp.eta_small. lra.
Qed.
Example C78_ex_plane : forall b, exists V p, holds4 V p /\ norm3 p = 5 /\ within (/ 1000000) (qw (XMPlaneNormalize (L:=FL) b V)) (7 / 5).
Proof.
  intros b. exists (Q (f_of_Z 3) (f_of_Z 4) (f_of_Z 0) (f_of_Z 7)), (Q 3 4 0 7).
  assert (HV : holds4 (Q (f_of_Z 3) (f_of_Z 4) (f_of_Z 0) (f_of_Z 7)) (Q 3 4 0 7)) by (unfold holds4; cbn [qx qy qz qw]; split; [|split; [|split]]; apply ofz; lia).
  assert (D : dot3 (Q 3 4 0 7) (Q 3 4 0 7) = 25) by (unfold dot3; cbn [qx qy qz qw]; ring).
  assert (N : norm3 (Q 3 4 0 7) = 5) by (unfold norm3; rewrite D; replace 25 with (5 * 5) by ring; apply sqrt_square; lra).
  split; [exact HV|]. split; [exact N|].
  destruct (C78_plane_normalize b _ _ I3 HV) as (v & V & E); [intros j; destruct j; cbn [lane qx qy qz qw]; sp|rewrite D; sp|].
  exists v. split; [exact V|]. cbn [lane qw] in E. rewrite N in E. eapply Rle_trans; [exact E|]. rewrite Rabs_pos_eq by lra. unfold ulp_half. lra.
Qed.
Example C78_ex_fov : forall b, exists M, XMMatrixPerspectiveFovLH (L:=FL) b (f_of_Z 1) (f_of_Z 2) (f_of_Z 1) (f_of_Z 100) = Some M /\
  mclose 1800 M (persp_fov_lh (sin (1 / 2)) (cos (1 / 2)) 2 1 100).
Proof.
  intros b. assert (P : fov_ok (L:=FL) (f_of_Z 1) (f_of_Z 2) (f_of_Z 1) (f_of_Z 100) = true) by (vm_compute; reflexivity).
  assert (X : exists M, XMMatrixPerspectiveFovLH (L:=FL) b (f_of_Z 1) (f_of_Z 2) (f_of_Z 1) (f_of_Z 100) = Some M) by (unfold XMMatrixPerspectiveFovLH; rewrite P; destruct (XMScalarSinCos _); eexists; reflexivity).
  destruct X as (M & E). exists M. split; [exact E|].
  apply (C78_fov_lh_true b _ _ 1 100 M _ _ 1 2 E (ofz 1 ltac:(lia)) (ofz 2 ltac:(lia)) (ofz 1 ltac:(lia)) (ofz 100 ltac:(lia))); [lra|sp|sp|sp|sp].
Qed.
