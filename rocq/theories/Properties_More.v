(** C68 scalar helpers; C69 quaternion and plane comparisons; C70 arrays and structures. *)
From Coq Require Import Reals ZArith Lra Lia Bool.
From Flocq Require Core.
From Verif Require Import Base F32 F32Facts Intrin Lane MVec MTrig MQuat MPlane MCollide MMem MCompare MMore SpecF32 SpecGeom SpecLanes SpecCompare SpecErr SpecArith
  PF32 PFloat PCompare PErr PFix PArith PMore.
Open Scope R_scope.
Ltac word32 := split; [lia|]; unfold value, bit_exp, bit_frac, bit_sign, signed, pow2; simpl; f_equal; lra.

(** * C68 degrees and radians, on bit patterns *)
Theorem C68_to_radians : forall z a, is32 z a -> safe (Rabs a * 100) ->
  within (3 / 2 * ulp_half * (Rabs a * (PI / 180)) + tiny) (XMConvertToRadians (L:=FL) z) (a * (PI / 180)).
Proof. exact to_radians. Qed.
Theorem C68_to_degrees : forall z a, is32 z a -> safe (Rabs a * 100) ->
  within (21 / 10 * ulp_half * (Rabs a * (180 / PI)) + tiny) (XMConvertToDegrees (L:=FL) z) (a * (180 / PI)).
Proof. exact to_degrees. Qed.
Theorem C68_roundtrip : forall z a, is32 z a -> safe (Rabs a * 200) ->
  within (4 * ulp_half * Rabs a + 60 * tiny) (XMConvertToDegrees (L:=FL) (XMConvertToRadians (L:=FL) z)) a.
Proof. exact roundtrip_degrees. Qed.
(** XMMin and XMMax: a lower (upper) bound and one of the arguments; the second one as soon as either is NaN *)
Theorem C68_min : forall a c,
  (value a <> NaN -> value c <> NaN -> xle (value (XMMin (L:=FL) a c)) (value a) /\ xle (value (XMMin (L:=FL) a c)) (value c)) /\
  (XMMin (L:=FL) a c = a \/ XMMin (L:=FL) a c = c) /\ (value a = NaN \/ value c = NaN -> XMMin (L:=FL) a c = c).
Proof. exact min_ok. Qed.
Theorem C68_max : forall a c,
  (value a <> NaN -> value c <> NaN -> xle (value a) (value (XMMax (L:=FL) a c)) /\ xle (value c) (value (XMMax (L:=FL) a c))) /\
  (XMMax (L:=FL) a c = a \/ XMMax (L:=FL) a c = c) /\ (value a = NaN \/ value c = NaN -> XMMax (L:=FL) a c = c).
Proof. exact max_ok. Qed.
(** XMScalarNearEqual compares the rounded difference; equal infinities are not near equal (their difference is NaN) *)
Theorem C68_scalar_near_equal : forall a c e, word e -> exists d,
  is_sub (value a) (value c) d /\ (XMScalarNearEqual (L:=FL) a c e = true <-> xle (xabs d) (value e)).
Proof. exact near_ok. Qed.
Theorem C68_near_infinite : forall e, XMScalarNearEqual (L:=FL) 0x7f800000%Z 0x7f800000%Z e = false.
Proof. intros e. change (XMScalarNearEqual (L:=FL) 0x7f800000%Z 0x7f800000%Z e) with (f_le (f_abs (f_sub 0x7f800000 0x7f800000)) e). replace (f_abs (f_sub 0x7f800000 0x7f800000)) with 0x7fc00000%Z by (vm_compute; reflexivity). apply not_true_is_false. intros H. apply f_le_spec in H. destruct H as [H|H]; exact H. Qed.
(** XMVectorPow is the platform's powf lane by lane, on both code paths *)
Theorem C68_pow_lanewise : forall powf b V1 V2 k, lane (XMVectorPow powf b V1 V2) k = powf (lane V1 k) (lane V2 k).
Proof. intros powf b V1 V2 k. destruct b, k; reflexivity. Qed.
Example C68_ex : is32 0x43340000 180 /\ safe (Rabs 180 * 200) /\ XMConvertToRadians (L:=FL) 0x43340000%Z = 0x40490fdb%Z /\
  XMConvertToDegrees (L:=FL) 0x40490fdb%Z = 0x43340000%Z /\ XMMin (L:=FL) 0x7fc00000%Z 0x3f800000%Z = 0x3f800000%Z /\ XMMax (L:=FL) 0x3f800000%Z 0x7fc00000%Z = 0x7fc00000%Z.
Proof.
  split; [word32|]. split; [|vm_compute; auto]. unfold safe. rewrite Rabs_pos_eq by lra. apply Rle_trans with (pow2 16); [unfold pow2; simpl; lra|].
  rewrite !pow2_bpow. apply Raux.bpow_le. lia.
Qed.

(** * C69 quaternion and plane comparisons, on bit patterns *)
Open Scope Z_scope.
Theorem C69_equal : forall b V1 V2,
  (XMQuaternionEqual b V1 V2 = true <-> every 4 (at_lane xeq V1 V2)) /\ (XMPlaneEqual b V1 V2 = true <-> every 4 (at_lane xeq V1 V2)) /\
  (XMQuaternionNotEqual b V1 V2 = true <-> some 4 (at_lane xne V1 V2)) /\ (XMPlaneNotEqual b V1 V2 = true <-> some 4 (at_lane xne V1 V2)).
Proof.
  intros b V1 V2. destruct (c07_all D4 V1 V2) as ((E1 & E2) & _). destruct (c07_not_equal D4 V1 V2) as (N1 & N2).
  assert (A : XMQuaternionEqual b V1 V2 = XMVectorNEqual_sse D4 V1 V2) by (destruct b; [exact E1|reflexivity]).
  assert (N : XMQuaternionNotEqual b V1 V2 = XMVectorNNotEqual_sse D4 V1 V2) by (destruct b; [exact N1|reflexivity]).
  change (XMPlaneEqual b V1 V2) with (XMQuaternionEqual b V1 V2). change (XMPlaneNotEqual b V1 V2) with (XMQuaternionNotEqual b V1 V2). rewrite A, N. repeat split; first [apply E2|apply N2].
Qed.
(** NotEqual is exactly the negation of Equal, NaN included *)
Theorem C69_not_equal_negates : forall b V1 V2, XMQuaternionNotEqual b V1 V2 = negb (XMQuaternionEqual b V1 V2).
Proof. exact quat_ne. Qed.
Theorem C69_nan_infinite : forall b V, wordq V ->
  (XMQuaternionIsNaN b V = true <-> some 4 (fun k => nan_pattern (nth_lane V k))) /\ (XMPlaneIsNaN b V = true <-> some 4 (fun k => nan_pattern (nth_lane V k))) /\
  (XMQuaternionIsInfinite b V = true <-> some 4 (fun k => inf_pattern (nth_lane V k))) /\ (XMPlaneIsInfinite b V = true <-> some 4 (fun k => inf_pattern (nth_lane V k))).
Proof.
  intros b V W. destruct (c09_dims D4 V W) as ((E1 & E2) & (N1 & N2)).
  assert (A : XMQuaternionIsNaN b V = XMVectorNIsNaN_sse D4 V) by (destruct b; [exact E1|reflexivity]).
  assert (N : XMQuaternionIsInfinite b V = XMVectorNIsInfinite_sse D4 V) by (destruct b; [exact N1|reflexivity]).
  change (XMPlaneIsNaN b V) with (XMQuaternionIsNaN b V). change (XMPlaneIsInfinite b V) with (XMQuaternionIsInfinite b V). rewrite A, N. repeat split; first [apply E2|apply N2].
Qed.
(** IsIdentity: exactly (0, 0, 0, 1), zeros of either sign; so -1, the same rotation, is not recognised *)
Theorem C69_identity : forall b V, XMQuaternionIsIdentity b V = true <->
  (value (qx V) = Fin 0 /\ value (qy V) = Fin 0 /\ value (qz V) = Fin 0 /\ value (qw V) = Fin 1)%R.
Proof. exact identity_ok. Qed.
(** XMPlaneNearEqual in exact arithmetic: the normalised coefficients differ by at most epsilon, lane by lane *)
Open Scope R_scope.
Theorem C69_plane_near_equal : forall b (P1 P2 e : rvec), ~ zero3 P1 -> ~ zero3 P2 ->
  (XMPlaneNearEqual (L:=RL) b P1 P2 e = true <-> forall k, Rabs (lane P1 k / norm3 P1 - lane P2 k / norm3 P2) <= lane e k).
Proof. exact plane_near. Qed.
Theorem C69_plane_near_scale : forall b (P1 P2 e : rvec) k, 0 < k -> ~ zero3 P1 -> ~ zero3 P2 ->
  XMPlaneNearEqual (L:=RL) b (scale k P1) P2 e = XMPlaneNearEqual (L:=RL) b P1 P2 e.
Proof. exact plane_near_scale. Qed.
Theorem C69_plane_near_opposite : forall b (P e : rvec), ~ zero3 P -> (forall k, lane e k < 1) -> XMPlaneNearEqual (L:=RL) b P (scale (-1) P) e = false.
Proof. exact plane_near_opposite. Qed.
Open Scope Z_scope.
Example C69_ex : XMQuaternionIsIdentity Scalar (Q 0 0x80000000 0 0x3f800000) = true /\ XMQuaternionIsIdentity Scalar (Q 0 0 0 0xbf800000) = false /\
  XMQuaternionEqual Scalar (Q 0 0 0 0x7fc00000) (Q 0 0 0 0x7fc00000) = false /\ ~ zero3 (Q 0 0 1 5)%R.
Proof. split; [vm_compute; reflexivity|]. split; [vm_compute; reflexivity|]. split; [vm_compute; reflexivity|]. intros (_ & _ & H). cbn in H. lra. Qed.

(** * C70 arrays and structures *)
Theorem C70_vector_structs : forall x y z w,
  XMFLOAT2_from [x; y] = Some (XMFLOAT2_set x y) /\ XMFLOAT3_from [x; y; z] = Some (XMFLOAT3_set x y z) /\ XMFLOAT4_from [x; y; z; w] = Some (XMFLOAT4_set x y z w) /\
  words2 (XMFLOAT2_set x y) = [x; y] /\ words3 (XMFLOAT3_set x y z) = [x; y; z] /\ words4 (XMFLOAT4_set x y z w) = [x; y; z; w].
Proof. intros. repeat split; reflexivity. Qed.
(** a flat array of r*c words becomes rows: m[i][j] = a[c*i + j], for every size; and back *)
Theorem C70_flat_to_rows : forall r c a, length a = (r * c)%nat ->
  exists m, rows_from r c a = Some m /\ rows_words m = a /\ length m = r /\ Forall (fun row => length row = c) m /\
  forall i j, (i < r)%nat -> (j < c)%nat -> nth j (nth i m []) 0 = nth (c * i + j) a 0.
Proof.
  intros r c a L. destruct (rows_ok r c a L) as (m & E). exists m. destruct (rows_len _ _ _ _ E) as (A & _ & B & C).
  split; [exact E|]. split; [exact B|]. split; [exact A|]. split; [exact C|]. intros i j. exact (rows_nth r c a m i j E).
Qed.
Theorem C70_rows_to_flat : forall r c m, length m = r -> Forall (fun row => length row = c) m -> rows_from r c (rows_words m) = Some m.
Proof. exact rows_concat. Qed.
(** the four structures have the sizes their names say *)
Theorem C70_struct_sizes : XMFLOAT4X3_from = rows_from 4 3 /\ XMFLOAT3X4_from = rows_from 3 4 /\ XMFLOAT4X4_from = rows_from 4 4 /\ XMFLOAT3X3_from = rows_from 3 3.
Proof. repeat split; reflexivity. Qed.
(** XMVector and XMMatrix from arrays: lane k is a[k]; entry (i, j) is a[4i+j], or a[i][j] *)
Theorem C70_vector_from : forall b a, length a = 4%nat -> exists v, XMVector_from b a = Some v /\ lanes_are v (word_at a).
Proof. exact vector_from. Qed.
Theorem C70_matrix_from : forall b a, length a = 16%nat -> exists M, XMMatrix_from_flat b a = Some M /\ mat_is M (fun i j => word_at a (4 * i + j)).
Proof. exact matrix_from_flat. Qed.
Theorem C70_matrix_from_rows : forall b a, length a = 4%nat -> Forall (fun row => length row = 4%nat) a ->
  exists M, XMMatrix_from_rows b a = Some M /\ mat_is M (fun i j => nth (Z.to_nat j) (nth (Z.to_nat i) a []) 0).
Proof. exact matrix_from_rows. Qed.
(** XMMatrix into arrays: every word of the uninitialised target [m] is overwritten, entries in the same order, and the
    conversion back returns the same matrix bit for bit *)
Theorem C70_matrix_into : forall b m M, length m = 16%nat -> exists a, XMMatrix_into_flat b m M = Some a /\ length a = 16%nat /\
  XMMatrix_from_flat b a = Some M /\ (forall i j, 0 <= i < 4 -> 0 <= j < 4 -> word_at a (4 * i + j) = ent M i j) /\
  exists rs, XMMatrix_into_rows b m M = Some rs /\ XMMatrix_from_rows b rs = Some M /\ rows_words rs = a /\
    (forall i j, 0 <= i < 4 -> 0 <= j < 4 -> nth (Z.to_nat j) (nth (Z.to_nat i) rs []) 0 = ent M i j).
Proof. exact matrix_into. Qed.
Example C70_ex : XMFLOAT3X3_from [1; 2; 3; 4; 5; 6; 7; 8; 9] = Some [[1; 2; 3]; [4; 5; 6]; [7; 8; 9]] /\ XMFLOAT4X3_from [1; 2; 3] = None /\
  XMMatrix_from_flat Scalar [1; 2; 3; 4; 5; 6; 7; 8; 9; 10; 11; 12; 13; 14; 15; 16] = Some (Q (Q 1 2 3 4) (Q 5 6 7 8) (Q 9 10 11 12) (Q 13 14 15 16)).
Proof. repeat split; reflexivity. Qed.
