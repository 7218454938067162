(** Closed forms of the collision helpers over the reals, and elementary facts about the regions of SpecShape.v. *)
From Coq Require Import Reals Lra Psatz List.
From Verif Require Import Base F32 Intrin Lane MVec MTrig MQuat MInterp MPlane MMatrix Shapes MCollide.
From Verif Require Import SpecGeom SpecQuat SpecMat SpecShape PReal PVec PQuat PRot PMatrix.
Open Scope R_scope.

Lemma load3_R p : load3 (L:=RL) p = pos p. Proof. reflexivity. Qed.
Ltac l3 := change (T RL) with R in *; change (@load3 RL) with pos in *.
(** lane operations named as the operations of the reals, nothing else unfolded *)
Ltac ro := unfold tge, tgt in *; change (T RL) with R in *;
  change (@tadd RL) with Rplus in *; change (@tsub RL) with Rminus in *; change (@tmul RL) with Rmult in *;
  change (@tdiv RL) with Rdiv in *; change (@tneg RL) with Ropp in *; change (@tsqrt RL) with sqrt in *;
  change (@tabs RL) with Rabs in *; change (@tlt RL) with Rltb in *; change (@tle RL) with Rleb in *;
  change (@teq RL) with Reqb in *.
Lemma all3_le (a c : R) : all3 (vle (L:=RL) (qrep a) (qrep c)) = Rleb a c.
Proof. cbv [all3 vle qmap2 qrep qx qy qz]. rl. destruct (Rleb a c); reflexivity. Qed.
Lemma qall_le (a c : R) : qall (vle (L:=RL) (qrep a) (qrep c)) = Rleb a c.
Proof. cbv [qall vle qmap2 qrep qx qy qz]. rl. destruct (Rleb a c); reflexivity. Qed.
Lemma all3_gt (a c : R) : all3 (vgt (L:=RL) (qrep a) (qrep c)) = Rltb c a.
Proof. cbv [all3 vle qmap2 qrep qx qy qz]. rl. destruct (Rltb c a); reflexivity. Qed.
Lemma qall_gt (a c : R) : qall (vgt (L:=RL) (qrep a) (qrep c)) = Rltb c a.
Proof. cbv [qall vle qmap2 qrep qx qy qz]. rl. destruct (Rltb c a); reflexivity. Qed.
Lemma qall_lt (a c : R) : qall (vlt (L:=RL) (qrep a) (qrep c)) = Rltb a c.
Proof. cbv [qall vle qmap2 qrep qx qy qz]. rl. destruct (Rltb a c); reflexivity. Qed.
Lemma rep_mul (a c : R) : qmap2 Rmult (qrep a) (qrep c) = qrep (a * c). Proof. reflexivity. Qed.
Lemma rep_plus (a c : R) : plus (qrep a) (qrep c) = qrep (a + c). Proof. reflexivity. Qed.
Lemma rep_minus (a c : R) : minus (qrep a) (qrep c) = qrep (a - c). Proof. reflexivity. Qed.
Lemma rep_scale (a c : R) : scale a (qrep c) = qrep (a * c). Proof. reflexivity. Qed.
Lemma rep_abs (a : R) : qmap Rabs (qrep a) = qrep (Rabs a). Proof. reflexivity. Qed.
Lemma rep_opp (a : R) : qmap Ropp (qrep a) = qrep (- a). Proof. reflexivity. Qed.
Lemma rep_div (a c : R) : qmap2 Rdiv (qrep a) (qrep c) = qrep (a / c). Proof. reflexivity. Qed.
Lemma rep_sqrt (a : R) : qmap sqrt (qrep a) = qrep (sqrt a). Proof. reflexivity. Qed.
Lemma qx_rep {A} (a : A) : qx (qrep a) = a. Proof. reflexivity. Qed.
Lemma half_R : half (L:=RL) = / 2. Proof. cbv -[Rmult Rdiv Rinv IZR]. lra. Qed.
Lemma one_R : one (L:=RL) = 1. Proof. reflexivity. Qed.
Lemma vone_R : vone (L:=RL) = qrep 1. Proof. reflexivity. Qed.
Lemma vzero_R : vzero (L:=RL) = qrep 0. Proof. reflexivity. Qed.
Lemma mone_R : mone (L:=RL) = -1. Proof. reflexivity. Qed.

(** unit checks accept exact units *)
Lemma unit_check b : qall (vlt (L:=RL) (XMVectorAbs b (minus (qrep 1) (qrep 1))) g_UnitEpsilon) = true.
Proof.
  rewrite rep_minus, Abs_R, rep_abs. replace (1 - 1) with 0 by ring. rewrite Rabs_R0.
  unfold g_UnitEpsilon. rewrite qall_lt. apply Rltb_true. cbv -[Rdiv IZR Rlt]. lra.
Qed.
Lemma isunit3 b v : unit3 v -> XMVector3IsUnit (L:=RL) b v = true.
Proof.
  intros H. unfold XMVector3IsUnit. rewrite Length3_R, vone_R, Sub_R. unfold norm3. rewrite H, sqrt_1. apply unit_check.
Qed.
Lemma isunitq b q : unitq q -> XMQuaternionIsUnit (L:=RL) b q = true.
Proof.
  intros H. unfold XMQuaternionIsUnit. rewrite Length4_R, vone_R, Sub_R. unfold norm4. rewrite H, sqrt_1. apply unit_check.
Qed.

(** distances *)
Lemma dist_sq p q : dist p q * dist p q = dot3 (minus p q) (minus p q).
Proof. apply sqrt_sqrt, dot3_nonneg. Qed.
Lemma dist_nonneg p q : 0 <= dist p q. Proof. apply sqrt_pos. Qed.
Lemma norm3_nonneg p : 0 <= norm3 p. Proof. apply sqrt_pos. Qed.
Lemma norm3_sq p : norm3 p * norm3 p = dot3 p p. Proof. apply sqrt_sqrt, dot3_nonneg. Qed.
Lemma le_sq d r : 0 <= d -> 0 <= r -> d <= r <-> d * d <= r * r.
Proof. intros; split; intros; nra. Qed.
Lemma norm3_le v r : 0 <= r -> norm3 v <= r <-> dot3 v v <= r * r.
Proof. intros. rewrite (le_sq _ _ (norm3_nonneg v) H), norm3_sq. reflexivity. Qed.
Lemma dist_le p q r : 0 <= r -> dist p q <= r <-> dot3 (minus p q) (minus p q) <= r * r.
Proof. intros. apply norm3_le; assumption. Qed.
Lemma dot3_sym u v : dot3 u v = dot3 v u. Proof. unfold dot3; ring. Qed.
Lemma dist_sym p q : dist p q = dist q p.
Proof. unfold dist, norm3. f_equal. unfold dot3, minus; cbn [qx qy qz]; ring. Qed.
Lemma dist_tri p q r : dist p r <= dist p q + dist q r.
Proof.
  unfold dist. replace (norm3 (minus p r)) with (norm3 (plus (minus p q) (minus q r))); [apply c19_tri3|].
  unfold norm3. f_equal. unfold dot3, minus, plus; cbn [qx qy qz]; ring.
Qed.
Lemma dist_self p : dist p p = 0.
Proof. unfold dist, norm3. replace (dot3 _ _) with 0; [apply sqrt_0|]. unfold dot3, minus; cbn [qx qy qz]; ring. Qed.
Lemma dist_eq3 p p' q : eq3 p p' -> dist p q = dist p' q.
Proof. intros (h1 & h2 & h3). unfold dist, norm3, dot3, minus; cbn [qx qy qz]. rewrite h1, h2, h3. reflexivity. Qed.
Lemma norm3_scale_abs k v : norm3 (scale k v) = Rabs k * norm3 v.
Proof.
  unfold norm3. rewrite <- sqrt_Rsqr_abs, <- sqrt_mult_alt by apply Rle_0_sqr. f_equal.
  unfold dot3, scale, Rsqr; cbn [qx qy qz]; ring.
Qed.
(** a point at signed distance [k] from [c] in a unit direction *)
Lemma dist_along c n k : unit3 n -> dist (plus c (scale k n)) c = Rabs k.
Proof.
  intros H. unfold dist. replace (norm3 (minus (plus c (scale k n)) c)) with (norm3 (scale k n)).
  - rewrite norm3_scale_abs. unfold norm3. rewrite H, sqrt_1. ring.
  - unfold norm3. f_equal. unfold dot3, minus, plus, scale; cbn [qx qy qz]; ring.
Qed.
Lemma unit_of v : norm3 v <> 0 -> unit3 (scale (/ norm3 v) v).
Proof.
  intros H. unfold unit3. replace (dot3 _ _) with (/ norm3 v * / norm3 v * dot3 v v).
  - rewrite <- norm3_sq. field. assumption.
  - unfold dot3, scale; cbn [qx qy qz]; ring.
Qed.
Lemma eq3_refl u : eq3 u u. Proof. repeat split. Qed.
