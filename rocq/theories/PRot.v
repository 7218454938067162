(** Quaternions and rotation matrices convert into each other. *)
From Coq Require Import Reals Lra Psatz Nsatz.
From Verif Require Import Base F32 Intrin Lane MVec MTrig MQuat MMatrix SpecGeom SpecQuat PReal PVec PQuat.
Open Scope R_scope.

Lemma from_tensor v p k t00 t01 t02 t03 t11 t12 t13 t22 t23 t33 : 4 * p * (k * k) = 1 ->
  qx v * qx v = p * t00 -> qx v * qy v = p * t01 -> qx v * qz v = p * t02 -> qx v * qw v = p * t03 ->
  qy v * qy v = p * t11 -> qy v * qz v = p * t12 -> qy v * qw v = p * t13 ->
  qz v * qz v = p * t22 -> qz v * qw v = p * t23 -> qw v * qw v = p * t33 ->
  qmat (scale k v) =
  Q (Q (1 - (t11 + t22) / 2) ((t01 + t23) / 2) ((t02 - t13) / 2) 0) (Q ((t01 - t23) / 2) (1 - (t00 + t22) / 2) ((t12 + t03) / 2) 0)
    (Q ((t02 + t13) / 2) ((t12 - t03) / 2) (1 - (t00 + t11) / 2) 0) (Q 0 0 0 1)
  /\ dot4 (scale k v) (scale k v) = (t00 + t11 + t22 + t33) / 4.
Proof.
  intros K h00 h01 h02 h03 h11 h12 h13 h22 h23 h33.
  assert (A : forall x y t, x * y = p * t -> k * x * (k * y) = t / 4).
  { intros x y t E. replace (k * x * (k * y)) with (k * k * (x * y)) by ring. rewrite E.
    replace (k * k * (p * t)) with (4 * p * (k * k) * t / 4) by field. rewrite K. field. }
  unfold qmat, dot4, scale; cbn [qx qy qz qw].
  rewrite (A _ _ _ h00), (A _ _ _ h01), (A _ _ _ h02), (A _ _ _ h03), (A _ _ _ h11), (A _ _ _ h12), (A _ _ _ h13), (A _ _ _ h22),
    (A _ _ _ h23), (A _ _ _ h33).
  split; [|field]. apply (@Qeq (quad R)); apply (@Qeq R); field.
Qed.
Lemma pivot_k p : 1 <= p -> 4 * p * (/ 2 / sqrt p * (/ 2 / sqrt p)) = 1.
Proof.
  intros H. assert (0 < sqrt p) by (apply sqrt_lt_R0; lra). pose proof (sqrt_sqrt p ltac:(lra)) as S.
  replace (4 * p) with (4 * (sqrt p * sqrt p)) by lra. field. lra.
Qed.

Section RoundTrip.
Variables a b c d e f g h i : R.
Hypothesis E : rot_eqs a b c d e f g h i.
Let M : rmat := Q (Q a b c 0) (Q d e f 0) (Q g h i 0) (Q 0 0 0 1).
Let t00 := 1 + a - e - i. Let t11 := 1 - a + e - i. Let t22 := 1 - a - e + i. Let t33 := 1 + a + e + i.
Let t01 := b + d. Let t02 := c + g. Let t03 := f - h. Let t12 := f + h. Let t13 := g - c. Let t23 := b - d.
Lemma cand_good v p : 1 <= p ->
  (v = candX M /\ p = t00) \/ (v = candY M /\ p = t11) \/ (v = candZ M /\ p = t22) \/ (v = candW M /\ p = t33) ->
  qmat (scale (/ 2 / sqrt p) v) = M /\ unitq (scale (/ 2 / sqrt p) v) /\ dot4 v v = 4 * p.
Proof.
  intros P C. pose proof (pivot_k p P) as K. set (k := / 2 / sqrt p) in *. clearbody k.
  destruct E as [re1 re2 re3 re4 re5 re6 rc1 rc2 rc3 rc4 rc5 rc6 rd1 rd2 rd3 rd4 rd5 rd6 rd7 rd8 rd9].
  assert (H : qmat (scale k v) = M /\ unitq (scale k v)).
  { destruct (from_tensor v p k t00 t01 t02 t03 t11 t12 t13 t22 t23 t33 K) as [H1 H2];
    try (destruct C as [[-> ->]|[[-> ->]|[[-> ->]|[-> ->]]]]; cbv [candX candY candZ candW M qx qy qz qw t00 t01 t02 t03 t11 t12 t13 t22 t23 t33]; lra).
    split.
    - rewrite H1. subst M t00 t01 t02 t03 t11 t12 t13 t22 t23 t33. apply (@Qeq (quad R)); apply (@Qeq R); field.
    - unfold unitq. rewrite H2. subst t00 t01 t02 t03 t11 t12 t13 t22 t23 t33. field. }
  split; [exact (proj1 H)|]. split; [exact (proj2 H)|].
  destruct H as [_ H]. unfold unitq in H. replace (dot4 (scale k v) (scale k v)) with (k * k * dot4 v v) in H by (unfold dot4, scale; cbn [qx qy qz qw]; ring).
  assert (k <> 0) by (intros ->; lra). apply Rmult_eq_reg_l with (k * k); [|nra]. lra.
Qed.
Lemma cand_of_good (F : rvec -> R -> rvec) :
  exists v p, 1 <= p /\ cand_of M F = F v p /\
  ((v = candX M /\ p = t00) \/ (v = candY M /\ p = t11) \/ (v = candZ M /\ p = t22) \/ (v = candW M /\ p = t33)).
Proof.
  unfold cand_of. cbv [M qx qy qz qw]. fold M.
  destruct (Rleb_spec i 0); [destruct (Rleb_spec (e - a) 0)|destruct (Rleb_spec (e + a) 0)].
  - exists (candX M), t00. split; [subst t00; lra|]. split; [reflexivity|tauto].
  - exists (candY M), t11. split; [subst t11; lra|]. split; [reflexivity|tauto].
  - exists (candZ M), t22. split; [subst t22; lra|]. split; [reflexivity|tauto].
  - exists (candW M), t33. split; [subst t33; lra|]. split; [reflexivity|tauto].
Qed.
End RoundTrip.

Lemma mat_of_rotation M : rotation M -> exists a b c d e f g h i,
  M = Q (Q a b c 0) (Q d e f 0) (Q g h i 0) (Q 0 0 0 1) /\ rot_eqs a b c d e f g h i.
Proof.
  intros H. destruct M as [r0 r1 r2 r3]. pose proof (rotation_eqs _ _ _ _ H) as E.
  destruct H as (_ & h1 & h2 & h3 & h4 & _). dq r0; dq r1; dq r2. cbn [qx qy qz qw] in *. subst.
  do 9 eexists; split; [reflexivity|exact E].
Qed.
Lemma mat_quat_mat b M : rotation M ->
  XMMatrixRotationQuaternion (L:=RL) b (XMQuaternionRotationMatrix b M) = M /\ unitq (XMQuaternionRotationMatrix (L:=RL) b M).
Proof.
  intros H. destruct (mat_of_rotation M H) as (m & n & o & r & s & t & u & v & w & -> & E).
  rewrite RotQuat_R, QFromMat_R.
  match goal with |- context [cand_of ?M ?F] => destruct (cand_of_good m n o r s t u v w F) as (vv & p & P & -> & C) end.
  pose proof (cand_good _ _ _ _ _ _ _ _ _ E vv p P C) as (G1 & G2 & G3).
  destruct b as [|s3 s4 fm av]; cbv beta iota.
  - split; assumption.
  - unfold norm4. rewrite (pos_pivot p _ P G3). split; assumption.
Qed.
Lemma quat_backends_agree b1 b2 M : rotation M -> XMQuaternionRotationMatrix (L:=RL) b1 M = XMQuaternionRotationMatrix b2 M.
Proof.
  intros H. destruct (mat_of_rotation M H) as (m & n & o & r & s & t & u & v & w & -> & E).
  assert (A : forall bb, XMQuaternionRotationMatrix (L:=RL) bb (Q (Q m n o 0) (Q r s t 0) (Q u v w 0) (Q 0 0 0 1))
     = cand_of (Q (Q m n o 0) (Q r s t 0) (Q u v w 0) (Q 0 0 0 1)) (fun v p => scale (/ 2 / sqrt p) v)).
  { intros bb. rewrite QFromMat_R.
    match goal with |- cand_of ?M ?F = cand_of ?M ?G =>
      destruct (cand_of_good m n o r s t u v w (fun v p => Q (qx (F v p)) (qy (F v p)) (qz (F v p)) (qw (F v p)))) as (vv & p & P & X & C);
      pose proof (cand_good _ _ _ _ _ _ _ _ _ E vv p P C) as (G1 & G2 & G3) end.
    clear X. destruct bb as [|s3 s4 fm av]; [reflexivity|].
    unfold cand_of. cbv [qx qy qz qw].
    destruct E. 
    repeat match goal with |- context [Rleb ?x ?y] => destruct (Rleb_spec x y) end.
    all: f_equal; unfold norm4; apply pos_pivot; [cbv [candX candY candZ candW qx qy qz qw]; lra|].
    all: cbv [candX candY candZ candW dot4 qx qy qz qw]; lra. }
  rewrite !A. reflexivity.
Qed.
(** a unit quaternion is determined by its matrix up to sign *)
Lemma qmat_inj p q : unitq p -> unitq q -> qmat p = qmat q -> p = q \/ p = negv q.
Proof.
  unfold unitq. intros Hp Hq H. dn q. dq p. unfold qmat in H. cbn [qx qy qz qw] in H.
  injection H; intros; clear H. qs.
  assert (X : px * px = a1 * a1) by lra. assert (Y : py * py = a2 * a2) by lra.
  assert (Z : pz * pz = a3 * a3) by lra. assert (W : pw * pw = a4 * a4) by lra.
  assert (S : forall u v, u * u = v * v -> u = v \/ u = - v).
  { intros u v E. assert ((u - v) * (u + v) = 0) by lra. apply Rmult_integral in H. destruct H; [left|right]; lra. }
  assert (C : px * px >= / 4 \/ py * py >= / 4 \/ pz * pz >= / 4 \/ pw * pw >= / 4).
  { destruct (Rge_dec (px*px) (/4)); [tauto|]. destruct (Rge_dec (py*py) (/4)); [tauto|]. destruct (Rge_dec (pz*pz) (/4)); [tauto|].
    right; right; right; lra. }
  assert (XY : px * py = a1 * a2) by lra. assert (XZ : px * pz = a1 * a3) by lra. assert (XW : px * pw = a1 * a4) by lra.
  assert (YZ : py * pz = a2 * a3) by lra. assert (YW : py * pw = a2 * a4) by lra. assert (ZW : pz * pw = a3 * a4) by lra.
  destruct C as [C|[C|[C|C]]].
  - destruct (S _ _ X) as [->| ->]; [left|right]; assert (a1 <> 0) by (intros ->; lra); apply (@Qeq R); try reflexivity; apply (Rmult_eq_reg_l a1); lra.
  - destruct (S _ _ Y) as [->| ->]; [left|right]; assert (a2 <> 0) by (intros ->; lra); apply (@Qeq R); try reflexivity; apply (Rmult_eq_reg_l a2); lra.
  - destruct (S _ _ Z) as [->| ->]; [left|right]; assert (a3 <> 0) by (intros ->; lra); apply (@Qeq R); try reflexivity; apply (Rmult_eq_reg_l a3); lra.
  - destruct (S _ _ W) as [->| ->]; [left|right]; assert (a4 <> 0) by (intros ->; lra); apply (@Qeq R); try reflexivity; apply (Rmult_eq_reg_l a4); lra.
Qed.
Lemma quat_mat_quat b q : unitq q ->
  XMQuaternionRotationMatrix (L:=RL) b (XMMatrixRotationQuaternion b q) = q \/ XMQuaternionRotationMatrix (L:=RL) b (XMMatrixRotationQuaternion b q) = negv q.
Proof.
  intros H. rewrite RotQuat_R. destruct (mat_quat_mat b (qmat q) (qmat_rotation q H)) as [A U].
  rewrite RotQuat_R in A. apply qmat_inj; assumption.
Qed.
