(** Eigenvectors and the axes built from them, in exact arithmetic. *)
From Coq Require Import Reals Lra Psatz Bool List.
From Verif Require Import Base F32 Intrin Lane MVec MTrig MQuat MInterp MPlane MMatrix Shapes MCollide SpecGeom SpecEig PReal PVec PEig.
Open Scope R_scope.

Notation cev b s l := (CalculateEigenVector (L:=RL) b (s11 s) (s12 s) (s13 s) (s22 s) (s23 s) (s33 s) l).
Notation cevs b s l1 l2 l3 := (CalculateEigenVectors (L:=RL) b (s11 s) (s12 s) (s13 s) (s22 s) (s23 s) (s33 s) l1 l2 l3).
Lemma all3_zero (V : rvec) : all3 (veq (L:=RL) V vzero) = true <-> zero3 V.
Proof.
  unfold zero3. dq V. rcbv. destruct (Reqb_spec Vx 0), (Reqb_spec Vy 0), (Reqb_spec Vz 0); cbn; split; try easy; intros (A & B & C); contradiction.
Qed.
Lemma zero3_dec (V : rvec) : zero3 V \/ ~ zero3 V.
Proof. destruct (all3 (veq (L:=RL) V vzero)) eqn:E; [left; apply all3_zero, E|right; intros Z; apply all3_zero in Z; congruence]. Qed.
Lemma lit_1em5 : tlit (L:=RL) 2748779 (-38) = 2748779 / 274877906944. Proof. cbn; unfold Rlit; cbn; field. Qed.
Lemma lit_tenth : tlit (L:=RL) 13421773 (-27) = 13421773 / 134217728. Proof. cbn; unfold Rlit; cbn; field. Qed.
Lemma lit_1e5 : tlit (L:=RL) 3125 5 = 100000. Proof. cbn; unfold Rlit; cbn; ring. Qed.
Lemma norm3_scale_pos k v : 0 <= k -> norm3 (scale k v) = k * norm3 v.
Proof.
  intros K. unfold norm3. replace (dot3 (scale k v) (scale k v)) with (k * k * dot3 v v) by (unfold dot3, scale; cbn [qx qy qz]; ring).
  rewrite sqrt_mult_alt by nra. rewrite sqrt_square by exact K. reflexivity.
Qed.
(** both branches of the final step are the normalization *)
Lemma tail_R b (V : rvec) :
  (if tgt (qx (XMVector3LengthSq (L:=RL) b V)) (tlit 2748779 (-38)) then XMVector3Normalize (L:=RL) b V else XMVector3Normalize (L:=RL) b (XMVectorScale b V (tlit 3125 5))) = XMVector3Normalize (L:=RL) b V.
Proof.
  destruct (tgt _ _); [reflexivity|]. rewrite lit_1e5. assert (E : XMVectorScale (L:=RL) b V 100000 = scale 100000 V) by (dq V; destruct b; rcbv; qeq; ring).
  rewrite E. destruct (zero3_dec V) as [Z|Z].
  - rewrite !Normalize3_0; [reflexivity|exact Z|]. destruct Z as (A & B & C). unfold zero3, scale; cbn [qx qy qz]. rewrite A, B, C. repeat split; ring.
  - rewrite !Normalize3_R; [|exact Z|].
    + rewrite norm3_scale_pos by lra. assert (N : norm3 V <> 0). { unfold norm3. intros N. apply sqrt_eq_0 in N; [|apply dot3_nonneg]. apply Z, dot3_0, N. }
      unfold scale; cbn [qx qy qz qw]. apply (@Qeq R); field; exact N.
    + intros (A & B & C). apply Z. unfold scale in *; cbn [qx qy qz] in *. unfold zero3. repeat split; lra.
Qed.
Lemma cev_R b s l : ~ zero3 (cross (row1 s l) (row2 s l)) -> cev b s l = scale (/ norm3 (cross (row1 s l) (row2 s l))) (cross (row1 s l) (row2 s l)).
Proof.
  intros Z. rewrite <- Normalize3_R with (b := b) by exact Z. unfold CalculateEigenVector. cbv zeta.
  match goal with |- context [load3 ?x] => assert (E : load3 x = cross (row1 s l) (row2 s l)) by (unfold load3, cross, row1, row2; cbn [qx qy qz Shapes.fx Shapes.fy Shapes.fz]; qeq; rt; try ring) end.
  rewrite E. assert (F : all3 (veq (L:=RL) (cross (row1 s l) (row2 s l)) vzero) = false) by (destruct (all3 _) eqn:A; [exfalso; apply Z, all3_zero, A|reflexivity]).
  rewrite F. apply tail_R.
Qed.
Lemma unit_of b (V : rvec) : zero3 (XMVector3Normalize (L:=RL) b V) \/ norm3 (XMVector3Normalize (L:=RL) b V) = 1.
Proof.
  destruct (zero3_dec V) as [Z|Z]; [left; rewrite Normalize3_0 by exact Z; repeat split|right]. rewrite Normalize3_R by exact Z.
  assert (N : norm3 V <> 0). { unfold norm3. intros N. apply sqrt_eq_0 in N; [|apply dot3_nonneg]. apply Z, dot3_0, N. }
  assert (P : 0 < norm3 V) by (pose proof (sqrt_pos (dot3 V V)); unfold norm3 in *; lra).
  rewrite norm3_scale_pos by (apply Rlt_le, Rinv_0_lt_compat, P). field. exact N.
Qed.
Lemma cev_unit b s l : zero3 (cev b s l) \/ norm3 (cev b s l) = 1.
Proof. unfold CalculateEigenVector. cbv zeta. rewrite tail_R. apply unit_of. Qed.
Lemma cev_residual b s l : let n := cross (row1 s l) (row2 s l) in ~ zero3 n ->
  norm3 (cev b s l) = 1 /\ eq3 (sapply s (cev b s l)) (plus (scale l (cev b s l)) (Q 0 0 (- charpoly s l / norm3 n) 0)).
Proof.
  intros n Z. assert (N : norm3 n <> 0). { unfold norm3. intros N. apply sqrt_eq_0 in N; [|apply dot3_nonneg]. apply Z, dot3_0, N. }
  destruct (cev_unit b s l) as [U|U]; rewrite (cev_R b s l Z) in U |- *; fold n in U |- *.
  - exfalso. apply Z. destruct U as (A & B & C). unfold scale in *; cbn [qx qy qz] in *. pose proof (Rinv_neq_0_compat _ N) as I. unfold zero3.
    repeat split; [destruct (Rmult_integral _ _ A)|destruct (Rmult_integral _ _ B)|destruct (Rmult_integral _ _ C)]; try contradiction; assumption.
  - split; [exact U|]. unfold eq3, sapply, plus, scale; cbn [qx qy qz]. clear U. generalize dependent (norm3 n). intros k K. unfold n, row1, row2, cross, charpoly, det3, det2; cbn [qx qy qz].
    repeat split; field; exact K.
Qed.
Lemma cev_axis b s l : ~ zero3 (cross (row1 s l) (row2 s l)) -> charpoly s l = 0 -> unit_axis s l (cev b s l).
Proof.
  intros Z C. destruct (cev_residual b s l Z) as [U (A & B & D)]. split; [exact U|]. rewrite C in *. unfold plus in *; cbn [qx qy qz] in *.
  split; [|split]; [rewrite A|rewrite B|rewrite D]; try ring. unfold Rdiv. ring.
Qed.
(** axes of distinct eigenvalues are orthogonal *)
Lemma axes_orth s l m u v : l <> m -> unit_axis s l u -> unit_axis s m v -> dot3 u v = 0.
Proof.
  intros N [_ (A & B & C)] [_ (D & E & F)]. unfold sapply, scale in *; cbn [qx qy qz] in *. dq u. dq v. unfold dot3; cbn [qx qy qz] in *.
  assert (H : (l - m) * (ux * vx + uy * vy + uz * vz) = 0).
  { replace ((l - m) * (ux * vx + uy * vy + uz * vz)) with ((l * ux) * vx + (l * uy) * vy + (l * uz) * vz - ux * (m * vx) - uy * (m * vy) - uz * (m * vz)) by ring.
    rewrite <- A, <- B, <- C, <- D, <- E, <- F. ring. }
  apply Rmult_integral in H as [H|H]; [exfalso; apply N; lra|exact H].
Qed.
Lemma unit_nonzero v : norm3 v = 1 -> ~ zero3 v.
Proof. intros U (A & B & C). unfold norm3, dot3 in U. rewrite A, B, C in U. replace (0 * 0 + 0 * 0 + 0 * 0) with 0 in U by ring. rewrite sqrt_0 in U. lra. Qed.
Lemma norm_dot v : norm3 v = 1 <-> dot3 v v = 1.
Proof.
  unfold norm3. split; intros H; [|rewrite H; apply sqrt_1]. rewrite <- (sqrt_sqrt (dot3 v v)) by apply dot3_nonneg. rewrite H. ring.
Qed.
(** the case analysis on the three vectors *)
Definition skewR (u v : rvec) : bool := Rltb (13421773 / 134217728) (Rabs (dot3 u v)).
Definition perpR (v : rvec) : rvec :=
  let t := cross (Q 0 1 0 0) v in if Rltb (dot3 t t) (2748779 / 274877906944) then cross (Q 1 0 0 0) v else t.
Definition z3 (v : rvec) : bool := all3 (veq (L:=RL) v vzero).
Lemma cevs_R b s l1 l2 l3 : cevs b s l1 l2 l3 =
  let V1 := cev b s l1 in let V2 := cev b s l2 in let V3 := cev b s l3 in
  let e12 := skewR V1 V2 in let e13 := skewR V1 V3 in let e23 := skewR V2 V3 in
  if ((z3 V1 && z3 V2 && z3 V3) || (e12 && e13 && e23) || (e12 && z3 V3) || (e13 && z3 V2) || (e23 && z3 V1))%bool then (Q 1 0 0 0, Q 0 1 0 0, Q 0 0 1 0)
  else if (z3 V1 && z3 V2)%bool then let V1 := XMVector3Normalize (L:=RL) b (perpR V3) in (V1, cross V3 V1, V3)
  else if (z3 V3 && z3 V1)%bool then let V3 := XMVector3Normalize (L:=RL) b (perpR V2) in (cross V2 V3, V2, V3)
  else if (z3 V2 && z3 V3)%bool then let V2 := XMVector3Normalize (L:=RL) b (perpR V1) in (V1, V2, cross V1 V2)
  else if (z3 V1 || e12)%bool then (cross V2 V3, V2, V3)
  else if (z3 V2 || e23)%bool then (V1, cross V3 V1, V3)
  else if (z3 V3 || e13)%bool then (V1, V2, cross V1 V2)
  else (V1, V2, V3).
Proof.
  unfold CalculateEigenVectors. cbv zeta. generalize (cev b s l1) (cev b s l2) (cev b s l3). intros V1 V2 V3. rt.
  assert (I0 : IdR0 (L:=RL) = Q 1 0 0 0) by (unfold IdR0, one, zero; cbn; unfold Rlit; cbn; qeq; lra).
  assert (I1 : IdR1 (L:=RL) = Q 0 1 0 0) by (unfold IdR1, one, zero; cbn; unfold Rlit; cbn; qeq; lra).
  assert (I2 : IdR2 (L:=RL) = Q 0 0 1 0) by (unfold IdR2, one, zero; cbn; unfold Rlit; cbn; qeq; lra).
  unfold z3, skewR, perpR, tgt. rewrite !Dot3_R, !LengthSq3_R, !Cross3_R, I0, I1, I2, lit_tenth, lit_1em5. reflexivity.
Qed.
Lemma z3_false v : norm3 v = 1 -> z3 v = false.
Proof. intros U. unfold z3. destruct (all3 _) eqn:A; [exfalso; apply (unit_nonzero v U), all3_zero, A|reflexivity]. Qed.
Lemma z3_true v : zero3 v -> z3 v = true. Proof. intros Z. apply all3_zero, Z. Qed.
Lemma skew_orth u v : dot3 u v = 0 -> skewR u v = false.
Proof. intros H. unfold skewR. rewrite H, Rabs_R0. destruct (Rltb_spec (13421773 / 134217728) 0); [lra|reflexivity]. Qed.
Lemma distinct_axes b s l1 l2 l3 : l1 <> l2 -> l1 <> l3 -> l2 <> l3 -> charpoly s l1 = 0 -> charpoly s l2 = 0 -> charpoly s l3 = 0 ->
  ~ zero3 (cross (row1 s l1) (row2 s l1)) -> ~ zero3 (cross (row1 s l2) (row2 s l2)) -> ~ zero3 (cross (row1 s l3) (row2 s l3)) ->
  exists u v w, cevs b s l1 l2 l3 = (u, v, w) /\ orthonormal3 u v w /\ unit_axis s l1 u /\ unit_axis s l2 v /\ unit_axis s l3 w.
Proof.
  intros N12 N13 N23 C1 C2 C3 Z1 Z2 Z3. exists (cev b s l1), (cev b s l2), (cev b s l3).
  pose proof (cev_axis b s l1 Z1 C1) as A1. pose proof (cev_axis b s l2 Z2 C2) as A2. pose proof (cev_axis b s l3 Z3 C3) as A3.
  pose proof (axes_orth _ _ _ _ _ N12 A1 A2) as O12. pose proof (axes_orth _ _ _ _ _ N13 A1 A3) as O13. pose proof (axes_orth _ _ _ _ _ N23 A2 A3) as O23.
  split; [|split; [repeat split; try assumption; first [apply A1|apply A2|apply A3]|auto]].
  rewrite cevs_R. cbv zeta. destruct A1 as [U1 _], A2 as [U2 _], A3 as [U3 _]. rewrite !z3_false, !skew_orth by assumption. reflexivity.
Qed.
(** a basis completed from one unit vector *)
Lemma perp_ok b v : norm3 v = 1 -> norm3 (XMVector3Normalize (L:=RL) b (perpR v)) = 1 /\ dot3 v (XMVector3Normalize (L:=RL) b (perpR v)) = 0.
Proof.
  intros U. apply norm_dot in U. assert (NZ : ~ zero3 (perpR v) /\ dot3 v (perpR v) = 0).
  { unfold perpR. cbv zeta. dq v. unfold dot3, cross, zero3 in *; cbn [qx qy qz] in *. destruct (Rltb_spec (((1 * vz - 0 * vy) * (1 * vz - 0 * vy) + (0 * vx - 0 * vz) * (0 * vx - 0 * vz) + (0 * vy - 1 * vx) * (0 * vy - 1 * vx))) (2748779 / 274877906944)) as [H|H]; cbn [qx qy qz]; (split; [intros (A & B & C)|ring]); nra. }
  destruct NZ as [NZ O]. destruct (unit_of b (perpR v)) as [Z|Z].
  - exfalso. rewrite Normalize3_R in Z by exact NZ. destruct Z as (A & B & C). unfold scale in *; cbn [qx qy qz] in *.
    assert (N : norm3 (perpR v) <> 0). { unfold norm3. intros N. apply sqrt_eq_0 in N; [|apply dot3_nonneg]. apply NZ, dot3_0, N. } pose proof (Rinv_neq_0_compat _ N) as I.
    apply NZ. repeat split; [destruct (Rmult_integral _ _ A)|destruct (Rmult_integral _ _ B)|destruct (Rmult_integral _ _ C)]; try contradiction; assumption.
  - split; [exact Z|]. rewrite Normalize3_R by exact NZ. transitivity (/ norm3 (perpR v) * dot3 v (perpR v)); [unfold dot3, scale; cbn [qx qy qz]; ring|rewrite O; ring].
Qed.
Lemma cross_unit u v : norm3 u = 1 -> norm3 v = 1 -> dot3 u v = 0 -> norm3 (cross u v) = 1 /\ dot3 u (cross u v) = 0 /\ dot3 v (cross u v) = 0.
Proof.
  intros U V O. apply norm_dot in U. apply norm_dot in V. split; [apply norm_dot|unfold dot3, cross; cbn [qx qy qz]; split; ring].
  transitivity (dot3 u u * dot3 v v - dot3 u v * dot3 u v); [unfold dot3, cross; cbn [qx qy qz]; ring|rewrite U, V, O; ring].
Qed.
Lemma dot3_comm u v : dot3 u v = dot3 v u. Proof. unfold dot3. ring. Qed.
Lemma zero_dot u v : zero3 u -> dot3 u v = 0. Proof. intros (A & B & C). unfold dot3. rewrite A, B, C. ring. Qed.
Lemma one_axis b s l1 l2 l3 :
  (zero3 (cev b s l1) /\ zero3 (cev b s l2)) \/ (zero3 (cev b s l1) /\ zero3 (cev b s l3)) \/ (zero3 (cev b s l2) /\ zero3 (cev b s l3)) ->
  exists u v w, cevs b s l1 l2 l3 = (u, v, w) /\ orthonormal3 u v w /\
    (~ zero3 (cev b s l1) -> u = cev b s l1) /\ (~ zero3 (cev b s l2) -> v = cev b s l2) /\ (~ zero3 (cev b s l3) -> w = cev b s l3).
Proof.
  intros H. rewrite cevs_R. cbv zeta. pose proof (cev_unit b s l1) as K1. pose proof (cev_unit b s l2) as K2. pose proof (cev_unit b s l3) as K3.
  generalize dependent (cev b s l3). generalize dependent (cev b s l2). generalize dependent (cev b s l1). intros V1 K1 V2 K2 V3 H K3. rt.
  assert (ID : orthonormal3 (Q 1 0 0 0) (Q 0 1 0 0) (Q 0 0 1 0)).
  { repeat split; try apply norm_dot; unfold dot3; cbn [qx qy qz]; ring. }
  assert (ZZ : forall v, zero3 v -> norm3 v = 1 -> False) by (intros v A B; exact (unit_nonzero v B A)).
  assert (all : zero3 V1 -> zero3 V2 -> zero3 V3 -> exists u v w, (Q 1 0 0 0, Q 0 1 0 0, Q 0 0 1 0) = (u, v, w) /\ orthonormal3 u v w /\ (~ zero3 V1 -> u = V1) /\ (~ zero3 V2 -> v = V2) /\ (~ zero3 V3 -> w = V3)).
  { intros A B C. exists (Q 1 0 0 0), (Q 0 1 0 0), (Q 0 0 1 0). split; [reflexivity|]. split; [exact ID|]. repeat split; contradiction. }
  destruct K1 as [K1|K1], K2 as [K2|K2], K3 as [K3|K3].
  - rewrite !z3_true by assumption. cbn [andb orb]. apply all; assumption.
  - rewrite (z3_true V1), (z3_true V2), (z3_false V3) by assumption. rewrite !(skew_orth V1), !(skew_orth V2) by (apply zero_dot; assumption). cbn [andb orb].
    destruct (perp_ok b V3 K3) as [P1 P2]. destruct (cross_unit _ _ K3 P1 P2) as (C1 & C2 & C3). set (u := XMVector3Normalize _ _) in *.
    exists u, (cross V3 u), V3. split; [reflexivity|]. split; [repeat split; try assumption; try (rewrite dot3_comm; assumption)|]. repeat split; intros; try contradiction; reflexivity.
  - rewrite (z3_true V1), (z3_true V3), (z3_false V2) by assumption. rewrite !(skew_orth V1) by (apply zero_dot; assumption). rewrite (skew_orth V2 V3) by (rewrite dot3_comm; apply zero_dot; assumption). cbn [andb orb].
    destruct (perp_ok b V2 K2) as [P1 P2]. destruct (cross_unit _ _ K2 P1 P2) as (C1 & C2 & C3). set (u := XMVector3Normalize _ _) in *.
    exists (cross V2 u), V2, u. split; [reflexivity|]. split; [repeat split; try assumption; try (rewrite dot3_comm; assumption)|]. repeat split; intros; try contradiction; reflexivity.
  - exfalso. destruct H as [[A B]|[[A B]|[A B]]]; eauto.
  - rewrite (z3_true V2), (z3_true V3), (z3_false V1) by assumption. rewrite !(skew_orth V2) by (apply zero_dot; assumption). rewrite (skew_orth V1 V3), (skew_orth V1 V2) by (rewrite dot3_comm; apply zero_dot; assumption). cbn [andb orb].
    destruct (perp_ok b V1 K1) as [P1 P2]. destruct (cross_unit _ _ K1 P1 P2) as (C1 & C2 & C3). set (u := XMVector3Normalize _ _) in *.
    exists V1, u, (cross V1 u). split; [reflexivity|]. split; [repeat split; try assumption; try (rewrite dot3_comm; assumption)|]. repeat split; intros; try contradiction; reflexivity.
  - exfalso. destruct H as [[A B]|[[A B]|[A B]]]; eauto.
  - exfalso. destruct H as [[A B]|[[A B]|[A B]]]; eauto.
  - exfalso. destruct H as [[A B]|[[A B]|[A B]]]; eauto.
Qed.
(** ** planar case *)
Lemma cev_planar b s l : zero3 (cross (row1 s l) (row2 s l)) -> s13 s <> 0 ->
  cev b s l = XMVector3Normalize (L:=RL) b (Q (if Reqb (s11 s - l) 0 then 0 else 1) (if Reqb (s12 s) 0 then 0 else 1) ((s12 s - (s11 s - l)) / s13 s) 0).
Proof.
  intros Z N. unfold CalculateEigenVector. cbv zeta.
  match goal with |- context [load3 ?x] => assert (E : load3 x = cross (row1 s l) (row2 s l)) by (unfold load3, cross, row1, row2; cbn [qx qy qz Shapes.fx Shapes.fy Shapes.fz]; qeq; rt; try ring) end.
  rewrite E. assert (F : all3 (veq (L:=RL) (cross (row1 s l) (row2 s l)) vzero) = true) by (apply all3_zero, Z). rewrite F. rewrite tail_R.
  assert (Z0 : zero (L:=RL) = 0) by (unfold zero; cbn; unfold Rlit; cbn; ring). assert (O1 : one (L:=RL) = 1) by (unfold one; cbn; unfold Rlit; cbn; ring).
  unfold nz. rewrite Z0, O1. assert (S13 : Reqb (s13 s) 0 = false) by (destruct (Reqb_spec (s13 s) 0); [contradiction|reflexivity]).
  change (@teq RL) with Reqb. rewrite S13. cbn [negb]. rewrite !orb_true_r. rewrite S13. f_equal.
Qed.
Lemma planar_wrong b s l : zero3 (cross (row1 s l) (row2 s l)) -> s11 s - l <> 0 -> s12 s <> 0 -> s13 s <> 0 -> dot3 (row1 s l) (cev b s l) <> 0.
Proof.
  intros Z N1 N2 N3. rewrite (cev_planar b s l Z N3). destruct (Reqb_spec (s11 s - l) 0); [contradiction|]. destruct (Reqb_spec (s12 s) 0); [contradiction|].
  set (v := Q 1 1 _ 0). assert (NV : ~ zero3 v) by (unfold v, zero3; cbn [qx qy qz]; lra). rewrite Normalize3_R by exact NV.
  assert (M : norm3 v <> 0). { unfold norm3. intros M. apply sqrt_eq_0 in M; [|apply dot3_nonneg]. apply NV, dot3_0, M. }
  assert (E : dot3 (row1 s l) (scale (/ norm3 v) v) = / norm3 v * (2 * s12 s)).
  { transitivity (/ norm3 v * dot3 (row1 s l) v); [unfold dot3, scale; cbn [qx qy qz]; ring|f_equal]. unfold v, dot3, row1; cbn [qx qy qz]. field. exact N3. }
  rewrite E. apply Rmult_integral_contrapositive_currified; [apply Rinv_neq_0_compat, M|lra].
Qed.
Lemma cev_diag b s l : s12 s = 0 -> s13 s = 0 -> s23 s = 0 -> s22 s = l -> s11 s <> l -> cev b s l = Q 1 0 0 0.
Proof.
  intros A B C D N. assert (Z : zero3 (cross (row1 s l) (row2 s l))) by (unfold zero3, cross, row1, row2; cbn [qx qy qz]; rewrite A, B, C, D; repeat split; ring).
  unfold CalculateEigenVector. cbv zeta.
  match goal with |- context [load3 ?x] => assert (E : load3 x = cross (row1 s l) (row2 s l)) by (unfold load3, cross, row1, row2; cbn [qx qy qz Shapes.fx Shapes.fy Shapes.fz]; qeq; rt; try ring) end.
  rewrite E. assert (F : all3 (veq (L:=RL) (cross (row1 s l) (row2 s l)) vzero) = true) by (apply all3_zero, Z). rewrite F, tail_R.
  assert (Z0 : zero (L:=RL) = 0) by (unfold zero; cbn; unfold Rlit; cbn; ring). assert (O1 : one (L:=RL) = 1) by (unfold one; cbn; unfold Rlit; cbn; ring).
  unfold nz. rewrite Z0, O1, A, B. change (@teq RL) with Reqb. change (@tsub RL) with Rminus. assert (T0 : Reqb 0 0 = true) by (destruct (Reqb_spec 0 0); [reflexivity|contradiction]).
  assert (S : Reqb (s11 s - l) 0 = false) by (destruct (Reqb_spec (s11 s - l) 0); [exfalso; apply N; lra|reflexivity]).
  rewrite T0, S. cbn [negb orb]. rewrite S, T0. set (V := setlane _ _ _). assert (EV : V = Q 1 0 0 0) by reflexivity. clearbody V. subst V.
  rewrite Normalize3_R by (unfold zero3; cbn [qx qy qz]; lra). assert (M : norm3 (Q 1 0 0 0) = 1) by (apply norm_dot; unfold dot3; cbn [qx qy qz]; ring). rewrite M.
  unfold scale; cbn [qx qy qz qw]. apply (@Qeq R); field.
Qed.
Lemma inv_sqrt k : 0 < k -> 0 < / sqrt k /\ / sqrt k * / sqrt k = / k.
Proof.
  intros K. pose proof (sqrt_lt_R0 k K) as S. split; [apply Rinv_0_lt_compat, S|]. rewrite <- Rinv_mult. f_equal. apply sqrt_sqrt. lra.
Qed.
Lemma skewed b : let s := Sym 2 2 (-1) 2 (-1) 5 in exists u v w, cevs b s 6 0 3 = (u, v, w) /\ norm3 u < 6 / 10 /\ 8 / 10 < Rabs (dot3 v w).
Proof.
  intros s. rewrite cevs_R. cbv zeta.
  assert (C1 : cross (row1 s 6) (row2 s 6) = Q (-6) (-6) 12 0) by (unfold s, cross, row1, row2; cbn; apply (@Qeq R); ring).
  assert (C3 : cross (row1 s 3) (row2 s 3) = Q (-3) (-3) (-3) 0) by (unfold s, cross, row1, row2; cbn; apply (@Qeq R); ring).
  assert (C2 : zero3 (cross (row1 s 0) (row2 s 0))) by (unfold s, zero3, cross, row1, row2; cbn; repeat split; ring).
  assert (V1 : cev b s 6 = scale (/ sqrt 216) (Q (-6) (-6) 12 0)).
  { rewrite cev_R by (rewrite C1; unfold zero3; cbn; lra). rewrite C1. f_equal. f_equal. unfold norm3, dot3; cbn [qx qy qz]. f_equal. ring. }
  assert (V3 : cev b s 3 = scale (/ sqrt 27) (Q (-3) (-3) (-3) 0)).
  { rewrite cev_R by (rewrite C3; unfold zero3; cbn; lra). rewrite C3. f_equal. f_equal. unfold norm3, dot3; cbn [qx qy qz]. f_equal. ring. }
  assert (V2 : cev b s 0 = scale (/ sqrt 2) (Q 1 1 0 0)).
  { rewrite cev_planar by (try exact C2; unfold s; cbn; lra). unfold s; cbn [s11 s12 s13]. destruct (Reqb_spec (2 - 0) 0); [lra|]. destruct (Reqb_spec 2 0); [lra|].
    replace ((2 - (2 - 0)) / -1) with 0 by field. rewrite Normalize3_R by (unfold zero3; cbn; lra). f_equal. f_equal. unfold norm3, dot3; cbn [qx qy qz]. f_equal. ring. }
  rewrite V1, V2, V3. destruct (inv_sqrt 216 ltac:(lra)) as [P1 Q1]. destruct (inv_sqrt 27 ltac:(lra)) as [P3 Q3]. destruct (inv_sqrt 2 ltac:(lra)) as [P2 Q2].
  set (k1 := / sqrt 216) in *. set (k2 := / sqrt 2) in *. set (k3 := / sqrt 27) in *. clearbody k1 k2 k3.
  assert (Z1 : z3 (scale k1 (Q (-6) (-6) 12 0)) = false) by (unfold z3; destruct (all3 _) eqn:E; [apply all3_zero in E as (E & _); unfold scale in E; cbn [qx] in E; lra|reflexivity]).
  assert (Z2 : z3 (scale k2 (Q 1 1 0 0)) = false) by (unfold z3; destruct (all3 _) eqn:E; [apply all3_zero in E as (E & _); unfold scale in E; cbn [qx] in E; lra|reflexivity]).
  assert (Z3 : z3 (scale k3 (Q (-3) (-3) (-3) 0)) = false) by (unfold z3; destruct (all3 _) eqn:E; [apply all3_zero in E as (E & _); unfold scale in E; cbn [qx] in E; lra|reflexivity]).
  assert (H13 : skewR (scale k1 (Q (-6) (-6) 12 0)) (scale k3 (Q (-3) (-3) (-3) 0)) = false) by (apply skew_orth; unfold dot3, scale; cbn [qx qy qz]; ring).
  assert (H12 : skewR (scale k1 (Q (-6) (-6) 12 0)) (scale k2 (Q 1 1 0 0)) = true).
  { unfold skewR. replace (dot3 _ _) with (- (12 * (k1 * k2))) by (unfold dot3, scale; cbn [qx qy qz]; ring). rewrite Rabs_Ropp, Rabs_pos_eq by nra.
    destruct (Rltb_spec (13421773 / 134217728) (12 * (k1 * k2))) as [|H]; [reflexivity|exfalso]. assert (k1 * k1 * (k2 * k2) = / 432) by (rewrite Q1, Q2; field). assert (0 < k1 * k2) by nra. nra. }
  rewrite Z1, Z2, Z3, H13, H12. cbn [andb orb]. rewrite ?andb_false_r. cbn [andb orb].
  eexists _, _, _. split; [reflexivity|]. split.
  - unfold norm3. replace (dot3 _ _) with (/ 3).
    + apply Rsqr_incrst_0; [|apply sqrt_pos|lra]. rewrite Rsqr_sqrt by lra. unfold Rsqr. lra.
    + transitivity (18 * ((k2 * k2) * (k3 * k3))); [rewrite Q2, Q3; field|unfold dot3, scale, cross; cbn [qx qy qz]; ring].
  - replace (dot3 _ _) with (- (6 * (k2 * k3))) by (unfold dot3, scale; cbn [qx qy qz]; ring). rewrite Rabs_Ropp, Rabs_pos_eq by nra.
    assert (k2 * k2 * (k3 * k3) = / 54) by (rewrite Q2, Q3; field). assert (0 < k2 * k3) by nra. nra.
Qed.
