(** Oriented boxes against oriented boxes (separating axes), containment between boxes, transforms. *)
From Coq Require Import Reals Lra Psatz List Bool Nsatz.
From Verif Require Import Base F32 Intrin Lane MVec MTrig MQuat MInterp MPlane MMatrix Shapes MCollide.
From Verif Require Import SpecGeom SpecQuat SpecMat SpecShape PReal PVec PQuat PRot PMatrix PTransf PShape PSphere PSide PHull PBox POBox.
Open Scope R_scope.

(** ** Spheres and oriented boxes *)
Lemma obox_nonempty o : ok_obox o -> obb o (pos (ob_Center o)).
Proof.
  intros ((h1 & h2 & h3) & Hq). apply obb_iff; [assumption|]. 
  assert (E : eq3 (local (pos (ob_Center o)) (ob_Orientation o) (pos (ob_Center o))) (Q 0 0 0 0)).
  { unfold local. rewrite (qrot_eq3 _ _ (Q 0 0 0 0)) by (e3; repeat split; ring). destruct (ob_Orientation o) as [a1 a2 a3 a4]. unfold eq3. qs. repeat split; ring. }
  apply (within_eq3 _ _ _ (eq3_sym _ _ E)). unfold within; cbn [qx qy qz]. rewrite Rabs_R0. repeat split; assumption.
Qed.
Lemma sphere_holds_obox b s o : ok_sphere s -> ok_obox o ->
  exists v, Sphere_ContainsOrientedBox (L:=RL) b s o = Some v /\ (v = CONTAINS <-> subset (obb o) (ball s)) /\ (v = DISJOINT <-> ~ meets (obb o) (ball s)).
Proof.
  intros Hs Ho. unfold Sphere_ContainsOrientedBox. destruct (obox_meets_sphere b o s Ho Hs) as (r & E & HM). rewrite E. unfold obind.
  destruct r; cbn [negb].
  - cbv zeta. rewrite isunitq by apply Ho. unfold asserting. l3. rewrite Mul_R, rep_mul.
    set (f := fun t : R * R * R => Rleb (dot3 (minus (ocorner o t) (pos (sp_Center s))) (minus (ocorner o t) (pos (sp_Center s)))) (sp_Radius s * sp_Radius s)).
    set (g := fun o' : rvec => vle (L:=RL) (XMVector3LengthSq b (XMVectorSubtract b (pos (sp_Center s)) (XMVectorAdd b (XMVector3Rotate b (XMVectorMultiply b (pos (ob_Extents o)) o') (ob_Orientation o)) (pos (ob_Center o))))) (qrep (sp_Radius s * sp_Radius s))).
    assert (EF : fold_left (fun acc o' => mand acc (g o')) (g_BoxOffset (L:=RL)) mtrue = qrep (forallb f signs)).
    { rewrite box_offsets. change mtrue with (qrep true). refine (fold_mand g _ f signs _ true).
      intros [[x y] z] _. unfold g. rewrite Mul_R, Rotate_R, Add_R, Sub_R, LengthSq3_R, vle_rep. unfold f. f_equal. f_equal. unfold ocorner, global.
      match goal with |- dot3 (minus _ (plus (qrot _ ?u) _)) _ = dot3 (minus (plus _ (qrot _ ?v)) _) _ => rewrite (qrot_eq3 _ u v) end.
      - unfold dot3, minus, plus; cbn [qx qy qz]. ring.
      - unfold eq3, qmap2, corner, pos; cbn [fx fy fz qx qy qz]. repeat split; ring. }
    rt. unfold g in EF. rewrite EF, all3_rep.
    assert (HF : forallb f signs = true <-> subset (obb o) (ball s)).
    { rewrite (obb_in_convex o _ Ho (ball_convex s)), Forall_forall, forallb_forall.
      split; intros H t Ht; specialize (H t Ht); unfold f, ball in *; [apply Rleb_true in H; apply dist_le; assumption|apply Rleb_true; apply dist_le in H; assumption]. }
    eexists. split; [reflexivity|]. destruct (forallb f signs); split; split; intros H; try discriminate; try reflexivity.
    + apply HF; reflexivity.
    + exfalso. apply H, HM. reflexivity.
    + apply HF in H. discriminate.
    + exfalso. apply H, HM. reflexivity.
  - eexists. split; [reflexivity|]. split; split; intros H; try discriminate; try reflexivity.
    + exfalso. assert (M : meets (obb o) (ball s)); [|apply HM in M; discriminate]. exists (pos (ob_Center o)). split; [|apply H]; apply obox_nonempty; assumption.
    + intros M. apply HM in M. discriminate.
Qed.

(** ** The separating axes *)
Lemma abs3 a b c x y z h1 h2 h3 : Rabs a <= h1 -> Rabs b <= h2 -> Rabs c <= h3 ->
  Rabs (a * x + b * y + c * z) <= h1 * Rabs x + h2 * Rabs y + h3 * Rabs z.
Proof.
  intros Ha Hb Hc. eapply Rle_trans; [apply Rabs_triang|]. apply Rplus_le_compat.
  - eapply Rle_trans; [apply Rabs_triang|]. rewrite !Rabs_mult. pose proof (Rabs_pos x). pose proof (Rabs_pos y). nra.
  - rewrite Rabs_mult. pose proof (Rabs_pos z). nra.
Qed.
Lemma abs_add a b x y : Rabs a <= x -> Rabs b <= y -> Rabs (a + b) <= x + y.
Proof. intros. eapply Rle_trans; [apply Rabs_triang|lra]. Qed.
Lemma sat_R b (d da db : R) : sat_test (L:=RL) b (qrep d) (qrep da) (qrep db) = qrep (Rltb (da + db) (Rabs d)).
Proof. unfold sat_test. rewrite Add_R, rep_plus, Abs_R, rep_abs, vgt_rep. reflexivity. Qed.
Lemma splat_rep i (v : rvec) : splat (L:=RL) i v = qrep (lane v i).
Proof. reflexivity. Qed.
Definition col (M : rmat) (j : idx) : rvec := Q (lane (qx M) j) (lane (qy M) j) (lane (qz M) j) (lane (qw M) j).
(** No axis separates two boxes of which the first is centred at the origin and axis-aligned, the second has axes the
    columns of the rotation [M] and centre [t], when [la = t + M lb] is common to both. *)
Lemma sat_none b M t hA hB la lb : rotation M ->
  within hA la -> within hB lb ->
  qx t = qx la - (qx (qx M) * qx lb + qy (qx M) * qy lb + qz (qx M) * qz lb) ->
  qy t = qy la - (qx (qy M) * qx lb + qy (qy M) * qy lb + qz (qy M) * qz lb) ->
  qz t = qz la - (qx (qz M) * qx lb + qy (qz M) * qy lb + qz (qz M) * qz lb) ->
  OBox_sat (L:=RL) b M t (pos hA) (pos hB) = qrep false.
Proof.
  intros HM (a1 & a2 & a3) (b1 & b2 & b3) Hx Hy Hz.
  destruct (mat_of_rotation M HM) as (m & n & o & r & s & u & v' & w & x & -> & E).
  destruct t as [t1 t2 t3 t4], la as [p1 p2 p3 p4], lb as [q1 q2 q3 q4], hA as [A1 A2 A3], hB as [B1 B2 B3].
  cbn [qx qy qz fx fy fz] in *.
  destruct E as [re1 re2 re3 re4 re5 re6 rc1 rc2 rc3 rc4 rc5 rc6 rd1 rd2 rd3 rd4 rd5 rd6 rd7 rd8 rd9].
  unfold OBox_sat. cbv zeta. rewrite Transpose_R. rewrite !Dot3_R, !Abs_R. unfold axis_x, axis_y, axis_z. rewrite !Neg_R.
  rewrite !splat_rep.
  rewrite !sat_R, !mor_rep. f_equal.
  assert (B : forall X x y z x' y' z' RA RB, X = (p1 * x + p2 * y + p3 * z) + (q1 * x' + q2 * y' + q3 * z') ->
     RA = A1 * Rabs x + A2 * Rabs y + A3 * Rabs z -> RB = B1 * Rabs x' + B2 * Rabs y' + B3 * Rabs z' -> Rabs X <= RA + RB).
  { intros X x0 y z x' y' z' RA RB -> -> ->. apply abs_add; apply abs3; assumption. }
  assert (R0 := Rabs_R0). assert (R1 := Rabs_R1). assert (R2 : Rabs (-1) = 1) by (rewrite Rabs_left by lra; ring).
  assert (N : forall z, Rabs (- z) = Rabs z) by (intros; apply Rabs_Ropp).
  cbv [transp swz_x swz_y swz_z swz perm pick lane qmap pos dot3 permute_ps shuffle qx qy qz qw fx fy fz]. rt.
  repeat (apply orb_false_intro); apply Rltb_false.
  - apply (B t1 1 0 0 (- m) (- n) (- o)); [subst t1 t2 t3; ring|rewrite R0, R1; ring|rewrite !N; ring].
  - apply (B t2 0 1 0 (- r) (- s) (- u)); [subst t1 t2 t3; ring|rewrite R0, R1; ring|rewrite !N; ring].
  - apply (B t3 0 0 1 (- v') (- w) (- x)); [subst t1 t2 t3; ring|rewrite R0, R1; ring|rewrite !N; ring].
  - apply (B _ m r v' (-1) 0 0); [|ring|rewrite R0, R2; ring].
    transitivity (p1 * m + p2 * r + p3 * v' - (q1 * (m * m + r * r + v' * v') + q2 * (m * n + r * s + v' * w) + q3 * (m * o + r * u + v' * x))); [subst t1 t2 t3; ring|rewrite rc1, rc4, rc5; ring].
  - apply (B _ n s w 0 (-1) 0); [|ring|rewrite R0, R2; ring].
    transitivity (p1 * n + p2 * s + p3 * w - (q1 * (m * n + r * s + v' * w) + q2 * (n * n + s * s + w * w) + q3 * (n * o + s * u + w * x))); [subst t1 t2 t3; ring|rewrite rc2, rc4, rc6; ring].
  - apply (B _ o u x 0 0 (-1)); [|ring|rewrite R0, R2; ring].
    transitivity (p1 * o + p2 * u + p3 * x - (q1 * (m * o + r * u + v' * x) + q2 * (n * o + s * u + w * x) + q3 * (o * o + u * u + x * x))); [subst t1 t2 t3; ring|rewrite rc3, rc5, rc6; ring].
  - apply (B _ 0 (- v') r 0 (- o) n); [subst t1 t2 t3; rewrite rd2, rd3; ring|rewrite ?N, ?R0; ring|rewrite ?N, ?R0; ring].
  - apply (B _ 0 (- w) s o 0 (- m)); [subst t1 t2 t3; rewrite rd1, rd3; ring|rewrite ?N, ?R0; ring|rewrite ?N, ?R0; ring].
  - apply (B _ 0 (- x) u (- n) m 0); [subst t1 t2 t3; rewrite rd1, rd2; ring|rewrite ?N, ?R0; ring|rewrite ?N, ?R0; ring].
  - apply (B _ v' 0 (- m) 0 (- u) s); [subst t1 t2 t3; rewrite rd5, rd6; ring|rewrite ?N, ?R0; ring|rewrite ?N, ?R0; ring].
  - apply (B _ w 0 (- n) u 0 (- r)); [subst t1 t2 t3; rewrite rd4, rd6; ring|rewrite ?N, ?R0; ring|rewrite ?N, ?R0; ring].
  - apply (B _ x 0 (- o) (- s) r 0); [subst t1 t2 t3; rewrite rd4, rd5; ring|rewrite ?N, ?R0; ring|rewrite ?N, ?R0; ring].
  - apply (B _ (- r) m 0 0 (- x) w); [subst t1 t2 t3; rewrite rd8, rd9; ring|rewrite ?N, ?R0; ring|rewrite ?N, ?R0; ring].
  - apply (B _ (- s) n 0 x 0 (- v')); [subst t1 t2 t3; rewrite rd7, rd9; ring|rewrite ?N, ?R0; ring|rewrite ?N, ?R0; ring].
  - apply (B _ (- u) o 0 (- w) v' 0); [subst t1 t2 t3; rewrite rd7, rd8; ring|rewrite ?N, ?R0; ring|rewrite ?N, ?R0; ring].
Qed.
(** the rows of the matrix of a quaternion: coordinates of the rotated axes *)
Lemma qmat_rows q v : unitq q -> eq3 (qrot (conj q) v) (Q (dot3 (qx (qmat q)) v) (dot3 (qy (qmat q)) v) (dot3 (qz (qmat q)) v) 0).
Proof. unfold unitq; intros H. dn q. dq v. unfold eq3, qmat. qs. repeat split; nsatz. Qed.
Lemma unit_ham p q : unitq p -> unitq q -> unitq (ham p q).
Proof. unfold unitq. intros Hp Hq. rewrite ham_norm, Hp, Hq. ring. Qed.
Lemma qrot_plus q u v : eq3 (qrot q (plus u v)) (plus (qrot q u) (qrot q v)).
Proof. dn q. dq u; dq v. unfold eq3. qs. repeat split; ring. Qed.
Lemma plus_eq3_r u v w : eq3 v w -> eq3 (plus u v) (plus u w).
Proof. intros (h1 & h2 & h3). e3. rewrite h1, h2, h3. repeat split. Qed.
Lemma eq3_dir v : eq3 (direction v) v.
Proof. repeat split. Qed.
Lemma frame_change cA cB qA qB p : unitq qA -> unitq qB ->
  eq3 (local cA qA p) (plus (local cA qA cB) (qrot (conj (ham (conj qB) qA)) (local cB qB p))).
Proof.
  intros HA HB. unfold local. rewrite conj_ham, conj_conj, qrot_ham, (qrot_conj' qB _ HB), (qrot_eq3 _ _ _ (eq3_dir _)).
  eapply eq3_trans; [|apply qrot_plus]. rewrite (qrot_eq3 _ (minus p cA) (plus (minus cB cA) (minus p cB))); [apply eq3_refl|].
  e3. repeat split; ring.
Qed.
Lemma obox_hit b A B : ok_obox A -> ok_obox B -> meets (obb A) (obb B) -> OBox_IntersectsOrientedBox (L:=RL) b A B = Some true.
Proof.
  intros (HA & UA) (HB & UB) (p & PA & PB). apply obb_iff in PA; [|assumption]. apply obb_iff in PB; [|assumption].
  unfold OBox_IntersectsOrientedBox. cbv zeta. rewrite !isunitq by assumption. unfold asserting. l3. rewrite QConj_R, QMul_R, Sub_R, InvRotate_R, RotQuat_R.
  pose proof (unit_ham _ _ (unit_conj _ UB) UA) as UQ.
  change (qrot (conj (ob_Orientation A)) (minus (pos (ob_Center B)) (pos (ob_Center A)))) with (local (pos (ob_Center A)) (ob_Orientation A) (pos (ob_Center B))).
  destruct (eq3_trans _ _ _ (frame_change (pos (ob_Center A)) (pos (ob_Center B)) (ob_Orientation A) (ob_Orientation B) p UA UB)
    (plus_eq3_r (local (pos (ob_Center A)) (ob_Orientation A) (pos (ob_Center B))) _ _ (qmat_rows _ (local (pos (ob_Center B)) (ob_Orientation B) p) UQ))) as (e1 & e2 & e3).
  cbn [plus qx qy qz qmap2] in e1, e2, e3.
  rewrite (sat_none b (qmat (ham (conj (ob_Orientation B)) (ob_Orientation A))) (local (pos (ob_Center A)) (ob_Orientation A) (pos (ob_Center B))) (ob_Extents A) (ob_Extents B) _ _ (qmat_rotation _ UQ) PA PB).
  - reflexivity.
  - rewrite e1. unfold dot3. ring.
  - rewrite e2. unfold dot3. ring.
  - rewrite e3. unfold dot3. ring.
Qed.
Lemma forallb_signs b (g : rvec -> bool) (P : R * R * R -> Prop) : (forall x y z, g (Q x y z 0) = true <-> P (x, y, z)) -> b = g_BoxOffset (L:=RL) ->
  forallb g b = true <-> Forall P signs.
Proof.
  intros H ->. rewrite box_offsets. rewrite forallb_forall, Forall_forall. split.
  - intros K [[x y] z] Ht. apply H, K. exact (in_map (fun '(x, y, z) => Q x y z 0) signs (x, y, z) Ht).
  - intros K v Hv. apply in_map_iff in Hv. destruct Hv as ([[x y] z] & <- & Ht). apply H, K, Ht.
Qed.
Lemma signs_ocorner o x y z c : unitq (ob_Orientation o) ->
  eq3 (plus (qrot (ob_Orientation o) (qmap2 Rmult (pos (ob_Extents o)) (Q x y z 0))) (minus (pos (ob_Center o)) c)) (minus (ocorner o (x, y, z)) c).
Proof.
  intros H. unfold ocorner, global.
  rewrite (qrot_eq3 _ (qmap2 Rmult (pos (ob_Extents o)) (Q x y z 0)) (corner (F3 0 0 0) (ob_Extents o) (x, y, z))).
  - e3. repeat split; ring.
  - unfold eq3, qmap2, corner, pos; cbn [fx fy fz qx qy qz]. repeat split; ring.
Qed.
Lemma obox_obox b A B : ok_obox A -> ok_obox B ->
  exists v, OBox_ContainsOrientedBox (L:=RL) b A B = Some v /\ (v = CONTAINS <-> subset (obb B) (obb A)) /\ (v = DISJOINT -> ~ meets (obb A) (obb B)).
Proof.
  intros HA HB. unfold OBox_ContainsOrientedBox.
  pose proof (obox_hit b A B HA HB) as HM.
  assert (HN : exists h, OBox_IntersectsOrientedBox (L:=RL) b A B = Some h).
  { unfold OBox_IntersectsOrientedBox. rewrite !isunitq by (apply HA || apply HB). eexists; reflexivity. }
  destruct HN as (h & Eh). rewrite Eh in *. cbn [obind]. destruct h; cbn [negb].
  - cbv zeta. rewrite !isunitq by (apply HA || apply HB). unfold asserting. l3.
    match goal with |- context [forallb ?g _] => assert (HF : forallb g (g_BoxOffset (L:=RL)) = true <-> subset (obb B) (obb A)) end.
    { rewrite (obb_in_convex B _ HB (obb_convex A)). apply (forallb_signs _ _ (fun t => obb A (ocorner B t))); [|reflexivity].
      intros x y z. rewrite Mul_R, Rotate_R, Sub_R, Add_R, InvRotate_R, inb3, obb_iff by apply HA. unfold local.
      rewrite (qrot_eq3 _ _ _ (signs_ocorner B x y z (pos (ob_Center A)) (proj2 HB))). reflexivity. }
    destruct (forallb _ _); eexists; (split; [reflexivity|]); (split; [split|]); intros H; try discriminate; try reflexivity.
    + apply HF; reflexivity.
    + apply HF in H. discriminate.
  - eexists; split; [reflexivity|]. split; [split|]; intros H; try discriminate.
    + exfalso. assert (K : Some false = Some true); [|discriminate]. apply HM. exists (pos (ob_Center B)). split; [apply H|]; apply obox_nonempty; assumption.
    + intros M. specialize (HM M). discriminate.
Qed.
(** ** Boxes seen as oriented boxes *)
Lemma qone_rot v : eq3 (qrot (Q 0 0 0 1) v) v.
Proof. dq v. unfold eq3. qs. repeat split; ring. Qed.
Lemma fold_mand3 (g : rvec -> quad bool) os m : all3 (fold_left (fun acc o => mand acc (g o)) os m) = (all3 m && forallb (fun o => all3 (g o)) os)%bool.
Proof.
  revert m. induction os as [|o os IH]; intros m; cbn [fold_left forallb]; [rewrite andb_true_r; reflexivity|]. rewrite IH.
  assert (E : all3 (mand m (g o)) = (all3 m && all3 (g o))%bool) by (destruct m as [[] [] [] []], (g o) as [[] [] [] []]; reflexivity). rewrite E, andb_assoc. reflexivity.
Qed.
Lemma all3_vle (a c : rvec) : all3 (vle (L:=RL) a c) = true <-> qx a <= qx c /\ qy a <= qy c /\ qz a <= qz c.
Proof.
  destruct a as [a1 a2 a3 a4], c as [c1 c2 c3 c4]. change (all3 (vle (L:=RL) (Q a1 a2 a3 a4) (Q c1 c2 c3 c4))) with (Rleb a1 c1 && Rleb a2 c2 && Rleb a3 c3)%bool.
  rewrite !andb_true_iff, !Rleb_true. cbn [qx qy qz]. tauto.
Qed.
Lemma box_own bx p : eq3 (local (pos (bx_Center bx)) (Q 0 0 0 1) p) (minus p (pos (bx_Center bx))).
Proof. unfold local. replace (conj (Q 0 0 0 1)) with (Q 0 0 0 1 : rvec) by (unfold SpecQuat.conj; cbn [qx qy qz qw]; f_equal; ring). apply qone_rot. Qed.
Lemma ok_of_box bx : ok_box bx -> ok_obox (obox_of (L:=RL) bx).
Proof. intros H. split; [exact H|]. change (ob_Orientation (obox_of bx)) with (Q 0 0 0 1 : rvec). unfold unitq, dot4; cbn [qx qy qz qw]. ring. Qed.
Lemma obox_of_box bx p : obb (obox_of (L:=RL) bx) p <-> aabb bx p.
Proof.
  rewrite obb_iff.
  - change (ob_Orientation (obox_of bx)) with (Q 0 0 0 1 : rvec). split; apply within_eq3; [|apply eq3_sym]; apply box_own.
  - change (ob_Orientation (obox_of bx)) with (Q 0 0 0 1 : rvec). unfold unitq, dot4; cbn [qx qy qz qw]. ring.
Qed.
Lemma meets_iff (A A' B B' : region) : (forall p, A p <-> A' p) -> (forall p, B p <-> B' p) -> meets A B <-> meets A' B'.
Proof. intros HA HB. split; intros (p & h1 & h2); exists p; (split; [apply HA|apply HB]; assumption). Qed.
Lemma meets_sym (A B : region) : meets A B <-> meets B A.
Proof. split; intros (p & h1 & h2); exists p; split; assumption. Qed.
Lemma subset_iff (A A' B B' : region) : (forall p, A p <-> A' p) -> (forall p, B p <-> B' p) -> subset A B <-> subset A' B'.
Proof. intros HA HB. split; intros H p Hp; apply HB, H, HA, Hp. Qed.
Lemma obox_hit_box b o bx : ok_obox o -> ok_box bx -> meets (obb o) (aabb bx) ->
  OBox_IntersectsBox (L:=RL) b o bx = Some true /\ Box_IntersectsOrientedBox (L:=RL) b bx o = Some true.
Proof.
  intros Ho Hb HM. assert (OBox_IntersectsBox (L:=RL) b o bx = Some true); [|split; assumption].
  apply obox_hit; [assumption|apply ok_of_box, Hb|]. revert HM. apply meets_iff; [reflexivity|apply obox_of_box].
Qed.
Lemma obox_box b o bx : ok_obox o -> ok_box bx ->
  exists v, OBox_ContainsBox (L:=RL) b o bx = Some v /\ (v = CONTAINS <-> subset (aabb bx) (obb o)) /\ (v = DISJOINT -> ~ meets (obb o) (aabb bx)).
Proof.
  intros Ho Hb. unfold OBox_ContainsBox. destruct (obox_obox b o (obox_of bx) Ho (ok_of_box _ Hb)) as (v & E & HC & HD).
  exists v. split; [exact E|]. rewrite <- (subset_iff (obb (obox_of (L:=RL) bx)) _ (obb o) (obb o)) by (apply obox_of_box || reflexivity).
  rewrite <- (meets_iff (obb o) (obb o) (obb (obox_of (L:=RL) bx))) by (apply obox_of_box || reflexivity). split; assumption.
Qed.
Lemma box_obox b bx o : ok_box bx -> ok_obox o ->
  exists v, Box_ContainsOrientedBox (L:=RL) b bx o = Some v /\ (v = CONTAINS <-> subset (obb o) (aabb bx)) /\ (v = DISJOINT -> ~ meets (aabb bx) (obb o)).
Proof.
  intros Hb Ho. unfold Box_ContainsOrientedBox.
  pose proof (fun H => proj1 (obox_hit_box b o bx Ho Hb H)) as HM.
  assert (HN : exists h, OBox_IntersectsBox (L:=RL) b o bx = Some h).
  { unfold OBox_IntersectsBox, OBox_IntersectsOrientedBox. rewrite !isunitq by (apply Ho || apply (ok_of_box _ Hb)). eexists; reflexivity. }
  destruct HN as (h & Eh). rewrite Eh in *. cbn [obind]. destruct h; cbn [negb].
  - cbv zeta. rewrite !isunitq by apply Ho. unfold asserting. l3.
    set (g := fun o' : rvec => vle (L:=RL) (XMVectorAbs b (XMVectorAdd b (XMVector3Rotate b (XMVectorMultiply b (pos (ob_Extents o)) o') (ob_Orientation o))
       (XMVectorSubtract b (pos (ob_Center o)) (pos (bx_Center bx))))) (pos (bx_Extents bx))).
    assert (EF : all3 (fold_left (fun acc o' => mand acc (g o')) (g_BoxOffset (L:=RL)) mtrue) = forallb (fun o' => all3 (g o')) (g_BoxOffset (L:=RL))).
    { rewrite fold_mand3. reflexivity. }
    assert (HF : forallb (fun o' => all3 (g o')) (g_BoxOffset (L:=RL)) = true <-> subset (obb o) (aabb bx)).
    { rewrite (obb_in_convex o _ Ho (aabb_convex bx)). apply (forallb_signs _ _ (fun t => aabb bx (ocorner o t))); [|reflexivity].
      intros x y z. unfold g. rewrite Mul_R, Rotate_R, Sub_R, Add_R, Abs_R, all3_vle. unfold aabb.
      destruct (signs_ocorner o x y z (pos (bx_Center bx)) (proj2 Ho)) as (h1 & h2 & h3).
      unfold within. rewrite <- h1, <- h2, <- h3. reflexivity. }
    rt. unfold g in EF, HF. rewrite EF.
    destruct (forallb _ _); eexists; (split; [reflexivity|]); (split; [split|]); intros H; try discriminate; try reflexivity.
    + apply HF; reflexivity.
    + apply HF in H. discriminate.
  - eexists; split; [reflexivity|]. split; [split|]; intros H; try discriminate.
    + exfalso. assert (K : Some false = Some true); [|discriminate]. apply HM. exists (pos (ob_Center o)). split; [|apply H]; apply obox_nonempty; assumption.
    + rewrite meets_sym. intros M. specialize (HM M). discriminate.
Qed.
