(** Separating-axis tests against a frustum never separate volumes that share a point (C54). *)
From Coq Require Import Reals Lra Psatz Nsatz List Bool.
From Verif Require Import Base F32 Intrin Lane MVec MTrig MQuat MInterp MPlane MMatrix Shapes MCollide MFrustum.
From Verif Require Import SpecGeom SpecQuat SpecMat SpecShape PReal PVec PQuat PRot PMatrix PPlane PShape PSphere PSide PHull PBox POBox PSat PSolid PTri PTriBox PFrust.
Open Scope R_scope.

Lemma min_max_lanes b d g0 g1 g2 g3 Cs : Cs <> nil -> (forall C : rvec, d C = Q (g0 C) (g1 C) (g2 C) (g3 C)) ->
  min_max_of (L:=RL) b d Cs = (Q (mn g0 Cs) (mn g1 Cs) (mn g2 Cs) (mn g3 Cs), Q (mx g0 Cs) (mx g1 Cs) (mx g2 Cs) (mx g3 Cs)).
Proof.
  destruct Cs as [|c Cs]; [contradiction|intros _ H]. unfold min_max_of, min_max, mn, mx.
  assert (G : forall a0 a1 a2 a3 c0 c1 c2 c3, fold_left (fun '(Min, Max) P => (XMVectorMin (L:=RL) b Min P, XMVectorMax (L:=RL) b Max P)) (map d Cs) (Q a0 a1 a2 a3, Q c0 c1 c2 c3) =
    (Q (fold_left (fun a C => Rmin a (g0 C)) Cs a0) (fold_left (fun a C => Rmin a (g1 C)) Cs a1) (fold_left (fun a C => Rmin a (g2 C)) Cs a2) (fold_left (fun a C => Rmin a (g3 C)) Cs a3),
     Q (fold_left (fun a C => Rmax a (g0 C)) Cs c0) (fold_left (fun a C => Rmax a (g1 C)) Cs c1) (fold_left (fun a C => Rmax a (g2 C)) Cs c2) (fold_left (fun a C => Rmax a (g3 C)) Cs c3))).
  { induction Cs as [|a Cs IH]; intros; cbn [fold_left map]; [reflexivity|]. rewrite H, Min_R, Max_R. apply IH. }
  rewrite H. apply G.
Qed.
Lemma row_dots_R b V M : row_dots (L:=RL) b V M = Q (dot3 V (qx M)) (dot3 V (qy M)) (dot3 V (qz M)) (dot3 V (qx M)).
Proof. unfold row_dots. cbv zeta. rewrite !Dot3_R. reflexivity. Qed.
Lemma rows_conj q V : unitq q -> eq3 (Q (dot3 V (qx (qmat q))) (dot3 V (qy (qmat q))) (dot3 V (qz (qmat q))) 0) (qrot (conj q) V).
Proof. unfold unitq; intros H. dn q. dq V. unfold qmat, eq3. qs. repeat split; nsatz. Qed.
Lemma row_qrot q i : unitq q -> let e := match i with I0 => Q 1 0 0 0 | I1 => Q 0 1 0 0 | _ => Q 0 0 1 0 end in
  match i with I0 => qx (qmat q) | I1 => qy (qmat q) | _ => qz (qmat q) end = qrot q e.
Proof. unfold unitq; intros H. destruct i; cbv zeta; dn q; unfold qmat; qs; qeq; nsatz. Qed.
(** projection of the frustum on an axis *)
Lemma frust_proj f A x : ok_frustum f -> in_slopes f x -> mn (dot3 A) (lcorners f) <= dot3 A x <= mx (dot3 A) (lcorners f).
Proof.
  intros Hf Hx. apply (hull_linear A (lcorners f)); [apply slopes_hull; assumption|]. intros C HC. split; [apply mn_le|apply mx_ge]; exact HC.
Qed.
Lemma fold_fix {A B} (G : A -> B -> A) (a : A) (l : list B) : (forall x, G a x = a) -> fold_left G l a = a.
Proof. intros H. induction l as [|x l IH]; cbn [fold_left]; [reflexivity|]. rewrite H. exact IH. Qed.
Lemma fold_mor_false {A} (t : A -> quad bool) (l : list A) : (forall a, In a l -> t a = qrep false) -> fold_left (fun acc a => mor acc (t a)) l (qrep false) = qrep false.
Proof. induction l as [|a l IH]; intros H; cbn [fold_left]; [reflexivity|]. rewrite (H a) by (left; reflexivity). rewrite mor_rep. apply IH. intros; apply H; right; assumption. Qed.

(** ** Oriented boxes *)
Lemma reach_pos e n : dot3 (pos e) (qmap Rabs n) = reach e n.
Proof. unfold dot3, pos, reach, qmap; cbn [qx qy qz]. ring. Qed.
Lemma reach_eq3 e m n : eq3 m n -> reach e m = reach e n.
Proof. intros (h1 & h2 & h3). unfold reach. rewrite h1, h2, h3. reflexivity. Qed.
Lemma frust_obox b f o : ok_frustum f -> ok_obox o -> meets (frust f) (obb o) -> Frustum_IntersectsOrientedBox (L:=RL) b f o = Some true.
Proof.
  intros Hf (He & Ho) (p & Hp & Hb). pose proof (proj1 Hf) as Hq.
  apply (frust_iff f p Hq) in Hp. apply (obb_iff o p Ho) in Hb.
  pose proof (frame_change (fo f) (pos (ob_Center o)) (fq f) (ob_Orientation o) p Hq Ho) as FC. rewrite conj_ham, conj_conj in FC.
  set (x := local (fo f) (fq f) p) in *. set (l := local (pos (ob_Center o)) (ob_Orientation o) p) in *. set (e := ob_Extents o) in *.
  unfold Frustum_IntersectsOrientedBox. cbv zeta. rewrite !isunitq by assumption. cbn [asserting]. l3. rewrite Sub_R, InvRotate_R, QConj_R, QMul_R, RotQuat_R, vone_R.
  change (qrot (conj (fq f)) (minus (pos (ob_Center o)) (fo f))) with (local (fo f) (fq f) (pos (ob_Center o))).
  set (c := local (fo f) (fq f) (pos (ob_Center o))) in *. set (q := ham (conj (fq f)) (ob_Orientation o)) in *.
  assert (Uq : unitq q) by (apply unit_ham; [apply unit_conj|]; assumption). set (c1 := insert_lane (L:=RL) I3 c (qrep 1)).
  clearbody x l c q. clear Hq Ho p.
  (* displacement of the shared point from the centre along a direction *)
  assert (DL : forall A, Rabs (dot3 A x - dot3 A c) <= reach e (qrot (conj q) A)).
  { intros A. destruct (within_reach e (qrot (conj q) A) He) as (W & _). specialize (W l Hb). rewrite <- qrot_adjoint in W.
    replace (dot3 A x - dot3 A c) with (dot3 A (qrot q l)); [apply abs_le_iff; lra|]. destruct FC as (h1 & h2 & h3). unfold dot3. rewrite h1, h2, h3. unfold plus; cbn [qx qy qz]. ring. }
  assert (RD : forall A, XMVector3Dot (L:=RL) b (pos e) (XMVectorAbs b (row_dots b A (qmat q))) = qrep (reach e (qrot (conj q) A))).
  { intros A. rewrite row_dots_R, Abs_R, Dot3_R, reach_pos. f_equal. apply reach_eq3. eapply eq3_trans; [|apply rows_conj; exact Uq]. repeat split. }
  rt.
  assert (FO : forall Ps out ins cen, (forall P, In P Ps -> plane_at P x <= 0) -> exists ins' cen',
    fold_left (fun '(Outside, InsideAll, CenterInsideAll) P =>
      (mor Outside (vgt (L:=RL) (XMVector4Dot b c1 P) (XMVector3Dot b (pos e) (XMVectorAbs b (row_dots b P (qmat q))))),
       mand InsideAll (vle (L:=RL) (XMVector4Dot b c1 P) (XMVectorNegate b (XMVector3Dot b (pos e) (XMVectorAbs b (row_dots b P (qmat q)))))),
       mand CenterInsideAll (vle (L:=RL) (XMVector4Dot b c1 P) vzero))) Ps (qrep out, ins, cen) = (qrep out, ins', cen')).
  { induction Ps as [|P Ps IH]; intros out ins cen HP; cbn [fold_left]; [exists ins, cen; reflexivity|].
    rewrite RD, Dot4_R. unfold c1. rewrite vert_plane, vgt_rep. rewrite (proj2 (Rltb_false _ _)).
    - rewrite mor_rep, orb_false_r. apply IH. intros; apply HP; right; assumption.
    - specialize (HP P (or_introl eq_refl)). specialize (DL P). apply abs_le_iff in DL. unfold plane_at in *. lra. }
  destruct (FO (local_planes (L:=RL) f) false mtrue mtrue) as (ins & cen & E).
  { apply Forall_forall. apply slopes_planes. exact Hp. }
  match type of E with _ = ?v => match goal with |- context [fold_left ?F ?l (mfalse, mtrue, mtrue)] => replace (fold_left F l (mfalse, mtrue, mtrue)) with v by (symmetry; exact E) end end. clear E FO.
  cbv beta iota. rewrite qall_rep. destruct (qall ins); [reflexivity|]. destruct (qall cen); [reflexivity|].
  rewrite local_corners_R. rewrite (min_max_lanes b _ (fun C => dot3 C (qx (qmat q))) (fun C => dot3 C (qy (qmat q))) (fun C => dot3 C (qz (qmat q))) (fun C => dot3 C (qx (qmat q)))) by (discriminate || (intros; apply row_dots_R)).
  rewrite (row_dots_R b c1), Add_R, Sub_R.
  assert (DC : forall r, dot3 c1 r = dot3 r c) by (intros r; unfold c1, dot3, insert_lane; cbn; ring).
  assert (AX : forall i : idx, let r := match i with I0 => qx (qmat q) | I1 => qy (qmat q) | _ => qz (qmat q) end in
     let k := match i with I0 => fx e | I1 => fy e | _ => fz e end in
     mn (fun C => dot3 C r) (lcorners f) <= dot3 c1 r + k /\ dot3 c1 r - k <= mx (fun C => dot3 C r) (lcorners f)).
  { intros i r k. assert (M : mn (fun C => dot3 C r) (lcorners f) <= dot3 r x <= mx (fun C => dot3 C r) (lcorners f)).
    { apply (hull_linear r (lcorners f)); [apply slopes_hull; assumption|]. intros C HC. rewrite dot3_sym. split; [apply (mn_le (fun C => dot3 C r))|apply (mx_ge (fun C => dot3 C r))]; exact HC. }
    rewrite DC. assert (D : Rabs (dot3 r x - dot3 r c) <= k).
    { eapply Rle_trans; [apply DL|]. right. assert (ER : r = qrot q (match i with I0 => Q 1 0 0 0 | I1 => Q 0 1 0 0 | _ => Q 0 0 1 0 end)) by (apply (row_qrot q i Uq)).
      rewrite ER, (qrot_conj q) by exact Uq. unfold reach, k, direction. destruct i; cbn [qx qy qz]; rewrite ?Rabs_R1, ?Rabs_R0; ring. }
    apply abs_le_iff in D. lra. }
  assert (A0 := AX I0). assert (A1 := AX I1). assert (A2 := AX I2). cbv zeta in A0, A1, A2.
  match goal with |- context [any3 ?m] => assert (E : any3 m = false) end.
  { unfold any3, mor, vgt, vlt, qmap2, plus, minus, pos; cbn [qx qy qz qw]. unfold tgt. change (@tlt RL) with Rltb.
    rewrite !(proj2 (Rltb_false _ _)) by (apply A0 || apply A1 || apply A2). reflexivity. }
  rewrite E. clear E AX A0 A1 A2. f_equal. apply negb_true_iff.
  match goal with |- qall ?m = false => enough (EM : m = qrep false) by (rewrite EM; apply qall_rep) end.
  assert (INNER : forall r : rvec, fold_left (fun Outside edge =>
    let Axis := XMVector3Cross (L:=RL) b r edge in
    let '(FrustumMin, FrustumMax) := min_max_of (L:=RL) b (fun C => XMVector3Dot (L:=RL) b Axis C) (lcorners f) in
    mor (mor Outside (vgt (L:=RL) (XMVector3Dot b c1 Axis) (XMVectorAdd b FrustumMax (XMVector3Dot b (pos e) (XMVectorAbs b (row_dots b Axis (qmat q)))))))
        (vlt (L:=RL) (XMVector3Dot b c1 Axis) (XMVectorSubtract b FrustumMin (XMVector3Dot b (pos e) (XMVectorAbs b (row_dots b Axis (qmat q)))))))
    (edge_axes (L:=RL) b (RightTop f) (RightBottom f) (LeftTop f) (LeftBottom f)) (qrep false) = qrep false).
  { intros r. generalize (edge_axes (L:=RL) b (RightTop f) (RightBottom f) (LeftTop f) (LeftBottom f)) as es. induction es as [|u es IH]; cbn [fold_left]; [reflexivity|].
    cbv zeta. set (A := XMVector3Cross b r u). rewrite (min_max_R b _ (dot3 A)) by (discriminate || (intros; apply Dot3_R)).
    rewrite RD, Dot3_R, Add_R, Sub_R, rep_plus, rep_minus, vgt_rep, vlt_rep. pose proof (frust_proj f A x Hf Hp) as PJ. specialize (DL A). apply abs_le_iff in DL. rewrite DC.
    rewrite !(proj2 (Rltb_false _ _)) by lra. exact IH. }
  apply fold_fix. intros r. apply INNER.
Qed.
Lemma frust_box b f bx : ok_frustum f -> ok_box bx -> meets (frust f) (aabb bx) -> Frustum_IntersectsBox (L:=RL) b f bx = Some true.
Proof.
  intros Hf Hb (p & Hp & Ha). unfold Frustum_IntersectsBox. apply frust_obox; [exact Hf|apply ok_of_box, Hb|]. exists p. split; [exact Hp|]. apply obox_of_box, Ha.
Qed.

(** ** Frusta *)
Lemma fold_fix_in {A B} (G : A -> B -> A) (a : A) (l : list B) : (forall x, In x l -> G a x = a) -> fold_left G l a = a.
Proof. induction l as [|x l IH]; intros H; cbn [fold_left]; [reflexivity|]. rewrite H by (left; reflexivity). apply IH. intros; apply H; right; assumption. Qed.
Lemma fold_pair_in {A B C} (F : A * B -> C -> A * B) (a : A) (l : list C) : (forall x ins, In x l -> exists ins', F (a, ins) x = (a, ins')) -> forall ins,
  exists ins', fold_left F l (a, ins) = (a, ins').
Proof.
  induction l as [|x l IH]; intros H ins; cbn [fold_left]; [exists ins; reflexivity|]. destruct (H x ins (or_introl eq_refl)) as (ins' & E). rewrite E. apply IH. intros; apply H; right; assumption.
Qed.
Lemma dot3_eq3 A x y : eq3 x y -> dot3 A x = dot3 A y.
Proof. intros (h1 & h2 & h3). unfold dot3. rewrite h1, h2, h3. reflexivity. Qed.
Lemma mn_dot_same A Cs Ds : Forall2 eq3 Cs Ds -> mn (dot3 A) Cs = mn (dot3 A) Ds /\ mx (dot3 A) Cs = mx (dot3 A) Ds.
Proof.
  intros [|c d Cs' Ds' E F]; [split; reflexivity|]. unfold mn, mx. rewrite (dot3_eq3 A c d E). generalize (dot3 A d) at 1 2 as lo. generalize (dot3 A d) as hi.
  induction F as [|c' d' Cs'' Ds'' E' F IH]; intros hi lo; cbn [fold_left]; [split; reflexivity|]. rewrite (dot3_eq3 A c' d' E'). apply IH.
Qed.
Lemma frust_frust b f g : ok_frustum f -> ok_frustum g -> meets (frust f) (frust g) -> Frustum_IntersectsFrustum (L:=RL) b f g = Some true.
Proof.
  intros Hf Hg (p & Hp & Hb). pose proof (proj1 Hf) as Hq. pose proof (proj1 Hg) as Ho.
  apply (frust_iff f p Hq) in Hp. apply (frust_iff g p Ho) in Hb.
  pose proof (frame_change (fo f) (fo g) (fq f) (fq g) p Hq Ho) as FC. rewrite conj_ham, conj_conj in FC.
  set (x := local (fo f) (fq f) p) in *. set (y := local (fo g) (fq g) p) in *.
  unfold Frustum_IntersectsFrustum. cbv zeta. rewrite !isunitq by assumption. cbn [asserting]. l3. rewrite !Sub_R, InvRotate_R, QConj_R, QMul_R.
  change (qrot (conj (fq f)) (minus (fo g) (fo f))) with (local (fo f) (fq f) (fo g)).
  set (c := local (fo f) (fq f) (fo g)) in *. set (q := ham (conj (fq f)) (fq g)) in *.
  assert (Uq : unitq q) by (apply unit_ham; [apply unit_conj|]; assumption).
  clearbody x y c q. clear Hq Ho p.
  set (g' := MkFrustum (F3 (qx c) (qy c) (qz c)) q (fr_RightSlope g) (fr_LeftSlope g) (fr_TopSlope g) (fr_BottomSlope g) (fr_Near g) (fr_Far g)).
  assert (Hg' : ok_frustum g') by (destruct Hg as (_ & H); split; [exact Uq|exact H]).
  assert (Hx : frust g' x). { exists y. split; [exact Hb|]. eapply eq3_trans; [exact FC|]. repeat split. }
  apply (frust_hull g' x Hg') in Hx.
  assert (TC : Forall2 eq3 (turned_corners (L:=RL) b g q c) (map (global (fo g') q) (lcorners g))) by (apply turned_R; repeat split).
  change (lcorners g') with (lcorners g) in Hx. change (fq g') with q in Hx.
  set (CA := turned_corners b g q c) in *.
  assert (NA : CA <> nil) by (intros E; rewrite E in TC; inversion TC).
  assert (PA : forall A, mn (dot3 A) CA <= dot3 A x <= mx (dot3 A) CA).
  { intros A. destruct (mn_dot_same A _ _ TC) as (-> & ->). apply (hull_linear A _ x _ _ Hx). intros C HC. split; [apply mn_le|apply mx_ge]; exact HC. }
  assert (PB : forall A, mn (dot3 A) (lcorners f) <= dot3 A x <= mx (dot3 A) (lcorners f)) by (intros; apply frust_proj; assumption).
  assert (MA : forall A, min_max_of (L:=RL) b (fun C => XMVector3Dot (L:=RL) b A C) CA = (qrep (mn (dot3 A) CA), qrep (mx (dot3 A) CA))) by (intros; apply min_max_R; [exact NA|intros; apply Dot3_R]).
  assert (MB : forall A, min_max_of (L:=RL) b (fun C => XMVector3Dot (L:=RL) b A C) (lcorners f) = (qrep (mn (dot3 A) (lcorners f)), qrep (mx (dot3 A) (lcorners f)))) by (intros; apply min_max_R; [discriminate|intros; apply Dot3_R]).
  rewrite local_corners_R. clearbody CA. clear TC Hx.
  (* the planes of f *)
  match goal with |- context [fold_left ?F ?l (mfalse, mtrue)] => assert (E : exists ins, fold_left F l (qrep false, mtrue) = (qrep false, ins)) end.
  { apply fold_pair_in. intros (A & D) ins HIn. assert (HD : exists k, D = qrep k /\ dot3 A x <= k).
    { apply slopes_planes in Hp. unfold local_planes in Hp. rewrite !Forall_cons_iff in Hp. destruct Hp as (p0 & p1 & p2 & p3 & p4 & p5 & _).
      unfold plane_at, NearPlane, FarPlane, RightPlane, LeftPlane, TopPlane, BottomPlane in *. rewrite Neg_R, rep_opp, vzero_R in HIn. cbn [In] in HIn. unfold dot3 in *; cbn [qx qy qz qw] in *.
      change (@mone RL) with (-1) in *. change (@zero RL) with 0 in *. change (@one RL) with 1 in *. ro. rt. destruct HIn as [E|[E|[E|[E|[E|[E|[]]]]]]]; injection E as <- <-; eexists; (split; [reflexivity|]); cbn [qx qy qz qw]; lra. }
    destruct HD as (k & -> & Hk). rewrite MA, vgt_rep, (proj2 (Rltb_false _ _)) by (specialize (PA A); lra). eexists. reflexivity. }
  destruct E as (ins & E). match type of E with _ = ?v => match goal with |- context [fold_left ?F ?l (mfalse, mtrue)] => replace (fold_left F l (mfalse, mtrue)) with v by (symmetry; exact E) end end.
  clear E. cbv beta iota. rewrite qall_rep. destruct (qall ins); [reflexivity|].
  (* the planes of g *)
  rewrite !Rotate_R.
  match goal with |- context [if qall (fold_left ?F ?l (qrep false)) then _ else _] => assert (E : fold_left F l (qrep false) = qrep false) end.
  { apply fold_fix_in. intros (A & D) HIn. assert (HD : exists k, D = qrep k /\ dot3 A x <= k).
    { rewrite Neg_R, !MulAdd_R, !Dot3_R in HIn.
      assert (QD : forall u v, dot3 (qrot q u) (qrot q v) = dot3 u v) by (intros u v; rewrite qrot_dot, Uq; ring).
      assert (DT : forall P, dot3 (qrot q P) x = dot3 (qrot q P) c + dot3 P y).
      { intros P. rewrite (dot3_eq3 _ _ _ FC). rewrite <- (QD P y). unfold dot3, plus; cbn [qx qy qz]. ring. }
      assert (DC : forall P v k, dot3 (qrot q P) (qmap3 (fun x y z : R => x * y + z) (qrot q v) (qrep k) c) = dot3 (qrot q P) c + k * dot3 P v).
      { intros P v k. rewrite <- (QD P v). unfold dot3, qmap3; cbn [qx qy qz qrep]. ring. }
      assert (DN : forall u v : rvec, dot3 (qmap Ropp u) v = - dot3 u v) by (intros; unfold dot3, qmap; cbn [qx qy qz]; ring).
      destruct Hb as ((z1 & z2) & (x1 & x2) & y1 & y2). clear PA PB MA MB.
      rt. rewrite !DN, !DC in HIn. unfold RightTop, RightPlane, LeftPlane, TopPlane, BottomPlane in HIn. change (@mone RL) with (-1) in HIn. change (@zero RL) with 0 in HIn. change (@one RL) with 1 in HIn. ro.
      cbn [In] in HIn. destruct HIn as [E|[E|[E|[E|[E|[E|[]]]]]]]; injection E as <- <-; eexists; (split; [reflexivity|]); rewrite ?DN, DT; match goal with |- context [dot3 (qrot q ?P) c] => generalize (dot3 (qrot q P) c) as K; intros K end; unfold dot3; cbn [qx qy qz]; lra. }
    destruct HD as (k & -> & Hk). rewrite MB. cbn [fst]. rewrite vgt_rep, (proj2 (Rltb_false _ _)) by (specialize (PB A); lra). reflexivity. }
  match goal with |- context [if qall ?m then _ else _] => replace m with (qrep false) by (symmetry; exact E) end. clear E. rewrite qall_rep.
  f_equal. apply negb_true_iff.
  match goal with |- qall ?m = false => enough (EM : m = qrep false) by (rewrite EM; apply qall_rep) end.
  apply fold_fix_in. intros ea _. apply fold_fix_in. intros eb _. rewrite MA, MB. cbn [fst snd]. rewrite !vgt_rep. set (A := XMVector3Cross b ea eb).
  rewrite !(proj2 (Rltb_false _ _)) by (specialize (PA A); specialize (PB A); lra). reflexivity.
Qed.

(** ** Triangles *)
Lemma tri_mean A V0 V1 V2 x : tri V0 V1 V2 x ->
  Rmin (Rmin (dot3 V0 A) (dot3 V1 A)) (dot3 V2 A) <= dot3 A x <= Rmax (Rmax (dot3 V0 A) (dot3 V1 A)) (dot3 V2 A).
Proof.
  intros (a & c & d & Ha & Hc & Hd & Hs & He). rewrite (dot3_eq3 A _ _ He). pose proof (mean3 a c d (dot3 V0 A) (dot3 V1 A) (dot3 V2 A) Ha Hc Hd Hs) as M.
  replace (dot3 A (plus (plus (scale a V0) (scale c V1)) (scale d V2))) with (a * dot3 V0 A + c * dot3 V1 A + d * dot3 V2 A) by (unfold dot3, plus, scale; cbn [qx qy qz]; ring). exact M.
Qed.
Definition at_home (f : Frustum R) : Prop := fr_Origin f = F3 0 0 0 /\ fr_Orientation f = Q 0 0 0 1.
Lemma home_local V : eq3 (qrot (conj (Q 0 0 0 1)) (minus V (pos (F3 0 0 0)))) V.
Proof. dq V. unfold eq3. qs. unfold pos; cbn [fx fy fz]. qs. repeat split; ring. Qed.
Lemma dot3_eq3_l x y A : eq3 x y -> dot3 x A = dot3 y A.
Proof. intros (h1 & h2 & h3). unfold dot3. rewrite h1, h2, h3. reflexivity. Qed.
Lemma frust_tri_home b f V0 V1 V2 : ok_frustum f -> at_home f -> meets (frust f) (tri V0 V1 V2) -> Frustum_IntersectsTriangle (L:=RL) b f V0 V1 V2 = Some true.
Proof.
  intros Hf (HO & HQ) (x & Hp & Ht). pose proof (proj1 Hf) as Hq.
  assert (Hx : in_slopes f x). { apply (frust_iff f x Hq) in Hp. refine (slopes_eq3 _ _ _ _ Hp). unfold local. rewrite HO, HQ. apply home_local. }
  unfold Frustum_IntersectsTriangle. cbv zeta. rewrite !isunitq by assumption. cbn [asserting]. l3. rewrite !Sub_R, !InvRotate_R.
  assert (TV : forall V, eq3 (qrot (conj (fq f)) (minus V (fo f))) V) by (intros; rewrite HO, HQ; apply home_local).
  match goal with |- context [fold_left ?F ?l (mfalse, mtrue)] => assert (E : exists ins, fold_left F l (qrep false, mtrue) = (qrep false, ins)) end.
  { apply fold_pair_in. intros P ins HIn. rewrite !Dot3_R, !Min_R, !Max_R, !rep_min, !rep_max, !(dot3_eq3_l _ _ P (TV _)).
    change (splat (L:=RL) I3 P) with (qrep (qw P)). rt. rewrite vgt_rep, (proj2 (Rltb_false _ _)); [eexists; reflexivity|]. pose proof (tri_mean P _ _ _ _ Ht) as M.
    assert (HP : dot3 P x <= qw P).
    { clear M. apply slopes_planes in Hx. unfold local_planes in Hx. rewrite !Forall_cons_iff in Hx. destruct Hx as (p0 & p1 & p2 & p3 & p4 & p5 & _).
      unfold plane_at, NearPlane, FarPlane, RightPlane, LeftPlane, TopPlane, BottomPlane in *. cbn [In] in HIn. unfold dot3 in *; cbn [qx qy qz qw] in *.
      change (@mone RL) with (-1) in *. change (@zero RL) with 0 in *. change (@one RL) with 1 in *. ro. rt. destruct HIn as [<-|[<-|[<-|[<-|[<-|[<-|[]]]]]]]; cbn [qx qy qz qw]; lra. }
    lra. }
  destruct E as (ins & E). match type of E with _ = ?v => match goal with |- context [fold_left ?F ?l (mfalse, mtrue)] => replace (fold_left F l (mfalse, mtrue)) with v by (symmetry; exact E) end end.
  clear E. cbv beta iota. rewrite qall_rep. destruct (qall ins); [reflexivity|]. rewrite local_corners_R, Cross3_R, !Dot3_R. fold (normal V0 V1 V2). set (N := normal V0 V1 V2).
  rewrite (min_max_R b _ (fun C => dot3 C N)) by (discriminate || (intros; apply Dot3_R)).
  assert (HN : dot3 N V0 = dot3 N x). { pose proof (tri_plane_zero _ _ _ _ Ht) as Z. fold N in Z. unfold dot3, minus in *; cbn [qx qy qz] in *. lra. }
  assert (MN : mn (fun C => dot3 C N) (lcorners f) <= dot3 N x <= mx (fun C => dot3 C N) (lcorners f)).
  { apply (hull_linear N (lcorners f)); [apply slopes_hull; assumption|]. intros C HC. rewrite dot3_sym. split; [apply (mn_le (fun C => dot3 C N))|apply (mx_ge (fun C => dot3 C N))]; exact HC. }
  rt. rewrite vgt_rep, vlt_rep, !(proj2 (Rltb_false _ _)) by lra. rewrite mor_rep, qall_rep. cbn [orb].
  f_equal. apply negb_true_iff.
  match goal with |- qall ?m = false => enough (EM : m = qrep false) by (rewrite EM; apply qall_rep) end.
  apply fold_fix_in. intros ea _. apply fold_fix_in. intros eb _. set (A := XMVector3Cross b ea eb). rewrite (min_max_R b _ (dot3 A)) by (discriminate || (intros; apply Dot3_R)).
  rewrite !Dot3_R, !Min_R, !Max_R, !rep_min, !rep_max. pose proof (tri_mean A _ _ _ _ Ht) as M. pose proof (frust_proj f A x Hf Hx) as PJ. rewrite !vgt_rep.
  rewrite !(proj2 (Rltb_false _ _)) by lra. reflexivity.
Qed.
Lemma fold_pair_head {A B C} (F : A * B -> C -> A * B) p l a0 b0 c : (exists a, F (a0, b0) p = (a, c)) -> (forall x a, exists a', F (a, c) x = (a', c)) -> exists a, fold_left F (p :: l) (a0, b0) = (a, c).
Proof.
  intros (a & E) H. cbn [fold_left]. rewrite E. clear E. revert a. induction l as [|x l IH]; intros a; [exists a; reflexivity|]. cbn [fold_left]. destruct (H x a) as (a' & E). rewrite E. apply IH.
Qed.
(** away from the origin the world triangle is tested against the local corners *)
Lemma frust_tri_missed b : exists f V0 V1 V2, ok_frustum f /\ nonflat V0 V1 V2 /\ meets (frust f) (tri V0 V1 V2) /\ Frustum_IntersectsTriangle (L:=RL) b f V0 V1 V2 = Some false.
Proof.
  set (f := MkFrustum (F3 10 0 0) (Q 0 0 0 1) 1 (-1) 1 (-1) 1 2).
  assert (Hq : unitq (fq f)) by (unfold unitq, dot4; cbn; ring).
  exists f, (Q 10 0 0 0), (Q 10 0 3 0), (Q 10 1 0 0). split; [unfold ok_frustum; split; [exact Hq|cbn; lra]|].
  split; [unfold nonflat, zero3, cross, minus; cbn [qx qy qz]; lra|]. split.
  { exists (Q 10 (1/2) (3/2) 0). split.
    - exists (Q 0 (1/2) (3/2) 0). split; [unfold in_slopes; cbn; lra|]. unfold eq3. cbn [fr_Orientation fr_Origin f]. qs. unfold pos; cbn [fx fy fz]. qs. repeat split; lra.
    - exists 0, (1/2), (1/2). unfold eq3, plus, scale; cbn [qx qy qz]. repeat split; lra. }
  unfold Frustum_IntersectsTriangle. cbv zeta. rewrite !isunitq by assumption. cbn [asserting]. l3. rewrite !Sub_R, !InvRotate_R.
  assert (E0 : forall y z, dot3 (qrot (conj (fq f)) (minus (Q 10 y z 0) (fo f))) = dot3 (Q 0 y z 0)).
  { intros. f_equal. cbn [f fr_Orientation fr_Origin]. unfold pos; cbn [fx fy fz]. qs. f_equal; ring. }
  match goal with |- context [fold_left ?F ?l (mfalse, mtrue)] => assert (E : exists o, fold_left F l (mfalse, mtrue) = (o, qrep false)) end.
  { apply fold_pair_head.
    - eexists. f_equal. rewrite !Dot3_R, !Max_R, !rep_max, !E0.
      transitivity (vle (L:=RL) (qrep (Rmax (Rmax (dot3 (Q 0 0 0 0) (Q 0 0 (-1) (-1))) (dot3 (Q 0 0 3 0) (Q 0 0 (-1) (-1)))) (dot3 (Q 0 1 0 0) (Q 0 0 (-1) (-1))))) (qrep (-1))); [reflexivity|].
      rewrite vle_rep. f_equal. apply Rleb_false. unfold dot3; cbn [qx qy qz]. unfold Rmax. repeat destruct (Rle_dec _ _); lra.
    - intros x o. eexists. reflexivity. }
  destruct E as (o & E). match type of E with _ = ?v => match goal with |- context [fold_left ?F ?l (mfalse, mtrue)] => replace (fold_left F l (mfalse, mtrue)) with v by (symmetry; exact E) end end.
  clear E E0. cbv beta iota. destruct (qall o); [reflexivity|]. rewrite qall_rep. rewrite !Dot3_R.
  rewrite local_corners_R, ?Cross3_R. rewrite (min_max_R b _ (fun C => dot3 C (cross (minus (Q 10 0 3 0) (Q 10 0 0 0)) (minus (Q 10 1 0 0) (Q 10 0 0 0))))) by (discriminate || (intros; apply Dot3_R)).
  set (N := cross (minus (Q 10 0 3 0) (Q 10 0 0 0)) (minus (Q 10 1 0 0) (Q 10 0 0 0))).
  assert (EN : N = Q (-3) 0 0 0) by (unfold N, cross, minus; cbn [qx qy qz]; f_equal; ring).
  destruct (mn_in (fun C => dot3 C N) (lcorners f)) as (C & HC & EC); [discriminate|]. rt. rewrite vgt_rep, vlt_rep, mor_rep, qall_rep.
  rewrite (proj2 (Rltb_true (dot3 N (Q 10 0 0 0)) (mn (fun C => dot3 C N) (lcorners f)))); [reflexivity|].
  rewrite EC, EN. cbn [lcorners f fr_RightSlope fr_LeftSlope fr_TopSlope fr_BottomSlope fr_Near fr_Far In] in HC. unfold scale in HC; cbn [qx qy qz qw] in HC. unfold dot3; cbn [qx qy qz].
  destruct HC as [<-|[<-|[<-|[<-|[<-|[<-|[<-|[<-|[]]]]]]]]]; cbn [qx qy qz]; lra.
Qed.
