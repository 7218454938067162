(** Frusta: points, corners, planes (C53), sides of a plane (C52) and containment. *)
From Coq Require Import Reals Lra Psatz List Bool.
From Verif Require Import Base F32 Intrin Lane MVec MTrig MQuat MInterp MPlane MMatrix Shapes MCollide MFrustum.
From Verif Require Import SpecGeom SpecQuat SpecMat SpecShape PReal PVec PQuat PRot PMatrix PPlane PShape PSphere PSide PHull PBox POBox PSat PSolid PTri PTriBox.
Open Scope R_scope.

(** ** The local frustum *)
Notation fo f := (pos (fr_Origin f)).
Notation fq f := (fr_Orientation f).
Lemma slopes_eq3 f l m : eq3 l m -> in_slopes f l -> in_slopes f m.
Proof. intros (h1 & h2 & h3). unfold in_slopes. rewrite h1, h2, h3. tauto. Qed.
Lemma frust_iff f p : unitq (fq f) -> frust f p <-> in_slopes f (local (fo f) (fq f) p).
Proof.
  intros H. split.
  - intros (l & Hl & He). apply (slopes_eq3 _ l); [|assumption]. apply eq3_sym. eapply eq3_trans; [|apply (local_global (fo f) _ l H)]. apply local_eq3, He.
  - intros Hl. exists (local (fo f) (fq f) p). split; [exact Hl|]. apply eq3_sym, (global_local (fo f) _ p H).
Qed.
Lemma slopes_planes f l : in_slopes f l <-> Forall (fun P => plane_at P l <= 0) (local_planes (L:=RL) f).
Proof.
  unfold local_planes. rewrite !Forall_cons_iff. unfold in_slopes, plane_at, dot3, NearPlane, FarPlane, RightPlane, LeftPlane, TopPlane, BottomPlane; cbn [qx qy qz qw]. ro.
  change (@mone RL) with (-1). change (@zero RL) with 0. change (@one RL) with 1. split; [intros ((h1 & h2) & (h3 & h4) & h5 & h6); repeat split; try lra; apply Forall_nil|].
  intros (h1 & h2 & h3 & h4 & h5 & h6 & _). lra.
Qed.
Definition lcorners (f : Frustum R) : list rvec :=
  let n := fr_Near f in let m := fr_Far f in
  let rt := Q (fr_RightSlope f) (fr_TopSlope f) 1 0 in let rb := Q (fr_RightSlope f) (fr_BottomSlope f) 1 0 in
  let lt := Q (fr_LeftSlope f) (fr_TopSlope f) 1 0 in let lb := Q (fr_LeftSlope f) (fr_BottomSlope f) 1 0 in
  (scale n rt :: scale n rb :: scale n lt :: scale n lb :: scale m rt :: scale m rb :: scale m lt :: scale m lb :: nil)%list.
Lemma mul_rep_r b (v : rvec) k : XMVectorMultiply (L:=RL) b v (qrep k) = scale k v.
Proof. rewrite Mul_R. unfold scale, qmap2; cbn [qx qy qz qw]. f_equal; apply Rmult_comm. Qed.
Lemma local_corners_R b f : local_corners (L:=RL) b f = lcorners f.
Proof. unfold local_corners, lcorners, RightTop, RightBottom, LeftTop, LeftBottom. cbv zeta. rewrite !mul_rep_r. reflexivity. Qed.
Lemma in_between z lo hi x : 0 <= z -> lo <= hi -> lo * z <= x <= hi * z -> exists u, 0 <= u <= 1 /\ x = z * (u * hi + (1 - u) * lo).
Proof.
  intros Hz Hl Hx. destruct (Req_dec ((hi - lo) * z) 0) as [E|E]; [exists 0; split; lra|]. assert (0 < (hi - lo) * z) by nra.
  exists ((x - lo * z) / ((hi - lo) * z)). split.
  - split; [apply Rle_mult_inv_pos; lra|]. apply (Rmult_le_reg_r ((hi - lo) * z)); [assumption|]. unfold Rdiv. rewrite Rmult_assoc, Rinv_l by assumption. lra.
  - field. split; [intros ->|intros C; replace (hi - lo) with 0 in *]; lra.
Qed.
Lemma slopes_hull f l : ok_frustum f -> in_slopes f l -> hull (lcorners f) l.
Proof.
  intros (_ & (HN & HF) & HL & HB) ((z1 & z2) & Hx & Hy).
  destruct (in_between _ _ _ _ (Rle_trans _ _ _ HN z1) HL Hx) as (u & Hu & Eu). destruct (in_between _ _ _ _ (Rle_trans _ _ _ HN z1) HB Hy) as (v & Hv & Ev).
  assert (Hs : exists s, 0 <= s <= 1 /\ qz l = (1 - s) * fr_Near f + s * fr_Far f).
  { destruct (Req_dec (fr_Near f) (fr_Far f)) as [E|E]; [exists 0; split; lra|]. exists ((qz l - fr_Near f) / (fr_Far f - fr_Near f)).
    assert (0 < fr_Far f - fr_Near f) by lra. split.
    - split; [apply Rle_mult_inv_pos; lra|]. apply (Rmult_le_reg_r (fr_Far f - fr_Near f)); [assumption|]. unfold Rdiv. rewrite Rmult_assoc, Rinv_l by lra. lra.
    - field. lra. }
  destruct Hs as (s & Hs & Es).
  exists ((1 - s) * (u * v) :: (1 - s) * (u * (1 - v)) :: (1 - s) * ((1 - u) * v) :: (1 - s) * ((1 - u) * (1 - v)) ::
          s * (u * v) :: s * (u * (1 - v)) :: s * ((1 - u) * v) :: s * ((1 - u) * (1 - v)) :: nil)%list.
  split; [reflexivity|]. split; [repeat (apply Forall_cons; [repeat apply Rmult_le_pos; lra|]); apply Forall_nil|].
  split; [cbn; ring|]. unfold lcorners. cbv zeta. cbv [eq3 combo plus scale qx qy qz qw]. destruct l as [lx ly lz lw]; cbn [qx qy qz] in *. rewrite Eu, Ev, Es. repeat split; ring.
Qed.
Lemma corners_in f : ok_frustum f -> Forall (in_slopes f) (lcorners f).
Proof.
  intros (_ & HN & HL & HB). unfold lcorners. cbv zeta. repeat (apply Forall_cons; [unfold in_slopes, scale; cbn [qx qy qz]; nra|]). apply Forall_nil.
Qed.
(** linear functions on a hull *)
Lemma hull_linear A Cs p lo hi : hull Cs p -> (forall C, In C Cs -> lo <= dot3 A C <= hi) -> lo <= dot3 A p <= hi.
Proof.
  intros Hp H. split.
  - assert (C := behind_convex (Q (- qx A) (- qy A) (- qz A) lo)). apply (hull_in _ Cs C) in Hp.
    + unfold behind, plane_at, dot3 in Hp; cbn [qx qy qz qw] in Hp. unfold dot3. lra.
    + apply Forall_forall. intros c Hc. specialize (H c Hc). unfold behind, plane_at, dot3 in *; cbn [qx qy qz qw] in *. lra.
  - assert (C := behind_convex (Q (qx A) (qy A) (qz A) (- hi))). apply (hull_in _ Cs C) in Hp.
    + unfold behind, plane_at, dot3 in Hp; cbn [qx qy qz qw] in Hp. unfold dot3. lra.
    + apply Forall_forall. intros c Hc. specialize (H c Hc). unfold behind, plane_at, dot3 in *; cbn [qx qy qz qw] in *. lra.
Qed.
(** least and greatest value over a list *)
Definition mn (g : rvec -> R) (Cs : list rvec) : R := match Cs with C0 :: Cs => fold_left (fun a C => Rmin a (g C)) Cs (g C0) | nil => 0 end.
Definition mx (g : rvec -> R) (Cs : list rvec) : R := match Cs with C0 :: Cs => fold_left (fun a C => Rmax a (g C)) Cs (g C0) | nil => 0 end.
Lemma fold_min g Cs : forall a, fold_left (fun a C => Rmin a (g C)) Cs a <= a /\ (forall C, In C Cs -> fold_left (fun a C => Rmin a (g C)) Cs a <= g C)
  /\ (fold_left (fun a C => Rmin a (g C)) Cs a = a \/ exists C : rvec, In C Cs /\ fold_left (fun a C => Rmin a (g C)) Cs a = g C).
Proof.
  induction Cs as [|c Cs IH]; intros a; cbn [fold_left In]; [split; [lra|split; [intros ? []|left; reflexivity]]|].
  destruct (IH (Rmin a (g c))) as (h1 & h2 & h3). pose proof (Rmin_l a (g c)). pose proof (Rmin_r a (g c)). split; [lra|]. split.
  - intros C [<-|HC]; [lra|apply h2, HC].
  - destruct h3 as [E|(C & HC & E)]; [|right; exists C; auto]. rewrite E. unfold Rmin. destruct (Rle_dec _ _); [left; reflexivity|right; exists c; auto].
Qed.
Lemma fold_max g Cs : forall a, a <= fold_left (fun a C => Rmax a (g C)) Cs a /\ (forall C, In C Cs -> g C <= fold_left (fun a C => Rmax a (g C)) Cs a)
  /\ (fold_left (fun a C => Rmax a (g C)) Cs a = a \/ exists C : rvec, In C Cs /\ fold_left (fun a C => Rmax a (g C)) Cs a = g C).
Proof.
  induction Cs as [|c Cs IH]; intros a; cbn [fold_left In]; [split; [lra|split; [intros ? []|left; reflexivity]]|].
  destruct (IH (Rmax a (g c))) as (h1 & h2 & h3). pose proof (Rmax_l a (g c)). pose proof (Rmax_r a (g c)). split; [lra|]. split.
  - intros C [<-|HC]; [lra|apply h2, HC].
  - destruct h3 as [E|(C & HC & E)]; [|right; exists C; auto]. rewrite E. unfold Rmax. destruct (Rle_dec _ _); [right; exists c; auto|left; reflexivity].
Qed.
Lemma mn_le g Cs C : In C Cs -> mn g Cs <= g C.
Proof. destruct Cs as [|c Cs]; [intros []|intros H]. unfold mn. destruct (fold_min g Cs (g c)) as (h1 & h2 & h3). destruct H as [<-|H]; [assumption|apply h2; assumption]. Qed.
Lemma mx_ge g Cs C : In C Cs -> g C <= mx g Cs.
Proof. destruct Cs as [|c Cs]; [intros []|intros H]. unfold mx. destruct (fold_max g Cs (g c)) as (h1 & h2 & h3). destruct H as [<-|H]; [assumption|apply h2; assumption]. Qed.
Lemma mn_in g Cs : Cs <> nil -> exists C, In C Cs /\ mn g Cs = g C.
Proof. destruct Cs as [|c Cs]; [contradiction|intros _]. unfold mn. destruct (fold_min g Cs (g c)) as (_ & _ & [E|(C & HC & E)]); [exists c|exists C]; (split; [|exact E]); [left; reflexivity|right; assumption]. Qed.
Lemma mx_in g Cs : Cs <> nil -> exists C, In C Cs /\ mx g Cs = g C.
Proof. destruct Cs as [|c Cs]; [contradiction|intros _]. unfold mx. destruct (fold_max g Cs (g c)) as (_ & _ & [E|(C & HC & E)]); [exists c|exists C]; (split; [|exact E]); [left; reflexivity|right; assumption]. Qed.
Lemma fold_mm b d g Cs : (forall C : rvec, d C = qrep (g C)) -> forall lo hi,
  fold_left (fun '(Min, Max) P => (XMVectorMin (L:=RL) b Min P, XMVectorMax (L:=RL) b Max P)) (map d Cs) (qrep lo, qrep hi) =
  (qrep (fold_left (fun a C => Rmin a (g C)) Cs lo), qrep (fold_left (fun a C => Rmax a (g C)) Cs hi)).
Proof. intros H. induction Cs as [|c Cs IH]; intros lo hi; cbn [fold_left map]; [reflexivity|]. rewrite H, Min_R, Max_R, rep_min, rep_max. apply IH. Qed.
Lemma min_max_R b d g Cs : Cs <> nil -> (forall C : rvec, d C = qrep (g C)) -> min_max_of (L:=RL) b d Cs = (qrep (mn g Cs), qrep (mx g Cs)).
Proof. intros HC H. destruct Cs as [|c Cs]; [contradiction|]. unfold min_max_of, min_max. rewrite (H c), (fold_mm b d g Cs H). reflexivity. Qed.

(** ** C53: points *)
Lemma in_frust_q b f p : unitq (fq f) -> exists r, Frustum_ContainsPoint (L:=RL) b f p = Some r /\ (r = CONTAINS <-> frust f p) /\ (r = DISJOINT <-> ~ frust f p).
Proof.
  intros Hq. unfold Frustum_ContainsPoint. cbv zeta. rewrite isunitq by exact Hq. cbn [asserting]. l3. rewrite Sub_R, InvRotate_R.
  change (qrot (conj (fq f)) (minus p (fo f))) with (local (fo f) (fq f) p). eexists; split; [reflexivity|]. rewrite frust_iff, slopes_planes by assumption.
  set (l := local (fo f) (fq f) p). rewrite vone_R.
  assert (F : forall Ps acc, fold_left (fun Outside P => mor Outside (vgt (L:=RL) (XMVector4Dot b (insert_lane I3 l (qrep 1)) P) vzero)) Ps (qrep acc) =
     qrep (acc || negb (forallb (fun P => Rleb (plane_at P l) 0) Ps))%bool).
  { induction Ps as [|P Ps IH]; intros acc; cbn [fold_left forallb]; [destruct acc; reflexivity|]. rewrite Dot4_R, vert_plane, vzero_R, vgt_rep, mor_rep, IH. f_equal.
    destruct (Rltb_spec 0 (plane_at P l)), (Rleb_spec (plane_at P l) 0), acc; try lra; cbn; try reflexivity. }
  change mfalse with (qrep false). rt. rewrite F, qall_rep. cbn [orb]. rewrite negb_involutive.
  assert (E : forallb (fun P => Rleb (plane_at P l) 0) (local_planes (L:=RL) f) = true <-> Forall (fun P => plane_at P l <= 0) (local_planes (L:=RL) f)).
  { rewrite forallb_forall, Forall_forall. split; intros H x Hx; apply Rleb_true, H, Hx. }
  rewrite <- E. destruct (forallb _ _); repeat split; intros; try discriminate; try reflexivity; try contradiction.
Qed.
Lemma in_frust b f p : ok_frustum f -> exists r, Frustum_ContainsPoint (L:=RL) b f p = Some r /\ (r = CONTAINS <-> frust f p) /\ (r = DISJOINT <-> ~ frust f p).
Proof. intros (Hq & _). apply in_frust_q, Hq. Qed.

(** ** C53: corners *)
Lemma frust_hull f p : ok_frustum f -> frust f p <-> hull (map (global (fo f) (fq f)) (lcorners f)) p.
Proof.
  intros Hok. pose proof (proj1 Hok) as Hq. split.
  - intros (l & Hl & He). apply (slopes_hull _ _ Hok) in Hl. destruct Hl as (ws & HL & HW & HT & Hc). exists ws.
    split; [rewrite map_length; exact HL|]. split; [exact HW|]. split; [exact HT|]. eapply eq3_trans; [exact He|].
    eapply eq3_trans; [apply (global_eq3 (fo f) (fq f) _ _ Hc)|]. clear He Hc. revert HT HL. generalize (lcorners f) as Cs. clear.
    intros Cs HT HL. assert (G : forall ws Cs, length ws = length Cs -> eq3 (plus (scale (total ws) (fo f)) (qrot (fq f) (combo ws Cs))) (combo ws (map (global (fo f) (fq f)) Cs))).
    { clear. induction ws as [|w ws IH]; intros [|c Cs] HL; try discriminate.
      - cbn [total fold_right combo map]. generalize (fo f) as o, (fq f) as q. intros o q. dn q. dq o. unfold eq3. qs. repeat split; ring.
      - injection HL as HL. specialize (IH Cs HL). cbn [combo map]. change (total (w :: ws)) with (w + total ws). rewrite qrot_linear. set (X := combo ws (map _ Cs)) in *.
        destruct IH as (h1 & h2 & h3). unfold eq3 in *. unfold global. unfold plus, scale in *; cbn [qx qy qz] in *. rewrite <- h1, <- h2, <- h3. repeat split; ring. }
    specialize (G ws Cs HL). rewrite HT in G. eapply eq3_trans; [|exact G]. unfold global. e3. repeat split; ring.
  - intros H. refine (hull_in _ _ (frust_convex f) _ _ H). apply Forall_forall. intros x Hx. apply in_map_iff in Hx as (l & <- & Hl).
    exists l. split; [|repeat split]. exact (proj1 (Forall_forall _ _) (corners_in f Hok) l Hl).
Qed.
(** a list of corners in any order *)
Fixpoint mix (t : R) (ws vs : list R) : list R :=
  match ws, vs with w :: ws, v :: vs => t * w + (1 - t) * v :: mix t ws vs | _, _ => nil end.
Lemma mix_ok t : 0 <= t <= 1 -> forall ps ws vs, length ws = length ps -> length vs = length ps -> Forall (fun w => 0 <= w) ws -> Forall (fun w => 0 <= w) vs ->
  length (mix t ws vs) = length ps /\ Forall (fun w => 0 <= w) (mix t ws vs) /\ total (mix t ws vs) = t * total ws + (1 - t) * total vs /\
  eq3 (combo (mix t ws vs) ps) (plus (scale t (combo ws ps)) (scale (1 - t) (combo vs ps))).
Proof.
  intros Ht. induction ps as [|p ps IH]; intros [|w ws] [|v vs] H1 H2 W V; try discriminate.
  - cbn. unfold eq3, plus, scale; cbn [qx qy qz]. repeat split; try ring. apply Forall_nil.
  - injection H1 as H1. injection H2 as H2. inversion_clear W. inversion_clear V. destruct (IH ws vs H1 H2) as (i1 & i2 & i3 & i4); [assumption..|].
    cbn [mix]. split; [cbn; f_equal; exact i1|]. split; [apply Forall_cons; [nra|exact i2]|]. split.
    + change (t * w + (1 - t) * v + total (mix t ws vs) = t * (w + total ws) + (1 - t) * (v + total vs)). rewrite i3. ring.
    + cbn [combo]. set (A := combo (mix t ws vs) ps) in *. set (B := combo ws ps) in *. set (C := combo vs ps) in *. clearbody A B C. destruct i4 as (h1 & h2 & h3). e3. rewrite h1, h2, h3. repeat split; ring.
Qed.
Lemma hull_convex ps : convex (hull ps).
Proof.
  split.
  - intros p q H (ws & HL & HW & HT & He). exists ws. repeat (split; [assumption|]). eapply eq3_trans; [apply eq3_sym, H|exact He].
  - intros p q t Ht (ws & HL & HW & HT & He) (vs & KL & KW & KT & Ke). destruct (mix_ok t Ht ps ws vs HL KL HW KW) as (m1 & m2 & m3 & m4).
    exists (mix t ws vs). split; [exact m1|]. split; [exact m2|]. split; [rewrite m3, HT, KT; ring|]. eapply eq3_trans; [|apply eq3_sym, m4].
    set (B := combo ws ps) in *. set (C := combo vs ps) in *. destruct He as (h1 & h2 & h3), Ke as (k1 & k2 & k3). e3. rewrite h1, h2, h3, k1, k2, k3. repeat split.
Qed.
Lemma hull_incl ps qs : (forall p, In p ps -> In p qs) -> subset (hull ps) (hull qs).
Proof. intros H. apply hull_in; [apply hull_convex|]. apply Forall_forall. intros p Hp. apply hull_point, H, Hp. Qed.
Lemma corners_R b f : ok_frustum f -> exists Cs, Frustum_GetCorners (L:=RL) b f = Some Cs /\
  (length Cs = 8)%nat /\ Forall (fun c => frust f (pos c)) Cs /\ (forall p, frust f p <-> hull (map pos Cs) p).
Proof.
  intros Hok. pose proof (proj1 Hok) as Hq. unfold Frustum_GetCorners. cbv zeta. rewrite isunitq by exact Hq. cbn [asserting]. eexists; split; [reflexivity|].
  split; [reflexivity|].
  set (Cs := map _ _).
  assert (E : forall c, In c (map pos Cs) <-> In c (map (fun l => direction (global (fo f) (fq f) l)) (lcorners f))).
  { unfold Cs. cbn [map]. l3. rewrite !mul_rep_r, !Rotate_R, !Add_R. unfold lcorners. cbv zeta. cbn [map In]. unfold global.
    assert (D : forall o' q' v, pos (store3 (plus (qrot q' v) o')) = direction (plus o' (qrot q' v))).
    { intros. unfold store3, pos, direction, plus; cbn [fx fy fz qx qy qz]. f_equal; apply Rplus_comm. }
    rewrite !D. unfold LeftTop, RightTop, LeftBottom, RightBottom. change (@one RL) with 1. change (@zero RL) with 0. intros c. tauto. }
  assert (S : forall p, frust f p <-> hull (map pos Cs) p).
  { intros p. rewrite (frust_hull f p Hok). split; apply hull_in; try apply hull_convex; apply Forall_forall; intros x Hx.
    - apply in_map_iff in Hx as (l & <- & Hl). apply (proj1 (hull_convex _) (direction (global (fo f) (fq f) l))); [repeat split|]. apply hull_point. apply E. apply in_map_iff. exists l. auto.
    - apply E in Hx. apply in_map_iff in Hx as (l & <- & Hl). apply (proj1 (hull_convex _) (global (fo f) (fq f) l)); [repeat split|]. apply hull_point. apply in_map. exact Hl. }
  split; [|exact S]. apply Forall_forall. intros c Hc. apply S, hull_point, in_map, Hc.
Qed.

(** ** C53: planes *)
Definition moved (q o P : rvec) : rvec := Q (qx (qrot q P)) (qy (qrot q P)) (qz (qrot q P)) (qw P - dot3 (qrot q P) o).
Lemma plane_transform_R b P q o : MCollide.plane_transform (L:=RL) b P q o = moved q o P.
Proof. unfold MCollide.plane_transform. rewrite Rotate_R, Dot3_R, Sub_R. reflexivity. Qed.
Lemma moved_at q o P p : plane_at (moved q o P) p = plane_at P (local o q p).
Proof.
  unfold local. unfold plane_at at 2. rewrite <- (conj_conj q) at 1. rewrite <- (conj_conj q) at 1. unfold plane_at, moved.
  rewrite qrot_adjoint. rewrite conj_conj. unfold dot3, minus; cbn [qx qy qz qw]. ring.
Qed.
Lemma moved_nonzero q o P : unitq q -> ~ zero3 P -> ~ zero3 (moved q o P).
Proof.
  intros Hq HP Z. apply HP. apply zero3_dot in Z. apply zero3_dot. pose proof (qrot_dot q P P) as D. rewrite Hq in D. unfold moved, dot3 in Z; cbn [qx qy qz] in Z. fold (dot3 (qrot q P) (qrot q P)) in Z. lra.
Qed.
Lemma local_nonzero f : Forall (fun P => ~ zero3 P) (local_planes (L:=RL) f).
Proof.
  unfold local_planes, NearPlane, FarPlane, RightPlane, LeftPlane, TopPlane, BottomPlane. change (@mone RL) with (-1). change (@zero RL) with 0. change (@one RL) with 1.
  repeat (apply Forall_cons; [unfold zero3; cbn [qx qy qz]; intros (h1 & h2 & h3); lra|]). apply Forall_nil.
Qed.
Lemma world_plane_R b f P : unitq (fq f) -> ~ zero3 P -> unit3 (world_plane (L:=RL) b f P) /\
  exists k, 0 < k /\ forall p, plane_at (world_plane (L:=RL) b f P) p = k * plane_at P (local (fo f) (fq f) p).
Proof.
  intros Hq HP. unfold world_plane. l3. rewrite plane_transform_R. pose proof (moved_nonzero (fq f) (fo f) P Hq HP) as HM.
  destruct (plane_normalize b _ HM) as (U & _ & E). split; [exact U|]. pose proof (norm3_pos _ HM) as NP. exists (/ norm3 (moved (fq f) (fo f) P)).
  split; [apply Rinv_0_lt_compat, NP|]. intros p. rewrite <- moved_at, <- E. field. lra.
Qed.
Lemma planes_R b f : unitq (fq f) -> Forall unit3 (Frustum_GetPlanes (L:=RL) b f) /\
  forall p, frust f p <-> Forall (fun P => plane_at P p <= 0) (Frustum_GetPlanes (L:=RL) b f).
Proof.
  intros Hq. unfold Frustum_GetPlanes. pose proof (local_nonzero f) as NZ. rewrite Forall_forall in NZ. split.
  - apply Forall_forall. intros x Hx. apply in_map_iff in Hx as (P & <- & HP). apply world_plane_R; auto.
  - intros p. rewrite frust_iff, slopes_planes by assumption. rewrite !Forall_forall. split.
    + intros H x Hx. apply in_map_iff in Hx as (P & <- & HP). destruct (world_plane_R b f P Hq (NZ P HP)) as (_ & k & Hk & E). rewrite E. specialize (H P HP). nra.
    + intros H P HP. destruct (world_plane_R b f P Hq (NZ P HP)) as (_ & k & Hk & E). specialize (H _ (in_map (world_plane (L:=RL) b f) _ _ HP)). rewrite E in H. nra.
Qed.

(** ** C52 *)
Definition gmn (f : Frustum R) (P : rvec) : R := mn (plane_at P) (map (global (fo f) (fq f)) (lcorners f)).
Definition gmx (f : Frustum R) (P : rvec) : R := mx (plane_at P) (map (global (fo f) (fq f)) (lcorners f)).
Lemma frust_spans f P : ok_frustum f -> spans P (frust f) (gmn f P) (gmx f P).
Proof.
  intros Hok. assert (NN : map (global (fo f) (fq f)) (lcorners f) <> nil) by discriminate. unfold gmn, gmx. split; [|split].
  - intros p Hp. apply (frust_hull f p Hok) in Hp. set (Cs := map _ _) in *.
    assert (PA : forall c, plane_at P c = dot3 P c + qw P) by reflexivity.
    pose proof (hull_linear P Cs p (mn (plane_at P) Cs - qw P) (mx (plane_at P) Cs - qw P) Hp) as H. rewrite (PA p).
    enough (mn (plane_at P) Cs - qw P <= dot3 P p <= mx (plane_at P) Cs - qw P) by lra.
    apply H. intros C HC. pose proof (mn_le (plane_at P) Cs C HC) as h1. pose proof (mx_ge (plane_at P) Cs C HC) as h2. rewrite (PA C) in h1, h2. lra.
  - destruct (mn_in (plane_at P) _ NN) as (C & HC & E). exists C. split; [apply (frust_hull f C Hok), hull_point, HC|symmetry; exact E].
  - destruct (mx_in (plane_at P) _ NN) as (C & HC & E). exists C. split; [apply (frust_hull f C Hok), hull_point, HC|symmetry; exact E].
Qed.
Lemma min_shift lo d k : Rmin (lo - k) d = Rmin lo (d + k) - k.
Proof. unfold Rmin. destruct (Rle_dec _ _), (Rle_dec _ _); lra. Qed.
Lemma max_shift lo d k : Rmax (lo - k) d = Rmax lo (d + k) - k.
Proof. unfold Rmax. destruct (Rle_dec _ _), (Rle_dec _ _); lra. Qed.
Lemma fold_mm_plane b P Cs : forall lo hi, let k := qw P in
  fold_left (fun '(Min, Max) C => (XMVectorMin (L:=RL) b Min (XMVector3Dot (L:=RL) b P C), XMVectorMax (L:=RL) b Max (XMVector3Dot (L:=RL) b P C))) Cs (qrep (lo - k), qrep (hi - k)) =
  (qrep (fold_left (fun a C => Rmin a (plane_at P C)) Cs lo - k), qrep (fold_left (fun a C => Rmax a (plane_at P C)) Cs hi - k)).
Proof.
  intros lo hi k. revert lo hi. induction Cs as [|c Cs IH]; intros lo hi; cbn [fold_left]; [reflexivity|]. rewrite Dot3_R, Min_R, Max_R, rep_min, rep_max.
  change (plane_at P c) with (dot3 P c + k). rewrite min_shift, max_shift. apply IH.
Qed.
Lemma plane_sub (P c : rvec) : dot3 P c = plane_at P c - qw P.
Proof. unfold plane_at. ring. Qed.
Lemma FastFrustum_R b C0 Cs P : FastIntersectFrustumPlane (L:=RL) b C0 Cs P =
  (qrep (Rltb 0 (mn (plane_at P) (C0 :: Cs)%list)), qrep (Rltb (mx (plane_at P) (C0 :: Cs)%list) 0)).
Proof.
  unfold FastIntersectFrustumPlane. cbv zeta. rewrite (Dot3_R b P C0), (plane_sub P C0).
  match goal with |- context [fold_left ?F Cs ?s] => let H := fresh in pose proof (fold_mm_plane b P Cs (plane_at P C0) (plane_at P C0) : fold_left F Cs s = _) as H; rewrite H; clear H end. cbv beta iota zeta. rewrite Neg_R. change (splat (L:=RL) I3 P) with (qrep (qw P)). rewrite rep_opp.
  unfold mn, mx. rt. rewrite vgt_rep, vlt_rep.
  match goal with |- (qrep (Rltb _ (?x - _)), qrep (Rltb (?y - _) _)) = _ => generalize x as lo, y as hi end. intros lo hi. f_equal; f_equal.
  - destruct (Rltb_spec (- qw P) (lo - qw P)), (Rltb_spec 0 lo); try reflexivity; lra.
  - destruct (Rltb_spec (hi - qw P) (- qw P)), (Rltb_spec hi 0); try reflexivity; lra.
Qed.
Lemma plane_at_eq3 P c d : eq3 c d -> plane_at P c = plane_at P d.
Proof. intros (h1 & h2 & h3). unfold plane_at, dot3. rewrite h1, h2, h3. reflexivity. Qed.
Lemma mn_same P Cs Ds : Forall2 eq3 Cs Ds -> mn (plane_at P) Cs = mn (plane_at P) Ds /\ mx (plane_at P) Cs = mx (plane_at P) Ds.
Proof.
  intros [|c d Cs' Ds' E F]; [split; reflexivity|]. unfold mn, mx. rewrite (plane_at_eq3 P c d E). generalize (plane_at P d) at 1 2 as lo. generalize (plane_at P d) as hi.
  induction F as [|c' d' Cs'' Ds'' E' F IH]; intros hi lo; cbn [fold_left]; [split; reflexivity|]. rewrite (plane_at_eq3 P c' d' E'). apply IH.
Qed.
Lemma turned_R b f q o (V : rvec) : eq3 V o -> Forall2 eq3 (turned_corners (L:=RL) b f q V) (map (global o q) (lcorners f)).
Proof.
  intros (h1 & h2 & h3). unfold turned_corners, lcorners. cbv zeta. rewrite !Rotate_R, !MulAdd_R. cbn [map]. unfold global.
  assert (E : forall v k, eq3 (qmap3 (fun x y z : R => x * y + z) (qrot q v) (qrep k) V) (plus o (qrot q (scale k v)))).
  { intros v k. rewrite qrot_scale. unfold eq3, plus, scale, qmap3; cbn [qx qy qz qrep]. rewrite h1, h2, h3. repeat split; ring. }
  unfold RightTop, RightBottom, LeftTop, LeftBottom. change (@one RL) with 1. change (@zero RL) with 0. repeat (apply Forall2_cons; [apply E|]). apply Forall2_nil.
Qed.
Lemma plane_test_R b f P : Frustum_plane_test (L:=RL) b f P = (qrep (Rltb 0 (gmn f P)), qrep (Rltb (gmx f P) 0)).
Proof.
  unfold Frustum_plane_test. l3. rewrite vone_R.
  assert (E : eq3 (insert_lane (L:=RL) I3 (fo f) (qrep 1)) (fo f)) by (repeat split).
  pose proof (turned_R b f (fq f) (fo f) _ E) as F. destruct (turned_corners b f (fq f) _) as [|C0 Cs] eqn:ET; [inversion F|].
  rewrite FastFrustum_R. destruct (mn_same P _ _ F) as (-> & ->). reflexivity.
Qed.
Lemma frust_plane b f P : ok_frustum f -> unit3 P -> exists v, Frustum_IntersectsPlane (L:=RL) b f P = Some v /\ side_ok P (frust f) v.
Proof.
  intros Hok HP. unfold Frustum_IntersectsPlane, XMPlaneIsUnit. rewrite isunit3 by assumption. rewrite isunitq by apply Hok. cbn [asserting]. eexists; split; [reflexivity|].
  rewrite plane_test_R. apply verdict_ok, frust_spans, Hok.
Qed.
Lemma frust_six b f P0 P1 P2 P3 P4 P5 : ok_frustum f -> exists v, Frustum_ContainedBy (L:=RL) b f P0 P1 P2 P3 P4 P5 = Some v /\
  six_ok (frust f) (P0 :: P1 :: P2 :: P3 :: P4 :: P5 :: nil)%list v.
Proof.
  intros Hok. unfold Frustum_ContainedBy. rewrite isunitq by apply Hok. cbn [asserting]. eexists; split; [reflexivity|].
  apply (contained_ok _ _ (gmn f) (gmx f)). intros P _. split; [apply frust_spans, Hok|apply plane_test_R].
Qed.

(** ** Containment in a frustum *)
Lemma six_frust b f A v : unitq (fq f) -> six_ok A (Frustum_GetPlanes (L:=RL) b f) v ->
  (v = CONTAINS -> subset A (frust f)) /\ (v = DISJOINT -> ~ meets (frust f) A).
Proof.
  intros Hq (HD & HC). destruct (planes_R b f Hq) as (_ & HP). split.
  - intros E p Hp. apply HP, Forall_forall. intros P HIn. left. apply (proj1 HC E P HIn p Hp).
  - intros E (p & Hf & Ha). destruct (proj1 HD E) as (P & HIn & HS). apply HP in Hf. rewrite Forall_forall in Hf. specialize (Hf P HIn). specialize (HS p Ha). lra.
Qed.
Lemma frust_has_sphere b f s : ok_frustum f -> ok_sphere s -> let v := Frustum_ContainsSphere (L:=RL) b f s in
  (v = CONTAINS -> subset (ball s) (frust f)) /\ (v = DISJOINT -> ~ meets (frust f) (ball s)).
Proof. intros Hf Hs v. apply (six_frust b); [apply Hf|]. pose proof (proj1 (planes_R b f (proj1 Hf))) as U. unfold v, Frustum_ContainsSphere, by_planes, Frustum_GetPlanes, local_planes in *. cbn [map] in *. exact (sphere_six _ _ _ _ _ _ _ _ Hs U). Qed.
Lemma frust_has_box b f bx : ok_frustum f -> ok_box bx -> let v := Frustum_ContainsBox (L:=RL) b f bx in
  (v = CONTAINS -> subset (aabb bx) (frust f)) /\ (v = DISJOINT -> ~ meets (frust f) (aabb bx)).
Proof. intros Hf Hs v. apply (six_frust b); [apply Hf|]. unfold v, Frustum_ContainsBox, by_planes, Frustum_GetPlanes, local_planes. cbn [map]. exact (box_six _ _ _ _ _ _ _ _ Hs). Qed.
Lemma frust_has_tri b f V0 V1 V2 : ok_frustum f -> let v := Frustum_ContainsTriangle (L:=RL) b f V0 V1 V2 in
  (v = CONTAINS -> subset (tri V0 V1 V2) (frust f)) /\ (v = DISJOINT -> ~ meets (frust f) (tri V0 V1 V2)).
Proof. intros Hf v. apply (six_frust b); [apply Hf|]. unfold v, Frustum_ContainsTriangle, by_planes, Frustum_GetPlanes, local_planes. cbn [map]. exact (tri_six _ _ _ _ _ _ _ _ _ _). Qed.
Lemma frust_has_obox b f o : ok_frustum f -> ok_obox o -> exists v, Frustum_ContainsOrientedBox (L:=RL) b f o = Some v /\
  (v = CONTAINS -> subset (obb o) (frust f)) /\ (v = DISJOINT -> ~ meets (frust f) (obb o)).
Proof.
  intros Hf Ho. unfold Frustum_ContainsOrientedBox, by_planes. match goal with |- exists v, OBox_ContainedBy _ _ ?a ?c ?d ?e ?g ?h = _ /\ _ => destruct (obox_six b o a c d e g h Ho) as (v & E & H) end.
  exists v. split; [exact E|]. apply (six_frust b); [apply Hf|]. unfold Frustum_GetPlanes, local_planes. cbn [map]. exact H.
Qed.
Lemma frust_has_frust b f g : ok_frustum f -> ok_frustum g -> exists v, Frustum_ContainsFrustum (L:=RL) b f g = Some v /\
  (v = CONTAINS -> subset (frust g) (frust f)) /\ (v = DISJOINT -> ~ meets (frust f) (frust g)).
Proof.
  intros Hf Ho. unfold Frustum_ContainsFrustum, by_planes. match goal with |- exists v, Frustum_ContainedBy _ _ ?a ?c ?d ?e ?g' ?h = _ /\ _ => destruct (frust_six b g a c d e g' h Ho) as (v & E & H) end.
  exists v. split; [exact E|]. apply (six_frust b); [apply Hf|]. unfold Frustum_GetPlanes, local_planes. cbn [map]. exact H.
Qed.
