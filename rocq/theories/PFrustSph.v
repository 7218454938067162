(** A frustum and a sphere (C54): the test is exact. *)
From Coq Require Import Reals Lra Psatz List Bool.
From Verif Require Import Base F32 Intrin Lane MVec MTrig MQuat MInterp MPlane MMatrix Shapes MCollide MFrustum.
From Verif Require Import SpecGeom SpecQuat SpecMat SpecShape PReal PVec PQuat PRot PMatrix PPlane PShape PSphere PSide PHull PBox POBox PSat PSolid PTri PTriBox PTriTri PFrust PFrustSat.
Open Scope R_scope.

(** ** Edges *)
Lemma between_t u v x : u <= x <= v -> exists t, 0 <= t <= 1 /\ x = u + t * (v - u).
Proof.
  intros H. destruct (Req_dec u v) as [E|E]; [exists 0; lra|]. exists ((x - u) * / (v - u)). assert (I : / (v - u) * (v - u) = 1) by (apply Rinv_l; lra).
  assert (P : 0 < / (v - u)) by (apply Rinv_0_lt_compat; lra). split; [nra|]. transitivity (u + (x - u) * (/ (v - u) * (v - u))); [rewrite I|]; ring.
Qed.
Definition edges (f : Frustum R) : list (rvec * rvec) := match lcorners f with
  | (C0 :: C1 :: C2 :: C3 :: C4 :: C5 :: C6 :: C7 :: nil)%list => ((C0, C1) :: (C2, C3) :: (C0, C2) :: (C1, C3) :: (C4, C5) :: (C6, C7) :: (C4, C6) :: (C5, C7) ::
                  (C0, C4) :: (C1, C5) :: (C2, C6) :: (C3, C7) :: nil)%list
  | _ => nil end.
Definition on_edge f z : Prop := Exists (fun e => seg (fst e) (snd e) z) (edges f).
(** the planes of the local frustum with the four adjacent to each *)
Definition faces (f : Frustum R) : list (rvec * list rvec) :=
  let P0 := NearPlane (L:=RL) f in let P1 := FarPlane (L:=RL) f in let P2 := RightPlane (L:=RL) f in let P3 := LeftPlane (L:=RL) f in let P4 := TopPlane (L:=RL) f in let P5 := BottomPlane (L:=RL) f in
  ((P0, P2 :: P3 :: P4 :: P5 :: nil) :: (P1, P2 :: P3 :: P4 :: P5 :: nil) :: (P2, P0 :: P1 :: P4 :: P5 :: nil) :: (P3, P0 :: P1 :: P4 :: P5 :: nil) ::
   (P4, P0 :: P1 :: P2 :: P3 :: nil) :: (P5, P0 :: P1 :: P2 :: P3 :: nil) :: nil)%list.
Ltac fr := unfold NearPlane, FarPlane, RightPlane, LeftPlane, TopPlane, BottomPlane in *; change (@mone RL) with (-1) in *; change (@zero RL) with 0 in *; change (@one RL) with 1 in *.
Ltac fp := unfold plane_at, dot3 in *; cbn [qx qy qz qw] in *; ro; rt.
(** a point of one plane, behind those adjacent to it, is in the frustum *)
Lemma face_in f P As z : ok_frustum f -> In (P, As) (faces f) -> plane_at P z = 0 -> Forall (fun A => plane_at A z <= 0) As -> in_slopes f z.
Proof.
  intros (_ & (HN & HM) & HLR & HBT) HI HP HA. unfold faces in HI; cbv zeta in HI; cbn [In] in HI.
  destruct HI as [E|[E|[E|[E|[E|[E|[]]]]]]]; injection E as <- <-; rewrite !Forall_cons_iff in HA; destruct HA as (h1 & h2 & h3 & h4 & _); fr; fp; unfold in_slopes; repeat split; nra.
Qed.
Tactic Notation "pick" integer(k) := lazymatch goal with |- ?g => unfold g end; do k apply Exists_cons_tl; apply Exists_cons_hd; unfold seg; cbn [fst snd].
Ltac wit t Ht E := exists t; (split; [exact Ht|]); unfold eq3, plus, scale, minus; cbn [qx qy qz]; repeat split; nra.
Lemma face_edge f P As A z : ok_frustum f -> In (P, As) (faces f) -> In A As -> in_slopes f z -> plane_at P z = 0 -> plane_at A z = 0 -> on_edge f z.
Proof.
  intros (_ & (HN & HM) & HLR & HBT) HI HA HZ HP HQ. unfold faces in HI; cbv zeta in HI; cbn [In] in HI.
  assert (X : forall z0, 0 <= z0 -> fr_LeftSlope f * z0 <= qx z <= fr_RightSlope f * z0 -> exists t, 0 <= t <= 1 /\ qx z = z0 * fr_RightSlope f + t * (z0 * fr_LeftSlope f - z0 * fr_RightSlope f)).
  { intros z0 H0 H. destruct (between_t (- (fr_RightSlope f * z0)) (- (fr_LeftSlope f * z0)) (- qx z)) as (t & Ht & E); [lra|]. exists t. split; [exact Ht|]. lra. }
  assert (Y : forall z0, 0 <= z0 -> fr_BottomSlope f * z0 <= qy z <= fr_TopSlope f * z0 -> exists t, 0 <= t <= 1 /\ qy z = z0 * fr_TopSlope f + t * (z0 * fr_BottomSlope f - z0 * fr_TopSlope f)).
  { intros z0 H0 H. destruct (between_t (- (fr_TopSlope f * z0)) (- (fr_BottomSlope f * z0)) (- qy z)) as (t & Ht & E); [lra|]. exists t. split; [exact Ht|]. lra. }
  destruct HZ as ((z1 & z2) & (z3 & z4) & z5 & z6).
  assert (Z : exists t, 0 <= t <= 1 /\ qz z = fr_Near f + t * (fr_Far f - fr_Near f)) by (apply between_t; lra).
  unfold on_edge, edges, lcorners. cbv zeta.
  set (n := fr_Near f) in *. set (m := fr_Far f) in *. set (R1 := fr_RightSlope f) in *. set (L1 := fr_LeftSlope f) in *. set (T1 := fr_TopSlope f) in *. set (B1 := fr_BottomSlope f) in *.
  set (G := Exists _ _).
  assert (K0 : qz z = n -> qx z = R1 * qz z -> G) by (intros a c; destruct (Y n ltac:(lra) ltac:(rewrite <- a; lra)) as (t & Ht & Et); pick 0; wit t Ht Et).
  assert (K1 : qz z = n -> qx z = L1 * qz z -> G) by (intros a c; destruct (Y n ltac:(lra) ltac:(rewrite <- a; lra)) as (t & Ht & Et); pick 1; wit t Ht Et).
  assert (K2 : qz z = n -> qy z = T1 * qz z -> G) by (intros a c; destruct (X n ltac:(lra) ltac:(rewrite <- a; lra)) as (t & Ht & Et); pick 2; wit t Ht Et).
  assert (K3 : qz z = n -> qy z = B1 * qz z -> G) by (intros a c; destruct (X n ltac:(lra) ltac:(rewrite <- a; lra)) as (t & Ht & Et); pick 3; wit t Ht Et).
  assert (K4 : qz z = m -> qx z = R1 * qz z -> G) by (intros a c; destruct (Y m ltac:(lra) ltac:(rewrite <- a; lra)) as (t & Ht & Et); pick 4; wit t Ht Et).
  assert (K5 : qz z = m -> qx z = L1 * qz z -> G) by (intros a c; destruct (Y m ltac:(lra) ltac:(rewrite <- a; lra)) as (t & Ht & Et); pick 5; wit t Ht Et).
  assert (K6 : qz z = m -> qy z = T1 * qz z -> G) by (intros a c; destruct (X m ltac:(lra) ltac:(rewrite <- a; lra)) as (t & Ht & Et); pick 6; wit t Ht Et).
  assert (K7 : qz z = m -> qy z = B1 * qz z -> G) by (intros a c; destruct (X m ltac:(lra) ltac:(rewrite <- a; lra)) as (t & Ht & Et); pick 7; wit t Ht Et).
  assert (K8 : qx z = R1 * qz z -> qy z = T1 * qz z -> G) by (intros a c; destruct Z as (t & Ht & Et); pick 8; wit t Ht Et).
  assert (K9 : qx z = R1 * qz z -> qy z = B1 * qz z -> G) by (intros a c; destruct Z as (t & Ht & Et); pick 9; wit t Ht Et).
  assert (K10 : qx z = L1 * qz z -> qy z = T1 * qz z -> G) by (intros a c; destruct Z as (t & Ht & Et); pick 10; wit t Ht Et).
  assert (K11 : qx z = L1 * qz z -> qy z = B1 * qz z -> G) by (intros a c; destruct Z as (t & Ht & Et); pick 11; wit t Ht Et).
  clearbody G. clear X Y Z.
  destruct HI as [E|[E|[E|[E|[E|[E|[]]]]]]]; injection E as <- <-; cbn [In] in HA; destruct HA as [<-|[<-|[<-|[<-|[]]]]]; fr; fp;
  fold n m R1 L1 T1 B1 in HP, HQ;
  first [apply K0; lra | apply K1; lra | apply K2; lra | apply K3; lra | apply K4; lra | apply K5; lra | apply K6; lra | apply K7; lra | apply K8; lra | apply K9; lra | apply K10; lra | apply K11; lra].
Qed.
(** ** Normalized planes *)
Definition same_side (P U : rvec) : Prop := unit3 U /\ exists k, 0 < k /\ forall z, plane_at U z = k * plane_at P z.
Lemma same_le P U z : same_side P U -> plane_at U z <= 0 <-> plane_at P z <= 0.
Proof. intros (_ & k & Hk & E). rewrite E. split; nra. Qed.
Lemma same_eq P U z : same_side P U -> plane_at U z = 0 <-> plane_at P z = 0.
Proof. intros (_ & k & Hk & E). rewrite E. split; [nra|intros ->; ring]. Qed.
Definition same_face (F G : rvec * list rvec) : Prop := same_side (fst F) (fst G) /\ Forall2 same_side (snd F) (snd G).
Lemma Forall2_right {A B} (r : A -> B -> Prop) l m y : Forall2 r l m -> In y m -> exists x, In x l /\ r x y.
Proof. induction 1 as [|a c l m H HF IH]; intros HI; [destruct HI|]. destruct HI as [<-|HI]; [exists a; split; [left; reflexivity|assumption]|]. destruct (IH HI) as (x & hx & hr). exists x. split; [right|]; assumption. Qed.
Lemma Forall2_left {A B} (r : A -> B -> Prop) l m x : Forall2 r l m -> In x l -> exists y, In y m /\ r x y.
Proof. induction 1 as [|a c l m H HF IH]; intros HI; [destruct HI|]. destruct HI as [<-|HI]; [exists c; split; [left; reflexivity|assumption]|]. destruct (IH HI) as (y & hx & hr). exists y. split; [right|]; assumption. Qed.
Lemma all_same As Bs z : Forall2 same_side As Bs -> Forall (fun B => plane_at B z <= 0) Bs <-> Forall (fun A => plane_at A z <= 0) As.
Proof.
  induction 1 as [|A B As Bs H HF IH]; [split; constructor|]. rewrite !Forall_cons_iff, IH, (same_le A B z H). tauto.
Qed.
Definition foot (P c : rvec) : rvec := minus c (scale (plane_at P c) P).
Lemma foot_on P c : unit3 P -> plane_at P (foot P c) = 0.
Proof. unfold unit3, foot, plane_at, dot3, minus, scale; cbn [qx qy qz]. intros H. set (k := qx P * qx c + qy P * qy c + qz P * qz c + qw P). transitivity (k - k * (qx P * qx P + qy P * qy P + qz P * qz P)); [unfold k; ring|rewrite H; ring]. Qed.
Lemma foot_dist P c z : unit3 P -> plane_at P z = 0 -> dot3 (minus c z) (minus c z) = plane_at P c * plane_at P c + dot3 (minus (foot P c) z) (minus (foot P c) z).
Proof.
  intros H HZ. set (k := plane_at P c). assert (EK : dot3 P (minus c z) = k) by (unfold k, plane_at, dot3, minus in *; cbn [qx qy qz] in *; lra).
  replace (minus (foot P c) z) with (minus (minus c z) (scale k P)) by (unfold foot; fold k; unfold minus, scale; cbn [qx qy qz qw]; f_equal; ring).
  replace (dot3 (minus (minus c z) (scale k P)) (minus (minus c z) (scale k P))) with (dot3 (minus c z) (minus c z) - 2 * k * dot3 P (minus c z) + k * k * dot3 P P) by (unfold dot3, minus, scale; cbn [qx qy qz]; ring).
  rewrite EK. unfold unit3 in H. rewrite H. ring.
Qed.
Lemma plane_lip P c x r : unit3 P -> 0 <= r -> dot3 (minus c x) (minus c x) <= r * r -> plane_at P c <= plane_at P x + r.
Proof.
  intros H Hr HD. assert (E : plane_at P c - plane_at P x = dot3 P (minus c x)) by (unfold plane_at, dot3, minus; cbn [qx qy qz]; ring).
  pose proof (dot3_nonneg (minus (minus c x) (scale (dot3 P (minus c x)) P))) as K. set (k := dot3 P (minus c x)) in *.
  replace (dot3 _ _) with (dot3 (minus c x) (minus c x) - 2 * k * k + k * k * dot3 P P) in K by (unfold k, dot3, minus, scale; cbn [qx qy qz]; ring). unfold unit3 in H. rewrite H in K. nra.
Qed.
Lemma plane_mix P x y t : plane_at P (plus x (scale t (minus y x))) = plane_at P x + t * (plane_at P y - plane_at P x).
Proof. unfold plane_at, dot3, plus, scale, minus; cbn [qx qy qz]. ring. Qed.
Lemma mix_closer c x y t r : 0 <= t <= 1 -> dot3 (minus c x) (minus c x) <= r -> dot3 (minus c y) (minus c y) <= dot3 (minus c x) (minus c x) -> 
  dot3 (minus c (plus x (scale t (minus y x)))) (minus c (plus x (scale t (minus y x)))) <= dot3 (minus c x) (minus c x).
Proof.
  intros Ht _ H. pose proof (dot3_nonneg (minus x y)) as K.
  replace (dot3 (minus c (plus x (scale t (minus y x)))) (minus c (plus x (scale t (minus y x))))) with
    ((1 - t) * dot3 (minus c x) (minus c x) + t * dot3 (minus c y) (minus c y) - t * (1 - t) * dot3 (minus x y) (minus x y)) by (unfold dot3, minus, plus, scale; cbn [qx qy qz]; ring).
  assert (0 <= t * (1 - t) * dot3 (minus x y) (minus x y)) by (apply Rmult_le_pos; [nra|exact K]). nra.
Qed.
(** leaving a convex region through one of its planes *)
Lemma exit_planes Ps x y : Forall (fun P => plane_at P x <= 0) Ps -> ~ Forall (fun P => plane_at P y <= 0) Ps ->
  exists t, 0 <= t <= 1 /\ let z := plus x (scale t (minus y x)) in Forall (fun P => plane_at P z <= 0) Ps /\ exists P, In P Ps /\ 0 < plane_at P y /\ plane_at P z = 0.
Proof.
  intros HX HY. destruct (leaving (map (fun P => (plane_at P x, plane_at P y)) Ps)) as (t & Ht & HA & HE).
  - apply Forall_map. exact HX.
  - destruct (Exists_dec (fun g => 0 < snd g) (map (fun P => (plane_at P x, plane_at P y)) Ps) (fun g => Rlt_dec 0 (snd g))) as [E|E]; [exact E|]. exfalso. apply HY, Forall_forall. intros P HP. apply Rnot_lt_le. intros h. apply E, Exists_exists.
    exists (plane_at P x, plane_at P y). split; [apply (in_map (fun P => (plane_at P x, plane_at P y))), HP|exact h].
  - exists t. split; [exact Ht|]. cbv zeta. split.
    + rewrite Forall_map in HA. eapply Forall_impl; [|exact HA]. intros P. rewrite plane_mix. exact (fun h => h).
    + apply Exists_exists in HE as (g & HG & H1 & H2). apply in_map_iff in HG as (P & <- & HP). exists P. split; [exact HP|]. split; [exact H1|]. rewrite plane_mix. exact H2.
Qed.
(** ** What the code asks for, in geometric terms *)
Lemma sphere_geom f Us Gs c r : ok_frustum f -> 0 <= r -> Forall2 same_side (local_planes (L:=RL) f) Us -> Forall2 same_face (faces f) Gs -> map fst Gs = Us ->
  (exists x, in_slopes f x /\ dot3 (minus c x) (minus c x) <= r * r) <->
  Forall (fun P => plane_at P c <= r) Us /\
  (Forall (fun P => plane_at P c <= 0) Us \/ Exists (fun G => 0 < plane_at (fst G) c /\ Forall (fun A => plane_at A (foot (fst G) c) <= 0) (snd G)) Gs \/
   Exists (fun e => exists z, seg (fst e) (snd e) z /\ dot3 (minus c z) (minus c z) <= r * r) (edges f)).
Proof.
  intros Hf Hr HU HG EU. split.
  - intros (x & HX & HD). apply slopes_planes in HX. pose proof HX as HX'. rewrite <- (all_same _ _ _ HU) in HX. split.
    { apply Forall_forall. intros P HP. pose proof (Forall2_right _ _ _ _ HU HP) as (P' & _ & UP & _). rewrite Forall_forall in HX. specialize (HX P HP). pose proof (plane_lip P c x r UP Hr HD). lra. }
    destruct (Forall_dec (fun P => plane_at P c <= 0) (fun P => Rle_dec _ _) Us) as [E|E]; [left; exact E|right].
    destruct (exit_planes Us x c HX E) as (t & Ht & HY & P & HP & PC & PY). set (y := plus x (scale t (minus c x))) in *.
    assert (DY : dot3 (minus c y) (minus c y) <= r * r).
    { pose proof (mix_closer c x c t (r * r) Ht HD) as K. fold y in K. assert (dot3 (minus c c) (minus c c) <= dot3 (minus c x) (minus c x)); [|lra].
      pose proof (dot3_nonneg (minus c x)). unfold dot3 at 1, minus at 1 2 3 4 5 6; cbn [qx qy qz]. lra. }
    rewrite <- EU in HP. apply in_map_iff in HP as ((P' & As) & EP & HI). cbn [fst] in EP. subst P'.
    destruct (Forall2_right _ _ _ _ HG HI) as ((P' & As') & HI' & SP & SA). cbn [fst snd] in SP, SA.
    destruct (Forall_dec (fun A => plane_at A (foot P c) <= 0) (fun A => Rle_dec _ _) As) as [F|F].
    { left. apply Exists_exists. exists (P, As). split; [exact HI|]. split; assumption. }
    right. assert (HYA : Forall (fun A => plane_at A y <= 0) As).
    { rewrite (all_same _ _ _ SA). apply Forall_forall. intros A HA. rewrite (all_same _ _ _ HU), Forall_forall in HY. apply HY.
      clear - HI' HA. unfold faces in HI'; cbv zeta in HI'; cbn [In] in HI'. unfold local_planes. cbn [In].
      destruct HI' as [E|[E|[E|[E|[E|[E|[]]]]]]]; injection E as <- <-; cbn [In] in HA; destruct HA as [<-|[<-|[<-|[<-|[]]]]]; tauto. }
    destruct (exit_planes As y (foot P c) HYA F) as (s & Hs & HZ & A & HA & _ & AZ). set (z := plus y (scale s (minus (foot P c) y))) in *.
    pose proof (proj1 SP) as UP. assert (PZ : plane_at P z = 0). { unfold z. rewrite plane_mix, (foot_on P c UP), PY. ring. }
    destruct (Forall2_right _ _ _ _ SA HA) as (A' & HA' & SAA).
    assert (INZ : in_slopes f z). { apply (face_in f P' As' z Hf HI'); [apply (same_eq _ _ _ SP), PZ|apply (all_same _ _ _ SA), HZ]. }
    pose proof (face_edge f P' As' A' z Hf HI' HA' INZ (proj1 (same_eq _ _ _ SP) PZ) (proj1 (same_eq _ _ _ SAA) AZ)) as OE.
    eapply Exists_impl; [|exact OE]. intros e Se. exists z. split; [exact Se|]. rewrite (foot_dist P c z UP PZ). rewrite (foot_dist P c y UP PY) in DY.
    assert (DF : dot3 (minus (foot P c) (foot P c)) (minus (foot P c) (foot P c)) <= dot3 (minus (foot P c) y) (minus (foot P c) y)).
    { pose proof (dot3_nonneg (minus (foot P c) y)). unfold dot3 at 1, minus at 1 2 3 4 5 6; cbn [qx qy qz]. lra. }
    pose proof (mix_closer (foot P c) y (foot P c) s _ Hs (Rle_refl _) DF) as K. fold z in K. lra.
  - intros (HO & [HC|[HF|HE]]).
    + exists c. split; [apply slopes_planes, (all_same _ _ _ HU), HC|]. unfold dot3, minus; cbn [qx qy qz]. nra.
    + apply Exists_exists in HF as ((P & As) & HI & PC & HA). cbn [fst snd] in PC, HA. destruct (Forall2_right _ _ _ _ HG HI) as ((P' & As') & HI' & SP & SA). cbn [fst snd] in SP, SA.
      pose proof (proj1 SP) as UP. exists (foot P c). split.
      * apply (face_in f P' As' _ Hf HI'); [apply (same_eq _ _ _ SP), foot_on, UP|apply (all_same _ _ _ SA), HA].
      * rewrite (foot_dist P c _ UP (foot_on P c UP)). assert (plane_at P c <= r). { rewrite Forall_forall in HO. apply HO. rewrite <- EU. apply (in_map fst _ _ HI). }
        unfold dot3, minus; cbn [qx qy qz]. nra.
    + apply Exists_exists in HE as (e & HI & z & HZ & HD). exists z. split; [|exact HD]. apply slopes_planes, Forall_forall. intros P HP.
      assert (CS : forall C, In C (lcorners f) -> plane_at P C <= 0). { intros C HC. pose proof (corners_in f Hf) as K. rewrite Forall_forall in K. specialize (K C HC). apply slopes_planes in K. rewrite Forall_forall in K. apply K, HP. }
      destruct HZ as (t & Ht & Ez). assert (P1 : plane_at P z = plane_at P (fst e) + t * (plane_at P (snd e) - plane_at P (fst e))). { rewrite <- plane_mix. destruct Ez as (h1 & h2 & h3). unfold plane_at, dot3. rewrite h1, h2, h3. reflexivity. }
      assert (EI : In (fst e) (lcorners f) /\ In (snd e) (lcorners f)).
      { clear - HI. unfold edges, lcorners in *. cbv zeta in *. cbn [In] in HI. cbn [In]. destruct HI as [<-|[<-|[<-|[<-|[<-|[<-|[<-|[<-|[<-|[<-|[<-|[<-|[]]]]]]]]]]]]]; cbn [fst snd]; tauto. }
      pose proof (CS _ (proj1 EI)). pose proof (CS _ (proj2 EI)). rewrite P1. nra.
Qed.
(** ** The code *)
Definition upl (P : rvec) : rvec := scale (/ norm3 P) P.
Lemma upl_same P : ~ zero3 P -> same_side P (upl P).
Proof.
  intros HP. pose proof (norm3_pos _ HP) as NP. split.
  - unfold unit3, upl. replace (dot3 (scale (/ norm3 P) P) (scale (/ norm3 P) P)) with (/ norm3 P * / norm3 P * dot3 P P) by (unfold dot3, scale; cbn [qx qy qz]; ring).
    rewrite <- (norm3_sq P). field. lra.
  - exists (/ norm3 P). split; [apply Rinv_0_lt_compat, NP|]. intros z. unfold upl, plane_at, dot3, scale; cbn [qx qy qz qw]. ring.
Qed.
Lemma unit_same P : unit3 P -> same_side P P.
Proof. intros H. split; [exact H|]. exists 1. split; [lra|]. intros; ring. Qed.
Definition uplanes (f : Frustum R) : list rvec :=
  (NearPlane (L:=RL) f :: FarPlane (L:=RL) f :: upl (RightPlane (L:=RL) f) :: upl (LeftPlane (L:=RL) f) :: upl (TopPlane (L:=RL) f) :: upl (BottomPlane (L:=RL) f) :: nil)%list.
Definition ufaces (f : Frustum R) : list (rvec * list rvec) :=
  let P0 := NearPlane (L:=RL) f in let P1 := FarPlane (L:=RL) f in let P2 := upl (RightPlane (L:=RL) f) in let P3 := upl (LeftPlane (L:=RL) f) in let P4 := upl (TopPlane (L:=RL) f) in let P5 := upl (BottomPlane (L:=RL) f) in
  ((P0, P2 :: P3 :: P4 :: P5 :: nil) :: (P1, P2 :: P3 :: P4 :: P5 :: nil) :: (P2, P0 :: P1 :: P4 :: P5 :: nil) :: (P3, P0 :: P1 :: P4 :: P5 :: nil) ::
   (P4, P0 :: P1 :: P2 :: P3 :: nil) :: (P5, P0 :: P1 :: P2 :: P3 :: nil) :: nil)%list.
Lemma same_all f : same_side (NearPlane (L:=RL) f) (NearPlane (L:=RL) f) /\ same_side (FarPlane (L:=RL) f) (FarPlane (L:=RL) f) /\
  same_side (RightPlane (L:=RL) f) (upl (RightPlane (L:=RL) f)) /\ same_side (LeftPlane (L:=RL) f) (upl (LeftPlane (L:=RL) f)) /\
  same_side (TopPlane (L:=RL) f) (upl (TopPlane (L:=RL) f)) /\ same_side (BottomPlane (L:=RL) f) (upl (BottomPlane (L:=RL) f)).
Proof.
  pose proof (local_nonzero f) as N. unfold local_planes in N. rewrite !Forall_cons_iff in N. destruct N as (_ & _ & h2 & h3 & h4 & h5 & _).
  split; [apply unit_same; fr; unfold unit3, dot3; cbn [qx qy qz]; lra|]. split; [apply unit_same; fr; unfold unit3, dot3; cbn [qx qy qz]; lra|]. repeat split; try (apply upl_same; assumption).
  all: apply upl_same; assumption.
Qed.
Lemma same_planes f : Forall2 same_side (local_planes (L:=RL) f) (uplanes f).
Proof. destruct (same_all f) as (h0 & h1 & h2 & h3 & h4 & h5). unfold local_planes, uplanes. repeat (apply Forall2_cons; [assumption|]). apply Forall2_nil. Qed.
Lemma same_faces f : Forall2 same_face (faces f) (ufaces f).
Proof.
  destruct (same_all f) as (h0 & h1 & h2 & h3 & h4 & h5). unfold faces, ufaces. cbv zeta.
  repeat (apply Forall2_cons; [split; cbn [fst snd]; [assumption|repeat (apply Forall2_cons; [assumption|]); apply Forall2_nil]|]). apply Forall2_nil.
Qed.
Lemma fold_mor {A} (h : quad bool -> A -> quad bool) (k : A -> bool) (l : list A) : (forall x a, h (qrep a) x = qrep (a || k x)%bool) -> forall a, fold_left h l (qrep a) = qrep (a || existsb k l)%bool.
Proof. intros H. induction l as [|x l IH]; intros a; cbn [fold_left existsb]; [rewrite orb_false_r; reflexivity|]. rewrite H, IH, orb_assoc. reflexivity. Qed.
Lemma fold_mand {A} (h : quad bool -> A -> quad bool) (k : A -> bool) (l : list A) : (forall x a, h (qrep a) x = qrep (a && k x)%bool) -> forall a, fold_left h l (qrep a) = qrep (a && forallb k l)%bool.
Proof. intros H. induction l as [|x l IH]; intros a; cbn [fold_left forallb]; [rewrite andb_true_r; reflexivity|]. rewrite H, IH, andb_assoc. reflexivity. Qed.
Lemma fold_three {A} (h : quad bool * quad bool * quad bool -> A -> quad bool * quad bool * quad bool) (k1 k2 k3 : A -> bool) (l : list A) :
  (forall x a c d, h (qrep a, qrep c, qrep d) x = (qrep (a || k1 x)%bool, qrep (c && k2 x)%bool, qrep (d && k3 x)%bool)) ->
  forall a c d, fold_left h l (qrep a, qrep c, qrep d) = (qrep (a || existsb k1 l)%bool, qrep (c && forallb k2 l)%bool, qrep (d && forallb k3 l)%bool).
Proof. intros H. induction l as [|x l IH]; intros a c d; cbn [fold_left forallb existsb]; [rewrite orb_false_r, !andb_true_r; reflexivity|]. rewrite H, IH, !andb_assoc, orb_assoc. reflexivity. Qed.
Lemma existsb_Exists {A} (k : A -> bool) (g : A -> Prop) l : (forall x, In x l -> k x = true <-> g x) -> existsb k l = true <-> Exists g l.
Proof. intros H. rewrite existsb_exists, Exists_exists. split; intros (x & HI & HX); exists x; (split; [exact HI|]); apply H; assumption. Qed.
Lemma forallb_Forall {A} (k : A -> bool) (g : A -> Prop) l : (forall x, In x l -> k x = true <-> g x) -> forallb k l = true <-> Forall g l.
Proof. intros H. rewrite forallb_forall, Forall_forall. split; intros K x HI; apply H, K; assumption. Qed.
Lemma insert_plane (V P : rvec) : dot4 (insert_lane (L:=RL) I3 V (qrep 1)) P = plane_at P V.
Proof. apply vert_plane. Qed.
Lemma seg_eq3 A B x y : eq3 x y -> seg A B x -> seg A B y.
Proof. intros E (t & Ht & Ex). exists t. split; [exact Ht|]. eapply eq3_trans; [apply eq3_sym, E|exact Ex]. Qed.
Lemma frust_sphere b f s : ok_frustum f -> ok_sphere s -> exists r, Frustum_IntersectsSphere (L:=RL) b f s = Some r /\ (r = true <-> meets (frust f) (ball s)).
Proof.
  intros Hf Hs. pose proof (proj1 Hf) as Hq. set (c := local (fo f) (fq f) (pos (sp_Center s))).
  assert (M : meets (frust f) (ball s) <-> exists x, in_slopes f x /\ dot3 (minus c x) (minus c x) <= sp_Radius s * sp_Radius s).
  { unfold ball. split.
    - intros (p & HP & HB). exists (local (fo f) (fq f) p). split; [apply frust_iff; assumption|]. apply dist_le; [exact Hs|]. unfold c. rewrite local_dist by assumption.
      apply dist_le; [exact Hs|]. apply dist_le in HB; [|exact Hs]. unfold dot3, minus in *; cbn [qx qy qz] in *. lra.
    - intros (x & HX & HD). exists (global (fo f) (fq f) x). split; [exists x; split; [exact HX|unfold global, eq3; auto]|]. rewrite <- (local_dist (fo f) (fq f)) by assumption. apply dist_le; [exact Hs|].
      destruct (local_global (fo f) (fq f) x Hq) as (h1 & h2 & h3). fold c. unfold dot3, minus in *; cbn [qx qy qz] in *. rewrite h1, h2, h3. lra. }
  pose proof (sphere_geom f (uplanes f) (ufaces f) c (sp_Radius s) Hf Hs (same_planes f) (same_faces f) eq_refl) as GEO.
  unfold Frustum_IntersectsSphere. cbv zeta. rewrite !isunitq by assumption. cbn [asserting]. l3. rewrite !Sub_R, !InvRotate_R, !vone_R, vzero_R.
  pose proof (local_nonzero f) as N. unfold local_planes in N. rewrite !Forall_cons_iff in N. destruct N as (_ & _ & n2 & n3 & n4 & n5 & _).
  rewrite !Normalize3_R by assumption. fold (upl (RightPlane (L:=RL) f)) (upl (LeftPlane (L:=RL) f)) (upl (TopPlane (L:=RL) f)) (upl (BottomPlane (L:=RL) f)).
  change (qrot (conj (fq f)) (minus (pos (sp_Center s)) (fo f))) with c. set (C := insert_lane (L:=RL) I3 c (qrep 1)).
  change (NearPlane f :: FarPlane f :: upl (RightPlane f) :: upl (LeftPlane f) :: upl (TopPlane f) :: upl (BottomPlane f) :: nil)%list with (uplanes f).
  match goal with |- context [fold_left ?F (uplanes f) ?st] => assert (E1 : fold_left F (uplanes f) st = (qrep (existsb (fun P => Rltb (sp_Radius s) (plane_at P c)) (uplanes f)),
     qrep (forallb (fun P => Rleb (plane_at P c) (- sp_Radius s)) (uplanes f)), qrep (forallb (fun P => Rleb (plane_at P c) 0) (uplanes f)))) end.
  { apply (fold_three _ (fun P => Rltb (sp_Radius s) (plane_at P c)) (fun P => Rleb (plane_at P c) (- sp_Radius s)) (fun P => Rleb (plane_at P c) 0) (uplanes f)) with (a := false) (c := true) (d := true).
    intros P x y z. rewrite Dot4_R, Neg_R. unfold C. rewrite insert_plane, rep_opp. rt. rewrite vgt_rep, !vle_rep, mor_rep, !mand_rep. reflexivity. }
  match type of E1 with _ = ?v => match goal with |- context [fold_left ?F (uplanes f) ?st] => replace (fold_left F (uplanes f) st) with v by (symmetry; exact E1) end end.
  clear E1. cbv beta iota. rewrite !qall_rep.
  set (kf := fun G : rvec * list rvec => (Rltb 0 (plane_at (fst G) c) && forallb (fun A => Rleb (plane_at A (foot (fst G) c)) 0) (snd G))%bool).
  match goal with |- context [fold_left ?F ?l mfalse] => assert (E2 : fold_left F l mfalse = qrep (existsb kf (ufaces f))) end.
  { set (cv := fun G : rvec * rvec * rvec * rvec * rvec => let '(P, A0, A1, A2, A3) := G in (P, A0 :: A1 :: A2 :: A3 :: nil)%list).
    match goal with |- fold_left ?F ?l mfalse = _ => transitivity (qrep (false || existsb (fun G => kf (cv G)) l)%bool); [|reflexivity] end.
    apply fold_mor. intros ((((P & A0) & A1) & A2) & A3) a. cbv beta iota. unfold C. rewrite Dot4_R, insert_plane, NMulSub_R. unfold kf, cv; cbn [fst snd].
    match goal with |- context [fold_left ?F ?l mtrue] => assert (E3 : fold_left F l mtrue = qrep (true && forallb (fun A => Rleb (plane_at A (foot P c)) 0) (A0 :: A1 :: A2 :: A3 :: nil)%list)%bool) end.
    { apply fold_mand. intros A x. match goal with |- context [insert_lane I3 ?v _] => set (pt := v) end. rewrite Dot4_R, insert_plane.
      replace (plane_at A pt) with (plane_at A (foot P c)); [rt; rewrite vle_rep, mand_rep; reflexivity|]. unfold pt, foot, insert_lane. dq P. dq A. unfold plane_at, dot3, qrep, minus, scale; cbn [qmap3 qx qy qz qw setlane lane]. rt.
 ring. }
    rewrite E3, andb_true_l. rt. rewrite vgt_rep, mand_rep, mor_rep. reflexivity. }
  match type of E2 with _ = ?v => match goal with |- context [fold_left ?F ?l mfalse] => replace (fold_left F l mfalse) with v by (symmetry; exact E2) end end.
  clear E2. rewrite local_corners_R. rewrite !qall_rep.
  set (ke := fun e : rvec * rvec => let z := PointOnLineSegmentNearestPoint (L:=RL) b (fst e) (snd e) C in Rleb (dot3 (minus C z) (minus C z)) (sp_Radius s * sp_Radius s)).
  assert (HKF : existsb kf (ufaces f) = true <-> Exists (fun G => 0 < plane_at (fst G) c /\ Forall (fun A => plane_at A (foot (fst G) c) <= 0) (snd G)) (ufaces f)).
  { apply existsb_Exists. intros G _. unfold kf. rewrite andb_true_iff, Rltb_true. rewrite (forallb_Forall _ (fun A => plane_at A (foot (fst G) c) <= 0)); [tauto|]. intros A _. apply Rleb_true. }
  assert (HKE : existsb ke (edges f) = true <-> Exists (fun e => exists z, seg (fst e) (snd e) z /\ dot3 (minus c z) (minus c z) <= sp_Radius s * sp_Radius s) (edges f)).
  { assert (CC : forall z, dot3 (minus C z) (minus C z) = dot3 (minus c z) (minus c z)) by reflexivity.
    apply existsb_Exists. intros e _. unfold ke. cbv zeta. rewrite Rleb_true. destruct (nearest b (fst e) (snd e) C) as (S1 & S2). split.
    - intros H. eexists. split; [exact S1|]. rewrite <- CC. exact H.
    - intros (z & HZ & HD). specialize (S2 z HZ). rewrite (CC z) in S2. exact (Rle_trans _ _ _ S2 HD). }
  assert (HKO : existsb (fun P => Rltb (sp_Radius s) (plane_at P c)) (uplanes f) = true <-> ~ Forall (fun P => plane_at P c <= sp_Radius s) (uplanes f)).
  { rewrite (existsb_Exists _ (fun P => ~ plane_at P c <= sp_Radius s)); [|intros P _; rewrite Rltb_true; lra]. rewrite Exists_exists, Forall_forall. split.
    - intros (P & HP & HN) K. apply HN, K, HP.
    - intros K. destruct (Exists_dec (fun P => ~ plane_at P c <= sp_Radius s) (uplanes f)) as [E|E]; [intros x; destruct (Rle_dec (plane_at x c) (sp_Radius s)); [right; tauto|left; assumption]|apply Exists_exists, E|].
      exfalso. apply K. intros P HP. destruct (Rle_dec (plane_at P c) (sp_Radius s)) as [h|h]; [exact h|]. exfalso. apply E, Exists_exists. exists P. split; assumption. }
  assert (HKI : forallb (fun P => Rleb (plane_at P c) (- sp_Radius s)) (uplanes f) = true -> Forall (fun P => plane_at P c <= 0) (uplanes f)).
  { rewrite (forallb_Forall _ (fun P => plane_at P c <= - sp_Radius s)) by (intros; apply Rleb_true). apply Forall_impl. unfold ok_sphere in Hs. intros P HP. lra. }
  assert (HKC : forallb (fun P => Rleb (plane_at P c) 0) (uplanes f) = true <-> Forall (fun P => plane_at P c <= 0) (uplanes f)) by (apply forallb_Forall; intros; apply Rleb_true).
  destruct (existsb (fun P => Rltb (sp_Radius s) (plane_at P c)) (uplanes f)).
  { eexists. split; [reflexivity|]. split; [discriminate|]. intros H. exfalso. apply M, GEO in H. tauto. }
  assert (HO : Forall (fun P => plane_at P c <= sp_Radius s) (uplanes f)).
  { destruct (Forall_dec (fun P => plane_at P c <= sp_Radius s) (fun P => Rle_dec _ _) (uplanes f)) as [h|h]; [exact h|]. apply HKO in h. discriminate. }
  destruct (forallb (fun P => Rleb (plane_at P c) (- sp_Radius s)) (uplanes f)).
  { eexists. split; [reflexivity|]. split; [intros _|reflexivity]. apply M, GEO. tauto. }
  destruct (forallb (fun P => Rleb (plane_at P c) 0) (uplanes f)).
  { eexists. split; [reflexivity|]. split; [intros _|reflexivity]. apply M, GEO. tauto. }
  destruct (existsb kf (ufaces f)) eqn:EK.
  { eexists. split; [reflexivity|]. split; [intros _|reflexivity]. apply M, GEO. tauto. }
  unfold lcorners. cbv zeta iota.
  match goal with |- context [fold_left ?F ?l (qrep false)] => assert (E4 : fold_left F l (qrep false) = qrep (false || existsb ke (edges f))%bool) end.
  { apply (fold_mor _ ke (edges f)). intros (Ca & Cb) a. cbv beta iota zeta. rewrite !Sub_R, Dot3_R, Mul_R, rep_mul. rt. rewrite vle_rep, mor_rep. reflexivity. }
  match type of E4 with _ = ?v => match goal with |- context [fold_left ?F ?l (qrep false)] => replace (fold_left F l (qrep false)) with v by (symmetry; exact E4) end end.
  rewrite qall_rep. cbn [orb]. eexists. split; [reflexivity|]. rewrite HKE, M, GEO. split; [tauto|]. intros (_ & [h|[h|h]]); [apply HKC in h; discriminate|apply HKF in h; discriminate|exact h].
Qed.
