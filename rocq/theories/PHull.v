(** Convexity: a convex region that contains some points contains their hull. Balls, boxes, oriented boxes, frusta,
    triangles and half-spaces are convex. *)
From Coq Require Import Reals Lra Psatz List Bool.
From Verif Require Import Base F32 Intrin Lane MVec MTrig MQuat MInterp MPlane MMatrix Shapes MCollide.
From Verif Require Import SpecGeom SpecQuat SpecMat SpecShape PReal PVec PQuat PRot PMatrix PShape PSphere.
Open Scope R_scope.

Lemma eq3_sym p q : eq3 p q -> eq3 q p.
Proof. intros (h1 & h2 & h3). repeat split; symmetry; assumption. Qed.
Lemma eq3_trans p q r : eq3 p q -> eq3 q r -> eq3 p r.
Proof. intros (h1 & h2 & h3) (k1 & k2 & k3). repeat split; etransitivity; eassumption. Qed.
Ltac e3 := unfold eq3, plus, minus, scale in *; cbn [qx qy qz qw] in *.
Lemma total_nonneg ws : Forall (fun w => 0 <= w) ws -> 0 <= total ws.
Proof. induction 1; cbn; unfold total in *; lra. Qed.
Lemma total_zero ws : Forall (fun w => 0 <= w) ws -> total ws = 0 -> Forall (fun w => w = 0) ws.
Proof.
  induction 1 as [|w ws Hw H IH]; intros E; constructor; cbn in E; pose proof (total_nonneg _ H); unfold total in *; try lra. apply IH; lra.
Qed.
Lemma combo_zero ws : forall ps, Forall (fun w => w = 0) ws -> eq3 (combo ws ps) (Q 0 0 0 0).
Proof.
  induction ws as [|w ws IH]; intros [|p ps] H; try (repeat split; reflexivity).
  inversion H as [|? ? E F]; subst. destruct (IH ps F) as (h1 & h2 & h3). cbn [combo]. e3. rewrite h1, h2, h3. repeat split; ring.
Qed.
Lemma hull_weighted A : convex A -> forall ws ps, length ws = length ps -> Forall (fun w => 0 <= w) ws -> 0 < total ws -> Forall A ps ->
  A (scale (/ total ws) (combo ws ps)).
Proof.
  intros (Hs & Hc). induction ws as [|w ws IH]; intros [|p ps] HL HW HT HA; try discriminate; [cbn in HT; lra|].
  inversion HW as [|? ? Hw HW']; subst. inversion HA as [|? ? Hp HA']; subst. injection HL as HL.
  change (total (w :: ws)) with (w + total ws) in *. pose proof (total_nonneg _ HW') as Hn. set (s := total ws) in *.
  destruct (Req_dec s 0) as [E|E].
  - assert (Hz := combo_zero ws ps (total_zero _ HW' E)). destruct Hz as (h1 & h2 & h3).
    refine (Hs p _ _ Hp). cbn [combo]. e3. rewrite h1, h2, h3, E. repeat split; field; lra.
  - assert (Hs0 : 0 < s) by lra. specialize (IH ps HL HW' Hs0 HA').
    refine (Hs _ _ _ (Hc p (scale (/ s) (combo ws ps)) (w / (w + s)) _ Hp IH)).
    + cbn [combo]. e3. repeat split; field; lra.
    + split; [apply Rmult_le_pos; [assumption|left; apply Rinv_0_lt_compat; lra]|].
      apply Rmult_le_reg_r with (w + s); [lra|]. unfold Rdiv. rewrite Rmult_assoc, Rinv_l; lra.
Qed.
Lemma hull_in A ps : convex A -> Forall A ps -> subset (hull ps) A.
Proof.
  intros HA HP p (ws & HL & HW & HT & He). apply (proj1 HA (scale (/ total ws) (combo ws ps))).
  - rewrite HT. apply eq3_sym. eapply eq3_trans; [exact He|]. e3. repeat split; field.
  - apply hull_weighted; try assumption. lra.
Qed.
(** a point of a list is in its hull *)
Lemma hull_point : forall ps p, In p ps -> hull ps p.
Proof.
  induction ps as [|a ps IH]; intros p []; subst.
  - exists (1 :: repeat 0 (length ps)). assert (Z : Forall (fun w => w = 0) (repeat 0 (length ps))) by (clear; induction ps; cbn; constructor; auto).
    split; [cbn; rewrite repeat_length; reflexivity|]. split; [constructor; [lra|eapply Forall_impl; [|exact Z]; cbn; intros; lra]|].
    split; [cbn [total fold_right]; fold (total (repeat 0 (length ps))); clear; induction ps; cbn in *; unfold total in *; cbn in *; lra|].
    destruct (combo_zero _ ps Z) as (h1 & h2 & h3). cbn [combo]. e3. rewrite h1, h2, h3. repeat split; ring.
  - destruct (IH p H) as (ws & HL & HW & HT & He). exists (0 :: ws). split; [cbn; f_equal; exact HL|]. split; [constructor; [lra|exact HW]|].
    split; [change (0 + total ws = 1); lra|]. cbn [combo]. destruct He as (h1 & h2 & h3). e3. rewrite h1, h2, h3. repeat split; ring.
Qed.

(** ** Convex regions *)
Lemma ball_convex s : convex (ball s).
Proof.
  split.
  - intros p q H. unfold ball. rewrite (dist_eq3 p q) by assumption. tauto.
  - intros p q t Ht Hp Hq. unfold ball in *. set (c := pos (sp_Center s)) in *. unfold dist in *.
    apply Rle_trans with (norm3 (plus (scale t (minus p c)) (scale (1 - t) (minus q c)))).
    + right. unfold norm3. f_equal. unfold dot3, plus, scale, minus; cbn [qx qy qz]; ring.
    + eapply Rle_trans; [apply c19_tri3|]. rewrite !norm3_scale_abs, !Rabs_right by lra. nra.
Qed.
Lemma abs_convex a c e t : 0 <= t <= 1 -> Rabs a <= e -> Rabs c <= e -> Rabs (t * a + (1 - t) * c) <= e.
Proof.
  intros Ht Ha Hc. eapply Rle_trans; [apply Rabs_triang|]. rewrite !Rabs_mult, (Rabs_right t), (Rabs_right (1 - t)) by lra. nra.
Qed.
Lemma within_convex e l m t : 0 <= t <= 1 -> within e l -> within e m -> within e (plus (scale t l) (scale (1 - t) m)).
Proof. intros Ht (h1 & h2 & h3) (k1 & k2 & k3). unfold within; e3. repeat split; apply abs_convex; assumption. Qed.
Lemma within_eq3 e l m : eq3 l m -> within e l -> within e m.
Proof. intros (h1 & h2 & h3) H. unfold within in *. rewrite h1, h2, h3 in H. exact H. Qed.
Lemma aabb_convex bx : convex (aabb bx).
Proof.
  split.
  - intros p q (h1 & h2 & h3). unfold aabb. apply within_eq3. e3. rewrite h1, h2, h3. repeat split; reflexivity.
  - intros p q t Ht Hp Hq. unfold aabb in *.
    eapply within_eq3; [|exact (within_convex _ _ _ t Ht Hp Hq)]. e3. repeat split; ring.
Qed.
Lemma qrot_combo q u v t : qrot q (plus (scale t u) (scale (1 - t) v)) = plus (scale t (qrot q u)) (scale (1 - t) (qrot q v)).
Proof. rewrite qrot_linear. f_equal. dn q. dq v. qr. Qed.
Lemma qrot_eq3 q u v : eq3 u v -> qrot q u = qrot q v.
Proof. intros (h1 & h2 & h3). dq u; dq v; cbn [qx qy qz] in *; subst. dn q. qr. Qed.
Lemma obb_convex o : convex (obb o).
Proof.
  split.
  - intros p q H (l & Hl & He). exists l. split; [assumption|]. eapply eq3_trans; [apply eq3_sym, H|exact He].
  - intros p q t Ht (l & Hl & He) (m & Hm & Hf). exists (plus (scale t l) (scale (1 - t) m)).
    split; [apply within_convex; assumption|]. rewrite qrot_combo. destruct He as (h1 & h2 & h3), Hf as (k1 & k2 & k3).
    e3. rewrite h1, h2, h3, k1, k2, k3. repeat split; ring.
Qed.
Lemma behind_convex P : convex (behind P).
Proof.
  split.
  - intros p q (h1 & h2 & h3). unfold behind, plane_at, dot3. rewrite h1, h2, h3. tauto.
  - intros p q t Ht Hp Hq. unfold behind in *.
    replace (plane_at P (plus (scale t p) (scale (1 - t) q))) with (t * plane_at P p + (1 - t) * plane_at P q); [nra|].
    unfold plane_at, dot3; e3; ring.
Qed.
Lemma slopes_convex f l m t : 0 <= t <= 1 -> in_slopes f l -> in_slopes f m -> in_slopes f (plus (scale t l) (scale (1 - t) m)).
Proof. intros Ht (? & ? & ?) (? & ? & ?). unfold in_slopes; e3. repeat split; nra. Qed.
Lemma frust_convex f : convex (frust f).
Proof.
  split.
  - intros p q H (l & Hl & He). exists l. split; [assumption|]. eapply eq3_trans; [apply eq3_sym, H|exact He].
  - intros p q t Ht (l & Hl & He) (m & Hm & Hf). exists (plus (scale t l) (scale (1 - t) m)).
    split; [apply slopes_convex; assumption|]. rewrite qrot_combo. destruct He as (h1 & h2 & h3), Hf as (k1 & k2 & k3).
    e3. rewrite h1, h2, h3, k1, k2, k3. repeat split; ring.
Qed.
Lemma tri_hull V0 V1 V2 p : tri V0 V1 V2 p <-> hull (V0 :: V1 :: V2 :: nil)%list p.
Proof.
  split.
  - intros (a & c & d & Ha & Hc & Hd & Hs & He). exists (a :: c :: d :: nil)%list. split; [reflexivity|]. split; [repeat (apply Forall_cons; [assumption|]); apply Forall_nil|].
    split; [cbn; lra|]. eapply eq3_trans; [exact He|]. cbn [combo]. e3. repeat split; ring.
  - intros (ws & HL & HW & HT & He). destruct ws as [|a [|c [|d [|? ?]]]]; try discriminate.
    inversion HW as [|? ? ? HW1]; subst. inversion HW1 as [|? ? ? HW2]; subst. inversion HW2; subst.
    exists a, c, d. repeat (split; [assumption|]). split; [cbn in HT; lra|]. eapply eq3_trans; [exact He|]. cbn [combo]. e3. repeat split; ring.
Qed.
