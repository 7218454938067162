(** Proofs for loads and stores. *)
From Flocq Require Import IEEE754.BinarySingleNaN.
From Verif Require Import Base F32 F32Facts Intrin MLanes MMem SpecLanes PLanes.

(** adding +0 changes nothing but -0 and NaN *)
Lemma f_add_zero_r a : word a -> f_isnan a = false -> a <> 0x80000000 -> f_add a 0 = a.
Proof.
  intros Ha Hn Hz. unfold f_add. rewrite <- (enc_dec a Ha Hn) at 2.
  change (dec 0) with (@B754_zero 24 128 false).
  destruct (dec a) as [s| | |s m e H] eqn:E; try reflexivity.
  destruct s; [|reflexivity].
  exfalso; apply Hz. rewrite <- (enc_dec a Ha Hn), E. reflexivity.
Qed.
Lemma f_add_zero_l a : word a -> f_isnan a = false -> a <> 0x80000000 -> f_add 0 a = a.
Proof. intros. rewrite f_add_comm. now apply f_add_zero_r. Qed.

Ltac splitlist m n H :=
  lazymatch n with
  | O => idtac
  | S ?n' => let a := fresh "w" in destruct m as [|a m]; [cbn [length] in H; lia|]; splitlist m n' H
  end.

Lemma mat_is_intro {A} (M : mat A) f :
  (forall k, k = 0 \/ k = 1 \/ k = 2 \/ k = 3 -> lanes_are (nth_lane M k) (f k)) -> mat_is M f.
Proof. intros H i j Hi Hj. apply H; lia. Qed.
Ltac by_lanes := apply lanes_are_intro; reflexivity.
Ltac by_mat := apply mat_is_intro; intros ? [->|[->|[->| ->]]]; by_lanes.

Lemma load2_ok m : (2 <= length m)%nat ->
  exists v, XMLoadFloat2_scalar m = Some v /\ XMLoadFloat2_sse m = Some v /\
    lanes_are v (fun k => if k <? 2 then word_at m k else 0).
Proof. intros H. splitlist m 2%nat H. eexists; split; [reflexivity|split; [reflexivity|by_lanes]]. Qed.
Lemma load3_ok m : (3 <= length m)%nat ->
  exists v, XMLoadFloat3_scalar m = Some v /\ XMLoadFloat3_sse m = Some v /\ XMLoadFloat3_sse4 m = Some v /\
    lanes_are v (fun k => if k <? 3 then word_at m k else 0).
Proof. intros H. splitlist m 3%nat H. eexists; split; [reflexivity|split; [reflexivity|split; [reflexivity|by_lanes]]]. Qed.
Lemma load3a_ok m : (4 <= length m)%nat -> Forall word m ->
  XMLoadFloat3A_sse m = XMLoadFloat3_scalar m.
Proof.
  intros H W. splitlist m 4%nat H.
  inversion_clear W as [|? ? W0 W']. inversion_clear W' as [|? ? W1 W'']. inversion_clear W'' as [|? ? W2 W3].
  cbn. unfold and_ps, qmap2, Mask3; cbn [qx qy qz qw]. rewrite !land_ones_word, Z.land_0_r by assumption. reflexivity.
Qed.
Lemma load4_ok m : (4 <= length m)%nat ->
  exists v, XMLoadFloat4_scalar m = Some v /\ XMLoadFloat4_sse m = Some v /\
    lanes_are v (word_at m).
Proof. intros H. splitlist m 4%nat H. eexists; split; [reflexivity|split; [reflexivity|by_lanes]]. Qed.

(** stores: the source may be any register *)
Lemma overwritten_intro m n l t :
  m = n ++ t -> length l = length n ->
  overwritten m (l ++ t) (Z.of_nat (length n)) (word_at l).
Proof.
  intros -> Hl. split; [rewrite !app_length; lia|].
  intros k Hk. unfold word_at. destruct (Z.ltb_spec k (Z.of_nat (length n))).
  - rewrite app_nth1 by lia. reflexivity.
  - rewrite !app_nth2 by lia. rewrite Hl. reflexivity.
Qed.
Lemma overwritten_ext m m' n f g : overwritten m m' n f -> (forall k, 0 <= k < n -> f k = g k) -> overwritten m m' n g.
Proof.
  intros [H1 H2] E. split; [assumption|]. intros k Hk. rewrite (H2 k Hk).
  destruct (Z.ltb_spec k n); [apply E; lia|reflexivity].
Qed.
Ltac case_k k Hk n :=
  lazymatch n with
  | O => exfalso; lia
  | S ?n' => let c := eval cbv in (Z.of_nat n') in
     destruct (Z.eq_dec k c) as [->|?]; [reflexivity|case_k k Hk n']
  end.
Ltac by_store l pre n :=
  match goal with |- overwritten (?m) ?m' _ _ =>
    refine (overwritten_ext _ _ _ _ _ (overwritten_intro m pre l _ eq_refl eq_refl) _);
    let k := fresh "k" in let Hk := fresh "Hk" in intros k Hk; cbn [length Z.of_nat Pos.of_succ_nat Pos.succ] in Hk;
    case_k k Hk n
  end.

Lemma store1_ok m v : (1 <= length m)%nat ->
  exists m', XMStoreFloat m v = Some m' /\ overwritten m m' 1 (nth_lane v).
Proof.
  intros H. splitlist m 1%nat H. eexists; split; [reflexivity|].
  by_store [qx v] [w] 1%nat.
Qed.
Lemma store2_ok m v : (2 <= length m)%nat ->
  exists m', XMStoreFloat2_scalar m v = Some m' /\ XMStoreFloat2_sse m v = Some m' /\ overwritten m m' 2 (nth_lane v).
Proof.
  intros H. splitlist m 2%nat H. eexists; split; [reflexivity|split; [reflexivity|]].
  by_store [qx v; qy v] [w; w0] 2%nat.
Qed.
Lemma store3_ok m v : (3 <= length m)%nat ->
  exists m', XMStoreFloat3_scalar m v = Some m' /\ XMStoreFloat3_sse m v = Some m' /\ XMStoreFloat3A_sse m v = Some m' /\
    overwritten m m' 3 (nth_lane v).
Proof.
  intros H. splitlist m 3%nat H. eexists; split; [reflexivity|split; [reflexivity|split; [reflexivity|]]].
  by_store [qx v; qy v; qz v] [w; w0; w1] 3%nat.
Qed.
Lemma store4_ok m v : (4 <= length m)%nat ->
  exists m', XMStoreFloat4_scalar m v = Some m' /\ XMStoreFloat4_sse m v = Some m' /\ overwritten m m' 4 (nth_lane v).
Proof.
  intros H. splitlist m 4%nat H. eexists; split; [reflexivity|split; [reflexivity|]].
  by_store [qx v; qy v; qz v; qw v] [w; w0; w1; w2] 4%nat.
Qed.

(** matrices *)
Definition pos_word (a : Z) : Prop := f_isnan a = false /\ a <> 0x80000000.
Lemma load3x3_scalar_ok m : (9 <= length m)%nat ->
  exists M, XMLoadFloat3x3_scalar m = Some M /\ mat_is M (img3x3 m).
Proof. intros H. splitlist m 9%nat H. eexists; split; [reflexivity|]. by_mat. Qed.
Lemma load3x3_sse_ok m : (9 <= length m)%nat -> Forall word m ->
  (forall k, 3 <= k < 6 -> pos_word (word_at m k)) ->
  exists M, XMLoadFloat3x3_sse m = Some M /\ mat_is M (img3x3 m).
Proof.
  intros H W P. splitlist m 9%nat H. eexists; split; [reflexivity|].
  assert (forall k, 3 <= k < 6 -> word (word_at (w :: w0 :: w1 :: w2 :: w3 :: w4 :: w5 :: w6 :: w7 :: m) k)) as Wk.
  { intros k Hk. unfold word_at. eapply Forall_nth; [exact W|]. cbn [length]. lia. }
  assert (A2 : f_add w2 0 = w2 /\ f_add 0 w2 = w2).
  { destruct (P 3 ltac:(lia)) as [P1 P2]. split; [apply f_add_zero_r|apply f_add_zero_l]; try assumption; exact (Wk 3 ltac:(lia)). }
  assert (A3 : f_add w3 0 = w3 /\ f_add 0 w3 = w3).
  { destruct (P 4 ltac:(lia)) as [P1 P2]. split; [apply f_add_zero_r|apply f_add_zero_l]; try assumption; exact (Wk 4 ltac:(lia)). }
  assert (A4 : f_add w4 0 = w4 /\ f_add 0 w4 = w4).
  { destruct (P 5 ltac:(lia)) as [P1 P2]. split; [apply f_add_zero_r|apply f_add_zero_l]; try assumption; exact (Wk 5 ltac:(lia)). }
  apply mat_is_intro; intros ? [->|[->|[->| ->]]]; try by_lanes.
  apply lanes_are_intro; [exact (proj2 A2)|exact (proj1 A3)|exact (proj1 A4)|reflexivity].
Qed.
Lemma load3x3_sse_refuted : exists m M1 M2, length m = 9%nat /\ Forall word m /\
  XMLoadFloat3x3_scalar m = Some M1 /\ XMLoadFloat3x3_sse m = Some M2 /\
  mij M1 I1 I1 = 0x80000000 /\ mij M2 I1 I1 = 0.
Proof.
  exists [0;0;0; 0;0x80000000;0; 0;0;0]. do 2 eexists. split; [reflexivity|]. split.
  - repeat constructor; unfold word; lia.
  - split; [reflexivity|]. split; [reflexivity|]. split; vm_compute; reflexivity.
Qed.

Lemma load4x3_ok m : (12 <= length m)%nat -> Forall word m ->
  exists M, XMLoadFloat4x3_scalar m = Some M /\ XMLoadFloat4x3_sse m = Some M /\ mat_is M (img4x3 m).
Proof.
  intros H W. splitlist m 12%nat H.
  do 12 (let h := fresh "K" in apply Forall_cons_iff in W; destruct W as [h W]).
  eexists; split; [reflexivity|]. split; [|by_mat].
  cbn -[Z.land Z.lor]. unfold and_ps, or_ps, qmap2, Mask3, permute_ps, shuffle, srli4, IdentityR3.
  cbn [qx qy qz qw lane].
  rewrite !land_ones_word, !Z.lor_0_r, !Z.lor_0_l, ?Z.land_0_r by assumption. reflexivity.
Qed.
Lemma load3x4_ok m : (12 <= length m)%nat ->
  exists M, XMLoadFloat3x4_scalar m = Some M /\ XMLoadFloat3x4_sse m = Some M /\ mat_is M (img3x4 m).
Proof. intros H. splitlist m 12%nat H. eexists; split; [reflexivity|]. split; [reflexivity|by_mat]. Qed.
Lemma load4x4_ok m : (16 <= length m)%nat ->
  exists M, XMLoadFloat4x4_scalar m = Some M /\ XMLoadFloat4x4_sse m = Some M /\ mat_is M (fun i j => word_at m (4 * i + j)).
Proof. intros H. splitlist m 16%nat H. eexists; split; [reflexivity|]. split; [reflexivity|by_mat]. Qed.

Lemma store3x3_ok m M : (9 <= length m)%nat ->
  exists m', XMStoreFloat3x3_scalar m M = Some m' /\ XMStoreFloat3x3_sse m M = Some m' /\
    overwritten m m' 9 (fun k => ent M (k / 3) (k mod 3)).
Proof.
  intros H. splitlist m 9%nat H. exists ([mij M I0 I0; mij M I0 I1; mij M I0 I2; mij M I1 I0; mij M I1 I1; mij M I1 I2; mij M I2 I0; mij M I2 I1; mij M I2 I2] ++ m). split; [exact_no_check (eq_refl (Some ([mij M I0 I0; mij M I0 I1; mij M I0 I2; mij M I1 I0; mij M I1 I1; mij M I1 I2; mij M I2 I0; mij M I2 I1; mij M I2 I2] ++ m)))|split; [exact_no_check (eq_refl (Some ([mij M I0 I0; mij M I0 I1; mij M I0 I2; mij M I1 I0; mij M I1 I1; mij M I1 I2; mij M I2 I0; mij M I2 I1; mij M I2 I2] ++ m)))|]].
  by_store [mij M I0 I0; mij M I0 I1; mij M I0 I2; mij M I1 I0; mij M I1 I1; mij M I1 I2; mij M I2 I0; mij M I2 I1; mij M I2 I2]
    [w; w0; w1; w2; w3; w4; w5; w6; w7] 9%nat.
Qed.
Lemma store4x3_ok m M : (12 <= length m)%nat ->
  exists m', XMStoreFloat4x3_scalar m M = Some m' /\ XMStoreFloat4x3_sse m M = Some m' /\
    overwritten m m' 12 (fun k => ent M (k / 3) (k mod 3)).
Proof.
  intros H. splitlist m 12%nat H. exists ([mij M I0 I0; mij M I0 I1; mij M I0 I2; mij M I1 I0; mij M I1 I1; mij M I1 I2; mij M I2 I0; mij M I2 I1; mij M I2 I2; mij M I3 I0; mij M I3 I1; mij M I3 I2] ++ m). split; [exact_no_check (eq_refl (Some ([mij M I0 I0; mij M I0 I1; mij M I0 I2; mij M I1 I0; mij M I1 I1; mij M I1 I2; mij M I2 I0; mij M I2 I1; mij M I2 I2; mij M I3 I0; mij M I3 I1; mij M I3 I2] ++ m)))|split; [exact_no_check (eq_refl (Some ([mij M I0 I0; mij M I0 I1; mij M I0 I2; mij M I1 I0; mij M I1 I1; mij M I1 I2; mij M I2 I0; mij M I2 I1; mij M I2 I2; mij M I3 I0; mij M I3 I1; mij M I3 I2] ++ m)))|]].
  by_store [mij M I0 I0; mij M I0 I1; mij M I0 I2; mij M I1 I0; mij M I1 I1; mij M I1 I2; mij M I2 I0; mij M I2 I1; mij M I2 I2; mij M I3 I0; mij M I3 I1; mij M I3 I2]
    [w; w0; w1; w2; w3; w4; w5; w6; w7; w8; w9; w10] 12%nat.
Qed.
Lemma store3x4_ok m M : (12 <= length m)%nat ->
  exists m', XMStoreFloat3x4_scalar m M = Some m' /\ XMStoreFloat3x4_sse m M = Some m' /\
    overwritten m m' 12 (fun k => ent M (k mod 4) (k / 4)).
Proof.
  intros H. splitlist m 12%nat H. exists ([mij M I0 I0; mij M I1 I0; mij M I2 I0; mij M I3 I0; mij M I0 I1; mij M I1 I1; mij M I2 I1; mij M I3 I1; mij M I0 I2; mij M I1 I2; mij M I2 I2; mij M I3 I2] ++ m). split; [exact_no_check (eq_refl (Some ([mij M I0 I0; mij M I1 I0; mij M I2 I0; mij M I3 I0; mij M I0 I1; mij M I1 I1; mij M I2 I1; mij M I3 I1; mij M I0 I2; mij M I1 I2; mij M I2 I2; mij M I3 I2] ++ m)))|split; [exact_no_check (eq_refl (Some ([mij M I0 I0; mij M I1 I0; mij M I2 I0; mij M I3 I0; mij M I0 I1; mij M I1 I1; mij M I2 I1; mij M I3 I1; mij M I0 I2; mij M I1 I2; mij M I2 I2; mij M I3 I2] ++ m)))|]].
  by_store [mij M I0 I0; mij M I1 I0; mij M I2 I0; mij M I3 I0; mij M I0 I1; mij M I1 I1; mij M I2 I1; mij M I3 I1; mij M I0 I2; mij M I1 I2; mij M I2 I2; mij M I3 I2]
    [w; w0; w1; w2; w3; w4; w5; w6; w7; w8; w9; w10] 12%nat.
Qed.
Lemma store4x4_ok m M : (16 <= length m)%nat ->
  exists m', XMStoreFloat4x4_scalar m M = Some m' /\ XMStoreFloat4x4_sse m M = Some m' /\
    overwritten m m' 16 (fun k => ent M (k / 4) (k mod 4)).
Proof.
  intros H. splitlist m 16%nat H. exists ([mij M I0 I0; mij M I0 I1; mij M I0 I2; mij M I0 I3; mij M I1 I0; mij M I1 I1; mij M I1 I2; mij M I1 I3;
            mij M I2 I0; mij M I2 I1; mij M I2 I2; mij M I2 I3; mij M I3 I0; mij M I3 I1; mij M I3 I2; mij M I3 I3] ++ m). split; [exact_no_check (eq_refl (Some ([mij M I0 I0; mij M I0 I1; mij M I0 I2; mij M I0 I3; mij M I1 I0; mij M I1 I1; mij M I1 I2; mij M I1 I3;
            mij M I2 I0; mij M I2 I1; mij M I2 I2; mij M I2 I3; mij M I3 I0; mij M I3 I1; mij M I3 I2; mij M I3 I3] ++ m)))|split; [exact_no_check (eq_refl (Some ([mij M I0 I0; mij M I0 I1; mij M I0 I2; mij M I0 I3; mij M I1 I0; mij M I1 I1; mij M I1 I2; mij M I1 I3;
            mij M I2 I0; mij M I2 I1; mij M I2 I2; mij M I2 I3; mij M I3 I0; mij M I3 I1; mij M I3 I2; mij M I3 I3] ++ m)))|]].
  by_store [mij M I0 I0; mij M I0 I1; mij M I0 I2; mij M I0 I3; mij M I1 I0; mij M I1 I1; mij M I1 I2; mij M I1 I3;
            mij M I2 I0; mij M I2 I1; mij M I2 I2; mij M I2 I3; mij M I3 I0; mij M I3 I1; mij M I3 I2; mij M I3 I3]
    [w; w0; w1; w2; w3; w4; w5; w6; w7; w8; w9; w10; w11; w12; w13; w14] 16%nat.
Qed.

(** round trips in the other direction: store what was loaded, memory unchanged *)
Lemma word_at_ext m m' : length m = length m' -> (forall k, 0 <= k < Z.of_nat (length m) -> word_at m k = word_at m' k) -> m = m'.
Proof.
  intros Hl H. apply nth_ext with (d := 0) (d' := 0); [assumption|].
  intros n Hn. specialize (H (Z.of_nat n) ltac:(lia)). unfold word_at in H. now rewrite Nat2Z.id in H.
Qed.
Lemma load_store4x4 m : (16 <= length m)%nat ->
  obind (XMLoadFloat4x4_sse m) (XMStoreFloat4x4_sse m) = Some m /\
  obind (XMLoadFloat4x4_scalar m) (XMStoreFloat4x4_scalar m) = Some m.
Proof. intros H. splitlist m 16%nat H. split; reflexivity. Qed.
Lemma roundtrip_vectors v m : (4 <= length m)%nat ->
  (obind (XMStoreFloat2_sse m v) XMLoadFloat2_scalar = Some (Q (qx v) (qy v) 0 0) /\
   obind (XMStoreFloat3_sse m v) XMLoadFloat3_scalar = Some (Q (qx v) (qy v) (qz v) 0) /\
   obind (XMStoreFloat4_sse m v) XMLoadFloat4_scalar = Some v) /\
  (obind (XMLoadFloat2_sse m) (XMStoreFloat2_scalar m) = Some m /\
   obind (XMLoadFloat3_sse m) (XMStoreFloat3_scalar m) = Some m /\
   obind (XMLoadFloat4_sse m) (XMStoreFloat4_scalar m) = Some m).
Proof. intros H. splitlist m 4%nat H. destruct v; repeat split; reflexivity. Qed.
