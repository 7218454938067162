(** A calculus of absolute rounding errors on bit patterns. Magnitudes and errors are integers counted in units of 2^-60, so
    that a whole polynomial evaluation is bounded by one integer computation. *)
From Coq Require Import Reals Lra Lia ZArith Bool.
From Flocq Require Import Core IEEE754.BinarySingleNaN.
From Verif Require Import Base F32 F32Facts Lane SpecF32 PF32 PFloat PExp SpecErr PErr.
Open Scope R_scope.

Definition unit60 : R := 1152921504606846976.
Definition S60 : Z := 1152921504606846976.
Definition U24 : Z := 16777216.
Definition lim : Z := 2 ^ 180.
(** [z] holds a number within [E] units of [x], and [x] is at most [M] units *)
Definition fx (M E : Z) (z : Z) (x : R) : Prop :=
  (0 <= M)%Z /\ (0 <= E)%Z /\ Rabs x * unit60 <= IZR M /\ exists v, value z = Fin v /\ Rabs (v - x) * unit60 <= IZR E.
Lemma unit60_pos : 0 < unit60. Proof. unfold unit60. lra. Qed.
Lemma lim_huge : IZR lim * 4 < huge * unit60.
Proof.
  unfold huge, unit60. change (bpow radix2 128) with (IZR (2 ^ 128)). change 4 with (IZR 4). change 1152921504606846976 with (IZR (2 ^ 60)).
  rewrite <- !mult_IZR. apply IZR_lt. vm_compute. reflexivity.
Qed.
Lemma div_up a b : (0 < b)%Z -> IZR a / IZR b <= IZR (a / b + 1).
Proof.
  intros H. assert (0 < IZR b) by (apply IZR_lt; exact H). apply (Rmult_le_reg_r (IZR b)); [assumption|]. unfold Rdiv. rewrite Rmult_assoc, Rinv_l, Rmult_1_r by lra.
  rewrite <- mult_IZR. apply IZR_le. pose proof (Z.mod_pos_bound a b H). pose proof (Z.div_mod a b). nia.
Qed.
(** the rounding that ends an operation: the exact operation on the computed operands gives [t] *)
Definition rndE (M E : Z) : Z := E + (M + E) / U24 + 2.
Lemma fx_rnd M E t x : (0 <= M)%Z -> (0 <= E)%Z -> (M + E < lim)%Z -> Rabs x * unit60 <= IZR M -> Rabs (t - x) * unit60 <= IZR E ->
  Rabs (RN t) < huge /\ Rabs (RN t - x) * unit60 <= IZR (rndE M E).
Proof.
  intros HM HE HL A B. pose proof (RN_err t) as RE. pose proof eta_small as ES. pose proof eta_pos as EP. pose proof unit60_pos as UP. pose proof lim_huge as LH.
  assert (Ht : Rabs t * unit60 <= IZR (M + E)).
  { rewrite plus_IZR. replace t with (t - x + x) by ring. apply Rle_trans with ((Rabs (t - x) + Rabs x) * unit60); [|lra].
    apply Rmult_le_compat_r; [lra|apply Rabs_triang]. }
  pose proof (div_up (M + E) U24 eq_refl) as D. assert (HML : IZR (M + E) < IZR lim) by (apply IZR_lt; exact HL).
  assert (E60 : eta * unit60 <= 1).
  { replace unit60 with (bpow radix2 60) by reflexivity. unfold eta. rewrite <- bpow_plus. change 1 with (bpow radix2 0). apply bpow_le. lia. }
  assert (RU : Rabs (RN t - t) * unit60 <= IZR ((M + E) / U24 + 1) + 1).
  { apply Rle_trans with ((u24 * Rabs t + eta) * unit60); [apply Rmult_le_compat_r; lra|].
    assert (u24 * (Rabs t * unit60) <= u24 * IZR (M + E)) by (apply Rmult_le_compat_l; [unfold u24; lra|exact Ht]). unfold U24 in *. unfold u24 in *. lra. }
  assert (D0 : (0 <= (M + E) / U24)%Z) by (apply Z.div_pos; [lia|reflexivity]).
  split.
  - apply (Rmult_lt_reg_r unit60); [exact UP|]. replace (RN t) with (RN t - t + t) by ring.
    apply Rle_lt_trans with ((Rabs (RN t - t) + Rabs t) * unit60); [apply Rmult_le_compat_r; [lra|apply Rabs_triang]|].
    assert (IZR ((M + E) / U24 + 1) <= IZR lim).
    { apply IZR_le. assert ((M + E) / U24 <= lim / U24)%Z by (apply Z.div_le_mono; [reflexivity|lia]). assert (lim / U24 + 1 <= lim)%Z by (vm_compute; discriminate). lia. }
    assert (1 <= IZR lim) by (apply IZR_le; vm_compute; discriminate). lra.
  - replace (RN t - x) with ((RN t - t) + (t - x)) by ring.
    apply Rle_trans with ((Rabs (RN t - t) + Rabs (t - x)) * unit60); [apply Rmult_le_compat_r; [lra|apply Rabs_triang]|].
    unfold rndE. rewrite !plus_IZR in *. lra.
Qed.
Lemma fx_x M E z x y : fx M E z x -> x = y -> fx M E z y. Proof. intros H <-; exact H. Qed.
Lemma fx_exact z x M : value z = Fin x -> Rabs x * unit60 <= IZR M -> fx M 0 z x.
Proof.
  intros V H. pose proof (Rabs_pos x). pose proof unit60_pos. split; [apply le_IZR; nra|]. split; [lia|]. split; [exact H|]. exists x. split; [exact V|].
  replace (x - x) with 0 by ring. rewrite Rabs_R0. lra.
Qed.
(** results of operations: [None] when a bound leaves the range *)
Definition out (M E : Z) : option (Z * Z) := if (M + E <? lim)%Z then Some (M, rndE M E) else None.
Lemma out_ok M E M' E' : out M E = Some (M', E') -> (M + E < lim)%Z /\ M' = M /\ E' = rndE M E.
Proof. unfold out. destruct (Z.ltb_spec (M + E) lim); [|discriminate]. intros H'. injection H' as <- <-. auto. Qed.
Lemma rndE_pos M E : (0 <= M)%Z -> (0 <= E)%Z -> (0 <= rndE M E)%Z.
Proof. intros. unfold rndE. assert (0 <= (M + E) / U24)%Z by (apply Z.div_pos; [lia|reflexivity]). lia. Qed.
Ltac fxend M E t :=
  match goal with H : out _ _ = Some _ |- fx _ _ _ ?x => destruct (out_ok _ _ _ _ H) as (?HL & -> & ->);
    destruct (fx_rnd M E t x) as (?R1 & ?R2); [lia|lia|exact HL| | |split; [lia|]; split; [apply rndE_pos; lia|]; split; [|exists (RN t); split]] end.
Lemma fx_add M1 E1 M2 E2 z1 z2 x1 x2 M E : fx M1 E1 z1 x1 -> fx M2 E2 z2 x2 -> out (M1 + M2) (E1 + E2) = Some (M, E) -> fx M E (f_add z1 z2) (x1 + x2).
Proof.
  intros (A1 & B1 & C1 & v1 & V1 & D1) (A2 & B2 & C2 & v2 & V2 & D2) HO. pose proof unit60_pos as UP.
  assert (CC : Rabs (x1 + x2) * unit60 <= IZR (M1 + M2)).
  { rewrite plus_IZR. apply Rle_trans with ((Rabs x1 + Rabs x2) * unit60); [apply Rmult_le_compat_r; [lra|apply Rabs_triang]|lra]. }
  fxend (M1 + M2)%Z (E1 + E2)%Z (v1 + v2); [exact CC| |exact CC|apply add_val; assumption|assumption].
  rewrite plus_IZR. replace (v1 + v2 - (x1 + x2)) with ((v1 - x1) + (v2 - x2)) by ring.
  apply Rle_trans with ((Rabs (v1 - x1) + Rabs (v2 - x2)) * unit60); [apply Rmult_le_compat_r; [lra|apply Rabs_triang]|lra].
Qed.
Lemma fx_sub M1 E1 M2 E2 z1 z2 x1 x2 M E : fx M1 E1 z1 x1 -> fx M2 E2 z2 x2 -> out (M1 + M2) (E1 + E2) = Some (M, E) -> fx M E (f_sub z1 z2) (x1 - x2).
Proof.
  intros (A1 & B1 & C1 & v1 & V1 & D1) (A2 & B2 & C2 & v2 & V2 & D2) HO. pose proof unit60_pos as UP.
  assert (CC : Rabs (x1 - x2) * unit60 <= IZR (M1 + M2)).
  { rewrite plus_IZR. apply Rle_trans with ((Rabs x1 + Rabs (- x2)) * unit60); [apply Rmult_le_compat_r; [lra|apply Rabs_triang]|rewrite Rabs_Ropp; lra]. }
  fxend (M1 + M2)%Z (E1 + E2)%Z (v1 - v2); [exact CC| |exact CC|apply sub_val; assumption|assumption].
  rewrite plus_IZR. replace (v1 - v2 - (x1 - x2)) with ((v1 - x1) + - (v2 - x2)) by ring.
  apply Rle_trans with ((Rabs (v1 - x1) + Rabs (- (v2 - x2))) * unit60); [apply Rmult_le_compat_r; [lra|apply Rabs_triang]|rewrite Rabs_Ropp; lra].
Qed.
Definition mulM (M1 M2 : Z) : Z := (M1 * M2) / S60 + 1.
Definition mulE (M1 E1 M2 E2 : Z) : Z := (M1 * E2 + M2 * E1 + E1 * E2) / S60 + 1.
Lemma mulMpos M1 M2 : (0 <= M1)%Z -> (0 <= M2)%Z -> (0 <= mulM M1 M2)%Z.
Proof. intros. unfold mulM. assert (0 <= (M1 * M2) / S60)%Z by (apply Z.div_pos; [nia|reflexivity]). lia. Qed.
Lemma mulEpos M1 E1 M2 E2 : (0 <= M1)%Z -> (0 <= M2)%Z -> (0 <= E1)%Z -> (0 <= E2)%Z -> (0 <= mulE M1 E1 M2 E2)%Z.
Proof. intros. unfold mulE. assert (0 <= (M1 * E2 + M2 * E1 + E1 * E2) / S60)%Z by (apply Z.div_pos; [nia|reflexivity]). lia. Qed.
Lemma div_mul a : a / unit60 * unit60 = a. Proof. unfold unit60. field. Qed.
Lemma mul_mag M1 M2 x1 x2 : Rabs x1 * unit60 <= IZR M1 -> Rabs x2 * unit60 <= IZR M2 -> Rabs (x1 * x2) * unit60 <= IZR (mulM M1 M2).
Proof.
  intros A B. pose proof unit60_pos as UP. unfold mulM. eapply Rle_trans; [|apply div_up; reflexivity].
  change (IZR S60) with unit60. apply (Rmult_le_reg_r unit60); [exact UP|]. rewrite div_mul. rewrite mult_IZR, Rabs_mult.
  replace (Rabs x1 * Rabs x2 * unit60 * unit60) with ((Rabs x1 * unit60) * (Rabs x2 * unit60)) by ring.
  pose proof (Rabs_pos x1). pose proof (Rabs_pos x2). apply Rmult_le_compat; try assumption; apply Rmult_le_pos; lra.
Qed.
Lemma mul_err M1 E1 M2 E2 x1 x2 v1 v2 : Rabs x1 * unit60 <= IZR M1 -> Rabs x2 * unit60 <= IZR M2 -> Rabs (v1 - x1) * unit60 <= IZR E1 -> Rabs (v2 - x2) * unit60 <= IZR E2 ->
  Rabs (v1 * v2 - x1 * x2) * unit60 <= IZR (mulE M1 E1 M2 E2).
Proof.
  intros A1 A2 B1 B2. pose proof unit60_pos as UP. unfold mulE. eapply Rle_trans; [|apply div_up; reflexivity].
  change (IZR S60) with unit60. apply (Rmult_le_reg_r unit60); [exact UP|]. rewrite div_mul. rewrite !plus_IZR, !mult_IZR.
  replace (v1 * v2 - x1 * x2) with (x1 * (v2 - x2) + x2 * (v1 - x1) + (v1 - x1) * (v2 - x2)) by ring.
  apply Rle_trans with ((Rabs x1 * unit60) * (Rabs (v2 - x2) * unit60) + (Rabs x2 * unit60) * (Rabs (v1 - x1) * unit60) + (Rabs (v1 - x1) * unit60) * (Rabs (v2 - x2) * unit60)).
  - replace (Rabs x1 * unit60 * (Rabs (v2 - x2) * unit60) + Rabs x2 * unit60 * (Rabs (v1 - x1) * unit60) + Rabs (v1 - x1) * unit60 * (Rabs (v2 - x2) * unit60))
      with ((Rabs (x1 * (v2 - x2)) + Rabs (x2 * (v1 - x1)) + Rabs ((v1 - x1) * (v2 - x2))) * unit60 * unit60) by (rewrite !Rabs_mult; ring).
    apply Rmult_le_compat_r; [lra|]. apply Rmult_le_compat_r; [lra|]. eapply Rle_trans; [apply Rabs_triang|]. apply Rplus_le_compat_r, Rabs_triang.
  - pose proof (Rabs_pos x1). pose proof (Rabs_pos x2). pose proof (Rabs_pos (v1 - x1)). pose proof (Rabs_pos (v2 - x2)).
    apply Rplus_le_compat; [apply Rplus_le_compat|]; (apply Rmult_le_compat; try assumption; apply Rmult_le_pos; lra).
Qed.
Lemma fx_mul M1 E1 M2 E2 z1 z2 x1 x2 M E : fx M1 E1 z1 x1 -> fx M2 E2 z2 x2 -> out (mulM M1 M2) (mulE M1 E1 M2 E2) = Some (M, E) -> fx M E (f_mul z1 z2) (x1 * x2).
Proof.
  intros (A1 & B1 & C1 & v1 & V1 & D1) (A2 & B2 & C2 & v2 & V2 & D2) HO.
  pose proof (mulMpos M1 M2 A1 A2). pose proof (mulEpos M1 E1 M2 E2 A1 A2 B1 B2). pose proof (mul_mag _ _ _ _ C1 C2) as CC.
  fxend (mulM M1 M2) (mulE M1 E1 M2 E2) (v1 * v2); [exact CC| |exact CC|apply mul_val; assumption|assumption]. apply mul_err; assumption.
Qed.
Lemma fx_fma M1 E1 M2 E2 M3 E3 z1 z2 z3 x1 x2 x3 M E : fx M1 E1 z1 x1 -> fx M2 E2 z2 x2 -> fx M3 E3 z3 x3 ->
  out (mulM M1 M2 + M3) (mulE M1 E1 M2 E2 + E3) = Some (M, E) -> fx M E (f_fma z1 z2 z3) (x1 * x2 + x3).
Proof.
  intros (A1 & B1 & C1 & v1 & V1 & D1) (A2 & B2 & C2 & v2 & V2 & D2) (A3 & B3 & C3 & v3 & V3 & D3) HO. pose proof unit60_pos as UP.
  pose proof (mulMpos M1 M2 A1 A2). pose proof (mulEpos M1 E1 M2 E2 A1 A2 B1 B2). pose proof (mul_mag _ _ _ _ C1 C2) as CM. pose proof (mul_err _ _ _ _ _ _ _ _ C1 C2 D1 D2) as CE.
  assert (CC : Rabs (x1 * x2 + x3) * unit60 <= IZR (mulM M1 M2 + M3)).
  { rewrite plus_IZR. apply Rle_trans with ((Rabs (x1 * x2) + Rabs x3) * unit60); [apply Rmult_le_compat_r; [lra|apply Rabs_triang]|lra]. }
  fxend (mulM M1 M2 + M3)%Z (mulE M1 E1 M2 E2 + E3)%Z (v1 * v2 + v3); [exact CC| |exact CC|apply fma_val; assumption|assumption].
  rewrite plus_IZR. replace (v1 * v2 + v3 - (x1 * x2 + x3)) with ((v1 * v2 - x1 * x2) + (v3 - x3)) by ring.
  apply Rle_trans with ((Rabs (v1 * v2 - x1 * x2) + Rabs (v3 - x3)) * unit60); [apply Rmult_le_compat_r; [lra|apply Rabs_triang]|lra].
Qed.
Lemma fx_neg M E z x : word z -> fx M E z x -> fx M E (f_neg z) (- x).
Proof.
  intros W (A & B & C & v & V & D). split; [exact A|]. split; [exact B|]. split; [rewrite Rabs_Ropp; exact C|]. exists (- v). split; [apply neg_val; assumption|].
  replace (- v - - x) with (- (v - x)) by ring. rewrite Rabs_Ropp. exact D.
Qed.
(** literals *)
Lemma lit_exact m e : (Z.abs m <= 2 ^ 24)%Z -> (-149 <= e <= 60)%Z -> value (f_lit m e) = Fin (IZR m * bpow radix2 e).
Proof.
  intros Hm He. pose proof (fmt_scaled m e Hm (proj1 He)) as F. pose proof (RN_fmt _ F) as E. rewrite lit_val; rewrite E; [reflexivity|].
  rewrite Rabs_mult, (Rabs_pos_eq (bpow radix2 e)), <- abs_IZR by apply bpow_ge_0. unfold huge.
  apply Rle_lt_trans with (bpow radix2 24 * bpow radix2 60).
  - apply Rmult_le_compat; [apply IZR_le; lia|apply bpow_ge_0|change (bpow radix2 24) with (IZR (2 ^ 24)); apply IZR_le; exact Hm|apply bpow_le; lia].
  - rewrite <- bpow_plus. apply bpow_lt. lia.
Qed.
Definition litM (m : Z) (e : Z) : option Z :=
  if ((Z.abs m <=? 2 ^ 24) && (-60 <=? e) && (e <=? 60))%Z then Some (Z.abs m * 2 ^ (60 + e))%Z else None.
(** a literal as a quotient of integers, the way the real-number instance reads it *)
Definition Rl (m e : Z) : R := if (0 <=? e)%Z then IZR (m * 2 ^ e) else IZR m / IZR (2 ^ (- e)).
Lemma Rl_bpow m e : Rl m e = IZR m * bpow radix2 e.
Proof.
  unfold Rl. destruct (Z.leb_spec 0 e).
  - rewrite mult_IZR. change 2%Z with (radix_val radix2). rewrite IZR_Zpower by assumption. reflexivity.
  - change 2%Z with (radix_val radix2). rewrite IZR_Zpower by lia. replace (bpow radix2 e) with (/ bpow radix2 (- e)) by (rewrite <- bpow_opp; f_equal; lia). reflexivity.
Qed.
Lemma fx_lit m e M : litM m e = Some M -> fx M 0 (f_lit m e) (Rl m e).
Proof.
  unfold litM. destruct (_ && _ && _)%bool eqn:C; [|discriminate]. apply andb_prop in C as [C C3]. apply andb_prop in C as [C1 C2]. intros H. assert (HM : M = (Z.abs m * 2 ^ (60 + e))%Z) by congruence. clear H. subst M. rewrite Rl_bpow.
  apply Z.leb_le in C1, C2, C3. apply fx_exact; [apply lit_exact; lia|]. rewrite mult_IZR, abs_IZR, Rabs_mult, (Rabs_pos_eq (bpow radix2 e)) by apply bpow_ge_0.
  assert (P : IZR (2 ^ (60 + e)) = unit60 * bpow radix2 e).
  { change (2 ^ (60 + e))%Z with (radix_val radix2 ^ (60 + e))%Z. rewrite IZR_Zpower by lia. rewrite bpow_plus. reflexivity. }
  rewrite P. right; ring.
Qed.
(** reading the bound off *)
Lemma fx_within K M E z x : fx M E z x -> (E <=? K * 1152921504)%Z = true -> within (IZR K / 1000000000) z x.
Proof.
  intros (A & B & C & v & V & D) H. exists v. split; [exact V|]. apply Z.leb_le, IZR_le in H. rewrite mult_IZR in H. unfold unit60 in D. pose proof (Rabs_pos (v - x)). lra.
Qed.
Ltac fxt := match goal with
  | |- fx _ _ ?z _ => match goal with H : fx _ _ z _ |- _ => exact H end
  | |- fx _ _ (f_add _ _) _ => eapply fx_add; [fxt|fxt|vm_compute; reflexivity]
  | |- fx _ _ (f_sub _ _) _ => eapply fx_sub; [fxt|fxt|vm_compute; reflexivity]
  | |- fx _ _ (f_mul _ _) _ => eapply fx_mul; [fxt|fxt|vm_compute; reflexivity]
  | |- fx _ _ (f_fma _ _ _) _ => eapply fx_fma; [fxt|fxt|fxt|vm_compute; reflexivity]
  | |- fx _ _ (f_neg _) _ => eapply fx_neg; [first [assumption|apply enc_word]|fxt]
  | |- fx _ _ (f_lit _ _) _ => eapply fx_lit; vm_compute; reflexivity
  end.
(** simplify the literals in a real expression *)
Ltac rl := cbv beta iota zeta delta [Rl Z.leb Z.compare Z.opp Z.pow Z.pow_pos Pos.iter Z.mul Pos.mul].
