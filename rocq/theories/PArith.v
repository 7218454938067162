(** The IEEE rules of SpecArith.v hold of the lane operations on every pair of words. *)
From Coq Require Import Reals Lra Lia ZArith Bool.
From Flocq Require Import Core IEEE754.BinarySingleNaN.
From Verif Require Import Base F32 F32Facts SpecF32 PF32 PFloat PExp PHyp PErr PReal PArcF SpecArith.
Open Scope R_scope.

Lemma single_fmt r : single r <-> fmt r.
Proof.
  split.
  - intros (m & e & (A & B) & ->). rewrite pow2_bpow. apply fmt_scaled; lia.
  - intros H. apply FLT_format_generic in H; [|reflexivity]. destruct H as [f E M X]. exists (Fnum f), (Fexp f). split; [split; [exact M|exact X]|]. rewrite pow2_bpow. exact E.
Qed.
Lemma nearest_RN x : nearest32 x (RN x).
Proof.
  destruct (round_NE_pt radix2 fx32 x) as (N & T). change (round radix2 fx32 ZnearestE x) with (RN x) in *. destruct N as (F & N).
  split; [apply single_fmt; exact F|]. split.
  - intros s S. apply N, single_fmt, S.
  - intros s S D E. destruct T as [P|U].
    + destruct (Req_dec (RN x) 0) as [Z0|Z0].
      { exists 0%Z, (-149)%Z. split; [|rewrite Z0; ring]. split; [reflexivity|]. split; [lia|]. split; [right; reflexivity|reflexivity]. }
      destruct P as (g & G & C & Ev). exists (Fnum g), (Fexp g). rewrite pow2_bpow. split; [|exact G].
      assert (FL : FLT_format radix2 (-149) 24 (RN x)) by (apply FLT_format_generic; [reflexivity|exact F]).
      unfold canonical in C. rewrite <- G in C.
      assert (MX : (Z.abs (Fnum g) < 2 ^ 24)%Z).
      { assert (B : Rabs (IZR (Fnum g)) < bpow radix2 24).
          { assert (L : Rabs (RN x) < bpow radix2 (mag radix2 (RN x))) by apply bpow_mag_gt.
            assert (GA : Rabs (RN x) = Rabs (F2R g)) by (rewrite G; reflexivity). rewrite GA in L. unfold F2R in L. rewrite Rabs_mult, (Rabs_pos_eq (bpow _ _)) in L by apply bpow_ge_0.
            assert (Q1 : (mag radix2 (RN x) <= 24 + Fexp g)%Z) by (rewrite C; unfold cexp, FLT_exp; lia).
            assert (Q2 : bpow radix2 (mag radix2 (RN x)) <= bpow radix2 24 * bpow radix2 (Fexp g)) by (rewrite <- bpow_plus; apply bpow_le; exact Q1).
            pose proof (bpow_gt_0 radix2 (Fexp g)). apply Rmult_lt_reg_r with (bpow radix2 (Fexp g)); [assumption|lra]. }
          rewrite <- abs_IZR in B. apply lt_IZR. exact B. }
      split; [exact MX|]. split; [rewrite C; unfold cexp, FLT_exp; lia|]. split; [|exact Ev].
      destruct (Z.eq_dec (Fexp g) (-149)) as [K|K]; [right; exact K|left].
      assert (Q1 : (mag radix2 (RN x) = 24 + Fexp g :> Z)%Z) by (revert K; rewrite C; unfold cexp, FLT_exp; lia).
      assert (L : bpow radix2 (mag radix2 (RN x) - 1) <= Rabs (RN x)) by (apply bpow_mag_le; exact Z0).
      assert (GA : Rabs (RN x) = Rabs (F2R g)) by (rewrite G; reflexivity). rewrite GA in L. unfold F2R in L. rewrite Rabs_mult, (Rabs_pos_eq (bpow _ _)) in L by apply bpow_ge_0.
      rewrite Q1 in L. replace (24 + Fexp g - 1)%Z with (23 + Fexp g)%Z in L by lia. rewrite bpow_plus in L. pose proof (bpow_gt_0 radix2 (Fexp g)).
      apply Rmult_le_reg_r in L; [|assumption]. rewrite <- abs_IZR in L. apply le_IZR. exact L.
    + exfalso. apply D, U. split; [apply single_fmt; exact S|]. intros h Hh. change (Rabs (s - x) <= Rabs (h - x)). rewrite E. apply N, Hh.
Qed.
Lemma rounds_any v x : fin_or_inf v x -> rounded x v.
Proof.
  intros H. exists (RN x). split; [apply nearest_RN|]. rewrite pow2_bpow. destruct H as [(L & ->)|(L & ->)]; [left; split; [exact L|reflexivity]|right]. split; [exact L|].
  eexists. split; [reflexivity|]. destruct (Rlt_bool_spec x 0); split; intros; try reflexivity; try discriminate; lra.
Qed.
Lemma rounds_fin x : Rabs (RN x) < huge -> rounded x (Fin (RN x)).
Proof. intros H. apply rounds_any. left. split; [exact H|reflexivity]. Qed.

(** the value of a word and its decoding *)
Lemma add_is a b : is_add (value a) (value b) (value (f_add a b)).
Proof.
  destruct (value a) as [|s|x] eqn:Va, (value b) as [|t|y] eqn:Vb; cbn [is_add]; try (apply rounds_any, add_any; assumption);
  unfold f_add; rewrite value_enc; rewrite value_dec in Va, Vb; destruct (dec a), (dec b); cbn [xof] in Va, Vb; try discriminate;
  try (injection Va as <-); try (injection Vb as <-); cbn [Bplus xof]; try reflexivity.
  destruct (Bool.eqb _ _); reflexivity.
Qed.
Lemma xof_fin_or f x : is_finite f = true -> B2R f = x -> xof f = Fin x.
Proof. intros F <-. apply xof_fin, F. Qed.
Lemma sub_any a b x y : value a = Fin x -> value b = Fin y -> fin_or_inf (value (f_sub a b)) (x - y).
Proof.
  intros Va Vb. destruct (Rlt_or_le (Rabs (RN (x - y))) huge) as [L|L]; [left; split; [exact L|apply sub_val; assumption]|right]. split; [exact L|].
  destruct (value_fin _ _ Va) as (Fa & Ea). destruct (value_fin _ _ Vb) as (Fb & Eb). pose proof (huge_RN0 _ L) as N.
  pose proof (Bminus_correct 24 128 _ _ mode_NE (dec a) (dec b) Fa Fb) as K. rewrite Ea, Eb in K. change (round _ _ _ (x - y)) with (RN (x - y)) in K.
  rewrite Rlt_bool_false in K by exact L. destruct K as [K S]. unfold f_sub. rewrite value_enc, (over_inf _ _ K). f_equal.
  destruct (Req_dec x 0) as [X0|X0]; [|destruct (Req_dec y 0) as [Y0|Y0]].
  - destruct (value_fmt _ _ Vb) as (Fy & Hy). rewrite X0, Rminus_0_l, RN_fmt, Rabs_Ropp in L by (apply fmt_opp; exact Fy). lra.
  - destruct (value_fmt _ _ Va) as (Fx & Hx). rewrite Y0, Rminus_0_r, RN_fmt in L by exact Fx. lra.
  - rewrite (sgn_of (dec a)), (sgn_of (dec b)), Ea, Eb in S by (rewrite ?Ea, ?Eb; assumption). rewrite (sgn_of (dec a)), Ea by (rewrite ?Ea; assumption).
    destruct (Rlt_bool_spec x 0) as [X|X], (Rlt_bool_spec y 0) as [Y|Y], (Rlt_bool_spec (x - y) 0) as [Z|Z]; try reflexivity; try discriminate S; exfalso; lra.
Qed.
Lemma sub_is a b : is_sub (value a) (value b) (value (f_sub a b)).
Proof.
  unfold is_sub. destruct (value a) as [|s|x] eqn:Va, (value b) as [|t|y] eqn:Vb; cbn [is_add xneg]; try (apply rounds_any; change (x + - y) with (x - y); apply sub_any; assumption);
  unfold f_sub; rewrite value_enc; rewrite value_dec in Va, Vb; destruct (dec a), (dec b); cbn [xof] in Va, Vb; try discriminate;
  try (injection Va as <-); try (injection Vb as <-); cbn [Bminus xof]; try reflexivity.
  destruct (Bool.eqb _ _); reflexivity.
Qed.
Lemma sgn_cases (t s : bool) m e : let x := F2R (Float radix2 (cond_Zopp t (Z.pos m)) e) in
  (x = 0 /\ Inf (xorb s t) = NaN) \/ (x < 0 /\ Inf (xorb s t) = Inf (negb s)) \/ (0 < x /\ Inf (xorb s t) = Inf s).
Proof.
  cbv zeta. right. destruct t; [left|right]; (split; [|rewrite ?xorb_true_r, ?xorb_false_r; reflexivity]).
  - apply F2R_lt_0. reflexivity.
  - apply F2R_gt_0. reflexivity.
Qed.
Ltac specials Va Vb := rewrite value_enc; rewrite value_dec in Va, Vb;
  match goal with |- context [?op _ (dec ?a) (dec ?b)] => destruct (dec a) as [sa|sa| |sa ma ea Ha], (dec b) as [sb|sb| |sb mb eb Hb] end; cbn [xof] in Va, Vb; try discriminate;
  try (apply f_equal with (f := fun v => match v with Inf q => q | _ => true end) in Va; cbv beta iota in Va; subst);
  try (apply f_equal with (f := fun v => match v with Inf q => q | _ => true end) in Vb; cbv beta iota in Vb; subst).
Lemma fin_inj x y : Fin x = Fin y -> x = y. Proof. intros H. apply f_equal with (f := fun v => match v with Fin q => q | _ => x end) in H. exact H. Qed.
Lemma inf_inj x y : Inf x = Inf y -> x = y. Proof. intros H. apply f_equal with (f := fun v => match v with Inf q => q | _ => x end) in H. exact H. Qed.
Lemma mul_special a b : (forall x, value a <> Fin x) \/ (forall y, value b <> Fin y) -> is_prod (value a) (value b) (value (f_mul a b)) /\ forall x, value (f_mul a b) <> Fin x.
Proof.
  unfold f_mul. rewrite value_enc, !value_dec. destruct (dec a) as [sa|sa| |sa ma ea Ha], (dec b) as [sb|sb| |sb mb eb Hb]; cbn [xof Bmult is_prod]; intros N;
  try (exfalso; destruct N as [N|N]; [exact (N _ eq_refl)|exact (N _ eq_refl)]); (split; [|discriminate]); try reflexivity; try (left; split; reflexivity).
  - apply sgn_cases.
  - rewrite xorb_comm. apply sgn_cases.
Qed.
Lemma mul_is a b : is_mul (value a) (value b) (value (f_mul a b)).
Proof.
  destruct (value a) as [|s|x] eqn:Va; [| |destruct (value b) as [|t|y] eqn:Vb].
  5: { exists (Fin (x * y)). split; [reflexivity|apply rounds_any, mul_any; assumption]. }
  all: rewrite <- ?Va, <- ?Vb; destruct (mul_special a b) as (P & F); [rewrite ?Va, ?Vb; (left; discriminate) || (right; discriminate)|];
    exists (value (f_mul a b)); (split; [exact P|]); destruct (value (f_mul a b)); [reflexivity|reflexivity|exfalso; eapply F; reflexivity].
Qed.
Lemma fma_is a b c : is_fma (value a) (value b) (value c) (value (f_fma a b c)).
Proof.
  destruct (value a) as [|s|x] eqn:Va; [| |destruct (value b) as [|t|y] eqn:Vb; [| |destruct (value c) as [|r|z] eqn:Vc]].
  7: { exists (Fin (x * y)). split; [reflexivity|]. cbn [is_add]. apply rounds_any, fma_any; assumption. }
  5, 6: exists (Fin (x * y)); (split; [reflexivity|]); cbn [is_add]; unfold f_fma; rewrite value_enc; rewrite value_dec in Va, Vb, Vc;
     destruct (dec a), (dec b), (dec c); cbn [xof] in Va, Vb, Vc; try discriminate; cbn [Bfma xof]; solve [reflexivity|exact Vc].
  all: rewrite <- ?Va, <- ?Vb; destruct (mul_special a b) as (P & F); [rewrite ?Va, ?Vb; (left; discriminate) || (right; discriminate)|];
    exists (value (f_mul a b)); (split; [exact P|]); clear P F;
    unfold f_fma, f_mul; rewrite !value_enc, !value_dec; rewrite ?value_dec in Va; try rewrite value_dec in Vb;
    destruct (dec a), (dec b); cbn [xof] in Va; try discriminate; try (cbn [xof] in Vb; discriminate); cbn [Bmult xof];
    destruct (dec c); cbn [Bfma xof is_add]; try reflexivity.
  all: repeat match goal with t : bool |- _ => destruct t end; reflexivity.
Qed.
Lemma bit_sign_dec z : value z <> NaN -> bit_sign z = Bsign (dec z).
Proof.
  rewrite value_dec. pose proof (dec_sf z) as H. unfold sf_of in H. change (bit_sign z) with (fsgn z). intros N.
  destruct (fexpo z =? 0)%Z; [|destruct (fexpo z =? 255)%Z].
  - destruct (ffrac z); destruct (dec z); try discriminate H; cbn [xof B2SF] in *; try congruence; cbn [Bsign]; congruence.
  - destruct (ffrac z); destruct (dec z); try discriminate H; cbn [xof B2SF] in *; try congruence; cbn [Bsign]; congruence.
  - destruct (_ + _)%Z; destruct (dec z); try discriminate H; cbn [xof B2SF] in *; try congruence; cbn [Bsign]; congruence.
Qed.
Lemma div_is a b : is_div (bit_sign a) (bit_sign b) (value a) (value b) (value (f_div a b)).
Proof.
  pose proof (bit_sign_dec a) as Sa. pose proof (bit_sign_dec b) as Sb.
  destruct (value a) as [|s|x] eqn:Va, (value b) as [|t|y] eqn:Vb; cbn [is_div];
  try specialize (Sa ltac:(discriminate)); try specialize (Sb ltac:(discriminate)).
  9: { destruct (Req_dec y 0) as [Y|Y]; [right|left; split; [exact Y|]].
    - destruct (value_fin _ _ Va) as (Fa & Ea). destruct (value_fin _ _ Vb) as (Fb & Eb). rewrite Sa, Sb. unfold f_div. rewrite value_enc. subst y.
      destruct (dec b) as [sb|sb| |sb mb eb Hb]; try discriminate; cbn [B2R] in Eb; [|exfalso; apply eq_0_F2R in Eb; destruct sb; discriminate].
      destruct (dec a) as [sa|sa| |sa ma ea Ha]; try discriminate; cbn [B2R] in Ea; subst x; cbn [Bdiv xof Bsign].
      + right. split; [reflexivity|]. split; reflexivity.
      + left. split; [reflexivity|]. split; [|reflexivity]. intros Q0. apply eq_0_F2R in Q0. destruct sa; discriminate.
    - destruct (Req_dec x 0) as [X|X].
      + assert (R0 : RN (x / y) = 0) by (subst x; unfold Rdiv; rewrite Rmult_0_l; apply RN_fmt, fmt_0).
        rewrite (div_val a b x y Va Vb Y) by (rewrite R0, Rabs_R0; apply bpow_gt_0). apply rounds_fin. rewrite R0, Rabs_R0; apply bpow_gt_0.
      + apply rounds_any. destruct (div_cases a b x y Va Vb X Y) as [D|(D & E)]; [left; exact D|right; split; [exact D|rewrite E; f_equal]].
        destruct (Rltb_spec (x / y) 0), (Rlt_bool_spec (x / y) 0); try reflexivity; lra. }
  all: unfold f_div; rewrite value_enc; rewrite value_dec in Va, Vb; rewrite ?Sa, ?Sb; clear Sa Sb;
    destruct (dec a), (dec b); cbn [xof] in Va, Vb; try discriminate; try apply inf_inj in Va; try apply inf_inj in Vb; subst; cbn [Bdiv xof Bsign]; try reflexivity.
Qed.
Lemma sqrt_is a : is_sqrt (value a) (value (f_sqrt a)).
Proof.
  destruct (value a) as [|s|x] eqn:Va; cbn [is_sqrt].
  - unfold f_sqrt. rewrite value_enc. rewrite value_dec in Va. destruct (dec a); cbn [xof] in Va; try discriminate. reflexivity.
  - unfold f_sqrt. rewrite value_enc. rewrite value_dec in Va. destruct (dec a); cbn [xof] in Va; try discriminate. apply inf_inj in Va. subst. destruct s; reflexivity.
  - destruct (Rlt_or_le x 0) as [N|N]; [left; split; [exact N|]|right; split; [exact N|]].
    + unfold f_sqrt. rewrite value_enc. rewrite value_dec in Va. destruct (dec a) as [t|t| |t m e H]; cbn [xof] in Va; try discriminate; apply fin_inj in Va.
      * cbn [B2R] in Va. lra.
      * destruct t; [reflexivity|]. exfalso. assert (0 < F2R (Float radix2 (Z.pos m) e)) by (apply F2R_gt_0; reflexivity). change (F2R (Float radix2 (Z.pos m) e) = x) in Va. lra.
    + rewrite (sqrt_val a x Va N). apply rounds_fin. destruct (value_fmt _ _ (sqrt_val a x Va N)) as (_ & B). exact B.
Qed.
