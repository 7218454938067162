(** Binary32 rounding errors of the inverse trigonometric functions. *)
From Coq Require Import Reals Lra Lia ZArith Bool Psatz Ratan.
From Flocq Require Import Core IEEE754.BinarySingleNaN.
From Verif Require Import Base F32 F32Facts Intrin Lane MVec MTrig SpecF32 PF32 PFloat PExp PReal PTrigPoly PArcPoly PTrig PArc PCompare SpecErr PErr PFix PTrigF.
Open Scope R_scope.

(** ** sqrt (1 - |v|) *)
Lemma sqrt_near t a d : 0 <= t <= 1 -> 0 <= a -> Rabs (a - t) <= u24 * t + d -> 0 <= d <= / 1000000000000000000000000000000 ->
  Rabs (sqrt a - sqrt t) <= 6 / 100000000.
Proof.
  intros Ht Ha H Hd. pose proof (sqrt_pos a) as Sa. pose proof (sqrt_pos t) as St. pose proof (sqrt_sqrt a Ha) as Qa. pose proof (sqrt_sqrt t (proj1 Ht)) as Qt.
  set (p := sqrt a) in *. set (q := sqrt t) in *. assert (Q1 : q <= 1) by nra.
  destruct (Rle_dec (/ 10000000000) q) as [L|L].
  - assert (D : Rabs (p - q) * q <= u24 * t + d).
    { apply Rle_trans with (Rabs (p - q) * Rabs (p + q)); [apply Rmult_le_compat_l; [apply Rabs_pos|]; rewrite Rabs_pos_eq by lra; lra|].
      rewrite <- Rabs_mult. replace ((p - q) * (p + q)) with (a - t) by (rewrite <- Qa, <- Qt; ring). exact H. }
    apply (Rmult_le_reg_r q); [lra|]. unfold u24 in *. nra.
  - apply Rabs_le_inv in H. unfold u24 in H. assert (A1 : a <= 2 * / 100000000000000000000) by nra.
    assert (P : p <= 2 * / 10000000000) by nra. apply Rabs_le. lra.
Qed.
Lemma fmt_1 : fmt 1. Proof. apply (fmt_int 1). lia. Qed.
Lemma sqrt_le1 x : x <= 1 -> sqrt x <= 1. Proof. intros H. rewrite <- sqrt_1. apply sqrt_le_1_alt, H. Qed.
Lemma root_fx z x : value z = Fin x -> 0 <= x <= 1 -> forall o, o = f_sub (f_lit 1 0) z -> f_lt o (f_lit 0 0) = false /\ fx S60 140000000000 (f_sqrt o) (sqrt (1 - x)).
Proof.
  intros V H o ->. assert (A : Rabs (1 - x) <= 1) by (rewrite Rabs_pos_eq; lra).
  assert (VO : value (f_sub (f_lit 1 0) z) = Fin (RN (1 - x))) by (apply sub_val; [exact val_one|exact V|apply small_huge'; lra]).
  assert (O0 : 0 <= RN (1 - x)) by (rewrite <- (RN_fmt 0 fmt_0); apply RN_le; lra).
  assert (O1 : RN (1 - x) <= 1) by (apply Rle_trans with (RN 1); [apply RN_le; lra|rewrite (RN_fmt 1 fmt_1); lra]).
  split.
  - rewrite (lt_val' _ _ _ _ VO val_zero). destruct (Rltb_spec (RN (1 - x)) 0); [lra|reflexivity].
  - pose proof (RN_err' (1 - x)) as E. rewrite (Rabs_pos_eq (1 - x)) in E by lra.
    pose proof (sqrt_near (1 - x) (RN (1 - x)) (/ 1000000000000000000000000000000) ltac:(lra) O0 E ltac:(lra)) as S.
    assert (S0 : 0 <= sqrt (RN (1 - x)) <= 1) by (split; [apply sqrt_pos|apply sqrt_le1, O1]).
    assert (T0 : 0 <= sqrt (1 - x) <= 1) by (split; [apply sqrt_pos|apply sqrt_le1; lra]).
    split; [vm_compute; discriminate|]. split; [lia|]. split; [rewrite Rabs_pos_eq by lra; unfold unit60, S60; lra|].
    exists (RN (sqrt (RN (1 - x)))). split; [apply sqrt_val; [exact VO|exact O0]|].
    pose proof (RN_err' (sqrt (RN (1 - x)))) as E2. rewrite (Rabs_pos_eq (sqrt _)) in E2 by lra.
    replace (RN (sqrt (RN (1 - x))) - sqrt (1 - x)) with ((RN (sqrt (RN (1 - x))) - sqrt (RN (1 - x))) + (sqrt (RN (1 - x)) - sqrt (1 - x))) by ring.
    apply Rle_trans with ((Rabs (RN (sqrt (RN (1 - x))) - sqrt (RN (1 - x))) + Rabs (sqrt (RN (1 - x)) - sqrt (1 - x))) * unit60); [apply Rmult_le_compat_r; [unfold unit60; lra|apply Rabs_triang]|].
    unfold u24, unit60 in *. lra.
Qed.
Ltac acbv := lazy beta iota zeta delta [arc_poly varc FMADD FNMADD vmul vadd vsub vone vzero vneg_one qmap qmap2 qmap3 qrep lane qx qy qz qw
  T tadd tsub tmul tdiv tsqrt tneg tabs tfma tlt tle teq tlit FL AC0 AC1 AC2 AC3 AC4 AC5 AC6 AC7 one half zero two vsel vsqrt vmax vge tge].
Lemma arc_fx z x : value z = Fin x -> 0 <= x <= 1 -> fx S60 0 z x.
Proof. intros V H. apply fx_exact; [exact V|]. rewrite Rabs_pos_eq by lra. unfold unit60, S60. lra. Qed.
Definition arcE : Z := 660000000000.
Lemma fx_le M E E' z x : fx M E z x -> (E <= E')%Z -> fx M E' z x.
Proof. intros (A & B & C & v & V & D) H. split; [exact A|]. split; [lia|]. split; [exact C|]. exists v. split; [exact V|]. apply IZR_le in H. lra. Qed.
Lemma fx_le' M E M' E' z x : fx M E z x -> (E <=? E')%Z = true -> (M <=? M')%Z = true -> fx M' E' z x.
Proof.
  intros (A & B & C & v & V & D) H1 H2. apply Z.leb_le in H1, H2. split; [lia|]. split; [lia|]. split; [apply IZR_le in H2; lra|]. exists v. split; [exact V|]. apply IZR_le in H1. lra.
Qed.
Definition arcM : Z := 2290000000000000000.
Ltac showE := match goal with |- (?a <=? _)%Z = _ => let x := eval vm_compute in a in idtac x end.
Lemma scalar_arc_F z v : is32 z v -> Rabs v <= 1 -> fx arcM arcE (@scalar_arc FL z) (arcc v).
Proof.
  intros (W & V) H. pose proof (Rabs_pos v) as P. pose proof (abs_val z v W V) as VA. destruct (root_fx _ _ VA (conj P H) _ eq_refl) as (L & R). pose proof (arc_fx _ _ VA (conj P H)) as X.
  unfold scalar_arc. cbv zeta. change (@tabs FL z) with (f_abs z). set (xx := f_abs z) in *. set (oo := @tsub FL one xx). change (f_sub (f_lit 1 0) xx) with oo in *.
  change (@tlt FL oo zero) with (f_lt oo (f_lit 0 0)). rewrite L. unfold arcc. rewrite Rmax_right by lra. clearbody oo xx.
  acbv. eapply fx_le'; [eapply fx_x; [fxt|]; rl; unfold arcp; generalize (sqrt (1 - Rabs v)); intros; field|vm_compute; reflexivity|vm_compute; reflexivity].
Qed.

Lemma ge0_val z v : value z = Fin v -> f_le (f_lit 0 0) z = Rleb 0 v.
Proof. intros V. exact (le_val _ _ _ _ val_zero V). Qed.
Lemma PI_fx : fx 3622009829830164480 0 (@XM_PI FL) PI32.
Proof. apply fx_exact; [exact val_PI|]. rewrite Rabs_pos_eq; unfold PI32, unit60; lra. Qed.
Lemma hPI_fx : fx 1811004914915082240 0 (@XM_PIDIV2 FL) halfPI32.
Proof. apply half_fx; [exact val_PIDIV2|]. rewrite Rabs_pos_eq; unfold halfPI32; lra. Qed.
Lemma tri2 e1 e2 z x y : within e1 z x -> Rabs (x - y) <= e2 -> within (e1 + e2) z y.
Proof. exact (within_add e1 e2 z x y). Qed.
Theorem scalar_acos_F z v : is32 z v -> Rabs v <= 1 -> within (16 / 10000000) (@XMScalarACos FL z) (acos v).
Proof.
  intros I H. pose proof (scalar_arc_F z v I H) as F. destruct I as (W & V). eapply within_le; [eapply tri2; [|apply racos_ok]|].
  - unfold XMScalarACos. cbv zeta. unfold tge. change (@tle FL zero z) with (f_le (f_lit 0 0) z). rewrite (ge0_val z v V). unfold racos.
    change (@tsub FL) with f_sub. pose proof PI_fx. destruct (Rleb 0 v); eapply (fx_within 960); [fxt|vm_compute; reflexivity|fxt|vm_compute; reflexivity].
  - lra.
Qed.
Theorem scalar_asin_F z v : is32 z v -> Rabs v <= 1 -> within (16 / 10000000) (@XMScalarASin FL z) (asin v).
Proof.
  intros I H. pose proof (scalar_arc_F z v I H) as F. destruct I as (W & V). eapply within_le; [eapply tri2; [|apply racos_asin]|].
  - unfold XMScalarASin. cbv zeta. unfold tge. change (@tle FL zero z) with (f_le (f_lit 0 0) z). rewrite (ge0_val z v V). unfold racos.
    change (@tsub FL) with f_sub. pose proof hPI_fx. destruct (Rleb 0 v); (eapply (fx_within 900); [eapply fx_x; [fxt|unfold halfPI32, PI32; lra]|vm_compute; reflexivity]).
  - lra.
Qed.
(** ** the vector forms *)
Lemma vabs_val z v : is32 z v -> value (if f_lt (f_sub (f_lit 0 0) z) z then z else f_sub (f_lit 0 0) z) = Fin (Rabs v).
Proof.
  intros (W & V). change (f_lit 0 0) with 0%Z. pose proof (value_sub0 z W) as N. rewrite V in N. cbn [xneg] in N. rewrite (lt_val' _ _ _ _ N V).
  destruct (Rltb_spec (- v) v) as [L|L]; [rewrite V, Rabs_pos_eq by lra; reflexivity|rewrite N, Rabs_left1 by lra; reflexivity].
Qed.
Definition arc_lane (fma : bool) (z : Z) : Z :=
  let fmadd x y c := if fma then f_fma x y c else f_add (f_mul x y) c in
  let m := f_sub (f_lit 0 0) z in
  let x := if f_lt m z then z else m in
  let o := f_sub (f_lit 1 0) x in
  let o := if f_lt o (f_lit 0 0) then f_lit 0 0 else o in
  let r := f_sqrt o in
  let t := fmadd (@AC7 FL) x (@AC6 FL) in
  let t := fmadd t x (@AC5 FL) in
  let t := fmadd t x (@AC4 FL) in
  let t := fmadd t x (@AC3 FL) in
  let t := fmadd t x (@AC2 FL) in
  let t := fmadd t x (@AC1 FL) in
  let t := fmadd t x (@AC0 FL) in
  let t := f_mul t r in
  if f_le (f_lit 0 0) z then t else f_sub (@XM_PI FL) t.
Lemma varc_lane b V k : lane (@varc FL b V) k = arc_lane (fma_of b) (lane V k).
Proof. destruct b as [|s3 s4 [|] av]; destruct V as [v0 v1 v2 v3], k; unfold arc_lane, fma_of; acbv; reflexivity. Qed.
Lemma arc_lane_ok fma z v : is32 z v -> Rabs v <= 1 -> fx 5920000000000000000 1120000000000 (arc_lane fma z) (racos v).
Proof.
  intros I H. pose proof (Rabs_pos v) as P. pose proof (vabs_val z v I) as VA. destruct (root_fx _ _ VA (conj P H) _ eq_refl) as (L & R). pose proof (arc_fx _ _ VA (conj P H)) as X.
  destruct I as (W & V). unfold arc_lane. cbv zeta. rewrite (ge0_val z v V). set (xx := if f_lt _ z then z else _) in *. rewrite L.
  set (oo := f_sub (f_lit 1 0) xx) in *. clearbody oo xx. unfold racos, arcc. rewrite Rmax_right by lra. generalize dependent (sqrt (1 - Rabs v)). intros s R. pose proof PI_fx as PF.
  unfold AC0, AC1, AC2, AC3, AC4, AC5, AC6, AC7. change (@tlit FL) with f_lit.
  destruct fma; destruct (Rleb 0 v); (eapply fx_le'; [eapply fx_x; [fxt|]; rl; unfold arcp; field|vm_compute; reflexivity|vm_compute; reflexivity]).
Qed.
Theorem vector_acos_F (lm : Libm FL) b V k v : b <> Scalar -> is32 (lane V k) v -> Rabs v <= 1 ->
  within (16 / 10000000) (lane (XMVectorACos b V) k) (acos v) /\ within (21 / 10000000) (lane (XMVectorASin b V) k) (asin v).
Proof.
  intros Hb I H. pose proof (arc_lane_ok (fma_of b) _ v I H) as F.
  assert (EC : lane (XMVectorACos b V) k = arc_lane (fma_of b) (lane V k)) by (rewrite <- varc_lane; destruct b; [congruence|reflexivity]).
  assert (ES : lane (XMVectorASin b V) k = f_sub (@XM_PIDIV2 FL) (arc_lane (fma_of b) (lane V k))).
  { rewrite <- varc_lane. destruct b as [|s3 s4 f av]; [congruence|]. unfold XMVectorASin. destruct (@varc FL (SSE s3 s4 f av) V), k; reflexivity. }
  pose proof hPI_fx as HF. rewrite EC, ES. split.
  - eapply within_le; [eapply tri2; [|apply racos_ok]|]; [eapply (fx_within 973); [exact F|vm_compute; reflexivity]|lra].
  - eapply within_le; [eapply tri2; [|apply racos_asin]|]; [eapply (fx_within 1372); [fxt|vm_compute; reflexivity]|lra].
Qed.

(** ** arc tangent *)
Definition atan_lane (fma : bool) (z : Z) : Z :=
  let fmadd x y c := if fma then f_fma x y c else f_add (f_mul x y) c in
  let m := f_sub (f_lit 0 0) z in
  let a := if f_lt z m then m else z in
  let i := f_div (f_lit 1 0) z in
  let s := if f_lt (f_lit 1 0) z then f_lit 1 0 else f_lit (-1) 0 in
  let c := f_le a (f_lit 1 0) in
  let s := if c then f_lit 0 0 else s in
  let x := if c then z else i in
  let x2 := f_mul x x in
  let t := fmadd (@TC7 FL) x2 (@TC6 FL) in
  let t := fmadd t x2 (@TC5 FL) in
  let t := fmadd t x2 (@TC4 FL) in
  let t := fmadd t x2 (@TC3 FL) in
  let t := fmadd t x2 (@TC2 FL) in
  let t := fmadd t x2 (@TC1 FL) in
  let t := fmadd t x2 (@TC0 FL) in
  let t := fmadd t x2 (f_lit 1 0) in
  let t := f_mul t x in
  if f_eq s (f_lit 0 0) then t else f_sub (f_mul s (@XM_PIDIV2 FL)) t.
Ltac ccbv := lazy beta iota zeta delta [XMVectorATan XMVectorAbs FMADD FNMADD vmul vadd vsub vdiv vone vzero vneg_one qmap qmap2 qmap3 qrep lane qx qy qz qw
  T tadd tsub tmul tdiv tsqrt tneg tabs tfma tlt tle teq tlit FL TC0 TC1 TC2 TC3 TC4 TC5 TC6 TC7 one half zero two vsel vsqrt vmax vge tge vgt tgt vle veq XM_PIDIV2].
Lemma vatan_lane (lm : Libm FL) b V k : b <> Scalar -> lane (XMVectorATan b V) k = atan_lane (fma_of b) (lane V k).
Proof. intros H. destruct b as [|s3 s4 [|] av]; [congruence|..]; destruct V as [v0 v1 v2 v3], k; unfold atan_lane, fma_of; ccbv; reflexivity. Qed.

(** the polynomial, on a reduced argument *)
Definition atan_tail (fma : bool) (x : Z) : Z :=
  let fmadd x y c := if fma then f_fma x y c else f_add (f_mul x y) c in
  let x2 := f_mul x x in
  let t := fmadd (@TC7 FL) x2 (@TC6 FL) in
  let t := fmadd t x2 (@TC5 FL) in
  let t := fmadd t x2 (@TC4 FL) in
  let t := fmadd t x2 (@TC3 FL) in
  let t := fmadd t x2 (@TC2 FL) in
  let t := fmadd t x2 (@TC1 FL) in
  let t := fmadd t x2 (@TC0 FL) in
  let t := fmadd t x2 (f_lit 1 0) in
  f_mul t x.
Definition atM : Z := 2400000000000000000.
Definition atE : Z := 750000000000.
Lemma atan_tail_ok fma x v : value x = Fin v -> Rabs v <= 1 -> fx atM atE (atan_tail fma x) (atanp v).
Proof.
  intros V H. assert (X : fx S60 0 x v) by (apply fx_exact; [exact V|unfold unit60, S60; lra]).
  unfold atan_tail, TC0, TC1, TC2, TC3, TC4, TC5, TC6, TC7. cbv zeta. change (@tlit FL) with f_lit.
  destruct fma; (eapply fx_le'; [eapply fx_x; [fxt|]; rl; unfold atanp; cbv zeta; field|vm_compute; reflexivity|vm_compute; reflexivity]).
Qed.
Lemma atan_split fma z : let c := f_le (if f_lt z (f_sub (f_lit 0 0) z) then f_sub (f_lit 0 0) z else z) (f_lit 1 0) in
  atan_lane fma z = if c then atan_tail fma z else f_sub (f_mul (if f_lt (f_lit 1 0) z then f_lit 1 0 else f_lit (-1) 0) (@XM_PIDIV2 FL)) (atan_tail fma (f_div (f_lit 1 0) z)).
Proof.
  cbv zeta. unfold atan_lane. cbv zeta. destruct (f_le _ (f_lit 1 0)).
  - replace (f_eq (f_lit 0 0) (f_lit 0 0)) with true by (vm_compute; reflexivity). reflexivity.
  - destruct (f_lt (f_lit 1 0) z).
    + replace (f_eq (f_lit 1 0) (f_lit 0 0)) with false by (vm_compute; reflexivity). reflexivity.
    + replace (f_eq (f_lit (-1) 0) (f_lit 0 0)) with false by (vm_compute; reflexivity). reflexivity.
Qed.
Lemma val_m1 : value (f_lit (-1) 0) = Fin (-1). Proof. change (f_lit (-1) 0) with (f_of_Z (-1)). apply (of_Z_exact (-1)). lia. Qed.
Lemma outer_fx (s : bool) t p : fx atM atE t p -> fx 4300000000000000000 1110000000000 (f_sub (f_mul (if s then f_lit 1 0 else f_lit (-1) 0) (@XM_PIDIV2 FL)) t) ((if s then halfPI32 else - halfPI32) - p).
Proof.
  intros F. pose proof hPI_fx as HF. destruct s; (eapply fx_le'; [eapply fx_x; [fxt|rl; ring]|vm_compute; reflexivity|vm_compute; reflexivity]).
Qed.
Definition atan_of (x : xreal) : R := match x with Fin v => atan v | Inf s => if s then - (PI / 2) else PI / 2 | NaN => 0 end.
Lemma dec_inf z s : value z = Inf s -> dec z = B754_infinity s.
Proof. rewrite value_dec. destruct (dec z); cbn [xof]; intros H; try discriminate. congruence. Qed.
Lemma div_inf a z x s : value a = Fin x -> value z = Inf s -> value (f_div a z) = Fin 0.
Proof.
  intros A Z. unfold f_div. rewrite value_enc, (dec_inf z s Z). rewrite value_dec in A. destruct (dec a); cbn [xof] in A; try discriminate; destruct s; reflexivity.
Qed.
Lemma inv_bound v : 1 < Rabs v -> v <> 0 /\ Rabs (1 / v) <= 1 /\ Rabs (RN (1 / v)) <= 1.
Proof.
  intros L. assert (N : v <> 0) by (intros ->; rewrite Rabs_R0 in L; lra).
  assert (I : Rabs (1 / v) <= 1) by (unfold Rdiv; rewrite Rmult_1_l, Rabs_inv, <- Rinv_1; apply Rinv_le_contravar; lra).
  split; [exact N|]. split; [exact I|]. apply Rabs_le_inv in I. apply Rabs_le. split.
  - rewrite <- (RN_fmt _ (fmt_opp _ fmt_1)). apply RN_le. lra.
  - apply Rle_trans with (RN 1); [apply RN_le; lra|rewrite (RN_fmt 1 fmt_1); lra].
Qed.
Lemma atan_lip a b : Rabs (atan a - atan b) <= Rabs (a - b).
Proof.
  assert (G : forall a b, a < b -> 0 <= atan b - atan a <= b - a).
  { intros x y L. destruct (MVT_cor2 atan (fun t => / (1 + t ^ 2)) x y L) as (c & E & C).
    - intros c _. exact (derivable_pt_lim_atan c).
    - rewrite E. assert (0 <= c ^ 2) by nra. assert (0 < / (1 + c ^ 2) <= 1).
      { split; [apply Rinv_0_lt_compat; lra|]. rewrite <- Rinv_1. apply Rinv_le_contravar; lra. } nra. }
  destruct (Rtotal_order a b) as [H|[H|H]].
  - specialize (G a b H). rewrite Rabs_minus_sym, (Rabs_minus_sym a). rewrite !Rabs_pos_eq; lra.
  - subst. rewrite !Rminus_diag_eq by reflexivity. lra.
  - specialize (G b a H). rewrite !Rabs_pos_eq; lra.
Qed.
Lemma atan_inv_any v : 1 < Rabs v -> (if Rltb 1 v then PI / 2 else - (PI / 2)) - atan (1 / v) = atan v.
Proof.
  intros L. replace (1 / v) with (/ v) by (unfold Rdiv; ring). destruct (Rltb_spec 1 v) as [P|P].
  - rewrite atan_inv by lra. ring.
  - assert (N : v < 0) by (unfold Rabs in L; destruct (Rcase_abs v); lra).
    pose proof (atan_inv (- v) ltac:(lra)) as B. rewrite atan_opp in B. replace (/ - v) with (- / v) in B by (field; lra). rewrite atan_opp in B. lra.
Qed.
Lemma lt1_val z v : value z = Fin v -> f_lt (f_lit 1 0) z = Rltb 1 v.
Proof. intros V. exact (lt_val' _ _ _ _ val_one V). Qed.
(** every word that is not NaN, infinities included *)
Lemma atan_lane_ok fma z : word z -> value z <> NaN -> within (15 / 10000000) (atan_lane fma z) (atan_of (value z)).
Proof.
  intros W NN. rewrite atan_split. cbv zeta. pose proof (value_absmax z W) as VA. change (f_lit 0 0) with 0%Z. set (aa := if f_lt z (f_sub 0 z) then _ else z) in *. clearbody aa.
  pose proof halfPI32_err as HE. destruct (value z) as [|s|v] eqn:V; [congruence| |]; cbn [xabs] in VA.
  - replace (f_le aa (f_lit 1 0)) with false.
    2:{ symmetry. destruct (f_le aa (f_lit 1 0)) eqn:E; [|reflexivity]. apply f_le_spec in E. rewrite VA, val_one in E. destruct E as [E|E]; cbn in E; contradiction. }
    pose proof (div_inf _ z 1 s val_one V) as D. assert (Z0 : Rabs 0 <= 1) by (rewrite Rabs_R0; lra). pose proof (atan_tail_ok fma _ 0 D Z0) as F.
    assert (S : f_lt (f_lit 1 0) z = negb s).
    { destruct (f_lt (f_lit 1 0) z) eqn:E; destruct s; try reflexivity; exfalso.
      - apply f_lt_spec in E. rewrite V, val_one in E. exact E.
      - assert (f_lt (f_lit 1 0) z = true); [|congruence]. apply f_lt_spec. rewrite V, val_one. exact I. }
    rewrite S. pose proof (outer_fx (negb s) _ _ F) as O. replace (atanp 0) with 0 in O by (unfold atanp; cbv zeta; ring).
    eapply within_le; [eapply tri2; [eapply (fx_within 963); [exact O|vm_compute; reflexivity]|]|].
    + cbn [atan_of]. instantiate (1 := 4372 / 100000000000). destruct s; cbn [negb]; [|replace (halfPI32 - 0 - PI / 2) with (halfPI32 - PI / 2) by ring; exact HE].
      replace (- halfPI32 - 0 - - (PI / 2)) with (- (halfPI32 - PI / 2)) by ring. rewrite Rabs_Ropp. exact HE.
    + lra.
  - rewrite (le_val _ _ _ _ VA val_one). destruct (Rleb_spec (Rabs v) 1) as [L|L].
    + eapply within_le; [eapply tri2; [eapply (fx_within 651); [eapply atan_tail_ok; eassumption|vm_compute; reflexivity]|apply atanp_ok, L]|unfold atan_err; lra].
    + apply Rnot_le_lt in L. destruct (inv_bound v L) as (N & I1 & I2).
      assert (D : value (f_div (f_lit 1 0) z) = Fin (RN (1 / v))) by (apply div_val; [exact val_one|exact V|exact N|apply small_huge'; lra]).
      pose proof (atan_tail_ok fma _ _ D I2) as F. rewrite (lt1_val z v V). pose proof (outer_fx (Rltb 1 v) _ _ F) as O.
      eapply within_le; [eapply tri2; [eapply (fx_within 963); [exact O|vm_compute; reflexivity]|]|].
      * instantiate (1 := 4372 / 100000000000 + (atan_err + 6 / 100000000)). cbn [atan_of]. rewrite <- (atan_inv_any v L).
        pose proof (atanp_ok _ I2) as A. pose proof (atan_lip (RN (1 / v)) (1 / v)) as AL. pose proof (RN_err' (1 / v)) as RE.
        replace ((if Rltb 1 v then halfPI32 else - halfPI32) - atanp (RN (1 / v)) - ((if Rltb 1 v then PI / 2 else - (PI / 2)) - atan (1 / v)))
          with (((if Rltb 1 v then halfPI32 else - halfPI32) - (if Rltb 1 v then PI / 2 else - (PI / 2))) + - (atanp (RN (1 / v)) - atan (RN (1 / v))) + - (atan (RN (1 / v)) - atan (1 / v)) + 0) by ring.
        eapply Rle_trans; [apply abs4|]. rewrite !Rabs_Ropp, Rabs_R0.
        assert (Rabs ((if Rltb 1 v then halfPI32 else - halfPI32) - (if Rltb 1 v then PI / 2 else - (PI / 2))) <= 4372 / 100000000000).
        { destruct (Rltb 1 v); [exact HE|]. replace (- halfPI32 - - (PI / 2)) with (- (halfPI32 - PI / 2)) by ring. rewrite Rabs_Ropp. exact HE. }
        unfold u24 in RE. lra.
      * unfold atan_err. lra.
Qed.
Theorem vector_atan_F (lm : Libm FL) b V k : b <> Scalar -> word (lane V k) -> value (lane V k) <> NaN -> within (15 / 10000000) (lane (XMVectorATan b V) k) (atan_of (value (lane V k))).
Proof. intros Hb W N. rewrite vatan_lane by exact Hb. apply atan_lane_ok; assumption. Qed.

(** ** arc tangent of two arguments *)
Lemma atan_inv_sgn v : v <> 0 -> (if Rltb 0 v then PI / 2 else - (PI / 2)) - atan (1 / v) = atan v.
Proof.
  intros L. replace (1 / v) with (/ v) by (unfold Rdiv; ring). destruct (Rltb_spec 0 v) as [P|P].
  - rewrite atan_inv by lra. ring.
  - pose proof (atan_inv (- v) ltac:(lra)) as B. rewrite atan_opp in B. replace (/ - v) with (- / v) in B by (field; lra). rewrite atan_opp in B. lra.
Qed.
Lemma Bsign_val z x : value z = Fin x -> x <> 0 -> Bsign (dec z) = Rltb x 0.
Proof.
  intros (F & E)%value_fin N. destruct (dec z) as [s|s| |s m e H]; try discriminate; cbn [B2R] in E; [congruence|]. cbn [Bsign]. subst x.
  destruct s; cbn [cond_Zopp] in *.
  - assert (F2R (Float radix2 (Z.neg m) e) < 0) by (apply F2R_lt_0; reflexivity). destruct (Rltb_spec (F2R (Float radix2 (- Z.pos m) e)) 0); [reflexivity|contradiction].
  - assert (0 < F2R (Float radix2 (Z.pos m) e)) by (apply F2R_gt_0; reflexivity). destruct (Rltb_spec (F2R (Float radix2 (Z.pos m) e)) 0); [lra|reflexivity].
Qed.
Lemma div_cases a b x y : value a = Fin x -> value b = Fin y -> x <> 0 -> y <> 0 ->
  (Rabs (RN (x / y)) < huge /\ value (f_div a b) = Fin (RN (x / y))) \/ (huge <= Rabs (RN (x / y)) /\ value (f_div a b) = Inf (Rltb (x / y) 0)).
Proof.
  intros Va Vb Nx Ny. destruct (Rlt_dec (Rabs (RN (x / y))) huge) as [L|L]; [left; split; [exact L|apply div_val; assumption]|]. right. apply Rnot_lt_le in L. split; [exact L|].
  pose proof (Bsign_val a x Va Nx) as Sx. pose proof (Bsign_val b y Vb Ny) as Sy.
  destruct (value_fin _ _ Va) as (Fa & Ea). destruct (value_fin _ _ Vb) as (Fb & Eb).
  assert (Nb : B2R (dec b) <> 0) by (rewrite Eb; exact Ny).
  pose proof (Bdiv_correct 24 128 _ _ mode_NE (dec a) (dec b) Nb) as K. rewrite Ea, Eb in K. change (round _ _ _ (x / y)) with (RN (x / y)) in K.
  rewrite Rlt_bool_false in K by exact L. cbn [binary_overflow overflow_to_inf] in K. unfold f_div. rewrite value_enc.
  rewrite Sx, Sy in K. set (d := Bdiv mode_NE (dec a) (dec b)) in *. destruct d; cbn [B2SF] in K; try discriminate K. injection K as ->. cbn [xof]. f_equal.
  destruct (Rltb_spec x 0), (Rltb_spec y 0), (Rltb_spec (x / y) 0); cbn [xorb]; try reflexivity; exfalso.
  - assert (0 < x / y) by (replace (x / y) with (- x / - y) by (field; exact Ny); apply Rdiv_lt_0_compat; lra). lra.
  - assert (0 < - x / y) by (apply Rdiv_lt_0_compat; lra). unfold Rdiv in *. lra.
  - assert (0 < x / - y) by (apply Rdiv_lt_0_compat; lra). replace (x / - y) with (- (x / y)) in H by (field; exact Ny). lra.
  - assert (0 < x / y) by (apply Rdiv_lt_0_compat; lra). lra.
Qed.
Lemma huge_ge : 1000000000000000 < huge.
Proof. unfold huge. apply Rlt_trans with (bpow radix2 50); [change (bpow radix2 50) with (IZR (2 ^ 50)); apply IZR_lt; reflexivity|apply bpow_lt; lia]. Qed.
Lemma RN_ge1 q : 1 <= q -> 1 <= RN q.
Proof. intros H. rewrite <- (RN_fmt 1 fmt_1). apply RN_le, H. Qed.
Lemma atan_RN q : q <> 0 -> Rabs (atan (RN q) - atan q) <= 6 / 100000000.
Proof.
  intros N. pose proof (RN_err' q) as E. destruct (Rle_dec (Rabs q) 1) as [L|L].
  - eapply Rle_trans; [apply atan_lip|]. unfold u24 in E. lra.
  - apply Rnot_le_lt in L. assert (P : forall q, 1 < q -> Rabs (RN q - q) <= u24 * q + / 1000000000000000000000000000000 -> Rabs (atan (RN q) - atan q) <= 6 / 100000000).
    { clear. intros q H E. pose proof (RN_ge1 q ltac:(lra)) as G. set (r := RN q) in *.
      rewrite <- (atan_inv_sgn r), <- (atan_inv_sgn q) by lra. destruct (Rltb_spec 0 r); [|lra]. destruct (Rltb_spec 0 q); [|lra].
      replace (PI / 2 - atan (1 / r) - (PI / 2 - atan (1 / q))) with (- (atan (1 / r) - atan (1 / q))) by ring. rewrite Rabs_Ropp.
      eapply Rle_trans; [apply atan_lip|]. replace (1 / r - 1 / q) with (- (r - q) * / (r * q)) by (field; lra). rewrite Rabs_mult, Rabs_Ropp.
      assert (I : 0 < / (r * q)) by (apply Rinv_0_lt_compat; nra). rewrite (Rabs_pos_eq (/ (r * q))) by lra.
      apply (Rmult_le_reg_r (r * q)); [nra|]. rewrite Rmult_assoc, Rinv_l, Rmult_1_r by nra. unfold u24 in E. nra. }
    destruct (Rle_dec 0 q) as [S|S].
    + rewrite Rabs_pos_eq in L by exact S. rewrite (Rabs_pos_eq q) in E by exact S. apply P; assumption.
    + rewrite Rabs_left in L by lra. rewrite (Rabs_left q) in E by lra.
      assert (O : RN q = - RN (- q)) by (unfold RN; rewrite round_NE_opp; ring).
      replace (atan (RN q)) with (- atan (RN (- q))) by (rewrite O, atan_opp; reflexivity). replace (atan q) with (- atan (- q)) by (rewrite atan_opp; ring).
      replace (- atan (RN (- q)) - - atan (- q)) with (- (atan (RN (- q)) - atan (- q))) by ring. rewrite Rabs_Ropp. apply P; [exact L|].
      rewrite O in E. replace (- RN (- q) - q) with (- (RN (- q) - - q)) in E by ring. rewrite Rabs_Ropp in E. exact E.
Qed.
Lemma div_atan a b x y : value a = Fin x -> value b = Fin y -> x <> 0 -> y <> 0 ->
  value (f_div a b) <> NaN /\ Rabs (atan_of (value (f_div a b)) - atan (x / y)) <= 6 / 100000000.
Proof.
  intros Va Vb Nx Ny. assert (NQ : x / y <> 0) by (unfold Rdiv; apply Rmult_integral_contrapositive_currified; [exact Nx|apply Rinv_neq_0_compat, Ny]).
  destruct (div_cases a b x y Va Vb Nx Ny) as [(L & ->)|(L & ->)]; (split; [discriminate|]); cbn [atan_of].
  - apply atan_RN, NQ.
  - rewrite <- (atan_inv_sgn (x / y)) by exact NQ. set (q := x / y) in *. pose proof (RN_err' q) as E. pose proof huge_ge as HG.
    assert (QB : 1000000000 <= Rabs q).
    { destruct (Rle_dec 1000000000 (Rabs q)) as [H|H]; [exact H|exfalso]. assert (Rabs (RN q) <= Rabs (RN q - q) + Rabs q) by (replace (RN q) with ((RN q - q) + q) at 1 by ring; apply Rabs_triang).
      unfold u24 in E. lra. }
    replace (if Rltb q 0 then - (PI / 2) else PI / 2) with (if Rltb 0 q then PI / 2 else - (PI / 2)) by (destruct (Rltb_spec q 0), (Rltb_spec 0 q); try reflexivity; lra).
    match goal with |- Rabs (?c - (?c - ?t)) <= _ => replace (c - (c - t)) with (t - 0) by ring end. rewrite <- atan_0. eapply Rle_trans; [apply atan_lip|].
    rewrite Rminus_0_r. unfold Rdiv. rewrite Rmult_1_l, Rabs_inv. apply Rle_trans with (/ 1000000000); [apply Rinv_le_contravar; lra|lra].
Qed.
Definition wys (y c : Z) : Z := if f_sgn y then f_neg c else c.
Definition atan2_lane (fma : bool) (y x : Z) : Z :=
  if negb (f_eq y (f_lit 0 0) || f_eq x (f_lit 0 0) || f_eq (f_abs y) 0x7F800000) then
    f_add (atan_lane fma (f_div y x)) (if negb (f_sgn x) then f_neg (f_lit 0 0) else wys y (@XM_PI FL))
  else if f_eq (f_abs y) 0x7F800000 then
    (if f_eq (f_abs x) 0x7F800000 then (if negb (f_sgn x) then wys y (@XM_PIDIV4 FL) else wys y (@XM_3PIDIV4 FL)) else wys y (@XM_PIDIV2 FL))
  else if f_eq y (f_lit 0 0) then (if negb (f_sgn x) then wys y (f_lit 0 0) else wys y (@XM_PI FL)) else wys y (@XM_PIDIV2 FL).
Ltac dcbv := lazy beta iota zeta delta [XMVectorATan2 XMVectorDivide XMVectorAdd vadd vdiv vzero qmap qmap2 qmap3 qrep lane qx qy qz qw mnot mor
  T tadd tsub tmul tdiv tsqrt tneg tabs tfma tlt tle teq tlit FL zero vsel veq is_pinf tsgn].
Lemma vatan2_lane (lm : Libm FL) b Y X k : b <> Scalar -> lane (XMVectorATan2 b Y X) k = atan2_lane (fma_of b) (lane Y k) (lane X k).
Proof.
  intros H. assert (A : atan_lane (fma_of b) (f_div (lane Y k) (lane X k)) = lane (XMVectorATan b (@XMVectorDivide FL b Y X)) k).
  { rewrite (vatan_lane lm b _ k H). f_equal. destruct b; destruct X, Y, k; reflexivity. }
  unfold atan2_lane. rewrite A. destruct b as [|s3 s4 f av]; [congruence|]. unfold XMVectorATan2. cbv zeta. generalize (XMVectorATan (SSE s3 s4 f av) (@XMVectorDivide FL (SSE s3 s4 f av) Y X)). intros R0.
  destruct R0 as [r0 r1 r2 r3], X as [x0 x1 x2 x3], Y as [y0 y1 y2 y3], k; unfold wys; dcbv; reflexivity.
Qed.
Lemma eq0_val z x : value z = Fin x -> f_eq z (f_lit 0 0) = Reqb x 0.
Proof.
  intros V. pose proof (f_eq_spec z (f_lit 0 0)) as S. rewrite V, val_zero in S. cbn [xeq] in S. destruct (Reqb_spec x 0) as [E|E].
  - apply S, E.
  - destruct (f_eq z (f_lit 0 0)); [exfalso; apply E, S; reflexivity|reflexivity].
Qed.
Lemma fin_not_inf z x : word z -> value z = Fin x -> f_eq (f_abs z) 0x7F800000 = false.
Proof.
  intros W V. destruct (f_eq (f_abs z) 0x7F800000) eqn:E; [|reflexivity]. apply f_eq_spec in E. rewrite (abs_val z x W V) in E. replace (value 0x7F800000) with (Inf false) in E by reflexivity. contradiction.
Qed.
Lemma wys_val y c v r : word c -> value c = Fin r -> is32 y v -> v <> 0 -> value (wys y c) = Fin (if Rltb v 0 then - r else r).
Proof.
  intros W V (Wy & Vy) N. unfold wys. rewrite (sgn_val y v Wy Vy N). destruct (Rltb v 0); [apply neg_val; assumption|exact V].
Qed.
Theorem atan2_lane_ok fma zy zx y x : is32 zy y -> is32 zx x -> y <> 0 \/ 0 < x -> within (2 / 1000000) (atan2_lane fma zy zx) (Ratan2 y x).
Proof.
  intros Iy Ix H. pose proof Iy as (Wy & Vy). pose proof Ix as (Wx & Vx). unfold atan2_lane. rewrite (fin_not_inf zy y Wy Vy), (eq0_val zy y Vy), (eq0_val zx x Vx), orb_false_r.
  unfold Ratan2. pose proof halfPI32_err as HE. pose proof PI32_err as PE. unfold pi_err in PE.
  destruct (Reqb_spec y 0) as [Ey|Ny]; [|destruct (Reqb_spec x 0) as [Ex|Nx]]; cbn [orb negb].
  - subst y. assert (X : 0 < x) by (destruct H; [congruence|assumption]). rewrite (sgn_val zx x Wx Vx) by lra. destruct (Rltb_spec x 0); [lra|]. cbn [negb].
    destruct (Rltb_spec 0 x); [|lra]. exists 0. split.
    + unfold wys. destruct (f_sgn zy); [|exact val_zero]. replace (f_neg (f_lit 0 0)) with 0x80000000%Z by (vm_compute; reflexivity). rewrite value_dec. vm_compute. reflexivity.
    + replace (0 / x) with 0 by (unfold Rdiv; ring). rewrite atan_0, Rminus_0_r, Rabs_R0. lra.
  - subst x. exists (if Rltb y 0 then - halfPI32 else halfPI32). split; [apply wys_val; [apply enc_word|exact val_PIDIV2|exact Iy|exact Ny]|].
    destruct (Rltb_spec 0 0); [lra|]. destruct (Rltb_spec y 0) as [L|L], (Rltb_spec 0 y) as [G|G]; try lra.
    replace (- halfPI32 - - (PI / 2)) with (- (halfPI32 - PI / 2)) by ring. rewrite Rabs_Ropp. lra.
  - destruct (div_atan zy zx y x Vy Vx Ny Nx) as (D1 & D2). destruct (atan_lane_ok fma (f_div zy zx) (enc_word _) D1) as (r & Vr & Er).
    rewrite (sgn_val zx x Wx Vx Nx). assert (RA : Rabs (r - atan (y / x)) <= 156 / 100000000).
    { replace (r - atan (y / x)) with ((r - atan_of (value (f_div zy zx))) + (atan_of (value (f_div zy zx)) - atan (y / x))) by ring. eapply Rle_trans; [apply Rabs_triang|]. lra. }
    destruct (Rltb_spec x 0) as [X|X]; cbn [negb].
    + destruct (Rltb_spec 0 x); [lra|]. pose proof (wys_val zy _ y PI32 (enc_word _) val_PI Iy Ny) as VP.
      set (c := if Rltb y 0 then - PI32 else PI32) in *. pose proof (atan_bound (y / x)) as AB. pose proof PI_close as PC. unfold PI32 in PC.
      assert (CB : Rabs c <= 32 / 10). { unfold c. destruct (Rltb y 0); [rewrite Rabs_Ropp|]; rewrite Rabs_pos_eq; unfold PI32; lra. }
      assert (RB : Rabs r <= 16 / 10). { apply Rabs_le_inv in RA. apply Rabs_le. lra. }
      assert (RC : Rabs (r + c) <= 48 / 10) by (eapply Rle_trans; [apply Rabs_triang|lra]). pose proof (RN_err' (r + c)) as E.
      exists (RN (r + c)). split; [apply add_val; [exact Vr|exact VP|apply small_huge'; lra]|].
      assert (F : Rabs (c - (if Rltb y 0 then - PI else PI)) <= 8743 / 100000000000).
      { unfold c. destruct (Rltb y 0); [|exact PE]. replace (- PI32 - - PI) with (- (PI32 - PI)) by ring. rewrite Rabs_Ropp. exact PE. }
      replace (RN (r + c) - (if Rltb y 0 then atan (y / x) - PI else atan (y / x) + PI)) with ((RN (r + c) - (r + c)) + (r - atan (y / x)) + (c - (if Rltb y 0 then - PI else PI)) + 0)
        by (destruct (Rltb y 0); ring).
      eapply Rle_trans; [apply abs4|]. rewrite Rabs_R0. unfold u24 in E. lra.
    + destruct (Rltb_spec 0 x); [|lra]. exists r. split; [|lra].
      assert (VZ : value (f_neg (f_lit 0 0)) = Fin 0) by (replace (Fin 0) with (Fin (- 0)) by (f_equal; ring); apply neg_val; [apply enc_word|exact val_zero]).
      destruct (value_fmt _ _ Vr) as (Fr & Hr). replace (Fin r) with (Fin (r + 0)) by (f_equal; ring). apply add_exact; [exact Vr|exact VZ| |]; rewrite Rplus_0_r; assumption.
Qed.
(** on the negative x axis the sign bit of y picks the side *)
Lemma atan2_lane_neg fma zy zx x : is32 zy 0 -> is32 zx x -> x < 0 -> value (atan2_lane fma zy zx) = Fin (if f_sgn zy then - PI32 else PI32).
Proof.
  intros (Wy & Vy) (Wx & Vx) H. unfold atan2_lane. rewrite (fin_not_inf zy 0 Wy Vy), (eq0_val zy 0 Vy). destruct (Reqb_spec 0 0); [|congruence]. cbn [orb negb].
  rewrite (sgn_val zx x Wx Vx) by lra. destruct (Rltb_spec x 0); [|lra]. cbn [negb]. unfold wys. destruct (f_sgn zy); [apply neg_val; [apply enc_word|]|]; exact val_PI.
Qed.
Theorem vector_atan2_F (lm : Libm FL) b Y X k y x : b <> Scalar -> is32 (lane Y k) y -> is32 (lane X k) x -> y <> 0 \/ 0 < x ->
  within (2 / 1000000) (lane (XMVectorATan2 b Y X) k) (Ratan2 y x).
Proof. intros Hb Iy Ix H. rewrite (vatan2_lane lm b Y X k Hb). apply atan2_lane_ok; assumption. Qed.
