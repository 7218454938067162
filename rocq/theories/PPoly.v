(** Bounds for polynomials with integer coefficients on an interval, decided by computation and proved sound over R. *)
From Coq Require Import Reals ZArith List Lra Lia.
Import ListNotations.
Local Open Scope R_scope.

(** a polynomial is the list of its coefficients, constant term first *)
Fixpoint peval (p : list Z) (x : R) : R :=
  match p with [] => 0 | a :: l => IZR a + x * peval l x end.

Fixpoint padd (p q : list Z) : list Z :=
  match p, q with
  | [], _ => q
  | _, [] => p
  | a :: p, b :: q => (a + b)%Z :: padd p q
  end.
Definition pscale (c : Z) (p : list Z) : list Z := map (Z.mul c) p.
(** the polynomial t |-> p (c + t) *)
Fixpoint pshift (p : list Z) (c : Z) : list Z :=
  match p with
  | [] => []
  | a :: l => let s := pshift l c in padd [a] (padd (pscale c s) (0%Z :: s))
  end.
Fixpoint pbnd (p : list Z) (h : Z) : Z :=
  match p with [] => 0%Z | a :: l => (Z.abs a + h * pbnd l h)%Z end.
Fixpoint pmul (p q : list Z) : list Z :=
  match p with [] => [] | a :: l => padd (pscale a q) (0%Z :: pmul l q) end.
Fixpoint pder_from (k : Z) (p : list Z) : list Z :=
  match p with [] => [] | a :: l => (k * a)%Z :: pder_from (k + 1) l end.
Definition pder (p : list Z) : list Z := match p with [] => [] | _ :: l => pder_from 1 l end.
(** the polynomial u |-> s^d p (u / s), d the degree *)
Fixpoint pgrid (s : Z) (p : list Z) : list Z * Z :=
  match p with
  | [] => ([], 1%Z)
  | [a] => ([a], 1%Z)
  | a :: l => let '(q, k) := pgrid s l in ((a * (s * k))%Z :: q, (s * k)%Z)
  end.

(** |p| <= B on [lo, lo + 2 h n] *)
Fixpoint pcheck (p : list Z) (lo h : Z) (n : nat) (B : Z) : bool :=
  match n with
  | O => true
  | S k => (Z.leb (pbnd (pshift p (lo + h)) h) B && pcheck p (lo + 2 * h) h k B)%bool
  end.

Lemma peval_add p q x : peval (padd p q) x = peval p x + peval q x.
Proof.
  revert q. induction p as [|a p IH]; intros [|b q]; cbn [padd peval]; try ring.
  rewrite plus_IZR, IH. ring.
Qed.
Lemma peval_scale c p x : peval (pscale c p) x = IZR c * peval p x.
Proof. induction p as [|a p IH]; cbn [pscale map peval]; [ring|]. fold (pscale c p). rewrite mult_IZR, IH. ring. Qed.
Lemma peval_mul p q x : peval (pmul p q) x = peval p x * peval q x.
Proof.
  induction p as [|a p IH]; cbn [pmul peval]; [ring|].
  rewrite peval_add, peval_scale. cbn [peval]. rewrite IH. ring.
Qed.
Lemma peval_shift p c t : peval (pshift p c) t = peval p (IZR c + t).
Proof.
  induction p as [|a p IH]; [reflexivity|]. cbn [pshift]. rewrite !peval_add, peval_scale. cbn [peval].
  rewrite IH. ring.
Qed.
Lemma pbnd_ok p h t : Rabs t <= IZR h -> Rabs (peval p t) <= IZR (pbnd p h).
Proof.
  intros H. induction p as [|a p IH]; cbn [pbnd peval]; [rewrite Rabs_R0; lra|].
  rewrite plus_IZR, mult_IZR, abs_IZR.
  eapply Rle_trans; [apply Rabs_triang|]. apply Rplus_le_compat_l. rewrite Rabs_mult.
  apply Rmult_le_compat; auto using Rabs_pos.
Qed.
Lemma pcheck_ok p n : forall lo h B x, pcheck p lo h n B = true ->
  IZR lo <= x < IZR (lo + 2 * h * Z.of_nat n) -> Rabs (peval p x) <= IZR B.
Proof.
  induction n as [|n IH]; intros lo h B x E [H1 H2].
  - cbn [Z.of_nat] in H2. rewrite Z.mul_0_r, Z.add_0_r in H2. lra.
  - cbn [pcheck] in E. apply andb_prop in E. destruct E as [E1 E2].
    destruct (Rle_lt_dec x (IZR (lo + 2 * h))) as [D|D].
    + apply Z.leb_le, IZR_le in E1. eapply Rle_trans; [|exact E1].
      replace x with (IZR (lo + h) + (x - IZR (lo + h))) by ring. rewrite <- peval_shift.
      apply pbnd_ok. rewrite plus_IZR in *. rewrite mult_IZR in *. apply Rabs_le. lra.
    + apply (IH _ _ _ x E2). split; [lra|]. eapply Rlt_le_trans; [exact H2|]. apply IZR_le. lia.
Qed.
Lemma pgrid_ok s p x : let '(q, k) := pgrid s p in peval q (IZR s * x) = IZR k * peval p x.
Proof.
  induction p as [|a p IH]; cbn [pgrid]; [cbn; ring|]. destruct p as [|b l].
  - cbn [peval]. ring.
  - destruct (pgrid s (b :: l)) as [q k]. cbn [peval] in *. rewrite IH, !mult_IZR. ring.
Qed.

(** derivative *)
Lemma pder_from_ok p : forall k x, derivable_pt_lim (fun y => peval p y) x (peval (pder p) x) /\
  peval (pder_from k p) x = IZR k * peval p x + x * peval (pder p) x.
Proof.
  induction p as [|a p IH]; intros k x.
  - cbn. split; [apply derivable_pt_lim_const|ring].
  - destruct (IH 1%Z x) as [D E]. split.
    + cbn [pder peval]. rewrite E.
      replace (1 * peval p x + x * peval (pder p) x) with (0 + (1 * peval p x + x * peval (pder p) x)) by ring.
      apply (derivable_pt_lim_plus (fun _ => IZR a) (fun y => y * peval p y)); [apply derivable_pt_lim_const|].
      apply (derivable_pt_lim_mult (fun y => y) (fun y => peval p y)); [apply derivable_pt_lim_id|exact D].
    + destruct (IH (k + 1)%Z x) as [_ E'].
      cbn [pder_from pder peval]. rewrite E', E, mult_IZR, plus_IZR. ring.
Qed.
Lemma pder_ok p x : derivable_pt_lim (fun y => peval p y) x (peval (pder p) x).
Proof. exact (proj1 (pder_from_ok p 1 x)). Qed.

(** |p| <= B / D on [lo / s, (lo + 2 h n) / s), s > 0 and D > 0 *)
Definition pbounded (p : list Z) (s lo h : Z) (n : nat) (B D : Z) : bool :=
  let '(q, k) := pgrid s p in
  (Z.ltb 0 s && Z.ltb 0 k && Z.ltb 0 D && pcheck (pscale D q) lo h n (k * B))%bool.
Lemma pbounded_ok p s lo h n B D x : pbounded p s lo h n B D = true ->
  IZR lo <= IZR s * x < IZR (lo + 2 * h * Z.of_nat n) -> Rabs (peval p x) <= IZR B / IZR D.
Proof.
  unfold pbounded. intros H Hx. pose proof (pgrid_ok s p x) as G. destruct (pgrid s p) as [q k].
  apply andb_prop in H. destruct H as [H C]. apply andb_prop in H. destruct H as [H HD]. apply andb_prop in H.
  destruct H as [Hs Hk]. apply Z.ltb_lt, IZR_lt in Hs. apply Z.ltb_lt, IZR_lt in Hk. apply Z.ltb_lt, IZR_lt in HD.
  pose proof (pcheck_ok _ _ _ _ _ _ C Hx) as A. rewrite peval_scale, G, mult_IZR, !Rabs_mult in A.
  rewrite !(Rabs_pos_eq (IZR _)) in A by lra.
  apply (Rmult_le_reg_l (IZR D)); [lra|]. apply (Rmult_le_reg_l (IZR k)); [lra|].
  replace (IZR k * (IZR D * (IZR B / IZR D))) with (IZR k * IZR B) by (field; lra). lra.
Qed.

(** an integral bound: if |f'| <= |p| on [lo, lo + 2 h n] then f varies by at most [pint p lo h n] there *)
Fixpoint pint (p : list Z) (lo h : Z) (n : nat) : Z :=
  match n with
  | O => 0%Z
  | S k => (2 * h * pbnd (pshift p (lo + h)) h + pint p (lo + 2 * h) h k)%Z
  end.
Lemma pbnd_nonneg p h : (0 <= h)%Z -> (0 <= pbnd p h)%Z.
Proof. intros H. induction p; cbn [pbnd]; lia. Qed.
Lemma pint_nonneg p n : forall lo h, (0 <= h)%Z -> (0 <= pint p lo h n)%Z.
Proof.
  induction n as [|n IH]; intros lo h H; cbn [pint]; [lia|].
  specialize (IH (lo + 2 * h)%Z h H). pose proof (pbnd_nonneg (pshift p (lo + h)) h H). nia.
Qed.
Lemma vary_le (f df : R -> R) a b B : a <= b -> 0 <= B ->
  (forall x, a < x < b -> derivable_pt_lim f x (df x)) -> (forall x, a <= x <= b -> continuity_pt f x) ->
  (forall x, a < x < b -> Rabs (df x) <= B) -> Rabs (f b - f a) <= B * (b - a).
Proof.
  intros L HB D C H. destruct (Req_dec a b) as [->|N]; [rewrite !Rminus_diag_eq, Rabs_R0 by reflexivity; lra|].
  assert (pr1 : forall c, a < c < b -> derivable_pt f c) by (intros c Hc; exists (df c); apply D, Hc).
  assert (pr2 : forall c, a < c < b -> derivable_pt id c) by (intros c _; apply derivable_pt_id).
  destruct (MVT f id a b pr1 pr2 ltac:(lra) C) as (c & P & E).
  { intros c _. apply derivable_continuous_pt, derivable_pt_id. }
  assert (E1 : derive_pt f c (pr1 c P) = df c) by (apply derive_pt_eq_0, D, P).
  assert (E2 : derive_pt id c (pr2 c P) = 1) by (apply derive_pt_eq_0, derivable_pt_lim_id).
  rewrite E1, E2, Rmult_1_r in E. unfold id in E. rewrite <- E, Rabs_mult, (Rabs_pos_eq (b - a)) by lra.
  specialize (H c P). nra.
Qed.
Lemma pint_ok p n : forall lo h (f df : R -> R), (0 <= h)%Z ->
  (forall x, IZR lo < x < IZR (lo + 2 * h * Z.of_nat n) -> derivable_pt_lim f x (df x)) ->
  (forall x, IZR lo <= x <= IZR (lo + 2 * h * Z.of_nat n) -> continuity_pt f x) ->
  (forall x, IZR lo < x < IZR (lo + 2 * h * Z.of_nat n) -> Rabs (df x) <= Rabs (peval p x)) ->
  forall x, IZR lo <= x <= IZR (lo + 2 * h * Z.of_nat n) -> Rabs (f x - f (IZR lo)) <= IZR (pint p lo h n).
Proof.
  induction n as [|n IH]; intros lo h f df Hh D C H x Hx.
  - cbn [Z.of_nat] in Hx. rewrite Z.mul_0_r, Z.add_0_r in Hx. replace x with (IZR lo) by lra.
    rewrite Rminus_diag_eq, Rabs_R0 by reflexivity. cbn [pint]. lra.
  - cbn [pint]. rewrite plus_IZR, !mult_IZR.
    set (B := IZR (pbnd (pshift p (lo + h)) h)). set (N := IZR (lo + 2 * h * Z.of_nat (S n))) in *.
    assert (B0 : 0 <= B) by (apply IZR_le, pbnd_nonneg; exact Hh).
    assert (I0 : 0 <= IZR (pint p (lo + 2 * h) h n)) by (apply IZR_le, pint_nonneg; exact Hh).
    assert (h0 : 0 <= IZR h) by (apply IZR_le; exact Hh).
    assert (EN : N = IZR (lo + 2 * h + 2 * h * Z.of_nat n)) by (unfold N; f_equal; lia).
    assert (NB : IZR (lo + 2 * h) <= N) by (rewrite EN; apply IZR_le; nia).
    assert (Seg : forall u, IZR lo < u < IZR (lo + 2 * h) -> Rabs (df u) <= B).
    { intros u Hu. eapply Rle_trans; [apply H; lra|]. unfold B.
      replace u with (IZR (lo + h) + (u - IZR (lo + h))) by ring. rewrite <- peval_shift.
      apply pbnd_ok. rewrite plus_IZR in *. rewrite mult_IZR in *. apply Rabs_le. lra. }
    destruct (Rle_lt_dec x (IZR (lo + 2 * h))) as [L|L].
    + assert (V : Rabs (f x - f (IZR lo)) <= B * (x - IZR lo)).
      { apply (vary_le f df); try lra; intros u Hu; [apply D|apply C|apply Seg]; lra. }
      rewrite plus_IZR, mult_IZR in L. nra.
    + assert (V : Rabs (f (IZR (lo + 2 * h)) - f (IZR lo)) <= B * (IZR (lo + 2 * h) - IZR lo)).
      { assert (IZR lo <= IZR (lo + 2 * h)) by (apply IZR_le; lia).
        apply (vary_le f df); try lra; intros u Hu; [apply D|apply C|apply Seg]; lra. }
      assert (A : IZR lo <= IZR (lo + 2 * h)) by (apply IZR_le; lia).
      assert (W : Rabs (f x - f (IZR (lo + 2 * h))) <= IZR (pint p (lo + 2 * h) h n)).
      { apply (IH (lo + 2 * h)%Z h f df Hh); rewrite <- ?EN; intros; [apply D|apply C|apply H|]; lra. }
      replace (f x - f (IZR lo)) with (f x - f (IZR (lo + 2 * h)) + (f (IZR (lo + 2 * h)) - f (IZR lo))) by ring.
      eapply Rle_trans; [apply Rabs_triang|]. replace (IZR (lo + 2 * h) - IZR lo) with (2 * IZR h) in V by (rewrite plus_IZR, mult_IZR; ring).
      lra.
Qed.
