(** Registers, matrices and panics. *)
From Coq Require Export ZArith Bool List Lia.
Export ListNotations.
Open Scope Z_scope.

(** The 128-bit register [XMVECTOR] (src/lib.rs 390-480: [__m128] or [[f32;4]]) as four lanes. *)
Record quad (A : Type) : Type := Q { qx : A; qy : A; qz : A; qw : A }.
Arguments Q {A} _ _ _ _.
Arguments qx {A} _.
Arguments qy {A} _.
Arguments qz {A} _.
Arguments qw {A} _.

(** A lane number, statically in range (the [_MM_SHUFFLE] fields and [const] generics). *)
Inductive idx : Set := I0 | I1 | I2 | I3.

Definition lane {A} (q : quad A) (i : idx) : A :=
  match i with I0 => qx q | I1 => qy q | I2 => qz q | I3 => qw q end.

(** Value written into lane [i]. *)
Definition setlane {A} (q : quad A) (i : idx) (a : A) : quad A :=
  match i with
  | I0 => Q a (qy q) (qz q) (qw q)
  | I1 => Q (qx q) a (qz q) (qw q)
  | I2 => Q (qx q) (qy q) a (qw q)
  | I3 => Q (qx q) (qy q) (qz q) a
  end.

Definition idx_eqb (i j : idx) : bool :=
  match i, j with I0, I0 | I1, I1 | I2, I2 | I3, I3 => true | _, _ => false end.

Definition idx_z (i : idx) : Z :=
  match i with I0 => 0 | I1 => 1 | I2 => 2 | I3 => 3 end.

(** Checked array index: [None] is the out-of-bounds panic of Rust slices. *)
Definition idx_of (n : Z) : option idx :=
  if n =? 0 then Some I0 else if n =? 1 then Some I1
  else if n =? 2 then Some I2 else if n =? 3 then Some I3 else None.

Definition qmap {A B} (f : A -> B) (q : quad A) : quad B :=
  Q (f (qx q)) (f (qy q)) (f (qz q)) (f (qw q)).
Definition qmap2 {A B C} (f : A -> B -> C) (p : quad A) (q : quad B) : quad C :=
  Q (f (qx p) (qx q)) (f (qy p) (qy q)) (f (qz p) (qz q)) (f (qw p) (qw q)).
Definition qmap3 {A B C D} (f : A -> B -> C -> D) (p : quad A) (q : quad B) (r : quad C) : quad D :=
  Q (f (qx p) (qx q) (qx r)) (f (qy p) (qy q) (qy r))
    (f (qz p) (qz q) (qz r)) (f (qw p) (qw q) (qw r)).
Definition qrep {A} (a : A) : quad A := Q a a a a.
Definition qall (q : quad bool) : bool := qx q && qy q && qz q && qw q.
Definition qany (q : quad bool) : bool := qx q || qy q || qz q || qw q.

Lemma quad_ext {A} (p q : quad A) : (forall i, lane p i = lane q i) -> p = q.
Proof.
  destruct p, q; intros H.
  pose proof (H I0); pose proof (H I1); pose proof (H I2); pose proof (H I3).
  cbn in *; congruence.
Qed.

Lemma lane_qmap {A B} (f : A -> B) q i : lane (qmap f q) i = f (lane q i).
Proof. destruct i; reflexivity. Qed.
Lemma lane_qmap2 {A B C} (f : A -> B -> C) p q i : lane (qmap2 f p q) i = f (lane p i) (lane q i).
Proof. destruct i; reflexivity. Qed.
Lemma lane_qmap3 {A B C D} (f : A -> B -> C -> D) p q r i :
  lane (qmap3 f p q r) i = f (lane p i) (lane q i) (lane r i).
Proof. destruct i; reflexivity. Qed.
Lemma lane_qrep {A} (a : A) i : lane (qrep a) i = a.
Proof. destruct i; reflexivity. Qed.
Lemma lane_setlane {A} (q : quad A) i a j :
  lane (setlane q i a) j = if idx_eqb i j then a else lane q j.
Proof. destruct i, j; reflexivity. Qed.

(** A 4x4 matrix is four rows (src/lib.rs: [XMMATRIX { r: [XMVECTOR; 4] }]). *)
Definition mat (A : Type) : Type := quad (quad A).
Definition mij {A} (m : mat A) (i j : idx) : A := lane (lane m i) j.

Lemma mat_ext {A} (m n : mat A) : (forall i j, mij m i j = mij n i j) -> m = n.
Proof. intros H. apply quad_ext; intro i. apply quad_ext; intro j. apply H. Qed.

Definition omap {A B} (f : A -> B) (o : option A) : option B :=
  match o with Some a => Some (f a) | None => None end.
Definition obind {A B} (o : option A) (f : A -> option B) : option B :=
  match o with Some a => f a | None => None end.
