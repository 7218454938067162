(** Integral roundings and correct rounding to binary32, stated on real numbers and bit patterns. *)
From Coq Require Import Reals.
From Verif Require Import Base SpecF32.
Open Scope R_scope.

(** [n] is the integer nearest to [x], the even one of two equally near *)
Definition nearest_even (x : R) (n : Z) : Prop := Rabs (x - IZR n) <= 1 / 2 /\ (Rabs (x - IZR n) = 1 / 2 -> Z.even n = true).
Definition toward_zero (x : R) (n : Z) : Prop := (0 <= x -> IZR n <= x < IZR n + 1) /\ (x <= 0 -> IZR n - 1 < x <= IZR n).
Definition floor_of (x : R) (n : Z) : Prop := IZR n <= x < IZR n + 1.
Definition ceiling_of (x : R) (n : Z) : Prop := IZR n - 1 < x <= IZR n.

(** lane [r] is the rounding of lane [z]: integral values are rounded as [rnd] says, infinities and NaN are kept *)
Definition rounds (rnd : R -> Z -> Prop) (z r : Z) : Prop :=
  match value z with
  | Fin x => exists n, value r = Fin (IZR n) /\ rnd x n
  | Inf s => value r = Inf s
  | NaN => value r = NaN
  end.
Definition rounds4 (rnd : R -> Z -> Prop) (v r : quad Z) : Prop := forall k, rounds rnd (lane v k) (lane r k).

(** [z] is the binary32 number nearest to [x], the one with an even last bit of two equally near *)
Definition nearest32 (x : R) (z : Z) : Prop := exists v, value z = Fin v /\
  (forall z' v', value z' = Fin v' -> Rabs (x - v) <= Rabs (x - v')) /\
  (forall z' v', value z' = Fin v' -> Rabs (x - v) = Rabs (x - v') -> v' = v \/ Z.even (bit_frac z) = true).
