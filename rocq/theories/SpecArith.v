(** IEEE-754 binary32 arithmetic stated on values, without Flocq: the nearest representable number, ties to an even last bit,
    overflow to infinity, and the rules for infinities and NaN. Nothing here refers to the model. *)
From Coq Require Import Reals.
From Verif Require Import Base SpecF32.
Open Scope R_scope.

(** the binary32 numbers, without an upper limit on the exponent *)
Definition single (r : R) : Prop := exists m e : Z, (Z.abs m < 2 ^ 24 /\ -149 <= e)%Z /\ r = IZR m * pow2 e.
(** the last bit of the significand is 0: it is written with all 24 bits, or with the least exponent *)
Definition last_even (r : R) : Prop :=
  exists m e : Z, (Z.abs m < 2 ^ 24 /\ -149 <= e /\ (2 ^ 23 <= Z.abs m \/ e = -149) /\ Z.even m = true)%Z /\ r = IZR m * pow2 e.
Definition nearest32 (x r : R) : Prop :=
  single r /\ (forall s, single s -> Rabs (r - x) <= Rabs (s - x)) /\
  (forall s, single s -> s <> r -> Rabs (s - x) = Rabs (r - x) -> last_even r).
(** the rounded result: the nearest number, or the infinity of the sign of [x] *)
Definition rounded (x : R) (v : xreal) : Prop :=
  exists r, nearest32 x r /\ ((Rabs r < pow2 128 /\ v = Fin r) \/ (pow2 128 <= Rabs r /\ exists s, v = Inf s /\ (s = true <-> x < 0))).

Definition is_add (a b v : xreal) : Prop :=
  match a, b with
  | NaN, _ | _, NaN => v = NaN
  | Inf s, Inf t => v = if Bool.eqb s t then Inf s else NaN
  | Inf s, Fin _ | Fin _, Inf s => v = Inf s
  | Fin x, Fin y => rounded (x + y) v
  end.
Definition is_sub (a b v : xreal) : Prop := is_add a (xneg b) v.
(** the exact product *)
Definition is_prod (a b p : xreal) : Prop :=
  match a, b with
  | NaN, _ | _, NaN => p = NaN
  | Inf s, Inf t => p = Inf (xorb s t)
  | Inf s, Fin x | Fin x, Inf s => (x = 0 /\ p = NaN) \/ (x < 0 /\ p = Inf (negb s)) \/ (0 < x /\ p = Inf s)
  | Fin x, Fin y => p = Fin (x * y)
  end.
Definition is_mul (a b v : xreal) : Prop := exists p, is_prod a b p /\ match p with Fin x => rounded x v | _ => v = p end.
(** one rounding for the product and the sum together *)
Definition is_fma (a b c v : xreal) : Prop := exists p, is_prod a b p /\ is_add p c v.
(** [sa], [sb]: the sign bits, which decide the sign of an infinite quotient *)
Definition is_div (sa sb : bool) (a b v : xreal) : Prop :=
  match a, b with
  | NaN, _ | _, NaN | Inf _, Inf _ => v = NaN
  | Inf s, Fin _ => v = Inf (xorb s sb)
  | Fin _, Inf _ => v = Fin 0
  | Fin x, Fin y => (y <> 0 /\ rounded (x / y) v) \/ (y = 0 /\ x <> 0 /\ v = Inf (xorb sa sb)) \/ (y = 0 /\ x = 0 /\ v = NaN)
  end.
Definition is_sqrt (a v : xreal) : Prop :=
  match a with
  | NaN | Inf true => v = NaN
  | Inf false => v = Inf false
  | Fin x => (x < 0 /\ v = NaN) \/ (0 <= x /\ rounded (sqrt x) v)
  end.
(** [n] is x / y rounded to binary32 and cut off towards zero *)
Definition cut_quotient (x y : R) (n : Z) : Prop :=
  exists q, nearest32 (x / y) q /\ IZR (Z.abs n) <= Rabs q < IZR (Z.abs n) + 1 /\ 0 <= IZR n * q.
