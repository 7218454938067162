(** What a 16-bit pattern means as an IEEE-754 half, and correct rounding to halves. *)
From Coq Require Import Reals.
From Verif Require Import Base SpecF32.
Open Scope R_scope.

Definition half (h : Z) : Prop := (0 <= h < 2 ^ 16)%Z.
(** sign, biased exponent, fraction *)
Definition h_sign (h : Z) : bool := (2 ^ 15 <=? h)%Z.
Definition h_exp (h : Z) : Z := ((h / 2 ^ 10) mod 32)%Z.
Definition h_frac (h : Z) : Z := (h mod 2 ^ 10)%Z.
Definition hvalue (h : Z) : xreal :=
  if (h_exp h =? 31)%Z then (if (h_frac h =? 0)%Z then Inf (h_sign h) else NaN)
  else if (h_exp h =? 0)%Z then Fin (signed (h_sign h) (IZR (h_frac h) * pow2 (-24)))
  else Fin (signed (h_sign h) (IZR (2 ^ 10 + h_frac h) * pow2 (h_exp h - 25))).
Definition h_denormal (h : Z) : Prop := h_exp h = 0%Z /\ h_frac h <> 0%Z.

(** [h] is the half nearest to [x], the one with an even last bit of two equally near *)
Definition nearest16 (x : R) (h : Z) : Prop := exists v, hvalue h = Fin v /\
  (forall h' v', half h' -> hvalue h' = Fin v' -> Rabs (x - v) <= Rabs (x - v')) /\
  (forall h' v', half h' -> hvalue h' = Fin v' -> Rabs (x - v) = Rabs (x - v') -> v' = v \/ Z.even h = true).
(** conversion of the binary32 pattern [z]: the largest finite half is 65504, and half a step above it rounds to infinity *)
Definition to_half (z h : Z) : Prop :=
  match value z with
  | Fin x => if Rlt_dec (Rabs x) 65520 then nearest16 x h else hvalue h = Inf (bit_sign z)
  | Inf s => hvalue h = Inf s
  | NaN => hvalue h = NaN
  end.
