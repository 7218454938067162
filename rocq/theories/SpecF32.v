(** What a 32-bit pattern means as an IEEE-754 single, and the IEEE order — from the bit fields, without Flocq. *)
From Coq Require Import Reals.
From Verif Require Import Base.

Inductive xreal : Type := NaN | Inf (negative : bool) | Fin (r : R).

Definition pow2 (e : Z) : R := if 0 <=? e then IZR (2 ^ e) else (/ IZR (2 ^ (- e)))%R.
(** sign, biased exponent, fraction *)
Definition bit_sign (z : Z) : bool := 2 ^ 31 <=? z.
Definition bit_exp (z : Z) : Z := (z / 2 ^ 23) mod 256.
Definition bit_frac (z : Z) : Z := z mod 2 ^ 23.
Definition signed (s : bool) (r : R) : R := if s then (- r)%R else r.
Definition value (z : Z) : xreal :=
  if bit_exp z =? 255 then (if bit_frac z =? 0 then Inf (bit_sign z) else NaN)
  else if bit_exp z =? 0 then Fin (signed (bit_sign z) (IZR (bit_frac z) * pow2 (-149)))
  else Fin (signed (bit_sign z) (IZR (2 ^ 23 + bit_frac z) * pow2 (bit_exp z - 150))).

Definition xlt (a b : xreal) : Prop :=
  match a, b with
  | Fin x, Fin y => (x < y)%R
  | Inf true, Fin _ | Fin _, Inf false | Inf true, Inf false => True
  | _, _ => False
  end.
Definition xeq (a b : xreal) : Prop :=
  match a, b with
  | Fin x, Fin y => x = y
  | Inf s, Inf t => s = t
  | _, _ => False
  end.
Definition xle (a b : xreal) : Prop := xlt a b \/ xeq a b.
Definition xneg (a : xreal) : xreal :=
  match a with NaN => NaN | Inf s => Inf (negb s) | Fin r => Fin (- r) end.
Definition xabs (a : xreal) : xreal :=
  match a with NaN => NaN | Inf _ => Inf false | Fin r => Fin (Rabs r) end.

(** a comparison mask lane *)
Definition is_mask (m : Z) (P : Prop) : Prop := (P /\ m = 0xFFFFFFFF) \/ (~ P /\ m = 0).
