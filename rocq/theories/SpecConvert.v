(** Conversions between integers and binary32 lanes, in terms of real numbers. *)
From Coq Require Import Reals.
From Verif Require Import Base SpecF32 SpecRound.
Open Scope R_scope.

(** the integer a lane holds *)
Definition signed32 (z : Z) : Z := if (z <? 2 ^ 31)%Z then z else (z - 2 ^ 32)%Z.
Definition clamp (lo hi n : Z) : Z := Z.max lo (Z.min hi n).
(** lane [r] holds the integer part of [z * 2^k], saturated to [lo, hi]; infinities saturate *)
Definition to_integer (read : Z -> Z) (lo hi : Z) (k : Z) (z r : Z) : Prop :=
  match value z with
  | Fin x => exists n, toward_zero (x * pow2 k) n /\ read r = clamp lo hi n
  | Inf true => read r = lo
  | Inf false => read r = hi
  | NaN => True
  end.
Definition to_int32 := to_integer signed32 (- 2 ^ 31) (2 ^ 31 - 1).
Definition to_uint32 := to_integer (fun r => r) 0 (2 ^ 32 - 1).
(** lane [r] is the binary32 number nearest to the integer [n] divided by 2^k *)
Definition from_integer (n k : Z) (r : Z) : Prop := nearest32 (IZR n * pow2 (- k)) r.
