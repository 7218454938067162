(** Specification of comparisons: lane masks, 2/3/4-lane tests, comparison records, in terms of [value]. *)
From Coq Require Import Reals.
From Verif Require Import Base F32 MCompare SpecF32 SpecLanes.

(** every lane of [r] is all ones or all zeros according to [P] *)
Definition masks (r : quad Z) (P : Z -> Prop) : Prop :=
  forall k, 0 <= k < 4 -> is_mask (nth_lane r k) (P k).
(** a relation between the values in lane [k] of two vectors *)
Definition at_lane (R : xreal -> xreal -> Prop) (v1 v2 : quad Z) (k : Z) : Prop :=
  R (value (nth_lane v1 k)) (value (nth_lane v2 k)).
Definition xgt a b := xlt b a.
Definition xge a b := xle b a.
(** IEEE "not equal" is the negation of "equal": true on NaN *)
Definition xne a b := ~ xeq a b.
Definition xinbounds v b := xle (xneg b) v /\ xle v b.
Definition same_bits (v1 v2 : quad Z) (k : Z) : Prop := nth_lane v1 k = nth_lane v2 k.

Definition every (n : Z) (P : Z -> Prop) : Prop := forall k, 0 <= k < n -> P k.
Definition some (n : Z) (P : Z -> Prop) : Prop := exists k, 0 <= k < n /\ P k.

(** NaN and infinity by bit pattern *)
Definition nan_pattern (z : Z) : Prop := bit_exp z = 255 /\ bit_frac z <> 0.
Definition inf_pattern (z : Z) : Prop := z = 0x7F800000 \/ z = 0xFF800000.
(** entry of the identity matrix *)
Definition id_ent (i j : Z) : R := if i =? j then 1%R else 0%R.

(** number of participating lanes *)
Definition ndim (d : dim) : Z := match d with D2 => 2 | D3 => 3 | D4 => 4 end.
(** the two code paths return the same answer and it decides [P] *)
Definition agrees (scalar sse : bool) (P : Prop) : Prop := scalar = sse /\ (sse = true <-> P).
(** what the record predicates must say about lanes 0..n-1 *)
Definition record_tells (CR n : Z) (P : Z -> Prop) : Prop :=
  (XMComparisonAllTrue CR = true <-> every n P) /\
  (XMComparisonAllFalse CR = true <-> every n (fun k => ~ P k)) /\
  (XMComparisonMixed CR = true <-> ~ every n P /\ ~ every n (fun k => ~ P k)) /\
  (XMComparisonAnyTrue CR = true <-> some n P) /\
  (XMComparisonAnyFalse CR = true <-> some n (fun k => ~ P k)).
(** the two code paths return the same mask and record, and both are right *)
Definition same_record (s e : quad Z * Z) (n : Z) (P : Z -> Prop) : Prop :=
  s = e /\ masks (fst e) P /\ record_tells (snd e) n P.
Definition wordm (m : mat Z) : Prop := forall i, wordq (lane m i).
(** some element of a matrix *)
Definition somem (P : Z -> Z -> Prop) : Prop := exists i j, 0 <= i < 4 /\ 0 <= j < 4 /\ P i j.
(** clamped to [0,1]; a zero result may carry either sign *)
Definition xclamp01 (x r : xreal) : Prop :=
  (xle x (Fin 0) -> xeq r (Fin 0)) /\ (xle (Fin 1) x -> xeq r (Fin 1)) /\ (xle (Fin 0) x -> xle x (Fin 1) -> r = x).
