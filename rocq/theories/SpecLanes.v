(** Specification of lane movement, bit selection and memory images, written without the model's functions. *)
From Verif Require Import Base.

(** Lane [n mod 4] of a register, by integer index. *)
Definition nth_lane {A} (q : quad A) (n : Z) : A :=
  if n =? 0 then qx q else if n =? 1 then qy q else if n =? 2 then qz q else qw q.
(** Lane [n] (0..7) of two registers laid end to end. *)
Definition nth_lane2 {A} (p q : quad A) (n : Z) : A :=
  if n <? 4 then nth_lane p n else nth_lane q (n - 4).
(** [r] has in lane k what [src k] says. *)
Definition lanes_are {A} (r : quad A) (src : Z -> A) : Prop :=
  forall k, 0 <= k < 4 -> nth_lane r k = src k.
(** fourth-argument selector *)
Definition pick4 (e0 e1 e2 e3 : Z) (k : Z) : Z :=
  if k =? 0 then e0 else if k =? 1 then e1 else if k =? 2 then e2 else e3.

(** bit [n] of the multiplexer *)
Definition mux_bits (a b c r : Z) : Prop :=
  forall n, 0 <= n -> Z.testbit r n = if Z.testbit c n then Z.testbit b n else Z.testbit a n.

(** Memory: word [k] of a memory image. *)
Definition word_at (m : list Z) (k : Z) : Z := nth (Z.to_nat k) m 0.
(** A 4x4 register matrix has [f i j] at row i, column j. *)
Definition mat_is {A} (M : mat A) (f : Z -> Z -> A) : Prop :=
  forall i j, 0 <= i < 4 -> 0 <= j < 4 -> nth_lane (nth_lane M i) j = f i j.
(** [m'] is [m] with words 0..n-1 replaced by [f]; nothing else moved or touched. *)
Definition overwritten (m m' : list Z) (n : Z) (f : Z -> Z) : Prop :=
  length m' = length m /\
  forall k, 0 <= k < Z.of_nat (length m) -> word_at m' k = if k <? n then f k else word_at m k.

(** What the register matrix loaded from a 3x3 (row-major), 4x3 (row-major) or 3x4 (column-major, i.e. transposed)
    structure must be: missing entries come from the identity. *)
Definition id_entry (i j : Z) : Z := if (i =? 3) && (j =? 3) then 0x3F800000 else 0.
Definition img3x3 (m : list Z) (i j : Z) : Z :=
  if (i =? 3) || (j =? 3) then id_entry i j else word_at m (3 * i + j).
Definition img4x3 (m : list Z) (i j : Z) : Z := if j =? 3 then id_entry i j else word_at m (3 * i + j).
Definition img3x4 (m : list Z) (i j : Z) : Z := if j =? 3 then id_entry i j else word_at m (4 * j + i).
(** entry of a register matrix by integer index *)
Definition ent {A} (M : mat A) (i j : Z) : A := nth_lane (nth_lane M i) j.
