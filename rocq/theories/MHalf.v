(** Half-precision conversions: packed_vector.rs 10-116, the portable path (no F16C). Lanes are bit patterns; a half is a
    16-bit pattern. The F16C path is a single hardware conversion instruction and is not modelled. *)
From Verif Require Import Base F32.
Open Scope Z_scope.

(** the loop of packed_vector.rs 31-38; it always leaves within 12 turns because [Mantissa] is at most 0x3FF, see
    [half_loop_done] of PHalf.v; [None] is running out of turns *)
Fixpoint half_loop (turns : nat) (Exponent Mantissa : Z) : option (Z * Z) :=
  match turns with
  | O => None
  | S n =>
      let Exponent := wrap32 (Exponent - 1) in
      let Mantissa := wrap32 (Z.shiftl Mantissa 1) in
      if Z.land Mantissa 0x0400 =? 0 then Some (Exponent, Mantissa) else half_loop n Exponent Mantissa
  end.
(** packed_vector.rs 12-54 *)
Definition XMConvertHalfToFloat (Value : Z) : option Z :=
  let Mantissa := Z.land Value 0x03FF in
  let Exponent := Z.land Value 0x7C00 in
  let pair :=
    if Exponent =? 0x7C00 then Some (0x8f, Mantissa)
    else if negb (Exponent =? 0) then Some (Z.land (Z.shiftr Value 10) 0x1F, Mantissa)
    else if negb (Mantissa =? 0) then
      match half_loop 12 1 Mantissa with
      | Some (e, m) => Some (e, Z.land m 0x03FF)
      | None => None
      end
    else Some (wrap32 (-112), Mantissa) in
  match pair with
  | Some (e, m) =>
      Some (Z.lor (Z.lor (Z.shiftl (Z.land Value 0x8000) 16) (wrap32 (Z.shiftl (wrap32 (e + 112)) 23))) (wrap32 (Z.shiftl m 13)))
  | None => None
  end.

(** packed_vector.rs 72-106. None of the unchecked [+], [-] and [<<] of this code can overflow. *)
Definition XMConvertFloatToHalf (Value : Z) : Z :=
  let Sign := Z.shiftr (Z.land Value 0x80000000) 16 in
  let IValue := Z.land Value 0x7FFFFFFF in
  let Result :=
    if 0x47800000 <=? IValue then
      Z.lor 0x7C00 (if 0x7F800000 <? IValue then Z.lor 0x200 (Z.land (Z.shiftr IValue 13) 0x3FF) else 0)
    else if IValue <=? 0x33000000 then 0
    else if IValue <? 0x38800000 then
      let Shift := 125 - Z.shiftr IValue 23 in
      let IValue := Z.lor 0x800000 (Z.land IValue 0x7FFFFF) in
      let Result := Z.shiftr IValue (wrap32 (Shift + 1)) in
      let s := if negb (Z.land IValue (wrap32 (Z.shiftl 1 Shift - 1)) =? 0) then 1 else 0 in
      Result + Z.land (Z.lor Result s) (Z.land (Z.shiftr IValue Shift) 1)
    else
      let IValue := wrap32 (IValue + 0xC8000000) in
      Z.land (Z.shiftr (IValue + 0x0FFF + Z.land (Z.shiftr IValue 13) 1) 13) 0x7FFF in
  Z.lor Result Sign.
