(** Model: comparisons, comparison records, NaN/infinity tests, min/max/clamp, negate/abs on 32-bit lanes
    (src/vector.rs 2207-3478, 3820-3850, 4748-4777, 7266-7791, 9038-9641, 11194-11818; src/matrix.rs 18-233;
    src/lib.rs 1386-1465). *)
From Verif Require Import Base F32 Intrin MLanes.

(** ** Comparison records, lib.rs 1386-1465 *)
Definition XM_CRMASK_CR6 : Z := 0xF0.
Definition XM_CRMASK_CR6TRUE : Z := 0x80.
Definition XM_CRMASK_CR6FALSE : Z := 0x20.
Definition XM_CRMASK_CR6BOUNDS : Z := XM_CRMASK_CR6FALSE.
Definition XMComparisonAllTrue (CR : Z) : bool := Z.land CR XM_CRMASK_CR6TRUE =? XM_CRMASK_CR6TRUE.
Definition XMComparisonAnyTrue (CR : Z) : bool := negb (Z.land CR XM_CRMASK_CR6FALSE =? XM_CRMASK_CR6FALSE).
Definition XMComparisonAllFalse (CR : Z) : bool := Z.land CR XM_CRMASK_CR6FALSE =? XM_CRMASK_CR6FALSE.
Definition XMComparisonAnyFalse (CR : Z) : bool := negb (Z.land CR XM_CRMASK_CR6TRUE =? XM_CRMASK_CR6TRUE).
Definition XMComparisonMixed (CR : Z) : bool := Z.land CR XM_CRMASK_CR6 =? 0.
Definition XMComparisonAllInBounds (CR : Z) : bool := Z.land CR XM_CRMASK_CR6BOUNDS =? XM_CRMASK_CR6BOUNDS.
Definition XMComparisonAnyOutOfBounds (CR : Z) : bool := negb (Z.land CR XM_CRMASK_CR6BOUNDS =? XM_CRMASK_CR6BOUNDS).

(** ** Lane masks. Scalar form: [if V1[i] op V2[i] { 0xFFFFFFFF } else { 0 }] in each lane. *)
Definition lanes_scalar (op : Z -> Z -> bool) (v1 v2 : quad Z) : quad Z :=
  qmap2 (fun a b => if op a b then 0xFFFFFFFF else 0) v1 v2.
Definition f_gt a b := f_lt b a.
Definition f_ge a b := f_le b a.
Definition f_neq a b := negb (f_eq a b).
Definition i_neq (a b : Z) := negb (a =? b).
(** XMVectorEqual 2207-2233, EqualInt 2357-2383, NotEqual 2535-2558, NotEqualInt 2564-2588,
    Greater 2594-2617, GreaterOrEqual 2673-2696, Less 2752-2775, LessOrEqual 2781-2804 *)
Definition XMVectorEqual_scalar := lanes_scalar f_eq.
Definition XMVectorEqual_sse := cmpeq_ps.
Definition XMVectorEqualInt_scalar := lanes_scalar Z.eqb.
Definition XMVectorEqualInt_sse := cmpeq_epi32.
Definition XMVectorNotEqual_scalar := lanes_scalar f_neq.
Definition XMVectorNotEqual_sse := cmpneq_ps.
Definition XMVectorNotEqualInt_scalar := lanes_scalar i_neq.
(** cmpeq_epi32 then xor with g_XMNegOneMask (globals.rs: 0xFFFFFFFF in every lane) *)
Definition XMVectorNotEqualInt_sse v1 v2 := xor_ps (cmpeq_epi32 v1 v2) (qrep 0xFFFFFFFF).
Definition XMVectorGreater_scalar := lanes_scalar f_gt.
Definition XMVectorGreater_sse := cmpgt_ps.
Definition XMVectorGreaterOrEqual_scalar := lanes_scalar f_ge.
Definition XMVectorGreaterOrEqual_sse := cmpge_ps.
Definition XMVectorLess_scalar := lanes_scalar f_lt.
Definition XMVectorLess_sse := cmplt_ps.
Definition XMVectorLessOrEqual_scalar := lanes_scalar f_le.
Definition XMVectorLessOrEqual_sse := cmple_ps.

(** XMVectorNearEqual 2462-2505: |V1 - V2| <= Epsilon; the SSE path takes max(0 - d, d) for |d| *)
Definition near1 (a b e : Z) : bool := f_le (f_abs (f_sub a b)) e.
Definition XMVectorNearEqual_scalar (v1 v2 e : quad Z) : quad Z :=
  qmap3 (fun a b c => if near1 a b c then 0xFFFFFFFF else 0) v1 v2 e.
Definition XMVectorNearEqual_sse (v1 v2 e : quad Z) : quad Z :=
  let vDelta := sub_ps v1 v2 in
  let vTemp := max_ps (sub_ps (qrep 0) vDelta) vDelta in
  cmple_ps vTemp e.

(** XMVectorInBounds 2837-2868: [V <= B && V >= -B]; the SSE path multiplies the bounds by g_XMNegativeOne *)
Definition inb1 (v b : Z) : bool := f_le v b && f_ge v (f_neg b).
Definition XMVectorInBounds_scalar := lanes_scalar inb1.
Definition XMVectorInBounds_sse (v b : quad Z) : quad Z :=
  and_ps (cmple_ps v b) (cmple_ps (mul_ps b (qrep 0xBF800000)) v).

(** ** Masks with a record. Scalar: tests on the and/or of the four lane masks (vector.rs 2261-2277). *)
Definition record_scalar (t : Z) (c : quad Z) : Z :=
  if negb (Z.land (Z.land (Z.land (qx c) (qy c)) (qz c)) (qw c) =? 0) then t
  else if Z.lor (Z.lor (Z.lor (qx c) (qy c)) (qz c)) (qw c) =? 0 then XM_CRMASK_CR6FALSE else 0.
(** SSE: on the movemask (2285-2299) *)
Definition record_sse (c : quad Z) : Z :=
  let iTest := movemask_ps c in
  if iTest =? 0xf then XM_CRMASK_CR6TRUE else if iTest =? 0 then XM_CRMASK_CR6FALSE else 0.
(** XMVectorEqualR 2257-2303, GreaterR 2623-2667, GreaterOrEqualR 2702-2746: (mask, record) *)
Definition withR_scalar (c : quad Z) : quad Z * Z := (c, record_scalar XM_CRMASK_CR6TRUE c).
Definition withR_sse (c : quad Z) : quad Z * Z := (c, record_sse c).
Definition XMVectorEqualR_scalar v1 v2 := withR_scalar (XMVectorEqual_scalar v1 v2).
Definition XMVectorEqualR_sse v1 v2 := withR_sse (cmpeq_ps v1 v2).
Definition XMVectorGreaterR_scalar v1 v2 := withR_scalar (XMVectorGreater_scalar v1 v2).
Definition XMVectorGreaterR_sse v1 v2 := withR_sse (cmpgt_ps v1 v2).
Definition XMVectorGreaterOrEqualR_scalar v1 v2 := withR_scalar (XMVectorGreaterOrEqual_scalar v1 v2).
Definition XMVectorGreaterOrEqualR_sse v1 v2 := withR_sse (cmpge_ps v1 v2).
(** XMVectorEqualIntR 2389-2435: the scalar path compares the mask with all-true/all-false by XMVector4EqualInt *)
Definition eqint4 (a b : quad Z) : bool := qall (qmap2 Z.eqb a b).
Definition XMVectorEqualIntR_scalar (v1 v2 : quad Z) : quad Z * Z :=
  let c := XMVectorEqualInt_scalar v1 v2 in
  (c, if eqint4 c (XMVectorTrueInt) then XM_CRMASK_CR6TRUE
      else if eqint4 c (XMVectorFalseInt) then XM_CRMASK_CR6FALSE else 0).
Definition XMVectorEqualIntR_sse v1 v2 := withR_sse (cmpeq_epi32 v1 v2).
(** XMVectorInBoundsR 2905-2949: the scalar path sets CR6TRUE, the SSE path CR6BOUNDS, when all lanes pass *)
Definition XMVectorInBoundsR_scalar (v b : quad Z) : quad Z * Z :=
  let c := XMVectorInBounds_scalar v b in
  (c, if negb (Z.land (Z.land (Z.land (qx c) (qy c)) (qz c)) (qw c) =? 0) then XM_CRMASK_CR6TRUE else 0).
Definition XMVectorInBoundsR_sse (v b : quad Z) : quad Z * Z :=
  let c := XMVectorInBounds_sse v b in
  (c, if movemask_ps c =? 0xf then XM_CRMASK_CR6BOUNDS else 0).

(** ** 2/3/4-dimensional tests. [dim] picks which of the three source functions. *)
Inductive dim := D2 | D3 | D4.
Definition alln (d : dim) (q : quad bool) : bool :=
  match d with
  | D2 => qx q && qy q
  | D3 => qx q && qy q && qz q
  | D4 => qx q && qy q && qz q && qw q
  end.
Definition anyn (d : dim) (q : quad bool) : bool :=
  match d with
  | D2 => qx q || qy q
  | D3 => qx q || qy q || qz q
  | D4 => qx q || qy q || qz q || qw q
  end.
(** [_mm_movemask_ps(v)], masked with 3 or 7 in 2D and 3D *)
Definition full (d : dim) : Z := match d with D2 => 3 | D3 => 7 | D4 => 0xf end.
Definition test (d : dim) (v : quad Z) : Z :=
  match d with D2 => Z.land (movemask_ps v) 3 | D3 => Z.land (movemask_ps v) 7 | D4 => movemask_ps v end.

(** XMVector{2,3,4}Equal 7266/9038/11194, EqualInt 7341/9151/11275, NearEqual 7414/9228/11357,
    Greater 7505/9321/11456, GreaterOrEqual 7579/9397/11536, Less 7652/9473/11638, LessOrEqual 7678/9500/11667,
    InBounds 7704/9548/11719 *)
Definition vn_scalar (op : Z -> Z -> bool) (d : dim) (v1 v2 : quad Z) : bool := alln d (qmap2 op v1 v2).
Definition vn_sse (op : quad Z -> quad Z -> quad Z) (d : dim) (v1 v2 : quad Z) : bool := test d (op v1 v2) =? full d.
Definition XMVectorNEqual_scalar := vn_scalar f_eq.
Definition XMVectorNEqual_sse := vn_sse cmpeq_ps.
Definition XMVectorNEqualInt_scalar := vn_scalar Z.eqb.
Definition XMVectorNEqualInt_sse := vn_sse cmpeq_epi32.
Definition XMVectorNGreater_scalar := vn_scalar f_gt.
Definition XMVectorNGreater_sse := vn_sse cmpgt_ps.
Definition XMVectorNGreaterOrEqual_scalar := vn_scalar f_ge.
Definition XMVectorNGreaterOrEqual_sse := vn_sse cmpge_ps.
Definition XMVectorNLess_scalar := vn_scalar f_lt.
Definition XMVectorNLess_sse := vn_sse cmplt_ps.
Definition XMVectorNLessOrEqual_scalar := vn_scalar f_le.
Definition XMVectorNLessOrEqual_sse := vn_sse cmple_ps.
Definition XMVectorNInBounds_scalar := vn_scalar inb1.
Definition XMVectorNInBounds_sse := vn_sse XMVectorInBounds_sse.
Definition XMVectorNNearEqual_scalar (d : dim) (v1 v2 e : quad Z) : bool := alln d (qmap3 near1 v1 v2 e).
Definition XMVectorNNearEqual_sse (d : dim) (v1 v2 e : quad Z) : bool :=
  test d (XMVectorNearEqual_sse v1 v2 e) =? full d.
(** XMVector{2,3,4}NotEqual 7452/9269/11398 (the 4D SSE path uses cmpneq), NotEqualInt 7479/9295/11427 *)
Definition XMVectorNNotEqual_scalar (d : dim) (v1 v2 : quad Z) : bool := anyn d (qmap2 f_neq v1 v2).
Definition XMVectorNNotEqual_sse (d : dim) (v1 v2 : quad Z) : bool :=
  match d with
  | D4 => negb (movemask_ps (cmpneq_ps v1 v2) =? 0)
  | _ => negb (test d (cmpeq_ps v1 v2) =? full d)
  end.
Definition XMVectorNNotEqualInt_scalar (d : dim) (v1 v2 : quad Z) : bool := anyn d (qmap2 i_neq v1 v2).
Definition XMVectorNNotEqualInt_sse (d : dim) (v1 v2 : quad Z) : bool := negb (test d (cmpeq_epi32 v1 v2) =? full d).

(** XMVector{2,3,4}EqualR 7293/9078/11223, EqualIntR 7367/9179/11306, GreaterR 7532/9348/11485,
    GreaterOrEqualR 7605/9424/11566. The scalar path tests a second relation [op'] for "all false". *)
Definition vnR_scalar (op op' : Z -> Z -> bool) (d : dim) (v1 v2 : quad Z) : Z :=
  if alln d (qmap2 op v1 v2) then XM_CRMASK_CR6TRUE
  else if alln d (qmap2 op' v1 v2) then XM_CRMASK_CR6FALSE else 0.
Definition vnR_sse (op : quad Z -> quad Z -> quad Z) (d : dim) (v1 v2 : quad Z) : Z :=
  let iTest := test d (op v1 v2) in
  if iTest =? full d then XM_CRMASK_CR6TRUE else if iTest =? 0 then XM_CRMASK_CR6FALSE else 0.
Definition XMVectorNEqualR_scalar := vnR_scalar f_eq f_neq.
Definition XMVectorNEqualR_sse := vnR_sse cmpeq_ps.
Definition XMVectorNEqualIntR_scalar := vnR_scalar Z.eqb i_neq.
Definition XMVectorNEqualIntR_sse := vnR_sse cmpeq_epi32.
Definition XMVectorNGreaterR_scalar := vnR_scalar f_gt f_le.
Definition XMVectorNGreaterR_sse := vnR_sse cmpgt_ps.
Definition XMVectorNGreaterOrEqualR_scalar := vnR_scalar f_ge f_lt.
Definition XMVectorNGreaterOrEqualR_sse := vnR_sse cmpge_ps.

(** ** NaN and infinity *)
(** [f32::is_infinite]: |x| == inf *)
Definition f_isinf (a : Z) : bool := f_eq (f_abs a) 0x7F800000.
(** XMVectorIsNaN 2955-2979, XMVectorIsInfinite 3010-3038 *)
Definition XMVectorIsNaN_scalar (v : quad Z) : quad Z := qmap (fun a => if f_isnan a then 0xFFFFFFFF else 0) v.
Definition XMVectorIsNaN_sse (v : quad Z) : quad Z := cmpneq_ps v v.
Definition XMVectorIsInfinite_scalar (v : quad Z) : quad Z := qmap (fun a => if f_isinf a then 0xFFFFFFFF else 0) v.
Definition XMVectorIsInfinite_sse (v : quad Z) : quad Z :=
  cmpeq_ps (and_ps v (qrep 0x7FFFFFFF)) (qrep 0x7F800000).
(** XMVector{2,3,4}IsNaN 7739/9587/11759, IsInfinite 7767/9616/11792 *)
Definition XMVectorNIsNaN_scalar (d : dim) (v : quad Z) : bool := anyn d (qmap f_isnan v).
Definition XMVectorNIsNaN_sse (d : dim) (v : quad Z) : bool := negb (test d (cmpneq_ps v v) =? 0).
Definition XMVectorNIsInfinite_scalar (d : dim) (v : quad Z) : bool := anyn d (qmap f_isinf v).
Definition XMVectorNIsInfinite_sse (d : dim) (v : quad Z) : bool := negb (test d (XMVectorIsInfinite_sse v) =? 0).

(** XMMatrixIsNaN, matrix.rs 18-61: the scalar path loops over the 16 words with an integer range test *)
Definition qfold {A} (f : A -> bool) (m : mat A) : bool :=
  qany (qmap f (qx m)) || qany (qmap f (qy m)) || qany (qmap f (qz m)) || qany (qmap f (qw m)).
Definition XMMatrixIsNaN_scalar (m : mat Z) : bool :=
  qfold (fun u => wrap32 (Z.land u 0x7FFFFFFF - 0x7F800001) <? 0x007FFFFF) m.
Definition XMMatrixIsNaN_sse (m : mat Z) : bool :=
  let c r := cmpneq_ps r r in
  let vX := or_ps (c (qx m)) (c (qz m)) in
  let vY := or_ps (c (qy m)) (c (qw m)) in
  negb (movemask_ps (or_ps vX vY) =? 0).
(** XMMatrixIsInfinite 100-142 *)
Definition XMMatrixIsInfinite_scalar (m : mat Z) : bool := qfold (fun u => Z.land u 0x7FFFFFFF =? 0x7F800000) m.
Definition XMMatrixIsInfinite_sse (m : mat Z) : bool :=
  let c r := XMVectorIsInfinite_sse r in
  negb (movemask_ps (or_ps (or_ps (c (qx m)) (c (qy m))) (or_ps (c (qz m)) (c (qw m)))) =? 0).
(** XMMatrixIsIdentity 181-233 *)
Definition XMMatrixIsIdentity_scalar (m : mat Z) : bool :=
  let w i j := mij m i j in
  let x1 u := Z.lxor u 0x3F800000 in
  let uOne := Z.lor (Z.lor (Z.lor (x1 (w I0 I0)) (x1 (w I1 I1))) (x1 (w I2 I2))) (x1 (w I3 I3)) in
  let uZero := fold_left Z.lor [w I0 I2; w I0 I3; w I1 I0; w I1 I2; w I1 I3; w I2 I0; w I2 I1; w I2 I3;
                                w I3 I0; w I3 I1; w I3 I2] (w I0 I1) in
  Z.lor uOne (Z.land uZero 0x7FFFFFFF) =? 0.
Definition idrow (i : idx) : quad Z := setlane (qrep 0) i one32.
Definition XMMatrixIsIdentity_sse (m : mat Z) : bool :=
  let c i := cmpeq_ps (lane m i) (idrow i) in
  movemask_ps (and_ps (and_ps (c I0) (c I1)) (and_ps (c I2) (c I3))) =? 0xf.

(** ** Min, Max, Clamp, Saturate *)
(** XMVectorMin 3044-3067, XMVectorMax 3073-3096 *)
Definition XMVectorMin_scalar (v1 v2 : quad Z) : quad Z := qmap2 (fun a b => if f_lt a b then a else b) v1 v2.
Definition XMVectorMin_sse := min_ps.
Definition XMVectorMax_scalar (v1 v2 : quad Z) : quad Z := qmap2 (fun a b => if f_gt a b then a else b) v1 v2.
Definition XMVectorMax_sse := max_ps.
(** XMVectorClamp 3397-3425: [debug_assert!(XMVector4LessOrEqual(Min, Max))] is the [None] *)
Definition XMVectorClamp_scalar (v mn mx : quad Z) : option (quad Z) :=
  if XMVectorNLessOrEqual_scalar D4 mn mx
  then Some (XMVectorMin_scalar mx (XMVectorMax_scalar mn v)) else None.
Definition XMVectorClamp_sse (v mn mx : quad Z) : option (quad Z) :=
  if XMVectorNLessOrEqual_sse D4 mn mx then Some (min_ps mx (max_ps mn v)) else None.
(** XMVectorSaturate 3456-3478 *)
Definition XMVectorSaturate_scalar (v : quad Z) : option (quad Z) := XMVectorClamp_scalar v (qrep 0) (qrep one32).
Definition XMVectorSaturate_sse (v : quad Z) : quad Z := min_ps (max_ps v (qrep 0)) (qrep one32).

(** ** Negate 3820-3850 (SSE: 0 - V), Abs 4748-4777 (SSE: max(0 - V, V)) *)
Definition XMVectorNegate_scalar (v : quad Z) : quad Z := qmap f_neg v.
Definition XMVectorNegate_sse (v : quad Z) : quad Z := sub_ps (qrep 0) v.
Definition XMVectorAbs_scalar (v : quad Z) : quad Z := qmap f_abs v.
Definition XMVectorAbs_sse (v : quad Z) : quad Z := max_ps (sub_ps (qrep 0) v) v.
