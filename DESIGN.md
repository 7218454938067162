# Design of the formal model of directx_math

The subject is the Rust crate `directx_math` in `/repo` (read as text, never built).
The model and all proofs are in `rocq/theories`, checked by Rocq/Coq 8.16.1.

* `Base.v`, `Intrin.v`, `F32.v`, `Lane.v`: registers, SSE intrinsics, binary32 on bit patterns, lane arithmetic.
* `M*.v`: the model, one definition per Rust function, each with the source lines it models. No proofs.
* `Spec*.v`: the vocabulary of the property statements. They do not import the model.
* `P*.v`: lemmas.
* `Properties_*.v`: only the property theorems (each closed by `exact` a lemma) and, beside them, `Example`s showing that a
  concrete case meets the hypotheses.
* `MANIFEST.json` maps properties to theorems (`tools/mk_manifest.py`); `ASSUMPTIONS.md` gives the output of
  `Print Assumptions` for every theorem (`tools/assumptions.py`); `seeded/LOG.jsonl` logs the seeded faults. There `lemmas_failed` and any
  theorem without a failed lemma are build errors observed; the other `theorems_failed` are the theorems whose text uses a failed
  lemma, directly or through others. Entries whose claim says "survived" were not caught in the run made.

## 1. How the code is modelled

* `quad A` is the four-lane register. A 4x4 matrix is a `quad (quad A)`.
* **Bit layer** (lane = `Z` in `[0, 2^32)`): loads, stores, accessors, swizzles, masks, selects,
  comparisons, min/max, rounding, conversions, exp2 and the hyperbolic functions. IEEE-754 single operations are
  Flocq's (`BinarySingleNaN`, round to nearest even) between a decoder and an encoder of bit
  patterns. A NaN *produced by arithmetic* is the canonical quiet NaN 0x7FC00000 (Rust leaves the
  payload unspecified); NaNs that are merely moved keep their bits.
* **Lane layer**: the arithmetic code is written once over a record `Lane` of operations
  (add, sub, mul, div, sqrt, abs, neg, fma, comparisons, integral roundings, dyadic literals). It has two instances: `RL` (real
  numbers, exact arithmetic) and `FL` (binary32 bit patterns as above). Theorems about geometry and algebra are at
  `RL`; backend agreement, rounding-error bounds and the float behaviour of the bounding-volume tests are at `FL`.
  `RL` has no infinity and no NaN; theorems at `RL` say what the code computes when rounding is ignored.
* **Backends**: where the source has `#[cfg(_XM_NO_INTRINSICS_)]` and `#[cfg(_XM_SSE_INTRINSICS_)]`
  bodies, both are modelled, as a `backend` argument (`Scalar`, or `SSE` with flags for SSE3, SSE4.1, FMA3 and the AVX level) or as
  `foo_scalar`/`foo_sse` pairs. Theorems quantify over all backends unless a hypothesis `b <> Scalar` or a name says otherwise.
* Panics are explicit (`option`/error values). `&mut` outputs are returned values. Unsigned wrap-around is explicit.
* libm calls of the no-intrinsics path (`sinf`, `acosf`, `powf`, ...) are a class argument `Libm`: at `RL` it is
  instantiated with the exact functions, at `FL` theorems quantify over it.
* The hardware estimates `_mm_rcp_ps` and `_mm_rsqrt_ps` are arbitrary functions with a relative-accuracy hypothesis (C58).

### What is modelled

Every public function of `vector.rs`, `matrix.rs`, `misc.rs`, `convert.rs`, `collision.rs` and `packed_vector.rs`, and in `lib.rs` the constants, comparison records, compile-time
permute/swizzle traits, constant builders and scalar helpers. The comparisons of vector.rs are modelled
through one generic definition per shape (`vn_scalar rel n`, `vnR_sse rel n`, ...) because their bodies differ only in the
relation and the number of lanes; each property theorem names the instances. The quaternion and plane comparisons (misc.rs) are aliases of the
4-lane vector ones (MMore.v). Conversions between arrays and structures are modelled on the words in memory (MMore.v).

### What is not modelled

ARM NEON bodies (`unimplemented!()` in the source); memory alignment, pointer validity and aliasing of the `unsafe`
loads and stores; the floating-point environment (rounding mode, flush-to-zero); the payload of NaNs produced by arithmetic; `Debug` formatting;
`undefined()`/`MaybeUninit` placeholders (they are overwritten before being read); the libm crate; the F16C path of the half conversions.

## 2. Trusted base

1. Coq's kernel (and `coqchk`, run by `vcheck`).
2. The standard library's axioms of the reals, printed by `Print Assumptions`; `ASSUMPTIONS.md` has the list theorem by theorem. Four sets occur:
   * none: the lane-movement, memory, select, logic, constant and comparison theorems that do not mention real numbers;
   * `ClassicalDedekindReals.sig_forall_dec`, `FunctionalExtensionality.functional_extensionality_dep`;
   * those and `ClassicalDedekindReals.sig_not_dec`;
   * those and `Classical_Prop.classic` (through Flocq's and Coquelicot's real analysis).
   No axiom is added here; there is no `Admitted`, no functor, no module type, and no kernel check is switched off.
3. The reading of the source recorded in the definitions' comments.
4. Flocq as the meaning of IEEE-754 arithmetic, and the scalar description of each SSE intrinsic in `Intrin.v`/`Lane.v`.
   The specification side reads a bit pattern by its own 10-line decoder (`SpecF32.value`), proved equal to Flocq's.

## 3. Plan per property

| id | model | proof |
|---|---|---|
| C01 | loads/stores, scalar and SSE, on bit patterns | case analysis; round-trip equations; the `_mm_add_ps` row of LoadFloat3x3 loses -0.0 (refutation) |
| C02 | accessors with panicking index | equations per lane |
| C03 | swizzle/permute/shift/rotate/merge/insert + const-generic traits | spec = "lane i of output is source lane sel i"; proved for all selectors |
| C04 | select, SelectControl, SetBinaryConstant | `Z.testbit` spec; SetBinaryConstant SSE refuted |
| C05 | comparisons | spec through the real value and class of a pattern; masks |
| C06 | every `*R` function + XMComparison* | record theorem; scalar `GreaterR`, `InBoundsR` refuted |
| C07 | XMVector2/3/4 comparisons | forall/exists over the lanes |
| C08 | min/max/clamp/saturate | order lemmas through `Bcompare`; Saturate NaN divergence refuted |
| C09 | IsNaN/IsInfinite, matrix versions | bit-field characterisation |
| C10 | Round/Truncate/Floor/Ceiling | Flocq rounding to integer; scalar Round refuted |
| C11 | int/uint conversions | Flocq rounding; scalar IntToFloat refuted |
| C12 | half conversions | exactness on reals, round trip by reflection over the finite domain; denormals refuted |
| C13 | bitwise ops | testbit |
| C14-C15 | AddAngles/SubtractAngles/ModAngles | at `RL`, with the f32 constants' exact values |
| C16 | splat constants | enumeration over the finite argument range |
| C17 | Negate/Abs | bit characterisation; Negate(0) divergence refuted |
| C18 | arithmetic at `FL` | syntactic agreement up to commutativity; refutations where the order differs |
| C19-C26 | vector algebra | `ring`, `field`, `nra`, square-root lemmas at `RL` |
| C27-C31 | quaternions | same; slerp through the great arc and the arc-cosine and sine error bounds |
| C32-C42 | matrices | same; Decompose and AddAssign refuted as written, correct part proved |
| C43-C44 | planes, Fresnel | same |
| C45, C56, C57, C59 | trig polynomials | Taylor bounds on the reals, polynomial remainders bounded by exact interval arithmetic on coefficient lists; then rounding errors at `FL` by a calculus `fx M E z x` of absolute errors in units of 2^-60 (PFix.v), whose side conditions are integer computations |
| C46-C55 | collision.rs | point-set specifications over R^3, lists by induction; separating-axis soundness |
| C58 | estimates on hardware reciprocals | relative-error algebra, hardware universally quantified |
| C60-C61 | exp2, hyperbolics | bit level, Flocq rounding errors |
| C62-C64 | angles between vectors, quaternion exp/ln/squad | compositions of C45, C56, C30 |
| C65 | rounding errors of the linear algebra | a calculus `bd k m z x a` (k relative and m subnormal roundings), at `FL` |
| C66 | element-wise arithmetic at `FL` | SpecArith: IEEE rounding stated on values without Flocq; `add_is`, `mul_is`, ... for every word |
| C67 | XMVectorMod at `FL` | the fused remainder is representable (`rem_fmt`), so it is exact; counterexamples for the range |
| C68-C70 | scalar helpers, quaternion/plane comparisons, arrays and structures (MMore.v) | constants bounded against PI; C07; induction on the rows |
| C71 | box, sphere and plane tests on bit patterns (SpecTol.v) | monotone rounding for the box tests; relative error of the squared distance; error of the plane equation against the exact interval of its values |
| C72 | accessors, constants, integer and aligned memory (MNames.v) | case analysis on backends and lanes; the signed round trip `wrap32 (sint z) = z` |
| C73 | cubic solver and eigenvectors (SpecEig.v) | discriminant of a symmetric matrix as a weighted sum of 19 squares (Cauchy-Binet on I, S, S^2); Viete's formula with the C45 and C56 error bounds; cross product of two rows |
| C74 | helper functions of collision.rs on their own | signed areas, projection onto a line, extremes of a plane over a box or hull |
| C75 | vector-argument forms, lane by lane | case analysis per lane and backend |
| C76 | rounding errors of polynomial forms (SpecErrR.v) | PErrR.v: an error calculus that also carries a magnitude bound, so intermediate overflow is excluded from the ranges of the inputs alone |
| C77 | rounding errors of inverse and perspective divide (SpecErrI.v) | XMMatrixInverse split into cofactors and the rest by conversion; quotient error lemmas |
| C78 | relative rounding errors of projections, quaternion matrix and inverse, plane normalisation (SpecErrP.v) | a calculus of relative errors for products, quotients and single sums (PErrProj.v) |

Status of each property is in `MANIFEST.json`; `properties.jsonl` has the full statements.

## 4. Departures of the code from its claims (the `_refuted` theorems)

Each is a theorem with a concrete witness. The most consequential:

* XMLoadFloat3x3 (SSE) adds 0 to row 1: -0.0 becomes +0.0 and NaN payloads are lost (C01).
* XMVectorSetBinaryConstant: wrong mask on SSE, overflow panic in checked scalar builds (C04).
* Scalar `*GreaterR`/`*GreaterOrEqualR` with NaN lanes and `InBoundsR` of 2D/3D SSE vs scalar (C06).
* XMVectorSaturate(NaN) and XMVectorNegate(0) differ between backends (C08, C17).
* Scalar XMVectorRound uses lane 0 for every lane; so does XMVectorModAngles through it (C10, C15).
* Scalar XMConvertVectorIntToFloat reads lanes unsigned and divides by `1 >> k`; SSE unsigned conversion rounds twice (C11).
* XMConvertHalfToFloat is wrong on every denormal half (C12).
* Scalar XMVectorSplatConstant is wrong for positive exponents and negative constants (C16).
* `+=` and `-=` on matrices only write row 0 (C42).
* XMMatrixDecompose with tiny negative or two zero scales (C41).
* BoundingOrientedBox::CreateFromPoints leaves all but one point in the world frame (C47).
* CalculateEigenVector returns a vector outside the kernel when two rows are dependent: (f2 - f1) / f3 should be -(f1 + f2) / f3; the box axes can be skew (C73).
* BoundingSphere::Transform under shear, BoundingOrientedBox::Transform with a scale per axis (C49).
* Ray casts from inside a sphere or box report the exit or a negative distance; thresholds miss tiny triangles (C51).
* BoundingFrustum::IntersectsTriangle compares world vertices with local corners (C54).
* Triangle/triangle test: coplanar cases, a triangle against itself, BDist used for ADist (C55).
* XMScalarACos/ASin of arguments far outside [-1, 1]: NaN instead of the clamped value (C56).
* XMVectorTan near multiples of pi (C59); XMQuaternionLn near w = -1 (C63).
