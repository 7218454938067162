{
 "C01": {
  "note": "Proved for every structure and both backends except the SSE XMLoadFloat3x3, whose row 1 goes through an addition with zero: bit-exact only without NaN and -0.0 in that row (partial), refuted otherwise."
 },
 "C04": {
  "note": "Select and SelectControl (documented arguments 0/1) proved. XMVectorSetBinaryConstant is only right in the scalar body without overflow checks; the SSE mask and the checked scalar body are refuted."
 },
 "C06": {
  "note": "Records proved against the lanes for every comparison; refuted where the code departs: SSE 2D/3D InBoundsR and the Greater*R records with NaN lanes."
 },
 "C08": {
  "note": "Proved except Saturate of NaN, where the backends differ (refuted)."
 },
 "C17": {
  "note": "Proved except Negate of zero, where scalar and SSE give zeros of different sign (refuted)."
 },
 "C14": {
  "note": "Exact arithmetic over the code's float constant for pi, all backends."
 },
 "C18": {
  "note": "Agreement proved for the same association; the _refuted theorems exhibit the differences (dot4 association, SSE4.1 sign of zero, fused cross, Transform4 order)."
 },
 "C22": {
  "note": "Non-zero vectors proved; the zero vector stays zero (C22_zero), so a positive minimum is refuted there."
 },
 "C23": {
  "note": "Reflect and Refract proved off the critical angle for 2D and everywhere for 3D/4D; at exactly the critical angle the 2D backends differ (refuted)."
 },
 "C35": {
  "note": "Exact arithmetic, every backend: closed forms, linearity and composition with XMMatrixMultiply."
 },
 "C26": {
  "note": "Closed forms and interpolation laws in exact arithmetic; float end points refuted where rounding intervenes."
 },
 "C27": {
  "note": "Exact arithmetic. The inverse is proved above the library's threshold 2^-23 on the squared length (partial) and refuted below it."
 },
 "C31": {
  "note": "First as functions of the sine and cosine the code uses, then as functions of the angle with the library's own sine and cosine in them (exact arithmetic, error 2.06e-7 + 2.8e-8 |a|), then _binary32 theorems with every rounding counted (angles up to 10 in size; roll-pitch-yaw on the vector backends only)."
 },
 "C36": {
  "note": "Exact arithmetic; the 2D forms with rotation matrices within the sine and cosine error of the true rotations."
 },
 "C39": {
  "note": "Exact arithmetic; the field-of-view forms in terms of the library's sine and cosine of half the angle, and against the true tangent for angles in [0.01, 3.13]."
 },
 "C41": {
  "note": "Recomposition proved for scales of magnitude at least 0.0001 or with exactly one zero; refuted for tiny negative scales and for two zero scales."
 },
 "C42": {
  "note": "Proved for all operators except += and -= on matrices (refuted: they only write row 0) and the sign of negated zero across backends (refuted)."
 },
 "C43": {
  "note": "Proved in exact arithmetic on all backends; agreement on a zero normal refuted on bit patterns."
 },
 "C44": {
  "note": "Range and closed form proved; agreement proved in exact arithmetic and refuted on bit patterns (0/0)."
 },
 "C46": {
  "note": "Exact arithmetic, every backend: spheres against points, spheres, boxes and oriented boxes decide the geometric relation exactly."
 },
 "C47": {
  "note": "Sphere and box constructors proved for all inputs. OBB from points refuted: only the first point is taken to the frame of the box; proved when the orientation found is the identity."
 },
 "C48": {
  "note": "Exact decisions proved; ContainsSphere is not exact for a box with a zero extent and a sphere of radius zero (refuted)."
 },
 "C49": {
  "note": "Boxes: every matrix. Spheres: matrices with orthogonal rows, refuted for shear. OBB and frustum: rotation, uniform scale and translation; OBB refuted for a scale per axis."
 },
 "C50": {
  "note": "Exact arithmetic, every backend."
 },
 "C51": {
  "note": "Hit decision exact for spheres, and for boxes when no direction component lies strictly between 0 and the 1e-20 threshold; distance is the first hit from outside. From inside the distance is the exit (sphere) or negative (boxes): refuted. Triangles: exact when the determinant reaches the 1e-20 threshold; a tiny triangle is missed: refuted. Frusta: exact, with the distance 0 from inside, unless the ray is nearly parallel to a face."
 },
 "C52": {
  "note": "Spheres, boxes, oriented boxes, triangles and frustums proved."
 },
 "C53": {
  "note": "Points, corners and planes exact; containment verdicts sound (exact for a frustum in a sphere); a frustum built from any of the four perspective matrices has the slopes, distances and points of the viewing frustum."
 },
 "C54": {
  "note": "Sphere: exact. Oriented box, box, frustum: never missed. Triangle: only for frusta at the origin with identity orientation, refuted otherwise (world vertices compared with local corners).",
  "status": "partial"
 },
 "C55": {
  "note": "Sphere exact; boxes never miss; triangle against triangle exact when no vertex lies in the other plane, refuted otherwise (a triangle is reported disjoint from itself; line 5274 uses BDist for ADist)."
 },
 "C10": {
  "note": "Every bit pattern, every lane, bit-level model of the scalar, SSE2 and SSE4.1 code. Truncate, Floor and Ceiling hold on all backends, Round on SSE2 and SSE4.1. On the scalar backend Round reads lane 0 for every lane: proved for lane 0, refuted for the others, and what it returns instead is proved."
 },
 "C11": {
  "note": "All lane patterns and exponents 0..31, bit-level model of both backends. Float to signed and unsigned holds on both backends; signed to float holds on SSE; unsigned to float holds on the scalar backend, and on SSE below 2^31 (above it, error under one ulp). Refuted: scalar signed-to-float (reads lanes as unsigned, divides by 1 >> k), SSE unsigned-to-float at 2^31 and above (double rounding), and backend agreement for NaN to signed."
 },
 "C16": {
  "note": "SplatConstant on SSE for every legal argument, SplatConstantInt on both backends, and the assertion failure outside the range. Scalar SplatConstant is refuted for positive exponents and for negative constants, proved for the rest."
 },
 "C12": {
  "note": "Portable (non-F16C) path, all 2^16 halves and all 2^32 floats. Float to half is proved in full. Half to float is exact on zeros, normals, infinities and NaN; its denormal loop has an inverted exit test and every one of the denormal halves is converted to a wrong value (proved), so the full statement and the round trip are refuted there."
 },
 "C15": {
  "note": "Exact arithmetic with the code's float constants. XMScalarModAngle proved while the i32 quotient does not saturate, refuted beyond. XMVectorModAngles on SSE: congruent, and inside [-XM_PI, XM_PI] up to a relative 1/70000000 (refuted as an exact range, in binary32). No-intrinsics path: lane 0 only; lanes 1-3 refuted. The _binary32 theorem counts every rounding for the SSE vector form up to a million radians."
 },
 "C45": {
  "note": "Two layers. Exact arithmetic with the code's float coefficients and constants: all angles up to 1e8, every lane and backend. The _binary32 theorems count every rounding: angles up to a million radians, SSE vector forms with and without FMA, and the scalar forms. The no-intrinsics vector path calls libm. SinCos = (Sin, Cos) holds bit for bit."
 },
 "C56": {
  "note": "Two layers: exact arithmetic with the code's float coefficients, and _binary32 theorems that count every rounding (arguments in [-1, 1] for asin and acos; every finite or infinite argument for atan; every finite point for atan2). Clamping outside [-1, 1] is proved in binary32 up to 65536 in size and refuted at 2^30. The no-intrinsics path of the vector functions calls the math library."
 },
 "C30": {
  "note": "Exact arithmetic with the code's float coefficients. No-intrinsics backend (exact math library): the exact great arc for every t. SSE backends: within an explicit error of it for |t| <= 1e7. Nearly parallel inputs: the linear blend on every backend. Rounding of the individual float operations is not included."
 },
 "C57": {
  "note": "Two layers: exact arithmetic with the code's float coefficients, and _binary32 theorems that count every rounding, except for TanEst and ATan2Est, which stay on exact arithmetic. Vector theorems exclude the scalar backend, which calls libm."
 },
 "C58": {
  "note": "Exact real arithmetic; the hardware approximation is universally quantified with a relative accuracy hypothesis (Intel and AMD document 1.5 * 2^-12). Zero vectors are excluded: the hardware estimate of 1/0 is infinite. TanEst is stated for reduced angles within 1.57 of 0; between 1.57 and pi/2 the rational function's own pole is not bounded."
 },
 "C59": {
  "note": "Exact real arithmetic with the library's coefficients. Backward-error form proved; relative accuracy against tan v itself refuted at XM_PI, because the second Cody-Waite constant does not complement the binary32 first constant (the sign of the result is wrong there, also in binary32)."
 },
 "C60": {
  "note": "Bit-level, both fma settings, all lanes and all bit patterns. The scalar backend calls the C library's powf, a parameter of the model, so nothing is claimed there. The refutation records that the accuracy of non-negative arguments does not hold for negative ones.",
  "status": "proved"
 },
 "C61": {
  "note": "Bit-level, both fma settings, all lanes. Arguments with 89 < |x| < 90 are not covered for SinH and CosH. The scalar backend calls the C library, a parameter of the model. The refutation records the loss of relative accuracy near 0.",
  "status": "proved"
 },
 "C62": {
  "note": "Exact arithmetic with the library's coefficients; the domain claim on bit patterns."
 },
 "C63": {
  "note": "Exact arithmetic with the library's coefficients. Proved except for the logarithm near w = -1, which is refuted."
 },
 "C64": {
  "note": "Exact arithmetic; great-arc closed forms and end points on the portable backend (the vector backends' slerp error is C30). Portable SquadSetup and BaryCentricV refuted on bit patterns. Not proved: a closed error bound for Squad on the vector backends."
 },
 "C65": {
  "note": "Proved on bit patterns for all backends; the C65_..._refuted theorems show the limits (no relative accuracy of dot under cancellation; short and long vectors do not normalise) and do not leave a stated bound unproved."
 },
 "C66": {
  "note": "On bit patterns, no hypothesis except (fused form) that a lane is a 32-bit word. SpecArith states IEEE rounding without Flocq; C66_rounded_unique shows that it determines the result."
 },
 "C67": {
  "note": "On bit patterns. The result is characterised exactly (fused) or bounded (plain) for |x| < 2^24|y|; the documented remainder range, an infinite divisor and huge quotients are refuted."
 },
 "C68": {
  "note": "On bit patterns; powf is a parameter."
 },
 "C69": {
  "note": "Comparisons on bit patterns; XMPlaneNearEqual in exact arithmetic."
 },
 "C70": {
  "note": "A value is modelled by its words in memory; a transmute reads the same words as another type."
 },
 "C71": {
  "status": "proved",
  "note": "On bit patterns, every operation rounded. The two _refuted theorems show that the tolerances cannot be dropped. Oriented boxes, triangles, rays and frustums are covered in exact arithmetic only (C41-C56)."
 },
 "C72": {
  "status": "proved",
  "note": "On bit patterns; memory is a list of 32-bit words and an address. A fault of an aligned access is None."
 },
 "C73": {
  "status": "partial",
  "note": "Exact arithmetic. The axes are right for independent rows (proved); the fallback for dependent rows is refuted with witnesses. Rounding in the solver is not bounded."
 },
 "C74": {
  "status": "proved",
  "note": "Exact arithmetic. PointOnPlaneInsideTriangle is a membership test only for proper triangles; the degenerate case is characterised."
 },
 "C75": {
  "status": "proved",
  "note": "Exact arithmetic; a failed debug assertion is None. RefractV with only some lanes totally reflected takes the square root of a negative number and is left out."
 },
 "C76": {
  "status": "proved",
  "note": "Binary32 bit patterns, all backends. The refuted theorem shows why the determinant's bound must be relative to the permanent. Overflowing inputs are excluded by the stated ranges."
 },
 "C77": {
  "status": "proved",
  "note": "Binary32 bit patterns, all backends. The refuted theorem shows that the condition on the determinant cannot be dropped."
 },
 "C78": {
  "status": "proved",
  "note": "Binary32 bit patterns, all backends. The refuted theorem shows that the lower limit on the quaternion norm is needed."
 }
}