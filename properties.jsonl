{"id": "C01", "title": "Loading then storing preserves every bit", "statement": "For every memory image of 2, 3 or 4 floats/ints or a 3x3, 4x3, 3x4 or 4x4 float matrix, loading it into a vector/matrix and storing it back yields exactly the same bit patterns (NaN payloads and negative zeros included), and the lanes not present in memory are loaded as the documented constants; both code paths (scalar and SSE) load identical registers.", "quantifier": "all bit patterns of all elements, both backends", "why_tests_cant": "The input space is all 4x32-bit vectors (2^128 and up); tests sample a handful of them.", "anchors": ["src/convert.rs: XMLoadFloat2/3/4, XMLoadInt2/3/4, XMLoadFloat3x3, XMLoadFloat4x3, XMLoadFloat3x4, XMLoadFloat4x4, XMStoreFloat2/3/4, XMStoreInt2/3/4, XMStoreFloat3x3, XMStoreFloat4x3, XMStoreFloat3x4, XMStoreFloat4x4"]}
{"id": "C02", "title": "Component accessors obey get/set laws", "statement": "Reading a component after writing it returns the written bits, other components are untouched, writing twice keeps the last write, by-name and by-index access agree, and an index outside 0..3 is a panic rather than a silent wrong lane.", "quantifier": "all vectors, all values, all indices, both backends", "why_tests_cant": "The input space is all 4x32-bit vectors (2^128 and up); tests sample a handful of them.", "anchors": ["src/vector.rs: XMVectorGetByIndex, XMVectorGetX..W, XMVectorGetIntX..W, XMVectorSetByIndex, XMVectorSetX..W, XMVectorSetIntX..W, XMVectorSet, XMVectorReplicate, XMVectorSplatX..W"]}
{"id": "C03", "title": "Lane movement is exactly the documented permutation", "statement": "Swizzle, permute, shift-left, rotate-left/right, merge and insert deliver in output lane i exactly the documented source lane's bits, for every legal selector, identically on every backend (scalar, SSE, AVX); illegal selectors panic.", "quantifier": "all vectors and all selector tuples, all backends", "why_tests_cant": "4^4 swizzles and 8^4 permutes times all vectors.", "anchors": ["src/vector.rs: XMVectorSwizzle, XMVectorPermute, XMVectorShiftLeft, XMVectorRotateLeft, XMVectorRotateRight, XMVectorMergeXY, XMVectorMergeZW, XMVectorInsert", "src/lib.rs: XMVectorPermute trait, XMVectorSwizzle trait"]}
{"id": "C04", "title": "Select is a bitwise multiplexer and control builders agree across backends", "statement": "XMVectorSelect picks, bit by bit, the second operand where the control bit is 1 and the first where it is 0; XMVectorSelectControl and XMVectorSetBinaryConstant build the documented vector from their small integer arguments on every backend.", "quantifier": "all vectors and all control arguments, both backends", "why_tests_cant": "The input space is all 4x32-bit vectors (2^128 and up); tests sample a handful of them.", "anchors": ["src/vector.rs: XMVectorSelect, XMVectorSelectControl", "src/lib.rs: XMVectorSetBinaryConstant"]}
{"id": "C05", "title": "Lane-wise comparisons are IEEE-correct masks", "statement": "Equal, NotEqual, Greater, GreaterOrEqual, Less, LessOrEqual, EqualInt, NotEqualInt and InBounds produce per lane 0xFFFFFFFF or 0 according to the IEEE-754 (or integer) relation, with NaN unordered and +0 = -0; scalar and SSE paths agree bit for bit.", "quantifier": "all pairs of 32-bit patterns per lane, both backends", "why_tests_cant": "2^64 pairs per lane; NaN, infinity and signed-zero interactions are the cases tests omit.", "anchors": ["src/vector.rs: XMVectorEqual, XMVectorNotEqual, XMVectorGreater, XMVectorGreaterOrEqual, XMVectorLess, XMVectorLessOrEqual, XMVectorEqualInt, XMVectorNotEqualInt, XMVectorInBounds"]}
{"id": "C06", "title": "Comparison records summarise the lanes faithfully", "statement": "For each function that returns a comparison record, XMComparisonAllTrue holds iff every participating lane compares true, AllFalse iff every lane compares false, Mixed iff neither, and AnyTrue/AnyFalse are their complements; for in-bounds records AllInBounds holds iff all lanes are in bounds. Scalar and SSE records are equal.", "quantifier": "all vectors (NaN included), every *R function, both backends", "why_tests_cant": "The input space is all 4x32-bit vectors (2^128 and up); tests sample a handful of them.", "anchors": ["src/vector.rs: XMVectorEqualR, XMVectorEqualIntR, XMVectorGreaterR, XMVectorGreaterOrEqualR, XMVectorInBoundsR, XMVector2/3/4EqualR, XMVector2/3/4GreaterR, XMVector2/3/4GreaterOrEqualR", "src/lib.rs: XMComparisonAllTrue..XMComparisonAnyOutOfBounds"]}
{"id": "C07", "title": "Boolean vector comparisons quantify over exactly their lanes", "statement": "XMVector2/3/4 Equal, Less, LessOrEqual, Greater, GreaterOrEqual, InBounds, EqualInt return true iff the relation holds in the first 2/3/4 lanes and ignore the others; NotEqual and NotEqualInt are true iff some such lane differs; IsNaN/IsInfinite iff some such lane is. Scalar and SSE agree.", "quantifier": "all vectors, dimensions 2, 3, 4, both backends", "why_tests_cant": "The input space is all 4x32-bit vectors (2^128 and up); tests sample a handful of them.", "anchors": ["src/vector.rs: XMVector2Equal .. XMVector4InBounds, XMVector2IsNaN .. XMVector4IsInfinite"]}
{"id": "C08", "title": "Minimum, maximum, clamp and saturate", "statement": "Min/Max return the IEEE smaller/larger operand lane-wise with the second operand on ties and unordered lanes, identically on both backends; Clamp of an ordered value between ordered bounds lies within the bounds and leaves in-range values untouched; Saturate clamps to [0,1] on both backends alike.", "quantifier": "all vectors incl. NaN, infinities and signed zeros, both backends", "why_tests_cant": "The input space is all 4x32-bit vectors (2^128 and up); tests sample a handful of them.", "anchors": ["src/vector.rs: XMVectorMin, XMVectorMax, XMVectorClamp, XMVectorSaturate"]}
{"id": "C09", "title": "NaN and infinity classification", "statement": "IsNaN flags exactly the lanes whose exponent is all ones and whose fraction is non-zero; IsInfinite exactly the lanes equal to plus or minus infinity; the matrix versions report whether any of the 16 elements is; XMMatrixIsIdentity is true iff every element compares equal to the identity's; scalar and SSE agree.", "quantifier": "all bit patterns, both backends", "why_tests_cant": "The input space is all 4x32-bit vectors (2^128 and up); tests sample a handful of them.", "anchors": ["src/vector.rs: XMVectorIsNaN, XMVectorIsInfinite", "src/matrix.rs: XMMatrixIsNaN, XMMatrixIsInfinite, XMMatrixIsIdentity"]}
{"id": "C10", "title": "Rounding functions return the right integer in every lane", "statement": "Round returns for each lane the nearest integer (ties to even), Truncate the integer toward zero, Floor the greatest integer not above, Ceiling the least integer not below, for every finite input (values of magnitude >= 2^23 unchanged), independently per lane, on both backends.", "quantifier": "all finite floats in all lanes, both backends", "why_tests_cant": "2^32 inputs per lane; per-lane independence is only visible with distinct lanes.", "anchors": ["src/vector.rs: XMVectorRound, XMVectorTruncate, XMVectorFloor, XMVectorCeiling, round_to_nearest"]}
{"id": "C11", "title": "Integer/float vector conversions", "statement": "Converting integer lanes to float with scale 2^-k gives the correctly rounded value of lane*2^-k, converting float lanes to integer with scale 2^k truncates lane*2^k and saturates out-of-range values, for signed and unsigned, identically on both backends.", "quantifier": "all 2^32 lane patterns, all legal exponents, both backends", "why_tests_cant": "The input space is all 4x32-bit vectors (2^128 and up); tests sample a handful of them.", "anchors": ["src/convert.rs: XMConvertVectorIntToFloat, XMConvertVectorFloatToInt, XMConvertVectorUIntToFloat, XMConvertVectorFloatToUInt"]}
{"id": "C12", "title": "Half-precision conversion", "statement": "Half to float is exact for every half; float to half rounds to nearest even with overflow to infinity as the function documents; converting a half to float and back is the identity on every non-NaN half.", "quantifier": "all 65536 halves and all 2^32 floats", "why_tests_cant": "The float side has 2^32 inputs; the existing tests cover a few values.", "anchors": ["src/packed_vector.rs: XMConvertHalfToFloat, XMConvertFloatToHalf"]}
{"id": "C13", "title": "Integer vector logic is a Boolean algebra on bits", "statement": "And, AndC, Or, Nor, Xor act bitwise on all 128 bits and agree across backends, hence satisfy the Boolean laws (De Morgan, absorption, x xor x = 0, AndC(a,b) = a and not b).", "quantifier": "all pairs of vectors, both backends", "why_tests_cant": "The input space is all 4x32-bit vectors (2^128 and up); tests sample a handful of them.", "anchors": ["src/vector.rs: XMVectorAndInt, XMVectorAndCInt, XMVectorOrInt, XMVectorNorInt, XMVectorXorInt"]}
{"id": "C14", "title": "Angle addition stays in the principal range", "statement": "XMVectorAddAngles/SubtractAngles of angles in their documented input ranges return a value in [-pi, pi) lane-wise that differs from the exact sum/difference by a multiple of 2*pi; both backends agree.", "quantifier": "all admissible angles (over the reals), both backends", "why_tests_cant": "The claim is an identity or inequality over a continuum of inputs; tests check a few numeric points within a tolerance.", "anchors": ["src/vector.rs: XMVectorAddAngles, XMVectorSubtractAngles"]}
{"id": "C15", "title": "Angle reduction", "statement": "XMScalarModAngle and XMVectorModAngles return a value congruent to the input modulo 2*pi and inside [-pi, pi], in every lane independently, on every backend.", "quantifier": "all angles, all lanes, both backends", "why_tests_cant": "The claim is an identity or inequality over a continuum of inputs; tests check a few numeric points within a tolerance.", "anchors": ["src/misc.rs: XMScalarModAngle", "src/vector.rs: XMVectorModAngles, XMVectorRound"]}
{"id": "C16", "title": "Compile-time constant builders", "statement": "XMVectorSplatConstant<I,E> replicates exactly I * 2^-E and XMVectorSplatConstantInt<I> replicates the integer I for every legal template argument.", "quantifier": "all I in -16..15 and E in 0..31, both backends", "why_tests_cant": "512 instantiations; tests instantiate a few.", "anchors": ["src/lib.rs: XMVectorSplatConstant, XMVectorSplatConstantInt"]}
{"id": "C17", "title": "Negate and absolute value", "statement": "Negate flips the sign of every lane and Abs clears it, for every bit pattern including zeros, infinities and NaN, identically on both backends.", "quantifier": "all lanes patterns, both backends", "why_tests_cant": "The input space is all 4x32-bit vectors (2^128 and up); tests sample a handful of them.", "anchors": ["src/vector.rs: XMVectorNegate, XMVectorAbs"]}
{"id": "C18", "title": "Scalar and SIMD arithmetic agree bit for bit where they share an evaluation order", "statement": "For the element-wise arithmetic, 2/3/4-component dot products, cross products, matrix product and vector-matrix transforms, the scalar and SIMD results are the same IEEE single-precision values whenever the documented association is the same; where the association or an FMA differs the results may differ and the difference is exhibited.", "quantifier": "all 4x32-bit operands, all backends", "why_tests_cant": "Rounding differences appear only on particular operand combinations.", "anchors": ["src/vector.rs: XMVector2Dot, XMVector3Dot, XMVector4Dot, XMVector3Cross, XMVector4Cross, XMVector3Transform", "src/matrix.rs: XMMatrixMultiply"]}
{"id": "C19", "title": "Dot, length and distance", "statement": "In exact arithmetic every backend's 2/3/4-dimensional Dot equals the sum of products of the participating lanes replicated in all lanes, LengthSq/Length are its square and root, and Cauchy-Schwarz and the triangle inequality hold.", "quantifier": "all real vectors, dims 2,3,4, all backends", "why_tests_cant": "The claim is an identity or inequality over a continuum of inputs; tests check a few numeric points within a tolerance.", "anchors": ["src/vector.rs: XMVector2/3/4Dot, XMVector2/3/4LengthSq, XMVector2/3/4Length, XMVector2/3/4ReciprocalLength"]}
{"id": "C20", "title": "Cross products", "statement": "The 3D cross product is orthogonal to both inputs, anti-commutative and satisfies the Lagrange identity; the 4D cross product is orthogonal to its three inputs; the 2D one is the signed area; all backends compute the same value in exact arithmetic.", "quantifier": "all real vectors, all backends", "why_tests_cant": "The claim is an identity or inequality over a continuum of inputs; tests check a few numeric points within a tolerance.", "anchors": ["src/vector.rs: XMVector2Cross, XMVector3Cross, XMVector4Cross"]}
{"id": "C21", "title": "Normalisation", "statement": "Normalizing a non-zero vector gives a parallel vector of length one with the same direction; normalizing a zero vector gives the zero vector; on every backend.", "quantifier": "all real vectors, dims 2,3,4, all backends", "why_tests_cant": "The claim is an identity or inequality over a continuum of inputs; tests check a few numeric points within a tolerance.", "anchors": ["src/vector.rs: XMVector2Normalize, XMVector3Normalize, XMVector4Normalize"]}
{"id": "C22", "title": "Length clamping", "statement": "ClampLength returns a vector parallel to the input whose length is the input's length clamped into [min,max].", "quantifier": "all real vectors and bounds 0<=min<=max", "why_tests_cant": "The claim is an identity or inequality over a continuum of inputs; tests check a few numeric points within a tolerance.", "anchors": ["src/vector.rs: XMVector2ClampLength(V), XMVector3ClampLength(V), XMVector4ClampLength(V)"]}
{"id": "C23", "title": "Reflection and refraction", "statement": "Reflect about a unit normal is an involution that preserves length and negates the normal component; Refract obeys Snell's law (tangential component scaled by the index, unit length) and returns zero exactly under total internal reflection.", "quantifier": "all real incident vectors, unit normals, indices", "why_tests_cant": "The claim is an identity or inequality over a continuum of inputs; tests check a few numeric points within a tolerance.", "anchors": ["src/vector.rs: XMVector2/3/4Reflect, XMVector2/3/4Refract, XMVector2/3/4RefractV"]}
{"id": "C24", "title": "Orthogonal vectors", "statement": "XMVector2/3/4Orthogonal returns a vector orthogonal to its input, non-zero when the input's participating part is non-zero.", "quantifier": "all real vectors", "why_tests_cant": "The claim is an identity or inequality over a continuum of inputs; tests check a few numeric points within a tolerance.", "anchors": ["src/vector.rs: XMVector2Orthogonal, XMVector3Orthogonal, XMVector4Orthogonal"]}
{"id": "C25", "title": "Point-line distance, line intersection and normal decomposition", "statement": "LinePointDistance is the minimum distance from the point to the line; ComponentsFromNormal splits a vector into a parallel and a perpendicular part that sum to it; XMVector2IntersectLine returns a point on both lines when they cross.", "quantifier": "all real inputs", "why_tests_cant": "The claim is an identity or inequality over a continuum of inputs; tests check a few numeric points within a tolerance.", "anchors": ["src/vector.rs: XMVector2LinePointDistance, XMVector3LinePointDistance, XMVector3ComponentsFromNormal, XMVector2IntersectLine"]}
{"id": "C26", "title": "Interpolation and splines", "statement": "Lerp, Hermite, CatmullRom and BaryCentric hit their control points at the parameter ends, reproduce constant data, and agree between the scalar-parameter and vector-parameter forms and between backends.", "quantifier": "all control vectors and parameters", "why_tests_cant": "The claim is an identity or inequality over a continuum of inputs; tests check a few numeric points within a tolerance.", "anchors": ["src/vector.rs: XMVectorLerp(V), XMVectorHermite(V), XMVectorCatmullRom(V), XMVectorBaryCentric(V)"]}
{"id": "C27", "title": "Quaternion algebra", "statement": "XMQuaternionMultiply is associative with the identity quaternion as unit, its norm is multiplicative, conjugation reverses products, and Inverse is a two-sided inverse of any non-zero quaternion; scalar and SSE agree.", "quantifier": "all real quaternions, both backends", "why_tests_cant": "The claim is an identity or inequality over a continuum of inputs; tests check a few numeric points within a tolerance.", "anchors": ["src/misc.rs: XMQuaternionMultiply, XMQuaternionConjugate, XMQuaternionInverse, XMQuaternionIdentity, XMQuaternionLengthSq"]}
{"id": "C28", "title": "Quaternion rotation of vectors", "statement": "Rotating by a unit quaternion preserves dot products and handedness, InverseRotate undoes Rotate, rotating by a product is rotating by the factors in the documented order, and the result equals transforming by the quaternion's rotation matrix.", "quantifier": "all real vectors and unit quaternions", "why_tests_cant": "The claim is an identity or inequality over a continuum of inputs; tests check a few numeric points within a tolerance.", "anchors": ["src/vector.rs: XMVector3Rotate, XMVector3InverseRotate", "src/matrix.rs: XMMatrixRotationQuaternion"]}
{"id": "C29", "title": "Quaternion <-> rotation matrix round trip", "statement": "For every unit quaternion, converting to a matrix and back gives the quaternion up to sign; for every proper rotation matrix converting to a quaternion and back gives the matrix; scalar and SSE algorithms agree up to sign.", "quantifier": "all unit quaternions / rotation matrices, both backends", "why_tests_cant": "The claim is an identity or inequality over a continuum of inputs; tests check a few numeric points within a tolerance. Each algorithm has four branches selected by sign patterns.", "anchors": ["src/misc.rs: XMQuaternionRotationMatrix", "src/matrix.rs: XMMatrixRotationQuaternion"]}
{"id": "C30", "title": "Slerp", "statement": "Slerp between unit quaternions starts at Q0, ends at plus or minus Q1, stays on the unit sphere, and falls back to a well-defined interpolation when the quaternions are nearly parallel.", "quantifier": "all unit quaternions, all t", "why_tests_cant": "The claim is an identity or inequality over a continuum of inputs; tests check a few numeric points within a tolerance.", "anchors": ["src/misc.rs: XMQuaternionSlerp, XMQuaternionSlerpV"]}
{"id": "C31", "title": "Axis/angle and Euler rotation builders", "statement": "RotationNormal/RotationAxis/RotationRollPitchYaw (quaternion and matrix forms) fix the axis, are proper rotations, compose in the documented roll-pitch-yaw order, and the quaternion form converts to the matrix form.", "quantifier": "all axes and angles (given exact sine/cosine)", "why_tests_cant": "The claim is an identity or inequality over a continuum of inputs; tests check a few numeric points within a tolerance.", "anchors": ["src/misc.rs: XMQuaternionRotationNormal, XMQuaternionRotationAxis, XMQuaternionRotationRollPitchYaw", "src/matrix.rs: XMMatrixRotationX/Y/Z, XMMatrixRotationNormal, XMMatrixRotationAxis, XMMatrixRotationRollPitchYaw"]}
{"id": "C32", "title": "Matrix product", "statement": "XMMatrixMultiply is the mathematical row-by-column product on every backend, associative with identity, distributes over +, and MultiplyTranspose is its transpose.", "quantifier": "all real 4x4 matrices, all backends", "why_tests_cant": "The claim is an identity or inequality over a continuum of inputs; tests check a few numeric points within a tolerance.", "anchors": ["src/matrix.rs: XMMatrixMultiply, XMMatrixMultiplyTranspose, XMMatrixIdentity"]}
{"id": "C33", "title": "Matrix transpose", "statement": "Transpose moves element (i,j) to (j,i) bit-exactly on every backend, hence is an involution.", "quantifier": "all bit patterns, all backends", "why_tests_cant": "The input space is all 4x32-bit vectors (2^128 and up); tests sample a handful of them.", "anchors": ["src/matrix.rs: XMMatrixTranspose"]}
{"id": "C34", "title": "Determinant and inverse", "statement": "XMMatrixDeterminant is the Leibniz determinant and multiplicative; XMMatrixInverse times the matrix is the identity on both sides whenever the determinant is non-zero, and the reported determinant is the same; scalar and SSE agree.", "quantifier": "all real 4x4 matrices, both backends", "why_tests_cant": "The claim is an identity or inequality over a continuum of inputs; tests check a few numeric points within a tolerance.", "anchors": ["src/matrix.rs: XMMatrixDeterminant, XMMatrixInverse"]}
{"id": "C35", "title": "Vector transforms are linear and compose", "statement": "Transforming by A then B equals transforming by A*B; Transform treats w as 1, TransformNormal ignores translation, TransformCoord divides by w; all backends agree in exact arithmetic.", "quantifier": "all real vectors and matrices, dims 2,3,4, all backends", "why_tests_cant": "The claim is an identity or inequality over a continuum of inputs; tests check a few numeric points within a tolerance.", "anchors": ["src/vector.rs: XMVector2/3Transform, XMVector2/3TransformCoord, XMVector2/3TransformNormal, XMVector4Transform"]}
{"id": "C36", "title": "Translation, scaling and composite transforms", "statement": "Translation/Scaling matrices translate/scale points; XMMatrixTransformation, AffineTransformation and their 2D forms equal the documented product of elementary matrices; TensorProduct is the outer product.", "quantifier": "all real arguments", "why_tests_cant": "The claim is an identity or inequality over a continuum of inputs; tests check a few numeric points within a tolerance.", "anchors": ["src/matrix.rs: XMMatrixTranslation, XMMatrixScaling, XMMatrixTransformation, XMMatrixTransformation2D, XMMatrixAffineTransformation, XMMatrixAffineTransformation2D, XMMatrixVectorTensorProduct"]}
{"id": "C37", "title": "Reflection and shadow matrices", "statement": "XMMatrixReflect is an involution fixing the plane and mirroring along its normal; XMMatrixShadow maps every point onto the plane along the light direction.", "quantifier": "all planes with non-zero normal, all points and lights", "why_tests_cant": "The claim is an identity or inequality over a continuum of inputs; tests check a few numeric points within a tolerance.", "anchors": ["src/matrix.rs: XMMatrixReflect, XMMatrixShadow"]}
{"id": "C38", "title": "View matrices", "statement": "LookTo/LookAt (LH and RH) map the eye to the origin, the view direction to +z/-z, and are rigid motions; LH and RH differ by flipping x and z.", "quantifier": "all eyes, directions and ups not degenerate", "why_tests_cant": "The claim is an identity or inequality over a continuum of inputs; tests check a few numeric points within a tolerance.", "anchors": ["src/matrix.rs: XMMatrixLookToLH, XMMatrixLookToRH, XMMatrixLookAtLH, XMMatrixLookAtRH"]}
{"id": "C39", "title": "Projection matrices", "statement": "Perspective (size, off-centre and field-of-view) and orthographic matrices map the near plane to depth 0, the far plane to depth 1 and the view volume's sides to +-1, in both handednesses and on both backends.", "quantifier": "all valid volumes", "why_tests_cant": "The claim is an identity or inequality over a continuum of inputs; tests check a few numeric points within a tolerance.", "anchors": ["src/matrix.rs: XMMatrixPerspectiveLH/RH, XMMatrixPerspectiveOffCenterLH/RH, XMMatrixPerspectiveFovLH/RH, XMMatrixOrthographicLH/RH"]}
{"id": "C40", "title": "Project and Unproject are inverse", "statement": "Unprojecting a projected point returns the point when the combined matrix is invertible and the viewport non-degenerate.", "quantifier": "all points, viewports and invertible world/view/projection matrices", "why_tests_cant": "The claim is an identity or inequality over a continuum of inputs; tests check a few numeric points within a tolerance.", "anchors": ["src/vector.rs: XMVector3Project, XMVector3Unproject"]}
{"id": "C41", "title": "Matrix decomposition", "statement": "When XMMatrixDecompose succeeds on a matrix built from scale, rotation and translation, recomposing the returned parts gives the matrix back; degenerate (zero) scales are handled as documented.", "quantifier": "all scale/rotation/translation matrices", "why_tests_cant": "The claim is an identity or inequality over a continuum of inputs; tests check a few numeric points within a tolerance.", "anchors": ["src/matrix.rs: XMMatrixDecompose"]}
{"id": "C42", "title": "Operator overloads mean what they say", "statement": "The +, -, *, /, unary - and assigning operators on vectors and matrices equal the named functions on every lane of every row.", "quantifier": "all operands", "why_tests_cant": "The input space is all 4x32-bit vectors (2^128 and up); tests sample a handful of them.", "anchors": ["src/matrix.rs: impl Add/AddAssign/Sub/SubAssign/Mul/MulAssign/Div/DivAssign/Neg for XMMatrix", "src/vector.rs: operator impls"]}
{"id": "C43", "title": "Planes", "statement": "Plane constructors contain their defining points, normalisation keeps the same plane with unit normal, line and plane-plane intersections lie on both objects, and transforming by the inverse transpose transforms the plane's points; both backends agree on finite inputs.", "quantifier": "all real points, normals, planes, matrices", "why_tests_cant": "The claim is an identity or inequality over a continuum of inputs; tests check a few numeric points within a tolerance.", "anchors": ["src/misc.rs: XMPlaneDot, XMPlaneDotCoord, XMPlaneDotNormal, XMPlaneNormalize, XMPlaneFromPoints, XMPlaneFromPointNormal, XMPlaneIntersectLine, XMPlaneIntersectPlane, XMPlaneTransform"]}
{"id": "C44", "title": "Fresnel term", "statement": "The Fresnel reflectance returned by XMFresnelTerm lies in [0,1] and agrees across backends.", "quantifier": "all incidence cosines and indices", "why_tests_cant": "The claim is an identity or inequality over a continuum of inputs; tests check a few numeric points within a tolerance.", "anchors": ["src/misc.rs: XMFresnelTerm"]}
{"id": "C45", "title": "Trigonometric approximations", "statement": "The library's sine and cosine polynomials approximate the true functions within a stated bound after range reduction, and SinCos equals the pair (Sin, Cos).", "quantifier": "all angles", "why_tests_cant": "The claim is an identity or inequality over a continuum of inputs; tests check a few numeric points within a tolerance.", "anchors": ["src/misc.rs: XMScalarSin, XMScalarCos, XMScalarSinCos", "src/vector.rs: XMVectorSin, XMVectorCos"]}
{"id": "C46", "title": "Sphere containment is geometric", "statement": "Sphere::ContainsPoint/ContainsSphere/IntersectsSphere answer exactly according to the sets of points: CONTAINS iff subset, DISJOINT iff no common point.", "quantifier": "all real spheres with non-negative radii, all points", "why_tests_cant": "The claim is an identity or inequality over a continuum of inputs; tests check a few numeric points within a tolerance.", "anchors": ["src/collision.rs: BoundingSphere::ContainsPoint, BoundingSphere::ContainsSphere, BoundingSphere::IntersectsSphere"]}
{"id": "C47", "title": "Bounding volumes built from data contain the data", "statement": "Spheres and boxes built by CreateMerged, CreateFromPoints, CreateFromBoundingBox, CreateFromSphere and oriented boxes built from points contain everything they were built from.", "quantifier": "all inputs: all finite point lists of any length", "why_tests_cant": "The claim is an identity or inequality over a continuum of inputs; tests check a few numeric points within a tolerance. Lists are unbounded.", "anchors": ["src/collision.rs: BoundingSphere::CreateMerged, BoundingSphere::CreateFromPoints, BoundingSphere::CreateFromBoundingBox, BoundingBox::CreateMerged, BoundingBox::CreateFromPoints, BoundingBox::CreateFromSphere, BoundingOrientedBox::CreateFromPoints"]}
{"id": "C48", "title": "Axis-aligned box containment is geometric", "statement": "BoundingBox::ContainsPoint/ContainsBox/IntersectsBox/ContainsSphere/IntersectsSphere agree with set containment and intersection, are symmetric where they should be, and the corners span the box.", "quantifier": "all real boxes with non-negative extents", "why_tests_cant": "The claim is an identity or inequality over a continuum of inputs; tests check a few numeric points within a tolerance.", "anchors": ["src/collision.rs: BoundingBox::ContainsPoint, BoundingBox::ContainsBox, BoundingBox::IntersectsBox, BoundingBox::ContainsSphere, BoundingBox::IntersectsSphere, BoundingBox::GetCorners"]}
{"id": "C49", "title": "Transformed bounding volumes cover the transformed contents", "statement": "Transforming a sphere, box, oriented box or frustum by a matrix or by scale/rotation/translation yields a volume containing the image of every contained point.", "quantifier": "all volumes, points and similarity (or affine) transforms", "why_tests_cant": "The claim is an identity or inequality over a continuum of inputs; tests check a few numeric points within a tolerance.", "anchors": ["src/collision.rs: BoundingSphere::TransformMatrix, BoundingSphere::TransformDecomposed, BoundingBox::TransformMatrix, BoundingBox::TransformDecomposed, BoundingOrientedBox::TransformDecomposed, BoundingOrientedBox::TransformMatrix"]}
{"id": "C50", "title": "Oriented boxes", "statement": "BoundingOrientedBox::ContainsPoint and IntersectsSphere/ContainsSphere agree with the rotated box as a point set; two oriented boxes sharing a point are never reported disjoint; ContainsOrientedBox is exact on containment.", "quantifier": "all real boxes with unit orientations", "why_tests_cant": "The claim is an identity or inequality over a continuum of inputs; tests check a few numeric points within a tolerance.", "anchors": ["src/collision.rs: BoundingOrientedBox::ContainsPoint, BoundingOrientedBox::IntersectsSphere, BoundingOrientedBox::IntersectsOrientedBox, BoundingOrientedBox::ContainsOrientedBox"]}
{"id": "C51", "title": "Ray casts", "statement": "Ray tests against spheres, boxes, oriented boxes and triangles return true iff the ray meets the volume at a non-negative parameter, and the reported distance is that of the first hit.", "quantifier": "all real rays with unit direction and all volumes", "why_tests_cant": "The claim is an identity or inequality over a continuum of inputs; tests check a few numeric points within a tolerance.", "anchors": ["src/collision.rs: BoundingSphere::IntersectsRay, BoundingBox::IntersectsRay, BoundingOrientedBox::IntersectsRay, triangle_tests::IntersectsRay"]}
{"id": "C52", "title": "Plane-side classification", "statement": "IntersectsPlane of sphere, box, oriented box, triangle and frustum returns FRONT/BACK iff all points are strictly on that side and INTERSECTING otherwise; ContainedBy(six planes) returns DISJOINT only if truly separated and CONTAINS only if truly inside.", "quantifier": "all volumes and unit planes", "why_tests_cant": "The claim is an identity or inequality over a continuum of inputs; tests check a few numeric points within a tolerance.", "anchors": ["src/collision.rs: IntersectsPlane, ContainedBy methods"]}
{"id": "C53", "title": "Frustum point and corner geometry", "statement": "BoundingFrustum::ContainsPoint agrees with the frustum's six half-spaces in world space, its corners are contained, its planes bound it, and building it from a perspective matrix recovers the slopes and distances.", "quantifier": "all frusta with unit orientation, all points", "why_tests_cant": "The claim is an identity or inequality over a continuum of inputs; tests check a few numeric points within a tolerance.", "anchors": ["src/collision.rs: BoundingFrustum::ContainsPoint, BoundingFrustum::GetCorners, BoundingFrustum::GetPlanes, BoundingFrustum::CreateFromMatrix"]}
{"id": "C54", "title": "Frustum intersection tests never miss", "statement": "A frustum that shares a point with a sphere, box, oriented box, frustum or triangle is reported as intersecting.", "quantifier": "all frusta and volumes", "why_tests_cant": "The claim is an identity or inequality over a continuum of inputs; tests check a few numeric points within a tolerance.", "anchors": ["src/collision.rs: BoundingFrustum::IntersectsSphere, BoundingFrustum::IntersectsOrientedBox, BoundingFrustum::IntersectsFrustum, BoundingFrustum::IntersectsTriangle"]}
{"id": "C55", "title": "Triangle tests", "statement": "Sphere/box/triangle intersection with a triangle: a volume sharing a point with the triangle is never reported disjoint, and a sphere reported intersecting does share a point.", "quantifier": "all non-degenerate triangles and volumes", "why_tests_cant": "The claim is an identity or inequality over a continuum of inputs; tests check a few numeric points within a tolerance.", "anchors": ["src/collision.rs: BoundingSphere::IntersectsTriangle, BoundingBox::IntersectsTriangle, triangle_tests::IntersectsTriangle"]}
{"id": "C56", "title": "Inverse trigonometric approximations", "statement": "ASin, ACos, ATan and ATan2 approximate the true functions within a stated bound for every argument, ASin and ACos are complementary, and ATan2 picks the right quadrant.", "quantifier": "all arguments, all lanes", "why_tests_cant": "The claim is an inequality over a continuum of inputs; tests check a few numeric points within a tolerance.", "anchors": ["src/misc.rs: XMScalarASin, XMScalarACos", "src/vector.rs: XMVectorASin, XMVectorACos, XMVectorATan, XMVectorATan2"]}
{"id": "C57", "title": "Polynomial estimate functions", "statement": "SinEst, CosEst, SinCosEst, ASinEst, ACosEst, ATanEst and AngleBetweenNormalsEst stay within a stated distance of the true functions for every argument, on every code path; the SinCos forms return exactly what the separate forms return.", "quantifier": "all arguments, all lanes, all backends", "why_tests_cant": "The claim is an inequality over a continuum of inputs; tests check a few numeric points within a tolerance.", "anchors": ["src/misc.rs: XMScalarSinEst, XMScalarCosEst, XMScalarSinCosEst, XMScalarASinEst, XMScalarACosEst", "src/vector.rs: XMVectorSinEst, XMVectorCosEst, XMVectorSinCosEst, XMVectorASinEst, XMVectorACosEst, XMVectorATanEst, XMVector3AngleBetweenNormalsEst"]}
{"id": "C58", "title": "Estimates built on the hardware reciprocal", "statement": "For any hardware reciprocal and reciprocal square root of relative accuracy e: ReciprocalEst, ReciprocalSqrtEst and ReciprocalLengthEst have relative error e, NormalizeEst keeps the direction and gives length 1 up to e, LengthEst is exact, TanEst has relative error 0.68% plus e on the reduced angle, and ATan2Est is within 1.4e-5 + e of the angle of the point.", "quantifier": "all vectors, all hardware approximations of relative accuracy e, all backends", "why_tests_cant": "Tests run on one processor; the estimate instructions differ between vendors, and the claim ranges over a continuum of inputs.", "anchors": ["src/vector.rs: XMVectorReciprocalEst, XMVectorReciprocalSqrtEst, XMVectorTanEst, XMVectorATan2Est, XMVector2NormalizeEst, XMVector3NormalizeEst, XMVector4NormalizeEst, XMVector3ReciprocalLengthEst, XMVector3LengthEst", "src/misc.rs: XMPlaneNormalizeEst, XMQuaternionNormalizeEst"]}
{"id": "C59", "title": "Tangent", "statement": "XMVectorTan returns the tangent of its argument: to relative accuracy 2e-7 it is the tangent of an angle within 6e-8 relative of the argument, for every argument up to 10^6 in magnitude; and (full claim) it is relatively accurate against the tangent of the argument itself.", "quantifier": "all arguments up to 10^6, all lanes, all SSE variants", "why_tests_cant": "The claim is an inequality over a continuum of inputs with poles; the tests check five angles, none near a zero of the tangent other than 0.", "anchors": ["src/vector.rs: XMVectorTan"]}
{"id": "C60", "title": "Exp2 is two to the power, with pinned edges and a bounded error", "statement": "On the SSE backends XMVectorExp2 (and XMVectorExp, its alias), with or without fused multiply-add, maps every lane: NaN to the quiet NaN, x >= 128 and +infinity to +infinity, x <= -150 and -infinity to +0, integers n in [-149, 127] exactly to 2^n, and any x in [-126, 128) to 2^x within relative error 1.2e-5 (8e-7 for x >= 0), all roundings included. The 8e-7 does not extend to negative arguments.", "quantifier": "every 32-bit pattern in every lane, fma on or off", "why_tests_cant": "Half of all 2^32 inputs fall in the approximated range and the error is a sum of seven rounded Horner steps, a rounded division and the fit itself; tests sample a few points and would not notice the loss of accuracy on negative fractions or a wrong boundary pattern.", "anchors": ["src/vector.rs: XMVectorExp2, XMVectorExp", "src/globals.rs: g_XMExpEst1..7, g_XMBin128, g_XMBinNeg150, g_XMSubnormalExponent"]}
{"id": "C61", "title": "Hyperbolic functions", "statement": "On the SSE backends, with or without fused multiply-add, every lane of XMVectorSinH and XMVectorCosH is within 2.6e-5 * cosh x of sinh x and cosh x for |x| <= 89 and is the correctly signed infinity for |x| >= 90; XMVectorTanH is within 1.5e-5 of tanh x for every finite x and exactly +-1 at the infinities; NaN gives NaN. SinH and TanH are not relatively accurate near 0: they return 0 for small non-zero arguments.", "quantifier": "every 32-bit pattern in every lane, fma on or off", "why_tests_cant": "The bound combines the rounded scaling by 1/ln 2, whose error the exponential amplifies by up to 127, with the exponential's own fit and the cancellation in SinH; a test at a few points near 1 sees none of the three regimes (cancellation, amplification, overflow).", "anchors": ["src/vector.rs: XMVectorSinH, XMVectorCosH, XMVectorTanH, XMVectorExp2"]}
{"id": "C62", "title": "Angles between vectors", "statement": "XMVector{2,3,4}AngleBetweenVectors and AngleBetweenNormals return, in all four lanes, the arc cosine of the normalised dot product within 6.2e-7 (exact arithmetic, library coefficients; the portable backend uses the platform's arc cosine). A dot product pushed past one by rounding counts as one: on bit patterns the arc cosine is never asked outside [-1, 1] for any non-NaN cosine.", "quantifier": "all non-zero vectors (unit vectors for the Normals forms), every backend; all 32-bit patterns for the domain claim", "why_tests_cant": "The domain claim concerns every pair of rounded unit vectors whose dot product exceeds one by an ulp, and the bound every direction; tests check a handful of right angles.", "anchors": ["src/vector.rs: XMVector2AngleBetweenNormals, XMVector2AngleBetweenVectors, XMVector3AngleBetweenNormals, XMVector3AngleBetweenVectors, XMVector4AngleBetweenNormals, XMVector4AngleBetweenVectors"]}
{"id": "C63", "title": "Quaternion exponential, logarithm, axis and angle", "statement": "XMQuaternionExp of th n is (n sin th, cos th) within the trigonometric error; XMQuaternionLn of a unit quaternion lies exactly along its axis with the half angle as length within 6.3e-7 + 9.3e-7 th/sin th; Exp inverts Ln within the sum of the errors; Ln of the conjugate is the negated Ln; XMQuaternionToAxisAngle returns the angle within 1.24e-6. Near w = -1 the logarithm is wrong by nearly pi.", "quantifier": "all unit axes, all half angles in [0, pi], every backend", "why_tests_cant": "The guards near w = 1 and near zero length switch formulas; only a proof shows the error is bounded on both sides of the switch for every axis.", "anchors": ["src/misc.rs: XMQuaternionExp, XMQuaternionLn, XMQuaternionToAxisAngle"]}
{"id": "C64", "title": "Squad and barycentric quaternion interpolation", "statement": "XMQuaternionSquad is slerp(slerp(Q0,Q3,t), slerp(Q1,Q2,t), 2t(1-t)), starts at Q0 and ends at Q3 up to sign; XMQuaternionSquadSetup chooses hemispheres and gives the documented control points, equal to the knots for steady rotation; XMQuaternionBaryCentric is slerp(slerp(Q0,Q1,f+g), slerp(Q0,Q2,f+g), g/(f+g)), and Q0 when f+g is tiny; the vector forms agree with the scalar forms.", "quantifier": "all unit quaternions and weights, every backend", "why_tests_cant": "The portable backend's SquadSetup returns NaN and its BaryCentricV returns Q0 for every input, which tests on SSE machines never execute; the composition laws range over all quaternions.", "anchors": ["src/misc.rs: XMQuaternionSquad, XMQuaternionSquadV, XMQuaternionSquadSetup, XMQuaternionBaryCentric, XMQuaternionBaryCentricV", "src/lib.rs: XMVectorSplatConstant", "src/convert.rs: XMConvertVectorIntToFloat"]}
{"id": "C65", "title": "Rounding errors of vector, quaternion and matrix arithmetic", "statement": "On IEEE binary32 bit patterns, with results in range: dot and cross products, vector-matrix transforms and matrix products are within 3 to 5 half-ulps of the exact result relative to the sum of the absolute products (plus a few subnormal roundings); lengths and reciprocal lengths have relative error at most 4 and 5 half-ulps; normalising a vector of length between 2^-48 and 2^63 gives each lane within 6 half-ulps and length 1 within 1e-6; the quaternion product is within 5 half-ulps, rotating a vector by a quaternion of norm at most 2 moves each lane by at most 72 half-ulps of the vector's length, and linear interpolation is within 5 half-ulps of |x0| + |t|(|x1|+|x0|). The dot product has no relative accuracy under cancellation, and vectors outside the range do not normalise.", "quantifier": "all finite inputs in range, all lanes, every backend including fused and dot-product-instruction paths", "why_tests_cant": "Each backend sums in a different order with different fusing, so results differ between builds; a tolerance checked on samples says nothing about the worst case over 2^96 inputs or more.", "anchors": ["src/vector.rs: XMVector2/3/4Dot, Cross, Length, ReciprocalLength, Normalize, Transform, TransformNormal, XMVector3Rotate, XMVectorLerp", "src/matrix.rs: XMMatrixMultiply", "src/misc.rs: XMQuaternionMultiply"]}
{"id": "C66", "title": "Element-wise arithmetic is IEEE-754 on every bit pattern", "statement": "Each lane of XMVectorAdd, Subtract, Multiply, Divide, Scale, Reciprocal and Sqrt is the correctly rounded result (nearest, ties to even, overflow to infinity, the standard rules for infinities, NaN and division by zero) on every backend. MultiplyAdd and NegativeMultiplySubtract round once with fused multiply-add and twice without. ReciprocalSqrt has relative error at most 3 half-ulps on every positive finite number. XMVectorSum is within 4 half-ulps of the sum of absolute values in every summation order.", "quantifier": "all 32-bit patterns in all lanes, every backend", "why_tests_cant": "Rounding ties, subnormals, infinities and signed zeros are rare in samples; backends differ in fusing and in summation order.", "anchors": ["src/vector.rs: XMVectorAdd, XMVectorSubtract, XMVectorMultiply, XMVectorDivide, XMVectorScale, XMVectorReciprocal, XMVectorSqrt, XMVectorReciprocalSqrt, XMVectorMultiplyAdd, XMVectorNegativeMultiplySubtract, XMVectorSum"]}
{"id": "C67", "title": "Remainder of a division", "statement": "XMVectorMod returns x - n*y with n the binary32 quotient cut off towards zero, exactly with fused multiply-add and within 4 half-ulps of x otherwise, when |x| < 2^24 |y|; the result has the sign of x and is smaller than y, as a remainder should be. Invalid operands (zero divisor, infinite dividend, NaN) give NaN. The range claim fails when the quotient rounds up to a whole number (1 mod 0.1 is negative), an infinite divisor gives NaN, and a huge quotient gives infinity.", "quantifier": "all finite binary32 pairs with quotient below 2^24, all lanes, every backend", "why_tests_cant": "The wrong sign only appears when the rounded quotient crosses an integer, and differs between fused and plain builds.", "anchors": ["src/vector.rs: XMVectorMod"]}
{"id": "C68", "title": "Scalar helpers", "statement": "XMConvertToRadians and XMConvertToDegrees are within 1.5 and 2.1 half-ulps of the exact conversion and their round trip within 4; XMMin and XMMax return a bound that is one of the arguments, and the second argument when either is NaN; XMScalarNearEqual compares the rounded absolute difference with epsilon, so equal infinities are not near equal; XMVectorPow applies the platform's powf to each lane.", "quantifier": "all finite binary32 angles in range; all bit patterns for the comparisons", "why_tests_cant": "The constants are rounded divisions of a rounded pi; only a proof bounds the accumulated error for every angle.", "anchors": ["src/lib.rs: XMConvertToRadians, XMConvertToDegrees, XMMin, XMMax", "src/misc.rs: XMScalarNearEqual", "src/vector.rs: XMVectorPow"]}
{"id": "C69", "title": "Quaternion and plane comparisons", "statement": "XMQuaternionEqual/NotEqual/IsNaN/IsInfinite and the XMPlane forms test all four lanes by IEEE equality or bit pattern, NotEqual is exactly the negation of Equal, XMQuaternionIsIdentity holds exactly for (0,0,0,1) with zeros of either sign. XMPlaneNearEqual compares the normalised coefficients lane by lane, does not depend on a positive factor, and tells a plane from its opposite for every epsilon below 1.", "quantifier": "all bit patterns; all real planes with nonzero normal, every backend", "why_tests_cant": "Each comparison has a per-lane body and a mask body per backend; NaN and signed zero lanes are rarely sampled.", "anchors": ["src/misc.rs: XMQuaternionEqual, XMQuaternionNotEqual, XMQuaternionIsNaN, XMQuaternionIsInfinite, XMQuaternionIsIdentity, XMPlaneEqual, XMPlaneNotEqual, XMPlaneIsNaN, XMPlaneIsInfinite, XMPlaneNearEqual"]}
{"id": "C70", "title": "Arrays and structures", "statement": "Converting an array to XMFLOAT2/3/4, XMFLOAT3X3/3X4/4X3/4X4, XMVector or XMMatrix and back keeps every word in place: field k is a[k], m[i][j] is a[c*i+j], and the conversion back returns the original bit for bit.", "quantifier": "all words and all positions, every backend", "why_tests_cant": "Conversions are transmutes; a transposed or shifted layout passes tests on symmetric data.", "anchors": ["src/lib.rs: xm_struct!, XMFLOAT4X3, XMFLOAT3X4, XMFLOAT4X4, XMFLOAT3X3", "src/vector.rs: From<&[f32; 4]> for XMVector", "src/matrix.rs: From/Into for XMMatrix"]}
{"id": "C71", "title": "Bounding-volume tests in binary32", "statement": "With binary32 rounding on every operation: a point of a box is always reported inside it, boxes that meet are always reported as meeting and a box inside another always as contained; a positive answer is right for the boxes enlarged by 1 to 3 half-ulps of their coordinates. Sphere/point and sphere/sphere answers are right outside a shell of 4 or 5 half-ulps of the radius. Sphere and box against a plane with a normal of length within 9e-5 of 1 pass the assertion and give the right side whenever the volume is further from the plane than the rounding error of the plane equation (5 half-ulps of the sum of absolute terms); the same for the six-plane test. Exact answers are refuted with a point outside a ball, and a point outside a box, reported inside.", "quantifier": "all finite binary32 volumes, points and planes in the stated ranges, every backend", "why_tests_cant": "Whether a borderline answer is wrong depends on the last bits of every product and sum; a sampled test cannot tell a one-ulp shell from a missing term.", "anchors": ["src/collision.rs: BoundingBox::ContainsPoint, BoundingBox::IntersectsBox, BoundingBox::ContainsBox, BoundingSphere::ContainsPoint, BoundingSphere::IntersectsSphere, BoundingSphere::IntersectsPlane, BoundingBox::IntersectsPlane, BoundingSphere::ContainedBy, BoundingBox::ContainedBy, FastIntersectSpherePlane, FastIntersectAxisAlignedBoxPlane, XMVector3IsUnit"]}
{"id": "C72", "title": "Accessors, splatted constants, integer and aligned loads and stores", "statement": "XMVectorSetInt, Replicate, ReplicatePtr and ReplicateInt put the given words in the lanes; the True/False/One/Infinity/QNaN/Epsilon/SignMask constants have their values; GetInt and the pointer getters read the lane they name, SetInt writes only that lane; XMLoadInt2/3/4 and XMStoreInt2/3/4 move exactly 2, 3 or 4 words and XMStoreFloat3/3A exactly three, bit for bit; the aligned loads and stores do the same at a multiple of 16 bytes and fault elsewhere on the vector backends; XMVector3AnyTrue/AllTrue test the first three lanes only.", "quantifier": "all 32-bit lanes (NaN payloads and negative zeros included), all addresses, every backend", "why_tests_cant": "Each function has up to three implementations that pass words through signed integers, shuffles and extract instructions; only one is compiled into a given test binary, and sampled words rarely have the top bit set.", "anchors": ["src/vector.rs:107-261, 422-565 (SetInt, Replicate, TrueInt, Splat constants), 726-1011 (GetXPtr.., GetIntX..), 1288-1475 (SetIntX..)", "src/convert.rs:216-327, 491-515 (XMLoadInt2/3/4), 1035-1277 (XMStoreInt2/3/4, XMStoreFloat3, XMStoreFloat3A), 399-424, 580-603, 958-1001, 1340-1362, 1689-1729 (aligned forms)", "src/collision.rs:138-151 (XMVector3AnyTrue, XMVector3AllTrue)"]}
{"id": "C73", "title": "Eigenvalues and axes behind BoundingOrientedBox::CreateFromPoints", "statement": "CalculateEigenVectorsFromCovarianceMatrix hands SolveCubic the coefficients of the characteristic polynomial; for a symmetric matrix SolveCubic never reports a single real root, and its three values are the eigenvalues up to 1.3e-6 of their spread (reporting one root is right for every cubic). CalculateEigenVector returns a unit vector on which S - l I leaves only a residual det(S - l I)/|n| in the third coordinate, hence an eigenvector for an exact eigenvalue, whenever the first two rows of S - l I are independent. CalculateEigenVectors returns an orthonormal basis of eigenvectors for three different eigenvalues with that property, and completes a single vector to an orthonormal basis. Refuted: the fallback for dependent rows never yields an eigenvector when no entry is zero, gives the wrong axis for diag(2,1,1), and for a covariance matrix with eigenvalues 6, 0, 3 the three axes are neither unit nor orthogonal.", "quantifier": "all real symmetric matrices, all cubics, every backend; exact arithmetic with an exact cube root and the library's trigonometric polynomials", "why_tests_cant": "The existing code has no test of these functions, and a box around points can look plausible with wrong axes; the failing matrices form a measure-zero set that axis-symmetric meshes hit and random tests miss.", "anchors": ["src/collision.rs:229-276 (SolveCubic), 279-351 (CalculateEigenVector), 354-452 (CalculateEigenVectors), 455-485 (CalculateEigenVectorsFromCovarianceMatrix)"]}
{"id": "C74", "title": "Collision helper functions and fast plane tests", "statement": "PointOnLineSegmentNearestPoint returns the one nearest point of the closed segment, a segment of length zero included. PointOnPlaneInsideTriangle tells, for a point of the plane of a proper triangle, whether it lies in it, and is unchanged by moving the point along the normal; for collinear vertices it accepts every point of space. XMVector3IsUnit, XMPlaneIsUnit and XMQuaternionIsUnit accept exactly lengths within the binary32 constant 1e-4 of 1. plane_transform carries a plane with a rotation and translation of space. The FastIntersect...Plane functions set their two masks exactly when the triangle, sphere, box, parallelepiped or corner set lies strictly in front of or behind the plane. The six starting points of BoundingSphere::CreateFromPoints are points of the list, least and greatest in their coordinate, and every edge of a frustum is parallel to one of the six axes its separating-axis tests use.", "quantifier": "all real inputs, every backend; exact arithmetic", "why_tests_cant": "These helpers are only reached through the intersection methods, which hide a wrong mask or a slightly wrong nearest point behind other tests; nearest and strictly-in-front are claims about infinitely many points.", "anchors": ["src/collision.rs:155-226 (IsUnit checks, plane transform, nearest point, point in triangle)", "src/collision.rs:488-648 (FastIntersect functions)", "src/collision.rs:1330-1380 (extreme points), 4057-4064 (edge axes)"]}
{"id": "C75", "title": "Vector-argument forms", "statement": "XMVector2/3/4ClampLengthV scale lane k to the length clamped to the range in lane k; the 2D and 4D forms stop exactly when the lanes disagree or do not hold 0 <= min <= max, the 3D form never stops, and inside a reversed range the lane is unchanged. XMVector3/4RefractV use the index of each lane while no lane is totally reflected, and return zero when every lane is. XMQuaternionSlerpV and SquadV stop exactly when the lanes of t differ and otherwise equal the plain forms. The roll-pitch-yaw forms read pitch, yaw, roll from lanes x, y, z and ignore w. XMQuaternionDot, LengthSq and ReciprocalLength are the four-component measures and XMMatrixSet places each entry.", "quantifier": "all real lanes, all backends; exact arithmetic", "why_tests_cant": "The plain forms replicate one number into all lanes, so tests through them never exercise different lanes or the assertions.", "anchors": ["src/vector.rs:8314-8359, 10323-10359, 12484-12528 (ClampLengthV), 10495-10566, 12665-12739 (RefractV)", "src/misc.rs:162-175, 292-330 (quaternion measures), 677-775, 865-888 (SlerpV, SquadV), 1289-1327 (RollPitchYawFromVector)", "src/matrix.rs:1565-1591, 2117-2125 (XMMatrixSet, RotationRollPitchYawFromVector)"]}
{"id": "C76", "title": "Rounding errors of determinants, reflection, cubic interpolation and planes", "statement": "On finite binary32 inputs in range, on every backend: XMMatrixDeterminant is within 10 units of 2^-24 times the permanent of the absolute values (plus a subnormal term) of the exact determinant, so it has the right sign whenever the determinant exceeds that; XMVector4Cross within 7 units of its cofactor sizes; XMVector2/3/4Reflect within 9, ComponentsFromNormal within 7 and 8, BaryCentric(V) within 5, Hermite within 12, HermiteV and CatmullRom(V) within 14 units of the sum of the absolute values of their terms; XMPlaneTransform, PlaneDot, PlaneDotCoord within 5 and PlaneDotNormal within 4; XMPlaneFromPointNormal copies the normal exactly and gets w within 4 units. A bound relative to the determinant itself is impossible: a matrix of determinant 1 gets 0 on every backend.", "quantifier": "all binary32 inputs whose values are bounded as stated (matrix entries up to 2^30, vectors up to 2^100, normals up to 2, parameters up to 1), every backend and lane", "why_tests_cant": "The worst rounding error over 2^512 matrices cannot be found by sampling, and the backends sum in different orders with or without fused multiply-add.", "anchors": ["src/matrix.rs:1260-1300 (determinant)", "src/vector.rs:6733-7258 (Hermite, CatmullRom, BaryCentric), 8394-8425, 10393-10425, 12563-12595 (Reflect), 10785-10810 (ComponentsFromNormal), 11918-11986 (Vector4Cross)", "src/misc.rs:1799-1880, 2162-2225 (planes)"]}
{"id": "C77", "title": "Rounding errors of the matrix inverse and of perspective transforms", "statement": "On finite binary32 inputs in range, on every backend: the determinant returned by XMMatrixInverse is within 10 units of 2^-24 times the permanent of the absolute values; when the determinant exceeds 40 such units of the permanent, each entry of the inverse is finite and within 40 units times the determinant's condition (permanent over determinant) times the size of the cofactor over the determinant, plus a subnormal term. XMVector2TransformCoord and XMVector3TransformCoord are within 10 + 8 B/|w| units of A/|w|, where A and B are the sums of the absolute products of the coordinate and of w, when |w| exceeds 24 units of B. The proviso on the determinant is needed: a matrix of determinant 1 with entries up to 4098 gets an infinite entry where the inverse has 4097.", "quantifier": "all binary32 matrices with entries up to 2^30 and determinant at least 2^-20 in size, all points with |w| at least 2^-100, every backend and entry", "why_tests_cant": "The worst rounding error over all matrices cannot be sampled; random matrices are well conditioned and hide the dependence on the condition.", "anchors": ["src/matrix.rs:995-1220 (XMMatrixInverse)", "src/vector.rs:8960-8974 (Vector2TransformCoord), 10943-10960 (Vector3TransformCoord)"]}
{"id": "C78", "title": "Rounding errors of projection matrices, quaternion matrices, quaternion inverses and plane normalisation", "statement": "On finite binary32 inputs in range, on every backend: every entry of XMMatrixPerspectiveLH/RH, XMMatrixPerspectiveOffCenterLH/RH and XMMatrixOrthographicLH/RH is finite and within 5 units of 2^-24, relatively, of the entry of the textbook matrix (so entries that are zero are exactly zero); the same holds of XMMatrixPerspectiveFovLH/RH relative to the sine and cosine computed for half the angle, and within 1800 units (1.1e-4) relative to the true sine and cosine for angles between 0.1 and 3. The textbook matrices map the view volume onto normalised device coordinates. Each entry of XMMatrixRotationQuaternion is within 5 units of the sum of its absolute terms. XMQuaternionInverse is within 7 units, relatively, of conjugate over squared norm when the squared norm is at least 2^-22; below that it can be zero where the inverse is 4096. XMPlaneNormalize is within 7 units, relatively, of each coefficient over the length of the normal.", "quantifier": "all binary32 inputs with nonzero sizes between 2^-30 and 2^30 (differences and sums between 2^-40 and 2^40), every backend and entry", "why_tests_cant": "The worst relative error over all view volumes cannot be sampled; a test with round numbers has no rounding at all.", "anchors": ["src/matrix.rs:2841-3027 (Perspective), 3055-3259 (PerspectiveFov), 3292-3492 (PerspectiveOffCenter), 3518-3694 (Orthographic), 2281-2366 (RotationQuaternion)", "src/misc.rs:499-518 (QuaternionInverse), 1987-2042 (PlaneNormalize)"]}
