{"id": "C01", "title": "BVH leaves partition the primitives", "statement": "After building a BVH over n primitives, the primitive array is a permutation of 0..n-1, and the (first,count) ranges of the leaf nodes are pairwise disjoint, non-empty and together cover every slot of that array: each primitive is reachable from exactly one leaf.", "quantifier": "every primitive count n >= 1, every centroid array, every outcome of the split-plane search at every node for which the build finishes", "why_tests_cant": "The space of inputs is unbounded; a test samples finitely many scenes and a rare split position or ordering is exactly what it misses.", "anchors": ["source/bvh.cpp: Bvh::recreate", "include/math/bvh.hpp: Bvh::getNodes, Bvh::getPrimitives"]}
{"id": "C02", "title": "BVH nodes form one binary tree", "statement": "The node array of a finished BVH is a single full binary tree rooted at index 0: an inner node's children are adjacent entries with larger indices than their parent, every non-root node is the child of exactly one node, the number of nodes is odd and never exceeds 2n-1, and no leaf index points outside the arrays.", "quantifier": "every n >= 1 and every sequence of split decisions", "why_tests_cant": "The space of inputs is unbounded; a test samples finitely many scenes and a rare split position or ordering is exactly what it misses.", "anchors": ["source/bvh.cpp: Bvh::recreate", "include/math/bvh.hpp: Bvh::Node"]}
{"id": "C03", "title": "BVH boxes contain what is below them", "statement": "In a finished BVH every non-root node's box contains the box (or triangle vertices) of each primitive in its subtree, and contains its children's boxes; the root box is the box supplied by the caller. Holds bit-exactly in binary32 whenever all primitive coordinates are finite.", "quantifier": "every finite list of primitives with finite coordinates, every split decision", "why_tests_cant": "Rounding can silently break containment only for particular floats; there are 2^32 values per coordinate.", "anchors": ["source/bvh.cpp: calculateNodeAabb, Bvh::recreate"]}
{"id": "C04", "title": "BVH build terminates without touching memory out of bounds when splits separate", "statement": "If at every node the chosen split plane leaves at least one centroid strictly below it (or the node does not start at slot 0), building terminates after at most 2n-1 node visits, never reads or writes outside the primitive, centroid or node arrays, and leaves the node stack empty.", "quantifier": "every n >= 1, every centroid array, every split-plane search result obeying the stated precondition", "why_tests_cant": "The space of inputs is unbounded; a test samples finitely many scenes and a rare split position or ordering is exactly what it misses.", "anchors": ["source/bvh.cpp: Bvh::recreate"]}
{"id": "C05", "title": "BVH build is memory safe for every input", "statement": "Building a BVH over one or more boxes with finite coordinates never reads or writes outside its arrays.", "quantifier": "every non-empty list of finite boxes", "why_tests_cant": "The failing inputs (two centroids one ulp apart at slot 0) have vanishing probability in random tests.", "anchors": ["source/bvh.cpp: Bvh::recreate"]}
{"id": "C06", "title": "BVH split cost counts primitives", "statement": "The split-plane search weighs the area on each side of a candidate plane by the number of primitives falling on that side.", "quantifier": "every non-empty list of boxes and every node range", "why_tests_cant": "The cost is internal; a wrong weight only shows as a slower tree, never as a failing assertion.", "anchors": ["source/bvh.cpp: Bin, findBestSplitPlane"]}
{"id": "C07", "title": "BVH traverse visits exactly the accepted leaves, once, in depth-first order", "statement": "traverse calls onLeaf exactly once for each leaf all of whose ancestors (and itself) are accepted by the predicate, in left-to-right depth-first order, and for no other node; it terminates and leaves the node stack empty.", "quantifier": "every finished BVH and every predicate on nodes", "why_tests_cant": "The space of inputs is unbounded; a test samples finitely many scenes and a rare split position or ordering is exactly what it misses.", "anchors": ["include/math/bvh.hpp: Bvh::traverse"]}
{"id": "C08", "title": "Frustum collection is complete and duplicate free", "statement": "collectInFrustum returns, without duplicates, exactly the primitives of those leaves none of whose ancestors' boxes is behind the frustum; the number returned equals the number written and never exceeds n.", "quantifier": "every finished BVH, every plane list", "why_tests_cant": "The space of inputs is unbounded; a test samples finitely many scenes and a rare split position or ordering is exactly what it misses.", "anchors": ["source/bvh.cpp: Bvh::collectInFrustum"]}
{"id": "C09", "title": "Frustum collection never drops a visible primitive", "statement": "If a primitive has a point that lies on the inner side of every frustum plane, and the root box contains the primitive, collectInFrustum returns that primitive.", "quantifier": "every primitive set, every build, every plane list, every point", "why_tests_cant": "The space of inputs is unbounded; a test samples finitely many scenes and a rare split position or ordering is exactly what it misses.", "anchors": ["source/bvh.cpp: Bvh::collectInFrustum", "include/math/aabb.hpp: isBehindFrustum"]}
{"id": "C10", "title": "Building over zero primitives is rejected or harmless", "statement": "In a release build (assertions off) constructing a BVH from fewer than three indices or zero boxes does not request a node array of about four billion entries.", "quantifier": "every index count below 3", "why_tests_cant": "Needs an assertion-disabled build and the wrap of an unsigned subtraction.", "anchors": ["source/bvh.cpp: Bvh::recreate"]}
{"id": "C11", "title": "Closest point of a box", "statement": "closestPoint(box, p) lies in the box and no point of the box is nearer to p; it equals p exactly when p is inside.", "quantifier": "every box with min <= max and every point", "why_tests_cant": "Quantifies over all points of the box.", "anchors": ["include/math/aabb.hpp: closestPoint"]}
{"id": "C12", "title": "Point and box containment", "statement": "isInside(box, p) holds iff min <= p <= max in every axis; isInside(a, b) holds iff every point inside b is inside a (b non-empty).", "quantifier": "every box, point and pair of boxes (with ordered unused lanes)", "why_tests_cant": "Set inclusion quantifies over all points.", "anchors": ["include/math/aabb.hpp: isInside"]}
{"id": "C13", "title": "Extending a box gives the least enclosing box", "statement": "extend(p) / extend(other) yields the smallest box that contains the old box and the argument; extending is idempotent (bit-exactly for non-NaN floats) and the result does not depend on the order of extensions (same values; zeros may differ in sign).", "quantifier": "every box and point, every sequence of extensions", "why_tests_cant": "Minimality quantifies over all enclosing boxes.", "anchors": ["include/math/aabb.hpp: Aabb::extend"]}
{"id": "C14", "title": "Shrinking two boxes gives their intersection", "statement": "After shrink(other), a point is inside the result iff it was inside both boxes.", "quantifier": "every pair of boxes, every point", "why_tests_cant": "Quantifies over all points.", "anchors": ["include/math/aabb.hpp: Aabb::shrink"]}
{"id": "C15", "title": "Box size/extent/position round trips", "statement": "setSize(size, pos) then getSize/getPosition, and setExtent(extent, pos) then getExtent/getPosition, give back the values set; translate keeps the size and moves the position; area is the total face area and volume the product of the sides.", "quantifier": "every size >= 0 and position (exact arithmetic)", "why_tests_cant": "Algebraic identity over all reals.", "anchors": ["include/math/aabb.hpp: Aabb::setSize, Aabb::setExtent, Aabb::getExtent, Aabb::translate, Aabb::calcArea, Aabb::calcVolume"]}
{"id": "C16", "title": "Scaling a box keeps it valid", "statement": "scale(v) / operator* keeps min <= max and maps exactly the set of inside points.", "quantifier": "every valid box and every scale vector", "why_tests_cant": "Fails only for some sign patterns.", "anchors": ["include/math/aabb.hpp: Aabb::scale, Aabb::operator*"]}
{"id": "C17", "title": "Box-box intersection test", "statement": "isIntersected(a, b) is true iff the two boxes share a point.", "quantifier": "every pair of boxes", "why_tests_cant": "Quantifies over all common points.", "anchors": ["include/math/aabb.hpp: isIntersected"]}
{"id": "C18", "title": "trySet rejects invalid corners", "statement": "trySet(min, max) returns false and leaves the box unchanged whenever min > max in some axis, and otherwise sets it and returns true.", "quantifier": "every pair of corner vectors", "why_tests_cant": "A box can be invalid in any subset of axes.", "anchors": ["include/math/aabb.hpp: Aabb::trySet"]}
{"id": "C19", "title": "The full box contains every finite point", "statement": "Aabb::full contains every point with finite coordinates.", "quantifier": "every finite point", "why_tests_cant": "The constant is used as a neutral element; tests rarely probe negatives.", "anchors": ["include/math/aabb.hpp: Aabb::full"]}
{"id": "C20", "title": "Slab ray-box test is exact", "statement": "With an inverted ray (direction = componentwise reciprocal, parallel axes flagged) raycast2I returns (tNear, tFar) such that the points of the ray inside the box are exactly those with max(0,tNear) <= t <= tFar, and a miss marker iff the ray misses the box; raycast1I returns the same near distance.", "quantifier": "every box, origin and direction with any set of axis-parallel components (exact arithmetic)", "why_tests_cant": "Quantifies over all points along the ray.", "anchors": ["include/math/aabb.hpp: raycast2I, raycast1I, raycastI, isAabbIntersected"]}
{"id": "C21", "title": "Ray-box test with an ordinary ray", "statement": "raycast2(box, ray) returns distances along the ray: the hit points are origin + t*direction.", "quantifier": "every box and ray", "why_tests_cant": "Quantifies over all rays; wrong scaling still reports the right boolean.", "anchors": ["include/math/aabb.hpp: raycast2, raycast1", "include/math/ray.hpp: Ray::setDirection"]}
{"id": "C22", "title": "Triangle-box separation test is sound and complete", "statement": "isAabbIntersected(position, extent, triangle) returns true iff the solid triangle and the solid box share a point.", "quantifier": "every box with extent >= 0 and every triangle (exact arithmetic)", "why_tests_cant": "Separating-axis completeness is a theorem about all convex pairs.", "anchors": ["source/aabb.cpp: isAabbIntersected"]}
{"id": "C23", "title": "Frustum rejection is sound", "statement": "If isBehindFrustum(planes, box) is true then one plane has every point of the box strictly on its outer side; if some box point is on the inner side of all planes the result is false; enlarging the box never turns false into true.", "quantifier": "every plane list, every pair of nested boxes, every point (exact arithmetic)", "why_tests_cant": "Quantifies over all points of a box.", "anchors": ["include/math/aabb.hpp: isBehindFrustum"]}
{"id": "C24", "title": "Frustum rejection through a model matrix", "statement": "isBehindFrustum(planes, box, model) equals testing the transformed box: if true, no point model*p with p in the box lies on the inner side of all planes.", "quantifier": "every affine model matrix, box and plane list (exact arithmetic)", "why_tests_cant": "Quantifies over points and matrices.", "anchors": ["include/math/aabb.hpp: isBehindFrustum(model)"]}
{"id": "C25", "title": "Frustum planes match clip space", "statement": "extractFrustumPlanes(viewProj) returns six planes such that a point is on the inner side of all six iff its clip coordinates satisfy -w <= x <= w, -w <= y <= w, 0 <= z <= w.", "quantifier": "every 4x4 matrix and every point (exact arithmetic)", "why_tests_cant": "Equivalence over all points.", "anchors": ["include/math/plane.hpp: extractFrustumPlanes"]}
{"id": "C26", "title": "Plane normalisation and distance", "statement": "For a plane with non-zero normal, normalising does not change which side a point is on, the resulting distance is the true Euclidean distance to the plane, and closestPoint(plane, p) is the foot of the perpendicular.", "quantifier": "every plane with non-zero normal, every point (exact arithmetic)", "why_tests_cant": "Minimality over all plane points.", "anchors": ["include/math/plane.hpp: Plane::normalize, distance3, closestPoint"]}
{"id": "C27", "title": "Plane through a triangle", "statement": "The plane built from a triangle contains the triangle's three vertices (distance 0).", "quantifier": "every non-degenerate triangle", "why_tests_cant": "Sign errors vanish for triangles through the origin, the typical test.", "anchors": ["include/math/plane.hpp: Plane::Plane(Triangle)"]}
{"id": "C28", "title": "Closest point on a triangle's plane", "statement": "closestPoint(triangle, p) gives the triangle's point nearest to p.", "quantifier": "every triangle and point (exact arithmetic)", "why_tests_cant": "Minimality over all triangle points.", "anchors": ["include/math/plane.hpp: closestPoint(Triangle)"]}
{"id": "C29", "title": "Barycentric coordinates reconstruct the point", "statement": "calcBarycentric of a point in the triangle's plane gives weights that sum to one and reproduce the point; all weights are non-negative iff the point is in the triangle, and isInside agrees.", "quantifier": "every non-degenerate triangle, every point of its plane (exact arithmetic)", "why_tests_cant": "Equivalence over all points.", "anchors": ["include/math/triangle.hpp: calcBarycentric, isInside"]}
{"id": "C30", "title": "Closest point on a segment", "statement": "closestPoint(line, p) lies on the segment and no other point of the segment is nearer; a degenerate segment yields its end point.", "quantifier": "every segment and point (exact arithmetic)", "why_tests_cant": "Minimality over the segment.", "anchors": ["include/math/line.hpp: closestPoint"]}
{"id": "C31", "title": "Sphere tests", "statement": "Point-in-sphere is strict distance < radius; two spheres intersect iff they share a point (radii >= 0); sphere-box test is true iff some box point is strictly inside the sphere; closestPoint(sphere, p) is on the sphere nearest to p.", "quantifier": "every sphere, point, box (exact arithmetic)", "why_tests_cant": "Existential over all points.", "anchors": ["include/math/sphere.hpp: isInside, isIntersected, closestPoint"]}
{"id": "C32", "title": "Ray parallel flags are set on construction", "statement": "A ray constructed with a direction having a zero component behaves like a ray whose direction was set afterwards: the axis is flagged parallel.", "quantifier": "every origin and direction", "why_tests_cant": "Only shows for axis-parallel rays that graze a slab.", "anchors": ["include/math/ray.hpp: Ray::Ray, Ray::setDirection"]}
{"id": "C33", "title": "Matrix product is associative and acts by composition", "statement": "(A*B)*C = A*(B*C), (A*B)*v = A*(B*v), identity is neutral on both sides; for float2x2, float3x3, float4x4 and the SIMD f32x4x4.", "quantifier": "all matrices and vectors (exact arithmetic)", "why_tests_cant": "Polynomial identity over all entries.", "anchors": ["include/math/matrix/float.hpp: operator*", "include/math/simd/matrix/float.hpp: operator*"]}
{"id": "C34", "title": "Transpose laws", "statement": "transpose is an involution, swaps entry (i,j) with (j,i) bit-exactly, reverses products; SSE shuffle, NEON zip and scalar versions agree on the 3x3/4x4 block.", "quantifier": "all matrices; entry law for every float including NaN payloads", "why_tests_cant": "All entries and all code paths.", "anchors": ["include/math/matrix/float.hpp: transpose", "include/math/simd/matrix/float.hpp: transpose4x4, transpose3x3"]}
{"id": "C35", "title": "4x4 inverse", "statement": "For a 4x4 matrix with non-zero determinant, inverse4x4(m)*m and m*inverse4x4(m) are the identity, in the SSE, NEON and scalar code paths, so the paths agree.", "quantifier": "all invertible 4x4 matrices (exact arithmetic)", "why_tests_cant": "Rational identity in 16 variables.", "anchors": ["include/math/matrix/float.hpp: inverse(float4x4)", "include/math/simd/matrix/float.hpp: inverse4x4"]}
{"id": "C36", "title": "2x2 and 3x3 inverses", "statement": "inverse(m)*m is the identity for every invertible float2x2 and float3x3.", "quantifier": "all invertible 2x2 and 3x3 matrices", "why_tests_cant": "Symmetric test matrices hide a transposed result.", "anchors": ["include/math/matrix/float.hpp: inverse(float2x2), inverse(float3x3)"]}
{"id": "C37", "title": "Row vector times matrix", "statement": "v*m is the row-vector product, i.e. equals transpose(m)*v.", "quantifier": "all vectors and square matrices", "why_tests_cant": "Diagonal test matrices hide wrong indices.", "anchors": ["include/math/matrix/float.hpp: operator*(vector, matrix)"]}
{"id": "C38", "title": "SIMD and scalar matrix products agree", "statement": "The SIMD matrix*matrix and matrix*vector products equal the plain ones; the 3x3 SIMD product equals the 3x3 block product; bit-exactly for the non-fused code path on the 4x4 product.", "quantifier": "all matrices/vectors", "why_tests_cant": "Per-architecture code paths cannot be run side by side in one test.", "anchors": ["include/math/simd/matrix/float.hpp: operator*, multiply3x3"]}
{"id": "C39", "title": "Model matrix acts as scale, then rotate, then translate", "statement": "calcModel(position, rotation, scale) maps a point p to position + R(scale*p), where R rotates by the normalised quaternion; the fast path for unit scale gives the same matrix.", "quantifier": "all positions, non-zero rotations, scales and points (exact arithmetic)", "why_tests_cant": "Identity over all reals and both branches.", "anchors": ["include/math/matrix/transform.hpp: calcModel, translate, scale, rotate"]}
{"id": "C40", "title": "translate/scale helpers equal their documented products", "statement": "translate(m,t) = m*translate(t), translate(t,m) = translate(t)*m, scale(m,s) = m*scale(s), scale(s,m) = scale(s)*m.", "quantifier": "all matrices for which the documented precondition (affine bottom row) holds, plus which fail otherwise", "why_tests_cant": "Holds for affine matrices but must be known exactly when.", "anchors": ["include/math/matrix/transform.hpp: translate, scale"]}
{"id": "C41", "title": "Quaternion rotation matrices are rotations", "statement": "rotate(q) for a unit q is orthogonal with determinant 1, q*v equals rotate(q)*v, and lengths, dot products and cross products are preserved.", "quantifier": "all unit quaternions and vectors (exact arithmetic)", "why_tests_cant": "Polynomial identity modulo |q|=1.", "anchors": ["include/math/matrix/transform.hpp: rotate(quat)", "include/math/quaternion.hpp: operator*(f32x4)"]}
{"id": "C42", "title": "Quaternion product composes rotations", "statement": "Quaternion multiplication is associative with unit identity, multiplicative on norms, and (a*b)*v = a*(b*v); rotate(a*b) = rotate(a)*rotate(b).", "quantifier": "all unit quaternions and vectors (exact arithmetic)", "why_tests_cant": "Polynomial identity.", "anchors": ["include/math/quaternion.hpp: operator*"]}
{"id": "C43", "title": "Quaternion inverse and conjugate undo the rotation", "statement": "inverse(q)*q = q*inverse(q) = identity for every non-zero q; for unit q conjugate(q) = inverse(q), and v*q undoes q*v.", "quantifier": "all non-zero quaternions, all vectors (exact arithmetic)", "why_tests_cant": "Identity over all reals.", "anchors": ["include/math/quaternion.hpp: conjugate, inverse, operator*(f32x4,quat)"]}
{"id": "C44", "title": "Matrix to quaternion round trip", "statement": "extractQuat(rotate(q)) is q or -q for every unit q, whichever branch is taken, and never divides by zero.", "quantifier": "all unit quaternions (exact arithmetic)", "why_tests_cant": "Four branches; boundary cases have measure zero.", "anchors": ["include/math/matrix/transform.hpp: extractQuat, rotate(quat)"]}
{"id": "C45", "title": "Slerp endpoints and unit result", "statement": "slerp(a,b,0) = a and slerp(a,b,1) = b or -b (the same rotation), and slerp of unit quaternions stays unit in the trigonometric branch; the result is symmetric under (a,b,t) -> (b,a,1-t) up to sign.", "quantifier": "all unit a, b and all t in [0,1] (exact arithmetic, real trigonometry)", "why_tests_cant": "Continuous parameter and two branches.", "anchors": ["include/math/quaternion.hpp: slerp"]}
{"id": "C46", "title": "Euler angle construction composes axis rotations", "statement": "fromEulerAngles(x,y,z) is the unit quaternion product of the rotations about Z, Y and X, and extracting angles from it returns the same angles away from gimbal lock.", "quantifier": "all angle triples (with real sine/cosine)", "why_tests_cant": "Trigonometric identity over all angles.", "anchors": ["include/math/quaternion.hpp: fromEulerAngles, extractPitch, extractYaw, extractRoll"]}
{"id": "C47", "title": "Look-at view matrix", "statement": "lookAt(from,to,up) maps from to the origin, maps to onto the positive z axis at its distance, and has an orthonormal rotation part, when up and view direction are not parallel.", "quantifier": "all from, to, up in general position (exact arithmetic)", "why_tests_cant": "Identity over all reals.", "anchors": ["include/math/matrix/transform.hpp: lookAt, rotate(lookFrom,lookTo,up)"]}
{"id": "C48", "title": "lookAtQuat gives the look rotation", "statement": "lookAtQuat(direction, up) is a unit quaternion that rotates the forward axis onto the (unit) direction.", "quantifier": "all unit directions not parallel to up", "why_tests_cant": "Quantifies over all directions.", "anchors": ["include/math/matrix/transform.hpp: lookAtQuat"]}
{"id": "C49", "title": "Rigid inverse", "statement": "inverseTransRot(m)*m is the identity for every matrix made of a rotation and a translation.", "quantifier": "all rotations and translations", "why_tests_cant": "Pure rotations hide the error.", "anchors": ["include/math/matrix/transform.hpp: inverseTransRot"]}
{"id": "C50", "title": "Scale extraction", "statement": "extractScale(calcModel(p, r, s)) returns s for positive s (and extractRotation returns the rotation).", "quantifier": "all positions, rotations and positive scales", "why_tests_cant": "Unit scales hide a missing square root.", "anchors": ["include/math/matrix/transform.hpp: extractScale, extractScale2, extractRotation, extractTransform"]}
{"id": "C51", "title": "Perspective projections map near/far to the depth range", "statement": "calcPerspProj maps view depth near..far monotonically onto 0..1; the reversed-Z version onto 1..0; the infinite reversed-Z version maps near to 1 and depth to near/z decreasing to 0; points on the field-of-view edges land on x,y = +-1 with y flipped.", "quantifier": "all 0 < near < far, aspect > 0, 0 < fov < pi, all view points in front of the near plane (exact arithmetic, real tangent)", "why_tests_cant": "Monotonicity over a continuum.", "anchors": ["include/math/matrix/projection.hpp: calcPerspProj, calcPerspProjRevZ, calcPerspProjInfRevZ"]}
{"id": "C52", "title": "Orthographic projections map the view box onto clip space", "statement": "calcOrthoProj maps exactly the box [width]x[height]x[depth] onto [-1,1]x[-1,1]x[0,1] with y flipped; the reversed-Z version sends near to 1 and far to 0.", "quantifier": "all non-degenerate boxes, all points (exact arithmetic)", "why_tests_cant": "Equivalence over all points.", "anchors": ["include/math/matrix/projection.hpp: calcOrthoProj, calcOrthoProjRevZ"]}
{"id": "C53", "title": "Vector comparison masks and mask reductions", "statement": "Integer vector comparisons return all-ones/zero lanes; areAllTrue/areAnyTrue/areAllFalse/areAnyFalse on such masks are the for-all/exists of the lane comparisons and satisfy De Morgan; select picks per lane by the mask.", "quantifier": "all lane values, 2/3/4 lanes", "why_tests_cant": "2^128 inputs.", "anchors": ["include/math/vector/uint.hpp: operator<, getTrues, areAllTrue, areAnyTrue, select", "include/math/vector/int.hpp"]}
{"id": "C54", "title": "Mask reductions on arbitrary lane values", "statement": "areAnyFalse is the negation of areAllTrue and areAllFalse the negation of areAnyTrue for every uint vector, not only for masks.", "quantifier": "all 2^64..2^128 vectors", "why_tests_cant": "Only non-mask values show a difference.", "anchors": ["include/math/vector/uint.hpp: areAllTrue, areAnyTrue, areAllFalse, areAnyFalse"]}
{"id": "C55", "title": "isBinaryLess is a strict total order", "statement": "isBinaryLess on uint2/uint3/uint4, int2/int3/int4, Color and Version-like keys is irreflexive, transitive and total, so the types can be used as ordered-map keys.", "quantifier": "all values (little-endian memory model)", "why_tests_cant": "Transitivity ranges over triples.", "anchors": ["include/math/vector/uint.hpp: isBinaryLess", "include/math/vector/int.hpp: isBinaryLess", "include/math/color.hpp: isBinaryLess"]}
{"id": "C56", "title": "isBinaryLess distinguishes boxes", "statement": "isBinaryLess on boxes is a total order: two boxes neither of which is less are identical.", "quantifier": "all pairs of boxes", "why_tests_cant": "Only boxes differing in the last coordinates collide.", "anchors": ["include/math/aabb.hpp: isBinaryLess"]}
{"id": "C57", "title": "Vector constructors store what they are given", "statement": "Constructing int3/uint3/int4/... from components or from a shorter vector plus components stores each given component in its lane.", "quantifier": "all component values", "why_tests_cant": "A wrong lane is invisible when components coincide.", "anchors": ["include/math/vector/int.hpp: int3(int2,int32)"]}
{"id": "C58", "title": "Integer vector arithmetic is defined", "statement": "uint vectors wrap modulo 2^32 lane-wise and form a commutative ring; int vectors give the exact result whenever no lane overflows and are undefined exactly when one does; division/modulo are undefined exactly at a zero divisor (or INT_MIN/-1).", "quantifier": "all lane values", "why_tests_cant": "Overflow lanes are rare.", "anchors": ["include/math/vector/uint.hpp: operators", "include/math/vector/int.hpp: operators"]}
{"id": "C59", "title": "Mip count and mip size", "statement": "calcMipCount(size) is floor(log2(size))+1 and calcSizeAtMip(size, mip) is max(size >> mip, 1), so the last mip of every size has size 1.", "quantifier": "every uint32 size and every mip below the mip count", "why_tests_cant": "Float log2 rounds up just below large powers of two.", "anchors": ["include/math/vector/uint.hpp: calcMipCount, calcSizeAtMip"]}
{"id": "C60", "title": "SIMD unsigned comparisons", "statement": "Comparing/minimising/maximising u32x4 lanes orders them as unsigned numbers on every code path.", "quantifier": "all lane values, SSE/NEON/scalar paths", "why_tests_cant": "Fails only for lanes >= 2^31 on one architecture.", "anchors": ["include/math/simd/vector/uint.hpp: operator<, min, max"]}
{"id": "C61", "title": "Hex round trip", "statement": "toInt32(toHex(v)) = v for every 32-bit v and toInt64 for 64-bit; toHex always has exactly the digits requested, in the alphabet 0-9A-F.", "quantifier": "all values and lengths", "why_tests_cant": "2^64 values.", "anchors": ["include/math/hex.hpp: toHex, toInt32, toInt64"]}
{"id": "C62", "title": "Version packing and order", "statement": "A version converts to and from its 32-bit form without loss, and the operators <,>,<=,>=,== order versions lexicographically by (major, minor, patch, variant).", "quantifier": "all version pairs", "why_tests_cant": "2^64 pairs.", "anchors": ["include/math/version.hpp"]}
{"id": "C63", "title": "Flag set operations", "statement": "|,&,^,~ on flag enums act bitwise; hasAnyFlag is true iff the sets intersect; hasOneFlag is true iff the given flag is set.", "quantifier": "all flag values up to 64 bits", "why_tests_cant": "Only multi-bit values expose the error.", "anchors": ["include/math/flags.hpp: hasAnyFlag, hasOneFlag"]}
{"id": "C64", "title": "Packed vector behaves as an array of small integers", "statement": "For element widths 1, 2 and 4 bits: get after set returns the value at that index, all other elements keep their value, access is defined exactly below the capacity, resize keeps every element that stays below the old capacity and elements in newly added bytes are zero.", "quantifier": "every length, index and value, every operation history", "why_tests_cant": "Bit-packing neighbours: all index pairs.", "anchors": ["include/math/packed-vector.hpp: get, set, resize"]}
{"id": "C65", "title": "Packed vector copies are independent", "statement": "Copying a packed vector gives an independent container: writing to one does not change the other.", "quantifier": "all contents and writes", "why_tests_cant": "The shared storage only shows after later writes.", "anchors": ["include/math/packed-vector.hpp"]}
{"id": "C66", "title": "8-bit colour / float round trip", "statement": "Converting a colour to normalised floats and back gives the same 8-bit channel, bit-exactly in binary32.", "quantifier": "all 256 channel values x 4 channels", "why_tests_cant": "Rounding at particular channel values.", "anchors": ["include/math/color.hpp: Color(f32x4), operator float4, getNorm"]}
{"id": "C67", "title": "setNorm round trip", "statement": "Setting a channel from the value getNorm returned leaves it unchanged.", "quantifier": "all 256 channel values x 4 channels", "why_tests_cant": "Truncation hits only some of the 256 values.", "anchors": ["include/math/color.hpp: setNormR"]}
{"id": "C68", "title": "Colour hex and integer round trips", "statement": "Color((uint32)c) = c and Color(toHex4(c)) = c for every colour; toHex3 drops only alpha.", "quantifier": "all 2^32 colours", "why_tests_cant": "2^32 values.", "anchors": ["include/math/color.hpp: toHex4, Color(string_view), operator uint32"]}
{"id": "C69", "title": "Hammersley points", "statement": "hammersley(i, n) has second coordinate equal to the 32-bit reversal of i times 2^-32, distinct indices give distinct reversals, and both coordinates lie in [0,1).", "quantifier": "all uint32 indices and counts with i < n", "why_tests_cant": "Only the top 128 reversals round up to 1.", "anchors": ["include/math/brdf.hpp: hammersley"]}
{"id": "C70", "title": "repeat stays in the unit interval", "statement": "repeat(v) lies in [0,1) and differs from v by an integer.", "quantifier": "every finite v", "why_tests_cant": "Fails exactly at negative integers.", "anchors": ["include/math/common.hpp: repeat", "include/math/simd/vector/float.hpp: repeat"]}
{"id": "C71", "title": "lerp endpoints and monotonicity", "statement": "lerp(a,b,0) = a and lerp(a,b,1) = b; for t in [0,1] the result lies between a and b.", "quantifier": "all finite binary32 a, b, t in [0,1]", "why_tests_cant": "2^96 triples; rounding breaks it for some.", "anchors": ["include/math/common.hpp: lerp", "include/math/vector/float.hpp: lerp", "include/math/simd/vector/float.hpp: lerp"]}
{"id": "C72", "title": "gain curve", "statement": "gain(x,k) maps [0,1] into [0,1], fixes 0, 1/2 and 1, is monotone, and gain(., 1/k) inverts gain(., k) for k>0.", "quantifier": "all x in [0,1], k > 0 (exact arithmetic, real powers)", "why_tests_cant": "Continuum.", "anchors": ["include/math/common.hpp: gain"]}
{"id": "C73", "title": "sRGB transfer functions are inverse and monotone", "statement": "srgbToRgb(rgbToSrgb(c)) = c for every c away from the seam, and both are monotone, keeping alpha.", "quantifier": "all channel values in [0,1] (exact arithmetic, real powers)", "why_tests_cant": "The two branch thresholds do not match exactly.", "anchors": ["include/math/color-space.hpp: rgbToSrgb, srgbToRgb"]}
{"id": "C74", "title": "RGB/XYZ and XYZ/Yxy conversions are inverse", "statement": "yxyToXyz(xyzToYxy(c)) = c whenever X+Y+Z and Y are non-zero; rgbToXyz and xyzToRgb invert each other to within a stated tolerance.", "quantifier": "all colours", "why_tests_cant": "All reals; matrix layout errors look plausible.", "anchors": ["include/math/color-space.hpp: rgbToXyz, xyzToRgb, xyzToYxy, yxyToXyz"]}
{"id": "C75", "title": "Degrees and radians are inverse", "statement": "degrees(radians(x)) = x in exact arithmetic for scalars and every vector type.", "quantifier": "all x", "why_tests_cant": "All reals.", "anchors": ["include/math/angles.hpp: radians, degrees"]}
{"id": "C76", "title": "Cubemap directions", "statement": "coordsToDir gives a unit vector on the requested face for all texel coordinates in range, and aborts exactly when the face index exceeds 5; different texels of a face give different directions.", "quantifier": "all faces 0..5, coordinates, sizes (exact arithmetic)", "why_tests_cant": "All sizes.", "anchors": ["include/math/ibl.hpp: coordsToST, stToDir, coordsToDir"]}
{"id": "C77", "title": "Spherical-harmonic indexing", "statement": "shIndex maps the pairs (m,l), |m| <= l < B, bijectively onto 0..B*B-1, and computeShBasis writes each of its nine coefficients without touching memory outside the array.", "quantifier": "every band count B (index law); every direction (basis)", "why_tests_cant": "All band counts.", "anchors": ["include/math/sh.hpp: shIndex, computeShBasis"]}
{"id": "C78", "title": "Spherical-harmonic basis", "statement": "computeShBasis gives the (unnormalised) real spherical harmonics up to band 2 as polynomials of the direction.", "quantifier": "all unit directions (exact arithmetic)", "why_tests_cant": "Polynomial identity.", "anchors": ["include/math/sh.hpp: computeShBasis"]}
{"id": "C79", "title": "Spherical-harmonic rotation", "statement": "Rotating SH coefficients by rotateSh3Bands equals re-projecting the rotated function: for a function given by projecting a direction, rotated coefficients are the projection of the rotated direction.", "quantifier": "all rotations and directions (exact arithmetic)", "why_tests_cant": "Identity over SO(3).", "anchors": ["include/math/sh.hpp: rotateSphericalHarmonicBand1, rotateSphericalHarmonicBand2"]}
{"id": "C80", "title": "GGX importance sampling", "statement": "importanceSamplingNdfDggx returns unit half vectors in the upper hemisphere for every u in [0,1)^2 and roughness > 0.", "quantifier": "all samples (exact arithmetic, real trigonometry)", "why_tests_cant": "Continuum.", "anchors": ["include/math/brdf.hpp: importanceSamplingNdfDggx"]}
{"id": "C81", "title": "Fast SIMD exp and log handle special values", "statement": "The SIMD exp and log propagate NaN, exp(-inf)=0, exp(+inf)=+inf, log(+inf)=+inf, log(0)=-inf, log of negatives is NaN.", "quantifier": "all special binary32 values", "why_tests_cant": "Special values are rarely tested.", "anchors": ["include/math/simd/vector/float.hpp: exp, log"]}
{"id": "C82", "title": "Dot, cross, length and normalise obey vector algebra", "statement": "dot is symmetric bilinear, cross is anti-symmetric and orthogonal to its arguments, |a x b|^2 = |a|^2|b|^2-(a.b)^2, length is a norm, and normalising a non-zero vector gives unit length and the same direction; the SIMD versions agree and never let the fourth lane influence 3D results.", "quantifier": "all vectors (exact arithmetic); lane independence bit-exact", "why_tests_cant": "Identities over all reals.", "anchors": ["include/math/vector/float.hpp: dot, cross, length, normalize", "include/math/simd/vector/float.hpp: dot3, cross3, normalize3"]}
{"id": "C83", "title": "Float vector min/max/clamp/select are lane-exact", "statement": "min, max, clamp and select return one of their inputs per lane bit-exactly; clamp(v, lo, hi) with lo <= hi lies in [lo,hi] and is idempotent; horizontal min3/max3/min4/max4 return the extreme of exactly the first 3 (4) lanes.", "quantifier": "all non-NaN binary32 lanes", "why_tests_cant": "All orderings including signed zeros.", "anchors": ["include/math/simd/vector/float.hpp: min, max, clamp, min3, max3, min4, max4", "include/math/vector/float.hpp: min, max, clamp"]}
{"id": "C84", "title": "signBits and sign", "statement": "signBits packs the sign bit of lane i into bit i; sign returns +-1 with the lane's sign bit, on scalar and SIMD paths alike.", "quantifier": "all binary32 lanes including NaN, zeros and infinities", "why_tests_cant": "Special values.", "anchors": ["include/math/vector/float.hpp: sign, signBits", "include/math/simd/vector/float.hpp: sign, signBits"]}
{"id": "C85", "title": "Growing a packed vector zero fills", "statement": "After resize(n) that enlarges a packed vector from m elements, every element with index in [m, n) reads as zero, whatever the vector held before it was shrunk to m.", "quantifier": "all widths, sizes and histories", "why_tests_cant": "Needs shrink-then-grow with a non-multiple of the elements per byte and a stale non-zero element.", "anchors": ["include/math/packed-vector.hpp: PackedVector::resize"]}
{"id": "C86", "title": "Closest point on a ray", "statement": "closestPoint(ray, p) lies on the half line of the ray and no other point of the half line is nearer to p.", "quantifier": "every ray with non-zero direction, every point (exact arithmetic)", "why_tests_cant": "Minimality over an infinite half line.", "anchors": ["include/math/ray.hpp: closestPoint"]}
{"id": "C87", "title": "Angle-axis quaternions", "statement": "quat(angle, axis) with a unit axis is a unit quaternion and rotates every vector as Rodrigues' formula says (right-hand rule).", "quantifier": "all angles, unit axes and vectors (exact arithmetic, real sine and cosine)", "why_tests_cant": "Identity over all angles and axes.", "anchors": ["include/math/quaternion.hpp: quat(float, f32x4)"]}
{"id": "C88", "title": "Mask reductions mean the same on every code path", "statement": "areAllTrue, areAllFalse, areAnyTrue and areAnyFalse return the same answer for the same u32x4 on the SSE, NEON and generic paths.", "quantifier": "all lane values, all paths", "why_tests_cant": "Only lanes that are neither all ones nor zero differ, and only across builds.", "anchors": ["include/math/simd/vector/uint.hpp: areAllTrue, areAllFalse, areAnyTrue, areAnyFalse"]}
{"id": "C89", "title": "Integer to float lane conversion", "statement": "f32x4(u32x4) and f32x4(i32x4) convert every lane to the nearest float of the same number, on every path.", "quantifier": "all lane values, all paths", "why_tests_cant": "Fails only for lanes >= 2^31 on one architecture and only in builds without SIMD.", "anchors": ["include/math/simd/vector/float.hpp: f32x4(u32x4), f32x4(i32x4)"]}
{"id": "C90", "title": "Float to unsigned lane conversion", "statement": "(u32x4)f32x4 truncates every lane in [0, 2^32) towards zero on every path.", "quantifier": "all finite float lanes in range, all paths", "why_tests_cant": "Fails only for lanes >= 2^31 on one architecture.", "anchors": ["include/math/simd/vector/float.hpp: operator u32x4"]}
{"id": "C91", "title": "Parsing hexadecimal strings", "statement": "toInt32 and toInt64 return the number at the start of the string (white space, sign and 0x prefix allowed, longest run of digits, either case; a negative number modulo the type) and end the program when there is none or its magnitude does not fit the result type.", "quantifier": "all strings", "why_tests_cant": "Unbounded strings; the silent truncation needs nine digits on a 64-bit platform.", "anchors": ["include/math/hex.hpp: toInt32, toInt64"]}
{"id": "C92", "title": "Quantising intensities to channels", "statement": "Color(float2/float3/float4/f32x4) is defined for every non-NaN intensity, saturates outside [0,1], picks the nearest channel value (within 2^-14 of a step), is monotone, and is the same on every path.", "quantifier": "all 2^32 binary32 values except NaN, infinities included", "why_tests_cant": "2^32 values and rounding at 255 midpoints.", "anchors": ["include/math/color.hpp: Color(float2), Color(float3), Color(float4), Color(f32x4)"]}
{"id": "C93", "title": "setNorm rounds like the constructor", "statement": "setNormR/G/B/A store the channel value nearest to the given intensity, as Color(float4) does.", "quantifier": "all non-NaN binary32 values", "why_tests_cant": "Differs for half of all values, but never on values returned by getNorm.", "anchors": ["include/math/color.hpp: setNormR, setNormG, setNormB, setNormA"]}
{"id": "C94", "title": "NaN intensities", "statement": "Building a colour from a NaN intensity is defined and gives the same channel on every path.", "quantifier": "all NaNs, all paths", "why_tests_cant": "Undefined behaviour shows no failure in a test run.", "anchors": ["include/math/color.hpp: Color(float4), Color(f32x4), setNormR"]}
{"id": "C95", "title": "Colour comparison operators", "statement": "The comparison operators are the conjunctions of the channel comparisons, == is equality and != its negation; of two different colours one is less than the other.", "quantifier": "all pairs of colours", "why_tests_cant": "2^64 pairs.", "anchors": ["include/math/color.hpp: operator<, operator>, operator<=, operator>=, operator==, operator!="]}
{"id": "C96", "title": "Colour from any string", "statement": "Color(const string&) never reads outside the string.", "quantifier": "all strings, with assertions on or off", "why_tests_cant": "Out-of-bounds reads show no failure in a test run.", "anchors": ["include/math/color.hpp: Color(const string&)"]}
{"id": "C97", "title": "lerpDelta is frame-rate independent", "statement": "Two steps of lerpDelta with delta times d1 and d2 equal one step with d1 + d2; the distance left shrinks by the factor per unit of time; a zero step does not move; for factors in [0,1] the result lies between a and b.", "quantifier": "all a, b, factors >= 0, positive delta times (exact arithmetic, real powers)", "why_tests_cant": "Continuum.", "anchors": ["include/math/common.hpp: lerpDelta", "include/math/vector/float.hpp: lerpDelta", "include/math/simd/vector/float.hpp: lerpDelta"]}
{"id": "C98", "title": "White stays white", "statement": "rgbToSrgb and srgbToRgb map 0 to 0 and 1 to 1.", "quantifier": "every power function with pow(1, y) = 1, every path (binary32)", "why_tests_cant": "Off by one unit in the last place, below any test tolerance.", "anchors": ["include/math/color-space.hpp: rgbToSrgb, srgbToRgb"]}
{"id": "C99", "title": "GGX distribution and reflectance", "statement": "ggx is a*a / (pi ((a*a-1) n*n + 1)^2), never divides by zero and is positive for |n| <= 1 and a /= 0, and is increasing in n in [0,1] for a in (0,1]; iorToReflectance is |(n-1)/(n+1)| / sqrt(0.16).", "quantifier": "all cosines, roughnesses and indices (exact arithmetic)", "why_tests_cant": "Continuum.", "anchors": ["include/math/brdf.hpp: ggx, iorToReflectance"]}
{"id": "C100", "title": "Rounding to integers", "statement": "floor, ceil, trunc and round give the integer below, above, towards zero and nearest for every finite value on every path, keep the sign of zero, return infinities and NaN unchanged, and all paths and the scalar versions give the same result.", "quantifier": "all 2^32 binary32 values, every path", "why_tests_cant": "Paths cannot be compared in one build; ties are one value in 2^20.", "anchors": ["include/math/simd/vector/float.hpp: round, floor, ceil, trunc", "include/math/vector/float.hpp: round, floor, ceil, trunc"]}
{"id": "C101", "title": "Texel solid angles", "statement": "calcSolidAngle is the solid angle of the texel's rectangle seen from the centre; it is positive, the texels of a face add up to 2 pi / 3 and those of the whole cube to 4 pi.", "quantifier": "every cube map size and texel (exact arithmetic, real arctangent)", "why_tests_cant": "All sizes; an integral identity.", "anchors": ["include/math/sh.hpp: sphereQuadrantArea, calcSolidAngle", "include/math/ibl.hpp: coordsToST"]}
{"id": "C102", "title": "Harmonics are orthogonal and ki normalises them", "statement": "The nine functions computed by computeShBasis are pairwise orthogonal over the sphere, and ki[i] is the factor of the clamped cosine (pi, 2 pi / 3, pi / 4) for the band of i divided by the norm of function i, to within 2e-6.", "quantifier": "all pairs of coefficients (integrals over the sphere)", "why_tests_cant": "Integrals.", "anchors": ["include/math/sh.hpp: ki, computeShBasis"]}
{"id": "C103", "title": "Windowing scales whole bands", "statement": "windowing multiplies every coefficient exactly once by a factor in [0,1] that depends only on its band: 1 for band 0, and 0 for bands at or beyond the cutoff; it stays inside the array.", "quantifier": "all arrays and cutoffs", "why_tests_cant": "All values.", "anchors": ["include/math/sh.hpp: sincWindow, windowing, deringingSH"]}
{"id": "C104", "title": "Deringing leaves lighting that does not ring unchanged", "statement": "deringingSH lowers the cutoff only as far as needed for a non-negative minimum: if no probed function has a negative minimum, the coefficients stay (nearly) unchanged.", "quantifier": "all coefficient arrays and all minimum functions", "why_tests_cant": "The effect is a plausible looking blur.", "anchors": ["include/math/sh.hpp: deringingSH, shmin"]}
{"id": "C105", "title": "Shader constants", "statement": "shaderPreprocessSH multiplies every coefficient exactly once, and its constants times the bare polynomials 1, y, z, x, xy, yz, 3zz-1, zx, xx-yy are the orthonormal harmonics over pi to within 2e-6.", "quantifier": "all directions (exact arithmetic with the code's constants)", "why_tests_cant": "Continuum.", "anchors": ["include/math/sh.hpp: shaderPreprocessSH"]}
{"id": "C106", "title": "SIMD exponential is accurate", "statement": "The SIMD exp is finite and within a relative error of 3e-7 of the exponential.", "quantifier": "all binary32 values in [-87, 88], every SIMD path", "why_tests_cant": "2^31 inputs per path; no reference values in a test.", "anchors": ["include/math/simd/vector/float.hpp: exp"]}
{"id": "C107", "title": "SIMD logarithm is accurate", "statement": "The SIMD log is within 3e-5 of the natural logarithm for every positive value, on every path.", "quantifier": "all positive binary32 values, every SIMD path", "why_tests_cant": "2^31 inputs per path; the NEON path cannot run on a desktop.", "anchors": ["include/math/simd/vector/float.hpp: log"]}
{"id": "C108", "title": "SIMD sine and cosine are accurate", "statement": "sinCos is finite and within 6.5e-7 of the sine and the cosine for every finite argument.", "quantifier": "all finite binary32 values, every SIMD path", "why_tests_cant": "2^32 inputs per path; range reduction errors are rare.", "anchors": ["include/math/simd/vector/float.hpp: sinCos"]}
{"id": "C109", "title": "fastPow is accurate and has the right sign", "statement": "fastPow(b, e) is within a relative error of 7e-5 |e| + 1e-5 of the power: the real power for positive bases, and the integer power with its sign for bases of either sign and integer exponents.", "quantifier": "all bases and exponents up to 1000 with the power between exp(-86) and exp(86)", "why_tests_cant": "2^64 inputs.", "anchors": ["include/math/simd/vector/float.hpp: fastPow"]}
{"id": "C110", "title": "fastPow special cases", "statement": "fastPow(b, 0) = 1 for every b including NaN; fastPow(0, e) is 0 for positive e and +inf for negative e; a negative base with a fractional exponent gives NaN.", "quantifier": "all binary32 bases and exponents", "why_tests_cant": "Special values are rarely tested.", "anchors": ["include/math/simd/vector/float.hpp: fastPow"]}
{"id": "C111", "title": "Fast gamma correction", "statement": "fastGammaCorrection keeps alpha, maps 0 to 0 and every positive channel to its 1/2.2 power with a relative error of at most 5e-5, on every SIMD path.", "quantifier": "all colours with non-negative channels, every SIMD path", "why_tests_cant": "2^96 colours; the NEON path cannot run on a desktop.", "anchors": ["include/math/tone-mapping.hpp: fastGammaCorrection", "include/math/simd/vector/float.hpp: fastPow"]}
{"id": "C112", "title": "The split search returns the cheapest plane", "statement": "The search divides the range of the centroids of each axis into eight equal bins and returns, over the three axes and the seven planes between bins, one of least cost (counter of either side times half the surface area of its bins), or the initial plane if none is cheaper; the bounds are exactly the least and greatest centroid, areas and node costs are within 2^-20 of the exact ones, and triangle centroids are the means of the vertices up to rounding.", "quantifier": "all primitive ranges, centroid arrays and box functions for which no undefined conversion occurs", "why_tests_cant": "Any plane gives a working tree; a wrong minimum only costs speed.", "anchors": ["source/bvh.cpp: findBestSplitPlane, calcAreaHalf, calculateCentroid"]}
{"id": "C113", "title": "Nodes are divided exactly when it pays off", "statement": "In a built tree every inner node is divided by a cheapest plane of its primitives whose cost is not at least that of the node; its left subtree holds exactly primitives with centroids below the plane and its right one those not below; every leaf of more than two primitives has no cheaper plane or all its centroids on one side.", "quantifier": "all builds that return, for both overloads", "why_tests_cant": "Holds of every node of every tree; a misplaced primitive only slows queries.", "anchors": ["source/bvh.cpp: Bvh::recreate"]}
{"id": "C114", "title": "Packed vector bounds checks guard the access", "statement": "In debug builds get(i) aborts exactly when element i lies outside the storage and otherwise returns the element, for 1, 2 and 4 bit elements; size() is the number of elements the vector was created with.", "quantifier": "all widths, sizes and indices", "why_tests_cant": "Out-of-bounds reads usually return plausible data.", "anchors": ["include/math/packed-vector.hpp: PackedVector::get"]}
{"id": "C115", "title": "Operators of lines, triangles and rays move their points", "statement": "Adding, subtracting, multiplying and dividing a line, triangle or ray by a vector gives the shape whose points are the translated or scaled points of the original; getDirection and normalize give unit directions of the same segment or ray.", "quantifier": "all shapes and vectors (divisors without zero components), every code path", "why_tests_cant": "Statements about infinite sets of points.", "anchors": ["include/math/line.hpp: Line::operator+", "include/math/triangle.hpp: Triangle::operator+", "include/math/ray.hpp: Ray::operator+"]}
{"id": "C116", "title": "Equality operators compare values", "statement": "== on SIMD vectors and matrices, planes, lines, boxes, triangles, rays and float matrices holds exactly when all coordinates are equal as numbers, and != is its negation.", "quantifier": "all binary32 values including infinities, NaN and signed zeros, every code path", "why_tests_cant": "2^128 and more pairs; signed zeros and the unused lanes are rarely tried.", "anchors": ["include/math/simd/vector/float.hpp: f32x4::operator==", "include/math/simd/matrix/float.hpp: f32x4x4::operator==", "include/math/aabb.hpp: Aabb::operator==", "include/math/ray.hpp: Ray::operator==", "include/math/matrix/float.hpp: float4x4::operator=="]}
{"id": "C117", "title": "4x3 matrices, conversions, and operators with a number", "statement": "A 4x3 matrix maps points by x -> L x + t, exactly like the 4x4 matrix it is converted to; conversions between 2x2, 3x3, 4x3 and 4x4 matrices keep the entries; products of converted matrices compose the maps; operators with a number act on every entry; [] returns every column and stops on other indices in debug builds.", "quantifier": "all matrices, vectors, numbers and indices", "why_tests_cant": "Entries can be swapped without breaking symmetric examples.", "anchors": ["include/math/matrix/float.hpp: float4x3", "include/math/simd/matrix/float.hpp: f32x4x4"]}
{"id": "C118", "title": "Colours survive the conversion to linear light", "statement": "Color::fromLinear(c.toLinear()) == c for every colour, and toLinear is within the error of the power function plus 2^-14 (relative) of the sRGB standard, provided std::pow has a relative error of at most 2^-12 on bases in [2^-10, 2] and exponents in [0, 3].", "quantifier": "all colours, every power function of that accuracy, every code path", "why_tests_cant": "The accuracy of std::pow differs between platforms; 2^32 colours.", "anchors": ["include/math/color.hpp: Color::toLinear", "include/math/color.hpp: Color::fromLinear", "include/math/color-space.hpp: srgbToRgb", "include/math/color-space.hpp: rgbToSrgb"]}
{"id": "C119", "title": "Comparing a colour with a number compares every channel", "statement": "c op n and n op c hold exactly when the comparison holds for all four channels (!= when it fails to be equal for one); the named colours have the values of their names.", "quantifier": "all colours and numbers", "why_tests_cant": "Eight-bit channels are usually tried with equal values.", "anchors": ["include/math/color.hpp: Color::operator<"]}
{"id": "C120", "title": "Normalising gives a unit vector", "statement": "In binary32 the inner products, cross products and lengths are within a few units in the last place (relative to the sum of the absolute products) of the exact ones, normalising a finite non-zero vector gives finite lanes within 5.1*2^-24 of the exact unit vector, and isNormalized accepts every such result.", "quantifier": "all finite non-zero vectors of 2, 3 and 4 lanes, every code path", "why_tests_cant": "Rounding errors depend on all bits of the lanes; extreme lengths are rarely tried.", "anchors": ["include/math/vector/float.hpp: normalize", "include/math/vector/float.hpp: isNormalized", "include/math/simd/vector/float.hpp: normalize3", "include/math/simd/vector/float.hpp: dot3", "include/math/simd/vector/float.hpp: cross3"]}
{"id": "C121", "title": "Signed SIMD vectors agree with int4", "statement": "On every code path the shifts, negation, logical not, complement, equality, bic, select, min, max, clamp and the horizontal minima and maxima of i32x4 give, lane by lane, the mathematical results that int4 gives wherever int4's are defined.", "quantifier": "all lanes and shift counts, every code path", "why_tests_cant": "2^128 vectors and five instruction sets, most of which a test machine does not have.", "anchors": ["include/math/simd/vector/int.hpp: i32x4::operator>>", "include/math/simd/vector/int.hpp: i32x4::operator-", "include/math/simd/vector/int.hpp: select", "include/math/simd/vector/int.hpp: min4"]}
{"id": "C122", "title": "Chains of matrices stay accurate in binary32", "statement": "On every code path each entry of a matrix-vector or matrix-matrix product is within 4.01 (3.01, 2.01 for 3x3, 2x2) times 2^-24 of the exact sum, relative to the sum of the absolute products; applying n matrices one after the other, multiplying n matrices, or applying a product of two, keeps the error below ((1 + 4.01*2^-24)^n - 1) times the product of the absolute matrices, whether or not multiply-adds are fused.", "quantifier": "all finite matrices and vectors away from overflow, chains of every length, every code path", "why_tests_cant": "Rounding errors accumulate over a chain and depend on all bits; fused and unfused paths round differently.", "anchors": ["include/math/simd/matrix/float.hpp: f32x4x4::operator*", "include/math/simd/matrix/float.hpp: multiply3x3", "include/math/matrix/float.hpp: float4x4::operator*", "include/math/matrix/float.hpp: float3x3::operator*"]}
{"id": "C123", "title": "Rotations stay accurate in binary32", "statement": "On every code path products of n nearly unit quaternions stay within 1.125 n (d + 8.3*2^-24) of the exact product of rotations, normalising restores unit length, the inverse undoes a rotation, and rotating a vector by a quaternion, by an axis and an angle or by Euler angles is the exact rotation about the axis (or about x, then y, then z) up to a small multiple of the vector's length.", "quantifier": "all finite quaternions, axes, angles up to 16384 and vectors; products of every length; every code path", "why_tests_cant": "Errors accumulate over products and depend on all bits; the sines are polynomial approximations whose argument reduction differs between paths.", "anchors": ["include/math/quaternion.hpp: quat::operator*", "include/math/quaternion.hpp: quat::quat", "include/math/quaternion.hpp: inverse", "include/math/quaternion.hpp: fromEulerAngles", "include/math/quaternion.hpp: normalize"]}
{"id": "C124", "title": "Float vectors compare, compute and convert lane by lane", "statement": "The comparison operators of float2, float3, float4 and f32x4 (also with a number on either side) set a lane to all ones exactly when the lanes, read as extended reals, stand in the relation, and to zero otherwise; NaN makes every comparison but != false; == holds exactly when all lanes are equal and != is its negation; + - * / give in each lane the closest binary32 number to the exact result; conversions to integers truncate and are undefined exactly when the truncated lane does not fit, conversions from integers give the closest number and return unchanged up to 2^24; the constants have the values of their names.", "quantifier": "all lanes including infinities and NaN, every code path", "why_tests_cant": "2^64 and more pairs of lanes; NaN, signed zeros and the ends of the integer ranges are rarely tried.", "anchors": ["include/math/vector/float.hpp: float2::operator<", "include/math/vector/float.hpp: float3::operator int3", "include/math/vector/float.hpp: float4::operator==", "include/math/vector/float.hpp: notEqual", "include/math/simd/vector/float.hpp: f32x4::operator!="]}
{"id": "C125", "title": "Lanes of a SIMD vector behave as four independent cells", "statement": "Constructing f32x4, i32x4 or u32x4 puts each value in its lane (missing lanes repeat the last given one), converting to a plain vector and back changes nothing, swizzle<X,Y,Z,W> picks the named lanes, [] returns the lane with that number, and after any sequence of lane, index, whole-vector and fixW writes every lane holds what was written to it last; an index outside the vector stops a debug build and is undefined otherwise.", "quantifier": "all lane values, indices and finite sequences of writes, every code path", "why_tests_cant": "Sequences are unbounded; the instruction sets number lanes in opposite orders and a test machine has one of them.", "anchors": ["include/math/simd/vector/float.hpp: f32x4::f32x4", "include/math/simd/vector/float.hpp: f32x4::swizzle", "include/math/simd/vector/float.hpp: f32x4::fixW", "include/math/simd/vector/int.hpp: i32x4::setX", "include/math/simd/vector/uint.hpp: u32x4::swizzle", "include/math/vector/int.hpp: int2::operator[]"]}
{"id": "C126", "title": "Integer operators with a number act on every lane", "statement": "v op n and n op v on int2..int4 and uint2..uint4 give each lane's mathematical result, and are undefined exactly when one lane is; v op= w stores the result of v op w; comparisons with a number give a mask per lane; i32x4 and u32x4 give the same results on every code path wherever no lane is undefined; the named constants are neutral elements, negate, cancel in opposite pairs and span the vectors.", "quantifier": "all lanes and numbers, ten operators, six comparisons, every code path", "why_tests_cant": "2^64 and more operands; overflow, zero divisors and shift counts matter in a single lane.", "anchors": ["include/math/vector/int.hpp: int2::operator+", "include/math/vector/int.hpp: int3::operator+=", "include/math/vector/uint.hpp: uint3::operator/", "include/math/simd/vector/int.hpp: i32x4::operator%", "include/math/simd/vector/uint.hpp: u32x4::operator>>"]}
{"id": "C127", "title": "Frustum culling errs only by rounding", "statement": "In binary32 a box is culled only if all its points are outside one plane up to a few rounding errors of the plane equation's terms, and is culled whenever all its points are outside one plane by that much; the same holds for planes extracted from a projection matrix, measured by the exact clip coordinates, for normalised planes, and for boxes placed by a model matrix.", "quantifier": "all boxes with corners up to 2^60, all planes and matrices with entries up to 2^60 (2^36 with a model matrix), every code path", "why_tests_cant": "Culling errors show only when a plane grazes a box; the bound must hold for every mixture of magnitudes, cancellation and fused or unfused arithmetic.", "anchors": ["include/math/aabb.hpp: isBehindFrustum", "include/math/plane.hpp: extractFrustumPlanes", "include/math/plane.hpp: normalizePlanes", "include/math/plane.hpp: distance3"]}
{"id": "C128", "title": "The binary32 inverse of a 4x4 matrix is accurate unless the matrix is nearly singular", "statement": "inverse4x4 of f32x4x4, on every instruction set and in the portable code, returns finite entries within 2^-24 (70 b^3/|det| + 1900 b^7/det^2) of the exact inverse of the same binary32 entries, where b bounds the entries and |det| is at least b^4/2^14; multiplying the matrix with the computed inverse misses the identity by at most 4 b times that; and a point multiplied with the matrix and then with the computed inverse comes back within the corresponding bound.", "quantifier": "forall instruction-set paths, all binary32 matrices with finite entries bounded by b in [2^-24, 2^24] and |det| >= b^4/2^14, and all points with coordinates bounded by c in [2^-24, 2^24]", "why_tests_cant": "The SIMD code computes the cofactors with some seventy shuffled operations and differs from the portable code in grouping and fusing; tests with a tolerance cannot bound the worst case over all matrices, nor say from which determinant on the result is meaningless.", "anchors": ["include/math/simd/matrix/float.hpp: inverse4x4", "include/math/matrix/float.hpp: inverse"]}
{"id": "C129", "title": "A box in a debug build is always proper", "statement": "The assertions in Aabb's constructor, setMin, setMax and set accept exactly corners that are numbers with min <= max on all three axes, those of setSize and setExtent exactly non-negative sizes, whatever the fourth lane holds; after any sequence of setters, extensions, translations and scalings with finite offsets and finite positive factors that does not abort the box is proper; without setters nothing aborts and the release build computes the same box; Aabb::inf contains exactly the points without NaN.", "quantifier": "forall binary32 corners, sizes, offsets and factors (NaN and infinities included), all finite sequences of calls, every code path", "why_tests_cant": "The assertion is a SIMD comparison with a doctored fourth lane; rounding, overflow to infinity and NaN decide whether an operation can turn a box inside out, and call sequences are unbounded.", "anchors": ["include/math/aabb.hpp: Aabb::Aabb", "include/math/aabb.hpp: setMin", "include/math/aabb.hpp: setMax", "include/math/aabb.hpp: setSize", "include/math/aabb.hpp: setExtent", "include/math/aabb.hpp: Aabb::inf"]}
{"id": "C130", "title": "The binary32 ray against box test is exact for a box moved by rounding", "statement": "For a ray prepared with the rounded reciprocals of its direction, the binary32 raycast2I returns exactly the entry and exit parameters of the exact ray with some box whose faces differ from the given ones by at most 3.001/2^24 of their distance to the ray's origin (plus underflow); hence a reported hit meets the box grown by that much, a ray that meets the box shrunk by that much is reported as a hit, and a miss returns the inverted pair; rays that run exactly in a face are excepted, and some of them are reported as misses on every code path.", "quantifier": "forall boxes and origins with coordinates up to 2^60, directions whose components are 0 or between 2^-60 and 2^60 in magnitude, every code path", "why_tests_cant": "The test multiplies rounded differences with rounded reciprocals, infinities included; the error depends on all of them, and the rays that matter graze edges and corners.", "anchors": ["include/math/aabb.hpp: raycast2I", "include/math/aabb.hpp: raycastI", "include/math/aabb.hpp: raycast1I", "include/math/ray.hpp: setDirection"]}
{"id": "C131", "title": "The t that closestPoint(line, point, t) hands out is the distance to the closest point", "statement": "The overload of closestPoint for lines documents its output t as the distance to the closest point: that is false.  What holds: the returned point is the nearest one of the segment; t is the unclamped parameter of the foot of the perpendicular on the whole line, so that the foot lies |t| segment lengths from the start; the returned point sits at t clamped to [0,1], and t below 0 or above 1 tells which end was returned.", "quantifier": "forall segments of positive length, forall points, every code path, exact arithmetic", "why_tests_cant": "A test on a unit length segment cannot tell the parameter from the distance along it, and no finite test covers points beyond both ends of all segments.", "anchors": ["include/math/line.hpp: closestPoint"]}
{"id": "C132", "title": "Closest points computed in binary32 are near the exact closest points", "statement": "closestPoint for a line, ray, plane or sphere returns, lane by lane, a point within a stated number of rounding errors of a true nearest point: (19 S + 4 L)/2^24 for a segment of length L with S the distance of the point from its start, 10 radii/2^24 for a sphere, 23 times the sum of the magnitudes of the plane equation's terms for a normalized plane, and for a ray (28 S + 7 S O/L + L)/2^24 with O the distance of the ray's origin from the coordinate origin; that last term is real: a unit ray 2^25 away from the coordinate origin yields NaN on every code path.", "quantifier": "forall finite coordinates up to 2^40, segments and directions of length at least 2^-40, every code path", "why_tests_cant": "Subtraction, division, fused and unfused multiply-adds each round differently on each path; the loss of the ray's direction happens only far from the origin.", "anchors": ["include/math/line.hpp: closestPoint", "include/math/ray.hpp: closestPoint", "include/math/plane.hpp: closestPoint", "include/math/sphere.hpp: closestPoint"]}
{"id": "C133", "title": "The text of a vector or colour determines its value", "statement": "toString of the integer vectors and of colours prints, for every value, decimal numbers without superfluous zeros separated by one space, which read back as exactly the given lanes; toString of the float vectors prints each finite lane to the nearest millionth, so that lanes more than a millionth apart get different texts and whole numbers of millionths are printed exactly, but different vectors can have the same text; infinities and NaN print as words.", "quantifier": "forall 32-bit integers, all colours, all binary32 lanes", "why_tests_cant": "There are 2^128 integer vectors; digit loops go wrong at sign changes, powers of ten and the most negative number, and rounding to six decimals at ties.", "anchors": ["include/math/vector/int.hpp: toString", "include/math/vector/uint.hpp: toString", "include/math/vector/float.hpp: toString", "include/math/color.hpp: toString4", "include/math/simd/vector/float.hpp: toString"]}
{"id": "C134", "title": "Visible points get depths in [0, 1] that order them by distance", "statement": "In binary32, the depth z/w of a point between the near and the far plane lies in [0, 1] and a farther point never gets a depth in front of a nearer one. For calcPerspProjInfRevZ this holds: the depth is the correctly rounded n/z, 1 at the near plane, and distances more than 4 parts in 2^24 apart get different depths. For calcPerspProjRevZ the order holds in front of the far plane but points on the near and far planes can leave [0, 1]; for calcPerspProj the order fails as well. Both finite projections are within 5.4/2^24 times the sum of the two terms' magnitudes of the exact depth.", "quantifier": "forall finite near planes, points and every code path; with a far plane, forall distances between 2^-30 and 2^30; whatever the tangent function returns", "why_tests_cant": "Depth fighting depends on the rounding of two matrix entries, a multiply-add that is fused on some paths, and a division; no sample of distances settles monotonicity.", "anchors": ["include/math/matrix/projection.hpp: calcPerspProj, calcPerspProjRevZ, calcPerspProjInfRevZ", "include/math/simd/matrix/float.hpp: operator*"]}
{"id": "C135", "title": "The deringing minimum search terminates", "statement": "The Newton iteration of shmin ends for every set of finite coefficients, so that deringingSH returns. It does not: there are nine finite coefficients for which the binary32 iteration alternates between two values for ever, whatever finite values the power function has.", "quantifier": "exists coefficients, forall numbers of iterations and all power functions finite on [0, 1]", "why_tests_cant": "A loop that ends on all tested lights can still cycle on one set of rounded coefficients; no number of observed iterations shows that it never ends.", "anchors": ["include/math/sh.hpp: shmin"]}
{"id": "C136", "title": "shmin is negative whenever the lighting is negative somewhere", "statement": "shmin returns a (near) lower bound of the light given by the nine coefficients, so that deringing removes all negative light. It does not: a light from the side with negative parts gets a positive minimum because the bands are rotated wrongly, the Newton search returns a maximum when the quadratic is concave, and every light whose linear part is straight up or down gives NaN. For lights along the z axis the estimate without search is a lower bound, and for lights symmetric about the z axis with a weak quadratic part, or a convex one with its vertex inside, the result is the minimum up to total/70000.", "quantifier": "forall real coefficients of the classes named; forall numbers of iterations; the NaN for all binary32 coefficients with that direction", "why_tests_cant": "The minimum over all directions and the limit of a Newton iteration are compared for all coefficients; a test samples a few directions of a few lights.", "anchors": ["include/math/sh.hpp: shmin, rotateSh3Bands, multiply5, projectVecToSH2K"]}
{"id": "C137", "title": "Hammersley samples are evenly distributed", "statement": "For a power of two n = 2^m of samples, every cell of every grid of 2^k columns and 2^(m-k) rows contains exactly one of the points hammersley(0, 1/n) .. hammersley(n-1, 1/n), as computed in binary32; for any number of samples every aligned block of 2^j consecutive indices has exactly one point in each of 2^j equal rows.", "quantifier": "forall m <= 24, k <= m, all cells; all aligned blocks below 2^24", "why_tests_cant": "There are m+1 grids of 2^m cells for each m; clustering or a missed cell biases every integral estimated with the samples, and shows in no single sample.", "anchors": ["include/math/brdf.hpp: hammersley"]}
{"id": "C138", "title": "Sphere tests err by less than five rounding units of the radius", "statement": "For spheres, points and boxes with coordinates up to 2^40 and radii of at least 2^-40, isInside(sphere, point) in binary32 is true when the exact distance is at most radius * (1 - 4/2^24) and false when it is at least radius * (1 + 4/2^24); the sphere-sphere test satisfies the same with the sum of the radii and 5/2^24, the sphere-box test with the nearest point of the box and 4/2^24. Outside that range the squares under- or overflow: a sphere of radius 2^-80 does not contain its own centre and one of radius 2^65 misses a point at half the radius.", "quantifier": "forall instruction paths, finite spheres, points and non-empty boxes in the range", "why_tests_cant": "The claim is two-sided for every pair of floats, including the cancelling difference of nearly equal positions and both summation orders of the instruction paths; tests stay away from the surface.", "anchors": ["include/math/sphere.hpp: isInside, isIntersected", "include/math/aabb.hpp: closestPoint"]}
{"id": "C139", "title": "The triangle-box test never misses a triangle that passes through the box", "statement": "In binary32, isAabbIntersected(position, extent, triangle) is true whenever the triangle contains the centre of a box with positive extents. It is not: the rounded normal of a sliver points in a wrong direction, and a triangle with a corner in the very centre of a box of half size 25000 is rejected. What holds: let K bound how much the products of the normal cancel (K = 1 for right-angled shapes, up to 2^20) and M bound the coordinates relative to the box; then the answer is right for every triangle that meets the box shrunk by 9(1+K)M/2^24, and for every one that misses the box grown by as much.", "quantifier": "exists one sliver, forall instruction paths; forall boxes and triangles with coordinates that are multiples of 2^-36 up to 2^30", "why_tests_cant": "Thirteen projections with rounded axes are compared with exact geometry for all triangles; random tests do not produce slivers whose rounded normal is wrong, and cannot bound the shell.", "anchors": ["source/aabb.cpp: isAabbIntersected"]}
{"id": "C140", "title": "A point of a triangle is never reported outside it", "statement": "In binary32, isInside(triangle, point) is true for every point of a non-degenerate triangle. It is not: the centroid of one triangle is reported outside, because the differences between its corners and the point need 25 bits. What holds: (1) whenever the differences are floats, every point of the triangle is accepted, however thin the triangle is, because no later rounding can turn a sign; (2) for every point, in the plane of the triangle or off it, with weights u, v, w of its projection and offset h, the answer is right as soon as |uv| and |uw| times the squared doubled area exceed 136/2^24 M^4 + 12 M^2 h^2, where M bounds the coordinate distances between the point and the corners.", "quantifier": "exists one triangle, forall instruction paths; forall finite triangles and points with representable differences up to 2^30; forall triangles and points with coordinates that are multiples of 2^-31 up to 2^29", "why_tests_cant": "The test multiplies two rounded cross products; tests with comfortable triangles cannot show that thin ones are safe exactly when the differences are, nor how far a point may be off the plane.", "anchors": ["include/math/triangle.hpp: isInside"]}
{"id": "C141", "title": "Barycentric coordinates are accurate in binary32", "statement": "calcBarycentric(triangle, point) returns finite numbers within 250 e (1 + |v|), 250 e (1 + |w|) and 544 e (1 + |v| + |w|) of the exact weights of the projection of the point onto the triangle's plane, where e = M^4 / (2^24 A), A is the squared doubled area and M bounds the coordinates relative to the first corner, for all triangles with M^4 <= 4096 A.", "quantifier": "forall instruction paths, triangles and points with coordinates that are multiples of 2^-31 up to 2^29", "why_tests_cant": "Cramer's rule cancels; the bound holds for all triangles up to the stated thinness and all points, on or off the plane.", "anchors": ["include/math/triangle.hpp: calcBarycentric"]}
{"id": "C142", "title": "Orthographic projections keep the order of points and are accurate in binary32", "statement": "For a view box with sides of at least 2^-30 and coordinates up to 2^30, the clip position computed in binary32 by multiplying the matrix of calcOrthoProj or calcOrthoProjRevZ with (x, y, z, 1) has w exactly 1; x, y and depth differ from the exact linear map by at most 4.2 rounding units of (2|x| + |l + r|) / (r - l) (of (|z| + |near|) / (far - near) for depths, far in place of near when reversed); points are never put in the wrong order along any axis; and no point of the view box is clipped. The last part fails for boxes off the axis; it holds for sides symmetric to zero and for a near plane at zero.", "quantifier": "every view box, point and code path, binary32 arithmetic", "why_tests_cant": "Whether rounding can move a point over the border or swap two depths depends on all operands; sampling shows neither the bound nor the order.", "anchors": ["include/math/matrix/projection.hpp: calcOrthoProj, calcOrthoProjRevZ", "include/math/simd/matrix/float.hpp: operator*(f32x4x4, f32x4)"]}
{"id": "C143", "title": "Centre, extent and moves of a box in binary32", "statement": "For a box with corners up to 2^126: the centre from getPosition and the one from getExtent(extent, position) lie in the box and, like the extent, are within about one rounding unit of the exact values; a box made by setExtent or setSize from a position contains that position; a point of a box is still in it after box and point are moved by the same vector; position and extent set by setExtent are read back unchanged, and the box rebuilt from its extent and position covers the original. The last two fail: a box of extent 2^-25 at 2 has extent 0, and the rebuilt box can miss a corner; both are within 2.01 rounding units of the largest coordinate. Without the bound the centre can be infinite.", "quantifier": "every box, position, extent and move within the bound, binary32 arithmetic", "why_tests_cant": "Rounding of two corners interacts; whether the centre can leave a thin box or a moved point leave a moved box cannot be sampled over all exponents.", "anchors": ["include/math/aabb.hpp: getPosition, getExtent, setExtent, setSize, operator+"]}
{"id": "C144", "title": "A rotation survives the way through a matrix in binary32", "statement": "For a float quaternion within d of a unit quaternion u, every entry of rotate(quaternion) is within 4.04 d + 7.5/2^24 of the matrix of the rotation u, with last row and column exact; for a matrix with entries within d <= 1/64 of a rotation, extractQuat never divides by a small number and returns a quaternion within 5.2 d + 24/2^24 of u or of -u; so quaternion -> matrix -> quaternion keeps the rotation (21.1 d + 63/2^24), and extractTransform(calcModel(position, rotation)) returns the position exactly and the normalised rotation within 173/2^24. The quaternion itself does not come back: its sign can change.", "quantifier": "every quaternion and matrix within the stated distance of a rotation, every path, binary32 arithmetic", "why_tests_cant": "The branch on the largest component is taken on rounded sums; near ties a different branch may be taken than in exact arithmetic, and tests do not reach the ties or bound the loss.", "anchors": ["include/math/matrix/transform.hpp: rotate, extractQuat, calcModel, extractTransform"]}
{"id": "C145", "title": "A model matrix puts points where position, rotation and scale say, in binary32", "statement": "For position, scale and point with components up to 2^50 and any quaternion of moderate length, on every code path and in both branches of calcModel: the translation column is exactly the position and the last row exactly (0, 0, 0, 1); every other entry is within 30/2^24 of the scale factor times the entry of the rotation matrix of the normalised quaternion; and the matrix times (x, y, z, 1) has w exactly 1 and each coordinate within 5/2^24 |position| + 34/2^24 (|sx x| + |sy y| + |sz z|) of position + R(scale * point), apart from underflow.", "quantifier": "every position, quaternion, scale (zero and negative ones included) and point in the range, every path, binary32 arithmetic", "why_tests_cant": "Four rounded products of matrices, a normalisation and a shortcut for unit scale are involved; tests compare a few matrices with tolerances and do not bound the error for all.", "anchors": ["include/math/matrix/transform.hpp: calcModel, rotate, scale, translate", "include/math/simd/matrix/float.hpp: operator*"]}
{"id": "C146", "title": "A view matrix shows points where the camera's axes say, in binary32", "statement": "For any two places at least 2^-40 apart with coordinates up to 2^40, lookAt(from, to) with the default up vector gives a usable view matrix: its rows are near the exact axes of the camera, and a point is sent within a few rounding units of its exact coordinates along them. This fails when the camera looks along its up vector: straight up or down gives NaN entries on every path. When the angle between the line of sight and the up vector has a sine of at least 1/k (k up to 1024): the forward row (and the third column of rotateLook) is within 7.12/2^24 of the exact unit direction, the side row within 26.4 k/2^24 and the upper row within 37.1 k/2^24; the last row is exactly (0, 0, 0, 1); a point v with coordinates up to 2^40 gets w = 1 exactly and coordinates within 33.6 k, 44.3 k and 14.4 (depth, independent of k) times 2^-24 (|from| + |v|) of the exact ones; so the camera lands at the origin and the target at (0, 0, distance) within these bounds.", "quantifier": "every camera and point in the range, every path, binary32 arithmetic", "why_tests_cant": "Two normalisations, two cross products, three dot products and a matrix product are rounded, and the error depends on how nearly the camera looks along its up vector; tests compare a few views with tolerances.", "anchors": ["include/math/matrix/transform.hpp: lookAt, rotate(lookFrom, lookTo, up)", "include/math/simd/vector/float.hpp: normalize3, cross3, dot3"]}
{"id": "C147", "title": "The named directions mean the same everywhere and give exact results", "statement": "left, right, bottom, top, back and front name the same unit vectors in f32x4, Plane and Ray (x to the right, y to the top, z to the front), planes through the origin and rays from it. For every finite point, also the largest: the signed distance to a named plane is exactly the coordinate in that direction; the closest point on the plane is exactly the point with that coordinate set to 0; the closest point on a named ray is exactly the direction times the larger of the coordinate and 0. right x top = front, top x front = right, front x right = top. A camera at the origin that looks to front with top above gets exactly the identity matrix from lookAt and rotate.", "quantifier": "every finite point, name and path, binary32 arithmetic", "why_tests_cant": "The constants are written out three times and the rules must hold for every finite float, on each of five code paths; a swapped sign shows only for one name on one side.", "anchors": ["include/math/simd/vector/float.hpp: f32x4::left, right, bottom, top, back, front", "include/math/plane.hpp: Plane::left ..., distance3, closestPoint", "include/math/ray.hpp: Ray::left ..., closestPoint"]}
{"id": "C148", "title": "Colours survive the trip through XYZ and Yxy in binary32", "statement": "Every finite colour without negative channels comes back from rgbToYxy and yxyToRgb close to what it was. (False for black: all three channels become NaN. It holds when the channel sum is between 2^-28 and 2^30: then red, green and blue come back within 32, 15 and 18 rounding units, 2^-24, of the channel sum.) For such colours rgbToXyz is within 4.02 units, relative, of the published sRGB D65 matrix, and xyzToRgb after it gives the channels within 16, 11 and 7 units of the sum. For X, Y, Z between 2^-34 and 2^34, xyzToYxy keeps Y exactly and has x and y within 4.01 units, relative, and yxyToXyz after it gives X within 10.01 units, Y exactly, and Z within 8.01 units of X+Y+Z.", "quantifier": "every such colour and path, binary32 arithmetic", "why_tests_cant": "Error bounds over all floats cannot be sampled; black is a natural colour that a test of a few bright colours misses, and a wrong last digit of a coefficient is a difference of a few units.", "anchors": ["include/math/color-space.hpp: rgbToXyz, xyzToRgb", "include/math/color-space.hpp: xyzToYxy, yxyToXyz, rgbToYxy, yxyToRgb"]}
{"id": "C149", "title": "Spheres, planes and rays hold what was last written to them", "statement": "After any sequence of setRadius and setPosition the sphere is the one constructed from the last radius and the last position, whatever the order of the calls and the fourth lane of the position; a part never written is kept. The same holds for setDistance and setNormal on a plane, and for setDirection and the origin of a ray, whose parallel flags are those of the last direction passed in.", "quantifier": "every start, every sequence of calls of any length, every path; any scalar type, so also binary32 bit for bit", "why_tests_cant": "Two values share one register: a setter that spills into the other value shows only for some orders of calls and some fourth lanes, and there are unboundedly many sequences.", "anchors": ["include/math/sphere.hpp: setRadius, setPosition", "include/math/plane.hpp: setDistance, setNormal", "include/math/ray.hpp: setDirection"]}
{"id": "C150", "title": "The rigid inverse brings coordinates back in binary32", "statement": "For a matrix of a rotation and a translation, up to a defect d of at most 0.01 in the inner products of its axes, and a point with coordinates up to 2^50: x, y and z of inverseTransRot(m) * (m * p) differ from those of p by at most (d + 25 u) times the sum of the magnitudes of p's coordinates plus 20 u times that of the translation (u = 2^-24). A matrix that calcModel makes from a position and a quaternion, scale 1, has a defect of at most 172 u.", "quantifier": "every such matrix, point and path, binary32 arithmetic", "why_tests_cant": "The bound is over all rotations, translations and points; an error in one term shows only away from the axes, or only far from the origin.", "anchors": ["include/math/matrix/transform.hpp: inverseTransRot", "include/math/matrix/transform.hpp: calcModel"]}
{"id": "C151", "title": "Degrees and radians in binary32", "statement": "For every angle that is zero or between 2^-90 and 2^90 in magnitude, radians and degrees, in scalar and in four-lane form, return the exact conversion (with the real number pi) within 2.7 u relative (u = 2^-24); converting there and back returns the angle within 4.01 u; a larger angle never converts to a smaller one. The four-lane form accepts the same finite angles as the scalar form.", "quantifier": "every binary32 angle in that range; the last sentence: every finite angle", "why_tests_cant": "The bound is over all binary32 angles and against the real number pi; a test compares a few values with the float constant.", "anchors": ["include/math/angles.hpp: radians", "include/math/angles.hpp: degrees"]}
{"id": "C152", "title": "Every cube map texel has its own direction in binary32", "statement": "For a cube map of n x n texels a face, n up to 65536, and invDim = 1 / n computed in binary32: the direction coordsToDir returns for a texel is finite, has squared length 1 within 10.3 u (u = 2^-24), selects that face (its major axis is strictly the longest) and meets the face within 9 u of the texel's centre; two different texels, of the same or of different faces, never get the same direction.", "quantifier": "every size up to 65536, every face and texel, binary32 arithmetic", "why_tests_cant": "There are up to 2.6e10 texels per map and 65536 sizes; sampling cannot rule out that two neighbours collapse or that an edge texel lands on the neighbouring face.", "anchors": ["include/math/ibl.hpp: coordsToST", "include/math/ibl.hpp: stToDir", "include/math/ibl.hpp: coordsToDir"]}
{"id": "C153", "title": "GGX and reflectance in binary32", "statement": "For every roughness a in (0, 1] and cosine n in [-1, 1], ggx returns the Trowbridge-Reitz density a^2 / (pi (n^2 (a^2 - 1) + 1)^2) with a relative error of at most 18 u / a^2 (u = 2^-24), a finite number. For an index of refraction of 1, or from 0 to 2^19 and at least 2^-20 away from 1, iorToReflectance returns |ior - 1| / (ior + 1) / 0.4 within 6 u relative.", "quantifier": "every binary32 roughness, cosine and index in these ranges", "why_tests_cant": "The cancellation in n^2 (a^2 - 1) + 1 shows only for smooth surfaces seen near the peak; the bound is over all pairs of binary32 values.", "anchors": ["include/math/brdf.hpp: ggx", "include/math/brdf.hpp: iorToReflectance"]}
{"id": "C154", "title": "Spherical-harmonic basis in binary32", "statement": "For a direction whose squared length is at most 1.0001, computeShBasis returns nine finite values, each within 9.1 u (u = 2^-24) of the real harmonic of that direction. This holds for the direction of every texel of every cube map up to 65536 x 65536 a face.", "quantifier": "every binary32 direction and every texel", "why_tests_cant": "The recurrences accumulate rounding; the bound is over all binary32 directions, a test compares a few directions with a tolerance.", "anchors": ["include/math/sh.hpp: computeShBasis", "include/math/ibl.hpp: coordsToDir"]}
{"id": "C155", "title": "GGX importance sampling in binary32", "statement": "For every roughness a in (0, 1] and sample (u.x, u.y) with u.y in [0, 1), importanceSamplingNdfDggx returns finite numbers: the cosine lies in [0, 1], the squared length differs from 1 by at most 10 u (u = 2^-24) plus the error of the library's cos^2 + sin^2, and the cosine is within 5 u / a^2 relative of the one above which the distribution has the fraction u.y.", "quantifier": "every binary32 sample and roughness in these ranges, any cos and sin on the unit circle up to a stated error", "why_tests_cant": "The squared cosine exceeds 1 by one unit only for particular pairs of smooth roughness and sample; the square root of a negative number then gives NaN.", "anchors": ["include/math/brdf.hpp: importanceSamplingNdfDggx"]}
{"id": "C156", "title": "Texel solid angles in binary32", "statement": "For every cube map of n x n texels a face, n up to 65536, and an atan2 that errs by at most one unit in the last place, calcSolidAngle returns a positive number for every texel, less than twice the texel's solid angle; for n up to 512 it differs from the solid angle of a rectangle, whose edges are within 10 u of the texel's edges (u = 2^-24), by at most 20 u and by at most 27 n^2 u relative.", "quantifier": "every texel of every map size in these ranges, every atan2 within the stated error", "why_tests_cant": "The four terms cancel to a number below their last place only for the corner texels of large maps, whatever the mathematical library.", "anchors": ["include/math/sh.hpp: calcSolidAngle", "include/math/sh.hpp: sphereQuadrantArea", "include/math/ibl.hpp: coordsToST"]}
{"id": "C157", "title": "The texel weights add up to the sphere in binary32", "statement": "For every cube map of n x n texels a face, n up to 512, and an atan2 that errs by at most one unit in the last place: the number calcSolidAngle returns for a texel is finite and within (20 + 81 / n) u of the texel's solid angle (u = 2^-24), and the numbers of all 6 n^2 texels add up (exactly summed) to 4 pi within (120 n^2 + 486 n) u.", "quantifier": "every texel, every map size in the range, every atan2 within the stated error", "why_tests_cant": "A test samples texels with one mathematical library; the sum depends on the rounding errors of all 6 n^2 texels and of whichever atan2 is linked.", "anchors": ["include/math/sh.hpp: calcSolidAngle", "include/math/sh.hpp: sphereQuadrantArea", "include/math/ibl.hpp: coordsToST"]}
{"id": "C158", "title": "The deringing window in binary32", "statement": "For every cutoff w in (0, 2^20] and a sine that errs by at most one unit in the last place on (0, 4]: sincWindow returns for the bands 0, 1, 2 a finite number that is not negative and within 30 u (u = 2^-24) of (sin x / x)^4, x = pi l / w (1 for band 0, 0 from l = w on). Windowing nine coefficients with lanes up to 500000 in magnitude gives nine, each lane finite and within 31.1 u of its magnitude (plus 10^-18) of the coefficient times the factor of its band.", "quantifier": "every cutoff, every coefficient list and every sine in these ranges", "why_tests_cant": "The accuracy must hold for every cutoff the search can arrive at, including those just above 1 and 2 where x is near pi, with whichever mathematical library is linked.", "anchors": ["include/math/sh.hpp: sincWindow", "include/math/sh.hpp: windowing", "include/math/sh.hpp: deringingSH"]}
{"id": "C159", "title": "A shader gets the light of the coefficients in binary32", "statement": "For every nine coefficients with finite lanes up to 500000 in magnitude, shaderPreprocessSH returns nine with finite lanes, and for every unit direction and every channel the shader's nine polynomials weighted with the returned binary32 numbers add up to the normalised harmonics over pi weighted with the given coefficients, within 1/480000 of the sum of the coefficients' magnitudes (plus 10^-16).", "quantifier": "every coefficient list in the range, every direction, every channel", "why_tests_cant": "The error must stay below the bound for all directions and all combinations of coefficients at once.", "anchors": ["include/math/sh.hpp: shaderPreprocessSH"]}
