{"id": "C01", "title": "DBVT behaves as a map from handles to values", "statement": "insert returns a handle not currently in use and maps it to the value; remove(h) of a live handle returns exactly the latest value written for h and unmaps it; update_node(h,v) makes v the value of h; no operation changes the value or the handle of any other live entry. At every point values() lists exactly the live (handle, value) pairs, each once, and value_index(h) points to h's entry.", "quantifier": "all finite histories of tree operations (insert, remove, update_node, flag_updated, in-place value writes through values_mut, permutation of values followed by reindex_values, update, do_refit, tick, clear), all value/bound types, all outcomes of the random rotation draw", "why_tests_cant": "The state is an index-linked array whose shape depends on the entire operation history and on random draws; tests sample a handful of short histories.", "anchors": ["src/dbvt/mod.rs: insert, remove, update_node, values, value_index, values_mut, reindex_values, clear"]}
{"id": "C02", "title": "DBVT size and node accounting", "statement": "size() is 0 for the empty tree and 2n-1 when n>0 values are stored: no node is ever leaked or double-used, whatever was inserted and removed before.", "quantifier": "all finite histories of tree operations (insert, remove, update_node, flag_updated, in-place value writes through values_mut, permutation of values followed by reindex_values, update, do_refit, tick, clear), all value/bound types, all outcomes of the random rotation draw", "why_tests_cant": "The state is an index-linked array whose shape depends on the entire operation history and on random draws; tests sample a handful of short histories.", "anchors": ["src/dbvt/mod.rs: size, next_free, take_free, remove"]}
{"id": "C03", "title": "DBVT operations do not panic on live handles", "statement": "As long as handles passed in are live and the tree is never emptied while an update flag is pending, no tree operation panics and every operation returns.", "quantifier": "all finite histories of tree operations (insert, remove, update_node, flag_updated, in-place value writes through values_mut, permutation of values followed by reindex_values, update, do_refit, tick, clear), all value/bound types, all outcomes of the random rotation draw", "why_tests_cant": "The state is an index-linked array whose shape depends on the entire operation history and on random draws; tests sample a handful of short histories.", "anchors": ["src/dbvt/mod.rs: insert, remove, update, do_refit, tick"]}
{"id": "C04", "title": "Emptying a DBVT with pending update flags (boundary of C03)", "statement": "clear(), and remove of the last value (which clears), keep the pending update flags; a later update()/tick() then indexes the node array with dead indices and panics. The histories for which this happens exist and are short (insert, update_node, clear, tick).", "quantifier": "existence of histories within the documented API", "why_tests_cant": "Requires an unusual interleaving of flagging and clearing; the test-suite never clears a flagged tree.", "anchors": ["src/dbvt/mod.rs: clear, remove, update"]}
{"id": "C05", "title": "do_refit terminates", "statement": "do_refit terminates from every reachable state and for every sequence of random rotation outcomes.", "quantifier": "all reachable states, all infinite sequences of random outcomes", "why_tests_cant": "Termination over all random outcomes and all tree shapes; a test only sees sampled draws.", "anchors": ["src/dbvt/mod.rs: do_refit, refit_node, rotate, mark_for_refit"]}
{"id": "C06", "title": "After do_refit every bound and height is exact", "statement": "After do_refit every branch bound is the union of its two children's bounds and every branch height is 1+max of the children's heights; hence height() is the true height of the tree (leaf = 1) and for a containment that unions respect every branch bound encloses all leaf bounds below it.", "quantifier": "all reachable states before do_refit, all random outcomes", "why_tests_cant": "The state is an index-linked array whose shape depends on the entire operation history and on random draws; tests sample a handful of short histories.", "anchors": ["src/dbvt/mod.rs: do_refit, recalculate_node, rotate, height"]}
{"id": "C07", "title": "Maintenance does not change content", "statement": "update, do_refit and tick never change the set of (handle, value) pairs nor their order in values(), for every random outcome.", "quantifier": "all reachable states, all random outcomes", "why_tests_cant": "The state is an index-linked array whose shape depends on the entire operation history and on random draws; tests sample a handful of short histories.", "anchors": ["src/dbvt/mod.rs: update, do_refit, tick, rotate, swap"]}
{"id": "C08", "title": "Query soundness", "statement": "In every reachable state, refitted or not, each result of query_for_indices is the index of a live value whose own bound the visitor accepted with is_leaf=true, with the result the visitor returned; no value is reported twice; query returns the corresponding values.", "quantifier": "all reachable states, all (stateful) visitors", "why_tests_cant": "The state is an index-linked array whose shape depends on the entire operation history and on random draws; tests sample a handful of short histories.", "anchors": ["src/dbvt/mod.rs: query, query_for_indices", "src/dbvt/visitor.rs"]}
{"id": "C09", "title": "Query completeness after tick", "statement": "After tick, if no value was modified without being flagged, query returns every value whose bound the visitor accepts, provided the visitor is stateless and accepts every bound containing an accepted one.", "quantifier": "all reachable states, all monotone stateless visitors", "why_tests_cant": "The state is an index-linked array whose shape depends on the entire operation history and on random draws; tests sample a handful of short histories.", "anchors": ["src/dbvt/mod.rs: tick, query_for_indices"]}
{"id": "C10", "title": "Query does not overflow its fixed stack on trees of height at most 256", "statement": "query never panics on a reachable tree with at most 256 values, or whose height() after a refit is at most 256.", "quantifier": "all reachable states, all visitors", "why_tests_cant": "The state is an index-linked array whose shape depends on the entire operation history and on random draws; tests sample a handful of short histories.", "anchors": ["src/dbvt/mod.rs: query_for_indices"]}
{"id": "C11", "title": "Query can overflow its fixed stack (boundary of C10)", "statement": "The tree is not balanced: whenever more than 256 copies of one value are inserted, in any interleaving with update, do_refit and tick, a query whose visitor accepts that bound panics although every documented precondition holds (the boundary with C10 is exact: 256 copies are fine).", "quantifier": "all histories made of insertions of one value and maintenance calls, all counts above 256, all accepting visitors", "why_tests_cant": "Needs hundreds of coincident objects; the suite uses at most a few.", "anchors": ["src/dbvt/mod.rs: insert, query_for_indices"]}
{"id": "C12", "title": "query_ray returns exactly the hit values with their hit point", "statement": "query_ray reports exactly the values whose bound is hit by the ray continuously, each with the intersection point of ray and value bound, after tick.", "quantifier": "all reachable states, rays", "why_tests_cant": "The state is an index-linked array whose shape depends on the entire operation history and on random draws; tests sample a handful of short histories.", "anchors": ["src/dbvt/util.rs: query_ray", "src/dbvt/visitor.rs: ContinuousVisitor"]}
{"id": "C13", "title": "query_ray_closest", "statement": "query_ray_closest returns a live value hit by the ray; it is a closest one provided no branch bound that contains it reports a farther hit than it; otherwise (ray starting inside a branch bound) a farther value, or none, can be returned.", "quantifier": "all reachable states, rays", "why_tests_cant": "The state is an index-linked array whose shape depends on the entire operation history and on random draws; tests sample a handful of short histories.", "anchors": ["src/dbvt/util.rs: query_ray_closest, RayClosestVisitor"]}
{"id": "C14", "title": "Rotations are inert on refitted subtrees with lattice-like unions", "statement": "If union is associative and commutative (AABBs) and the node and its children are up to date, the random rotation changes nothing, so after do_refit no draw of a rotation can change the tree. During a refit, a branch can be processed before its dirty child (stale heights order the queue), and then the outcome of the random draw does change the tree.", "quantifier": "all trees, nodes and random outcomes", "why_tests_cant": "The state is an index-linked array whose shape depends on the entire operation history and on random draws; tests sample a handful of short histories.", "anchors": ["src/dbvt/mod.rs: rotate, get_best_rotation, sa"]}
{"id": "C15", "title": "Reordering values then reindexing is invisible", "statement": "Any permutation of values_mut() followed by reindex_values restores the map semantics of C01: every handle keeps its value and value_index is right again.", "quantifier": "all reachable states, all permutations", "why_tests_cant": "The state is an index-linked array whose shape depends on the entire operation history and on random draws; tests sample a handful of short histories.", "anchors": ["src/dbvt/mod.rs: values_mut, reindex_values"]}
{"id": "C16", "title": "Stale handles are harmless until reuse or emptying", "statement": "remove on an index that is not a live handle returns None and changes nothing; update_node and flag_updated on such an index change no value; value_index returns None. This holds for every index handed out since the tree was last empty; after the tree was emptied the same calls panic.", "quantifier": "all reachable states and node indices", "why_tests_cant": "The state is an index-linked array whose shape depends on the entire operation history and on random draws; tests sample a handful of short histories.", "anchors": ["src/dbvt/mod.rs: remove, update_node, value_index"]}
{"id": "C17", "title": "BruteForce reports exactly the intersecting pairs", "statement": "find_collider_pairs of BruteForce returns exactly the index pairs (i,j), i<j, whose bounds intersect, each once, in lexicographic order.", "quantifier": "all shape lists and bounds", "why_tests_cant": "Quantifies over all lists.", "anchors": ["src/algorithm/broad_phase/brute_force.rs: BruteForce::find_collider_pairs"]}
{"id": "C18", "title": "SweepAndPrune misses and invents nothing", "statement": "SweepAndPrune2/3 permutes the shapes into ascending order of the sweep axis minimum and returns exactly the intersecting pairs of the permuted list, each once, smaller index first, sorted along the axis it was configured with (new: the first); it agrees with BruteForce on the permuted list. One sweeper, new or with_sweep_axis, reused over any sequence of frames is right in every frame; for Aabb2/Aabb3 of floats it suffices that no coordinate is NaN.", "quantifier": "all shape lists, sequences of frames, axes and bounds with comparable coordinates", "why_tests_cant": "Quantifies over all lists and sweep axes.", "anchors": ["src/algorithm/broad_phase/sweep_prune.rs: find_collider_pairs"]}
{"id": "C19", "title": "SweepAndPrune axis adaptation", "statement": "After find_collider_pairs on a non-empty list the sweep axis is always 0 (x): the variance accumulators discard their updates so no other axis is ever chosen. Given accumulated sums and a count, compute_axis returns the first axis with the largest spread (sum of squares less squared sum over the count), and that spread.", "quantifier": "all shape lists; all accumulated sums of any dimension", "why_tests_cant": "Internal state drift visible only across calls.", "anchors": ["src/algorithm/broad_phase/sweep_prune.rs: variance, Variance2, Variance3"]}
{"id": "C20", "title": "DbvtBroadPhase agrees with BruteForce on dirty shapes", "statement": "After tick with every value flagged and correct, DbvtBroadPhase returns exactly the pairs (i,j), i<j, with i or j dirty and intersecting bounds, strictly sorted without duplicates; with all flags set it equals BruteForce's pair set; it panics if fewer flags than values are given.", "quantifier": "all trees and dirty vectors", "why_tests_cant": "The state is an index-linked array whose shape depends on the entire operation history and on random draws; tests sample a handful of short histories.", "anchors": ["src/algorithm/broad_phase/dbvt.rs: find_collider_pairs"]}
{"id": "C21", "title": "Aabb construction normalises corners", "statement": "Aabb::new(p,q) has min<=max componentwise, contains both corners in the closed sense, is symmetric in p and q, and is the least such box. A NaN coordinate in q is ignored, a NaN in p stays.", "quantifier": "all corner pairs (floats)", "why_tests_cant": "All floats.", "anchors": ["src/volume/aabb/aabb2.rs: new", "src/volume/aabb/aabb3.rs: new", "src/volume/aabb/mod.rs: min, max"]}
{"id": "C22", "title": "Aabb union is the least upper bound", "statement": "union contains both operands, is contained in every box containing both, and is commutative, associative and idempotent up to numeric equality.", "quantifier": "all boxes with non-NaN coordinates", "why_tests_cant": "All floats.", "anchors": ["src/volume/aabb/mod.rs", "src/volume/aabb/aabb2.rs: Union", "src/volume/aabb/aabb3.rs: Union"]}
{"id": "C23", "title": "Aabb grow and point containment", "statement": "grow(p) is the least box containing the old box and p in the closed sense; contains(p) is half-open (max side excluded), so contains(p) after grow(p) may be false. A NaN coordinate of p is ignored by grow.", "quantifier": "all boxes and points", "why_tests_cant": "All floats; boundary cases.", "anchors": ["src/volume/aabb/mod.rs: grow", "src/volume/aabb/aabb2.rs: contains", "src/volume/aabb/aabb3.rs: contains"]}
{"id": "C24", "title": "Aabb containment is a partial order and means subset", "statement": "contains(b) is reflexive, transitive, antisymmetric up to numeric equality, and for boxes over the reals holds iff every point of b is a point of self. contains(line) holds iff every point of the segment is in the half-open box (for floats: iff both ends are).", "quantifier": "all boxes, all segments", "why_tests_cant": "All boxes.", "anchors": ["src/volume/aabb/aabb2.rs: Contains", "src/volume/aabb/aabb3.rs: Contains"]}
{"id": "C25", "title": "Aabb-Aabb intersection", "statement": "intersects is symmetric and, for normalised boxes over the reals, holds iff no axis separates them; for non-degenerate boxes iff they share an interior point.", "quantifier": "all boxes", "why_tests_cant": "All boxes.", "anchors": ["src/volume/aabb/aabb2.rs: Discrete", "src/volume/aabb/aabb3.rs: Discrete"]}
{"id": "C26", "title": "Aabb transform is conservative and tight", "statement": "transform(T) contains T(p) for every p of the box and is the least such box, for every affine T.", "quantifier": "all boxes and affine maps over exact reals", "why_tests_cant": "All boxes and maps.", "anchors": ["src/volume/aabb/mod.rs: transform, to_corners"]}
{"id": "C27", "title": "Ray-Aabb2", "statement": "Discrete and Continuous ray tests agree with the set definition: a hit is reported exactly when the half-line meets the box (with the boundary behaviour stated), and the returned point lies on the ray and on the box, the first one when the origin is outside.", "quantifier": "all rays and boxes over exact reals with IEEE-like infinities", "why_tests_cant": "Division by zero, boundary and inside cases over all rays.", "anchors": ["src/volume/aabb/aabb2.rs"]}
{"id": "C28", "title": "Ray-Aabb3", "statement": "As C27 for 3D, including axis-parallel rays whose inverse direction is infinite.", "quantifier": "all rays and boxes", "why_tests_cant": "As C27.", "anchors": ["src/volume/aabb/aabb3.rs"]}
{"id": "C29", "title": "Discrete and Continuous agree", "statement": "For the ray tests against Aabb2 and Aabb3, intersects is true iff intersection is Some, or the exact disagreement set is given.", "quantifier": "all inputs", "why_tests_cant": "Boundary cases.", "anchors": ["src/volume/aabb/aabb2.rs", "src/volume/aabb/aabb3.rs"]}
{"id": "C30", "title": "Sphere volumes", "statement": "For spheres of non-negative radius: Sphere-Sphere intersects is symmetric and means the closed balls meet; contains (sphere, point, segment, box) means inclusion; union of spheres is the smallest enclosing ball; Aabb3 union Sphere is the least box; min/max extents are the tight box; with_margin grows the ball by the largest component. Sphere union Aabb3 encloses both except exactly when the sphere is not inside the box and lies strictly inside the box's circumscribed sphere (finding). transform_volume is exact for rigid motions and ignores scale (finding). For a unit-direction ray from outside, intersection returns the first common point or None if there is none; from inside it returns the entry point behind the origin (finding); Discrete and Continuous agree. surface_area is 4 pi r^2, zero iff the radius is, and ordered like the radii.", "quantifier": "all spheres, boxes, points, segments, rays over exact reals", "why_tests_cant": "All reals.", "anchors": ["src/volume/sphere.rs", "src/volume/aabb/aabb3.rs"]}
{"id": "C31", "title": "Aabb arithmetic", "statement": "add_v translates the box; mul_s/mul_v give exactly the scaled set of points (negative and zero factors included); add_margin widens each face by the margin (a margin below minus half the width makes it grow again); center is the point of symmetry; volume is the product of the edge lengths and surface area the sum over the sides (the area in 2D), both non-negative and monotone under inclusion (not strictly: in 2D flat boxes of different widths all have area 0, finding).", "quantifier": "all normalised boxes, vectors and scalars over exact reals", "why_tests_cant": "All reals.", "anchors": ["src/volume/aabb/mod.rs: add_v, mul_s, mul_v, center, volume", "src/volume/aabb/aabb2.rs: add_margin", "src/volume/aabb/aabb3.rs: add_margin"]}
{"id": "C32", "title": "Box trees and broad phases are exact on floats", "statement": "On trees of TreeValueWrapped values with Aabb2/Aabb3 bounds and f32/f64 coordinates, after tick with all changes flagged, a box query returns exactly the values whose box intersects the query box, DbvtBroadPhase (all dirty) returns BruteForce's pairs, and SweepAndPrune2/3 returns BruteForce's pairs on the sorted list; rounding in margins, unions and surface areas never loses a value. A value made from a (value, bound) pair gets no margin: its stored box has the corners of the bound. Needs finite bounds and finite non-negative margins; a NaN bound can hide its neighbours.", "quantifier": "all histories, boxes, margins and query boxes in any binary float format", "why_tests_cant": "All floats and histories; rounding cases.", "anchors": ["src/dbvt/wrapped.rs", "src/volume/aabb/", "src/algorithm/broad_phase/"]}
{"id": "C33", "title": "Ray queries on float box trees are exact", "statement": "query_ray on a tree of float boxes returns exactly the values whose own box the float ray test hits, with the same hit points: rounding in the slab tests never prunes a branch above a hit leaf. 2D: every finite ray; 3D: rays whose direction reciprocals are finite and nonzero; for an axis-parallel 3D ray a hit flat box can be lost.", "quantifier": "all histories, finite boxes and rays in any binary float format", "why_tests_cant": "All floats; monotonicity of rounding.", "anchors": ["src/dbvt/util.rs: query_ray", "src/volume/aabb/aabb2.rs", "src/volume/aabb/aabb3.rs"]}
{"id": "C34", "title": "relate_plane and Frustum::contains", "statement": "relate_plane on points, boxes and (for unit normals) spheres returns In iff every point of the bound is strictly on the n.x > d side, Out iff every point is on the n.x < d side, Cross otherwise. Frustum::contains returns In iff every point of the bound is strictly inside all six half-spaces, and Out iff the bound is entirely behind one plane (so disjoint from the frustum); Cross is conservative: it can be reported for a bound wholly outside (witness).", "quantifier": "all points, boxes, spheres, planes and frusta over exact reals", "why_tests_cant": "All reals; sets of points.", "anchors": ["src/bound.rs: relate_plane", "src/volume/aabb/aabb3.rs: relate_plane", "src/volume/sphere.rs: relate_plane", "src/frustum.rs: contains"]}
{"id": "C35", "title": "Clip space and projections", "statement": "Frustum::from_matrix4 (when Some) is exactly the clip volume |x|,|y|,|z| < w; relate_clip_space on points is exact and agrees with the frustum route; on boxes and spheres In iff all points in the clip volume and Out implies all points outside, for every matrix; from_matrix4 is None iff a clip plane's normal is within epsilon of zero, and then every bound is Cross. Perspective/PerspectiveFov to_frustum give exactly the view pyramid, but panic when 2*near <= epsilon*(far-near) (finding). Ortho::to_frustum describes left<x<-right, bottom<y<-top, far<z<-near, hence an empty region for 0<=near<far, instead of the projection's box (finding).", "quantifier": "all matrices, projections and points over exact reals, any tolerance epsilon >= 0", "why_tests_cant": "All reals.", "anchors": ["src/frustum.rs", "src/bound.rs: relate_clip_space"]}
{"id": "C36", "title": "Planes", "statement": "from_abcd and from_vector4 give the plane ax+by+cz=d, from_vector4_alt ax+by+cz=-d; from_point_normal contains the point; normalize keeps the plane; plane-plane intersection is exactly the common line and plane-plane-plane the unique common point of the planes n.x = d, with Discrete agreeing with Continuous. from_points returns a plane whose points satisfy n.x = -d (finding: contradicts the documented n.x = d unless d = 0), None iff the cross product is within epsilon of zero. Ray-plane intersection solves n.x = -d: exact (first and only point, None iff missed) for that plane, wrong for planes from from_point_normal (finding). A ray inside the plane gives Continuous Some(NaN point) and Discrete false; a parallel ray off the plane can be reported as a hit at infinity (findings).", "quantifier": "all planes, points and rays over exact reals; IEEE special values for parallel rays", "why_tests_cant": "All reals; division by zero.", "anchors": ["src/plane.rs"]}
{"id": "C37", "title": "Rays against segments and points", "statement": "Ray2-Line2 intersection with nonzero direction returns the first point of the half-line on the closed segment (collinear overlaps included), None iff they do not meet; with a zero direction it returns the origin whatever the segment (finding). Point-ray intersects with unit direction holds iff the point is strictly ahead and its squared distance to the line is within the relative_eq tolerance; unnormalised rays miss points straight ahead (finding).", "quantifier": "all rays, segments, points and tolerances over exact reals", "why_tests_cant": "All reals.", "anchors": ["src/line.rs", "src/ray.rs"]}
{"id": "C38", "title": "Support points are furthest points of the shape", "statement": "get_furthest_point(direction, transform) of Circle, Sphere, Capsule, Cylinder, Rectangle, Square, Cuboid, Cube, Quad, Line2/3, ConvexPolygon with fewer than ten vertices, ConvexPolyhedron by vertex list, and particles returns, for every nonzero direction (and any transform that is a rotation, uniform scale and translation, e.g. Decomposed2/3), a point of the transformed shape at which direction.x is maximal over the shape. Non-uniform transforms break it (finding), and the hill climb of ConvexPolygon (ten or more vertices) always returns a vertex, but not always the furthest one (finding): in exact arithmetic, for a strictly convex polygon whose furthest vertex m is strictly further than all others, the answer is m exactly when m is neither the middle vertex at which the search starts (when the first vertex is behind the origin) nor a neighbour of the start beyond which the next vertex is not lower than the start; and for a direction square to a side away from the start the answer is the vertex at which the search started, never a furthest one; a singular transform panics.", "quantifier": "all shapes, directions and similarity transforms over exact reals", "why_tests_cant": "All reals; sets of points.", "anchors": ["src/primitive/", "src/primitive/util.rs: get_max_point"]}
{"id": "C39", "title": "GJK intersection in 2D", "statement": "GJK2::intersect on shapes with correct support functions never panics; a returned simplex is a triangle of differences of points of the shapes that encloses the origin, so with a zero tolerance the shapes share a point; None means a line separates the shapes (no common interior point) or the iteration budget ran out, which cannot happen for polygons when max_iterations exceeds the product of the vertex counts plus two (so 100 decides all polygons under ten vertices and all rectangles, under any similarity transforms). With a nonzero tolerance (f32::EPSILON) a hit may also rest on an edge whose line passes near the origin, and tiny separated rectangles are then reported as colliding (finding).", "quantifier": "all shapes with correct support functions, all positions, budgets and tolerances over exact reals", "why_tests_cant": "All shapes and iteration histories; convergence.", "anchors": ["src/algorithm/minkowski/gjk/mod.rs: GJK::intersect", "src/algorithm/minkowski/gjk/simplex/simplex2d.rs", "src/algorithm/minkowski/mod.rs: SupportPoint"]}
{"id": "C40", "title": "GJK intersection in 3D", "statement": "GJK3::intersect returning a simplex means it is a proper tetrahedron of differences of points of the shapes enclosing the origin, so convex shapes share a point; None means a plane separates the shapes, or the budget ran out, or three support points lie on one line passing within the tolerance of the origin; in that last case overlapping shapes are missed: two equal axis-aligned cubes displaced along x are reported as not colliding (finding). No panic when the support functions answer the zero direction.", "quantifier": "all shapes with correct support functions, all positions, budgets and tolerances over exact reals", "why_tests_cant": "All shapes and iteration histories.", "anchors": ["src/algorithm/minkowski/gjk/mod.rs: GJK::intersect", "src/algorithm/minkowski/gjk/simplex/simplex3d.rs"]}
{"id": "C41", "title": "2D contact manifolds give the penetration depth", "statement": "When GJK2::intersection with FullResolution reports a contact with a nonzero normal, the normal is a unit vector, the depth is positive, no translation shorter than the depth takes the two convex shapes apart, and the contact point belongs to the first shape and lies depth deep along the normal from a point of the second. For polygons and rectangles with the crate's 100 iterations, moving the second shape by normal * (depth + tolerance) takes them apart, so the depth is the true penetration depth up to the tolerance. A zero normal (NaN in floats) arises exactly when an edge of GJK's final triangle lies on a line through the origin; in f32 that edge is then skipped and a wrong contact is reported (refuted case). CollisionOnly gives the same yes/no with a blank contact.", "quantifier": "all convex shapes with support functions, all polygons and rectangles, all transforms made of rotation, uniform scale and translation, all positive tolerances and iteration limits, all translations", "why_tests_cant": "The expanding polygon evolves over arbitrarily many insertions and the depth is a minimum over infinitely many directions; tests compare a few configurations with hand-computed depths.", "anchors": ["src/algorithm/minkowski/epa/epa2d.rs: EPA2::process, closest_edge, point", "src/algorithm/minkowski/gjk/mod.rs: GJK::intersection, get_contact_manifold"]}
{"id": "C42", "title": "A distance returned by GJK is the distance between the shapes", "statement": "When `GJK::distance` returns Some(D) for two convex primitives with similarity transforms, D > 0, the shapes have two points exactly D apart, and no two of their points are closer than D - tol/D (tol the distance tolerance). In the plane it never panics. For shapes with a common point it returns None or a value with D*D < tol. What it does not guarantee: None also comes back for some separated shapes, some overlapping shapes get a tiny positive distance in f32, and in space some separated shapes (two particles, a tetrahedron and a particle) make it panic.", "quantifier": "all pairs of primitives of Primitive2 / Primitive3 (polygons of fewer than ten vertices, polyhedra given by vertices), all similarity transforms, all iteration limits and tolerances", "why_tests_cant": "the answer comes out of an iteration over simplices whose states are unbounded; tests only compare a few numbers", "anchors": ["src/algorithm/minkowski/gjk/mod.rs: GJK::distance", "src/algorithm/minkowski/gjk/simplex/simplex2d.rs: get_closest_point_to_origin", "src/algorithm/minkowski/gjk/simplex/simplex3d.rs: get_closest_point_to_origin"]}
{"id": "C43", "title": "Time of impact of moving shapes", "statement": "Whenever `GJK::intersection_time_of_impact` returns for two convex shapes translated during a unit of time (their relative displacement not zero): in the plane it never panics; None means that the shapes meet at no time of the motion; an answer t lies in [0,1], the shapes meet at no time before t, are within the tolerance at t, and if t > 0 the reported unit normal separates them at t and they approach along it; shapes that meet at time m get an answer t <= m. In space the same holds of every run that returns (a run may panic or never return, C66). Exceptions, shown by exact f32 runs: discs that overlap and do not move relative to each other get None, an initial overlap gets a NaN normal, and the reported contact point is the displacement at t transformed by the right transform, which need not lie in either shape.", "quantifier": "for all convex shapes given by exact support functions (all primitives under similarities), all displacements, tolerances >= 0 and numbers of iterations (real arithmetic; single precision runs for the exceptions)", "why_tests_cant": "the earliest common point over a continuum of times, shapes and directions; a test samples a few motions", "anchors": ["src/algorithm/minkowski/gjk/mod.rs: GJK::intersection_time_of_impact", "src/algorithm/minkowski/gjk/simplex/simplex2d.rs: get_closest_point_to_origin", "src/algorithm/minkowski/mod.rs: SupportPoint"]}
{"id": "C44", "title": "Queries on shapes made of several primitives", "statement": "`intersection_complex` in FullResolution mode returns a contact of some pair of parts with the largest depth among all pairs, and None exactly when no pair has a contact; in CollisionOnly mode the first pair (in list order) with a contact decides and later pairs are not tested. A depth that is NaN panics as soon as there is a second contact. `distance_complex` returns the smallest distance of the pairs, and None when some pair has none or a shape is empty. `intersection_complex_time_of_impact` in FullResolution mode returns the earliest time. For shapes in the plane (unions of the parts, each moved by local then model transform): the contact query never panics, a hit means a common point of the unions, no hit means all pairs of parts are separated or ran out of iterations; the distance is the distance of the unions (up to the tolerance); no meeting of the displaced unions happens before the returned time, and None means no meeting. In space the contact query never panics either, a reported contact pushes a pair of parts apart and is the deepest, a hit means a common point, no hit means each pair is separated, ran out of iterations, or gave support points on one line through the origin; distances and times (including that the shapes are within the tolerance at the reported time) as in the plane except for the absence of panics. In CollisionOnly mode the time-of-impact contact is that of the first pair in list order, relabelled CollisionOnly with the same normal, depth, point and time: not the earliest (exact f32 run).", "quantifier": "for all lists of primitives with local transforms (any rotation, non-zero scale, displacement), all model transforms, displacements, iteration limits and tolerances; the loop theorems for all float formats", "why_tests_cant": "ranges over lists of any length and all geometries", "anchors": ["src/algorithm/minkowski/gjk/mod.rs: intersection_complex, distance_complex, intersection_complex_time_of_impact", "src/traits.rs: TranslationInterpolate"]}
{"id": "C45", "title": "Bounding volumes of primitives contain them, and are tight", "statement": "compute_bound of every Primitive2 and Primitive3 returns a box containing every point of the primitive; for all primitives except polygons and polyhedra it is the smallest such box, and for those it is the smallest box around the vertices and the origin. Transforming the box by the primitive's affine transform contains the transformed primitive. The bounding sphere contains the primitive exactly when it is not a cuboid, cube or quad with two non-zero sides (those stick out: refuted for the unit cube), and it is always the smallest sphere around the origin that could.", "quantifier": "all primitives with non-negative lengths (any number of vertices), all of their points, all affine transforms, over the reals", "why_tests_cant": "every point of a continuous shape and every transform; a test samples corners", "anchors": ["src/primitive/util.rs: get_bound", "src/primitive/*.rs: ComputeBound::compute_bound", "src/primitive/cuboid.rs: ComputeBound<Sphere>", "src/volume/aabb/*.rs: transform_volume"]}
{"id": "C46", "title": "Rays against circles and spheres", "statement": "For Circle and Sphere primitives: intersects and intersection agree for every ray. For rays with a unit direction a hit is reported exactly when the ray meets the shape and does not point away from its centre; so from outside, intersection returns the first point of the ray in the shape, and None exactly when the ray misses it. Any reported point is on the boundary. From inside, a ray pointing away from the centre is not reported and one pointing towards it is given the point behind it (refuted cases); with a direction that is not of unit length, rays that pass the shape are reported (refuted).", "quantifier": "all radii, all rays (unit directions for exactness), over the reals", "why_tests_cant": "all rays and the first of infinitely many points", "anchors": ["src/primitive/circle.rs: Discrete<Ray2>, Continuous<Ray2>", "src/primitive/sphere.rs: Discrete<Ray3>, Continuous<Ray3>"]}
{"id": "C47", "title": "Rays against cylinders", "statement": "For Cylinder and rays that are not along its axis: intersects is true exactly when the ray's first crossing of the infinite round surface lies between the caps or the ray passes through the open top disc; so it never reports a miss as a hit, and it reports every level or downward ray from outside that passes through the inside. A point returned by intersection is on the ray and on the surface; from outside the infinite cylinder a point is returned exactly when the ray enters the infinite cylinder at a point of the cylinder, and it is then the first point of the ray in it; from above the top cap the answer is the first point, None exactly on a miss. For rays along the axis the test only compares heights (exact within the radius), and on the axis from outside the point is the first. Refuted, with exact f32 runs: the bottom cap is never tested, so rays entering there are missed by both functions or get the exit point; rays entering through the top cap from the side are hits for intersects and None for intersection; axis-parallel rays ignore the radius; a ray from inside leaving through the bottom is missed.", "quantifier": "all finite rays, half heights and radii, exact arithmetic with IEEE special values (so including level rays, where the code divides by zero)", "why_tests_cant": "all rays; the first of infinitely many points; divisions by zero", "anchors": ["src/primitive/cylinder.rs: Discrete<Ray3>, Continuous<Ray3>", "src/primitive/util.rs: cylinder_ray_quadratic_solve"]}
{"id": "C48", "title": "Rays against capsules", "statement": "For Capsule and unit-direction rays: from outside, intersects is true exactly when the ray meets the capsule, and from anywhere a reported ray does meet it. intersection returns the first point of the ray in the capsule for rays starting outside the capsule but inside the infinite cylinder through it, whenever there is one; for axis-parallel rays from outside a returned point is in the capsule and None means a miss (or a ray in the surface of the infinite cylinder); from outside the infinite cylinder it returns the point where the ray enters that cylinder when that point's height is at most half_height + radius, which is the first point of the capsule if it is on the round side. Refuted, by concrete runs: a ray that enters at the height of an end gets a point outside the capsule; a ray that enters the infinite cylinder beyond an end and then the end is a hit for intersects and None for intersection; a ray starting beside an end and moving away gets a point; a ray from inside an end pointing out is missed by both.", "quantifier": "all finite rays with unit direction, half heights and radii >= 0, exact arithmetic with IEEE special values", "why_tests_cant": "all rays; first of infinitely many points; NaN roots for axis-parallel rays", "anchors": ["src/primitive/capsule.rs: Discrete<Ray3>, Continuous<Ray3>", "src/primitive/util.rs: cylinder_ray_quadratic_solve"]}
{"id": "C49", "title": "Rays against cuboids, quads and rectangles", "statement": "For Cuboid (and Cube), Quad and Rectangle and rays with a non-zero direction: from outside, intersection returns the first point of the ray in the shape, and None exactly when the ray does not meet it; from inside it returns the point where the ray leaves (or its origin, when that is on the surface), never None. Exception, and never reported: rays that run along a face (2D: along the line of a side), although they do touch the shape. intersects is true exactly when intersection is Some.", "quantifier": "all finite rays with non-zero direction and all non-negative sizes, exact arithmetic with IEEE special values (axis-parallel rays divide by zero)", "why_tests_cant": "all rays; first or last of infinitely many points", "anchors": ["src/primitive/cuboid.rs: Discrete<Ray3>, Continuous<Ray3>", "src/primitive/quad.rs", "src/primitive/rectangle.rs"]}
{"id": "C50", "title": "Rays against convex polygons", "statement": "For a strictly convex ConvexPolygon in counter-clockwise order and a ray with non-zero direction: a point returned by intersection is the first point of the ray in the polygon; from outside, None means that the ray misses the polygon or that its first point lies on the side between the last two vertices, which is never tested (refuted: a ray through the middle of that side of a triangle is missed by both operations). A ray from the interior is never reported. intersects is true exactly when intersection is Some. The operations panic exactly on an empty vertex list.", "quantifier": "all strictly convex counter-clockwise polygons with any number of vertices and all rays with non-zero direction (exact arithmetic); the panic and agreement parts for every number type, including floats", "why_tests_cant": "all polygons and rays; the first of infinitely many points", "anchors": ["src/primitive/polygon.rs: Discrete<Ray2>, Continuous<Ray2>", "src/ray.rs: Continuous<Ray2> for Line2"]}
{"id": "C51", "title": "Rays against transformed primitives", "statement": "intersects_transformed and intersection_transformed panic without an inverse; with one (and the identity, every Decomposed whose scale is not near zero, and every invertible affine matrix, has the inverse it claims) they answer for the ray and the transformed shape whatever the shape answers for the pulled-back ray in its own space: first point stays first point, miss stays miss. Hence exact for moved and turned circles and spheres and unit rays from outside, and polygons under any invertible transform keep the first-point property. Refuted under scaling: the pulled-back ray is no longer of unit length, and a ray straight at the centre of a circle scaled by two is missed.", "quantifier": "all transforms, shapes and rays (exact arithmetic)", "why_tests_cant": "all transforms and rays; the first of infinitely many points", "anchors": ["src/ray.rs: DiscreteTransformed, ContinuousTransformed, Ray::transform", "src/primitive/circle.rs", "src/primitive/sphere.rs", "src/primitive/polygon.rs"]}
{"id": "C52", "title": "Moving particles", "statement": "For a particle moving from a to b (a different from b) and any shape whose ray query is right for the unit ray from a towards b: intersection returns the first point of the straight path in the shape, None exactly when the path does not meet it, and intersects agrees. In particular for circles and spheres, moved and turned, and particles that start outside. Refuted: a particle that starts inside a circle and leaves it is given a point behind its start; a particle at rest is never reported, even inside the shape.", "quantifier": "all start and end points, all shapes with a correct ray query (exact arithmetic)", "why_tests_cant": "all paths; first of infinitely many points", "anchors": ["src/primitive/particle.rs: Discrete, Continuous, DiscreteTransformed, ContinuousTransformed for (Particle, Range)"]}
{"id": "C53", "title": "Building a polyhedron from vertices and faces", "statement": "Building a convex polyhedron from vertices and faces succeeds exactly when every face has three vertex indices in range and its cross product exceeds the tolerance in some coordinate; otherwise the construction panics. Listing the faces then yields, for each given face in the given order, the positions of its vertices in the given order. The bounding box and bounding sphere are those of the vertices alone. Listing the faces of a polyhedron built from vertices only panics.", "quantifier": "every list of vertices (exact reals), every list of index triples and every tolerance \u2265 0", "why_tests_cant": "The half-edge construction goes through a hash map shared by all faces; tests build one or two fixed solids.", "anchors": ["src/primitive/polyhedron.rs: ConvexPolyhedron::new, new_with_faces, build_half_edges, faces_iter, compute_bound"]}
{"id": "C54", "title": "Support points of polyhedra with faces", "statement": "For a convex polyhedron given with faces that form a closed surface, whose vertices are all corners, the support function (which climbs from vertex to vertex along the faces) terminates, does not panic, and returns a furthest point of the transformed solid, for every direction and every similarity transform. Boundaries: with an open surface (a single triangle) or with a NaN direction the search never returns; a vertex in the middle of a flat side can be returned although it is the lowest point.", "quantifier": "every closed convex triangle mesh (any number of vertices and faces), every direction, every similarity transform (exact reals); the NaN case for every polyhedron and every float format", "why_tests_cant": "The climb is a greedy local search: only an argument about all convex surfaces shows that it cannot stop early or cycle.", "anchors": ["src/primitive/polyhedron.rs: support_point, hill_climb_support_point, brute_force_support_point"]}
{"id": "C55", "title": "A ray cast on a convex polyhedron with faces finds the first point of the solid", "statement": "For a polyhedron built from vertices and triangles that bound a convex solid, a ray query always ends, never panics, and agrees with the intersection test. A reported point is the first point of the ray in the solid and the ray starts outside of it. For fewer than ten triangles, and for any number of triangles if no two neighbours are coplanar, every ray that starts outside and meets the solid is reported; rays that start in the solid never are. With ten or more triangles and coplanar neighbours the search can give up and miss a ray that meets the solid, depending on the order in which the triangles were listed; a polyhedron without faces panics.", "quantifier": "every list of vertices and triangles bounding a convex solid, of any size, and every ray over exact reals; a concrete f32 solid for the miss", "why_tests_cant": "The search walks from face to face depending on barycentric coordinates; its exactness depends on the geometry of all neighbouring faces and on the order of the list, which no set of examples covers.", "anchors": ["src/primitive/polyhedron.rs: Discrete<Ray3>, Continuous<Ray3> for ConvexPolyhedron, find_intersecting_face, next_face_classify, intersect_ray_face", "src/primitive/util.rs: barycentric_point"]}
{"id": "C56", "title": "Removing duplicate vertices keeps the faces only if copies come after all other used vertices", "statement": "A polyhedron built with duplicate vertices removed has every vertex position exactly once, in order of first occurrence, and is the same as one built without removal if there are no duplicates. Its faces are the intended ones exactly if every corner of a face is itself a copy or comes before all copies; otherwise the corner moves to another vertex (the code renumbers copies but not the vertices that moved up) or the construction panics.", "quantifier": "every list of vertices and faces over exact reals; f32 witnesses of wrong corners and of a panic", "why_tests_cant": "Which indices end up wrong depends on the positions of all copies in the list; the repository's test has one arrangement only.", "anchors": ["src/primitive/polyhedron.rs: ConvexPolyhedron::new_with_faces_dedup, dedup_vertices, dedup_faces"]}
{"id": "C57", "title": "3D contact manifolds (EPA): unit normal, exact depth, touching after the push", "statement": "For two convex bodies in space with correct support functions, whatever the tolerances and the iteration limit: full-resolution intersection reports a contact exactly when the intersection test reports a hit and never panics; the contact has a unit normal, time of impact 0 and a depth >= 0 that no separating translation undercuts, and moving the second body by depth along the normal leaves the bodies with a common point. If both bodies are flat-sided and the product of their corner numbers is below the iteration limit (any two cuboids with the default 100), moving by depth + tolerance along the normal takes them apart. CollisionOnly contacts carry no manifold. If one of the bodies is a single point the reported contact point belongs to the first body and is depth along the normal from a point of the second; in general the contact point can lie outside the first body (two tetrahedra in f32: _refuted).", "quantifier": "all convex bodies with support functions, in particular all pairs of Primitive3 values under all similarities; all tolerances, iteration limits and start positions", "why_tests_cant": "EPA expands a polytope face by face through an unbounded family of configurations; tests check a few box pairs at one tolerance", "anchors": ["src/algorithm/minkowski/epa/epa3d.rs: EPA3::process, contact, point, Polytope::add, Face::new, remove_or_add_edge", "src/algorithm/minkowski/gjk/mod.rs: GJK::intersection"]}
{"id": "C58", "title": "A ray query against any primitive under any transform is answered by that primitive, in the right frame", "statement": "For every kind of Primitive2 and Primitive3 (segment, circle, rectangle, square, polygon; quad, sphere, cuboid, cube, cylinder, capsule), every invertible transform and every ray for which the primitive's own ray test is correct (C46-C50), intersection_transformed on the enum returns the first point of the ray in the moved shape, in world coordinates, or None exactly when the ray misses it, and intersects_transformed agrees; with IEEE infinities and NaN in the intermediate values (division by zero). Scale/rotation/translation transforms map finite numbers to finite numbers. A particle is reported iff the ray comes within tolerance of it, at its moved position. A solid with faces is answered exactly from outside; a polyhedron built without faces panics on every ray.", "quantifier": "all primitives of both enums, all invertible transforms, all rays satisfying the stated conditions, all finite dimensions", "why_tests_cant": "Ranges over all shapes, transforms and rays, including the axis-parallel ones whose intermediate values are infinite", "anchors": ["src/primitive/primitive2.rs: DiscreteTransformed/ContinuousTransformed<Ray2>", "src/primitive/primitive3.rs: DiscreteTransformed/ContinuousTransformed<Ray3>", "src/ray.rs: intersects_transformed, intersection_transformed", "src/primitive/particle.rs: Discrete/Continuous<Ray>"]}
{"id": "C59", "title": "Interpolating between rotations and transforms", "statement": "Interpolating two 3D transforms (quaternion rotations) at amount 0 gives the first and at amount 1 the second, exactly; with equal rotations every transformed point moves on the straight segment in proportion to the amount; the scale stays between the two scales; the interpolated quaternion of two unit quaternions has squared length 1 - t(1-t)|a-b|^2, so away from the ends it is not a rotation: halfway from the identity to a half turn a unit vector shrinks to squared length 1/2. Reading a quaternion off a rotation matrix gives the quaternion or its opposite, so interpolating Basis3 starts and ends right and keeps equal rotations. Interpolating Basis2 always gives the rotation by the angle in [0,pi] whose cosine is the mix of the cosines; for angles in [0,pi] it starts and ends right and turns monotonically between the two, but for an angle in (-pi,0) even amount 0 gives the opposite rotation. Interpolating only the translation gives the second transform at amount 1 and, exactly when rotation and scale agree, the first at amount 0 and straight motion.", "quantifier": "all real transforms, unit quaternions, angles, points, amounts in [0,1]", "why_tests_cant": "Two endpoints and one middle amount in a test say nothing about the other amounts, and the failing Basis2 case needs an angle the tests never pick.", "anchors": ["src/traits.rs: Interpolate, TranslationInterpolate, mod interpolate"]}
{"id": "C60", "title": "Frustum culling on a tree of boxes is exact in floats", "statement": "After a tick of a tree of 3D boxes (finite corners, lower corner below upper, finite non-negative margins), a frustum query with any frustum whose six plane normals are finite returns exactly the values whose own box the frustum's containment test does not put outside, each once and each with the relation (inside or crossing) of its own box, never that of an enclosing branch - in floating point with its rounding, overflow and infinities, for every float format.", "quantifier": "all histories of tree calls, all boxes and margins in range, all frusta with finite normals, every IEEE format", "why_tests_cant": "Culling prunes by branch boxes; that rounding of the corner-plane products never culls a branch whose child survives must hold for every plane and box, which no sample of frusta shows.", "anchors": ["src/dbvt/visitor.rs: FrustumVisitor", "src/frustum.rs: Frustum::contains", "src/volume/aabb/aabb3.rs: PlaneBound::relate_plane", "src/dbvt/mod.rs: query"]}
{"id": "C61", "title": "Trees of bounding spheres", "statement": "With values bounded by spheres (non-negative radius, a margin with some non-negative component), after a tick a sphere query returns exactly the values whose spheres touch the query sphere, the tree broad phase with every value dirty returns exactly the brute force's pairs, and a frustum query with unit normals returns exactly the values not outside, with their own relation. A ray query returns exactly the values hit when the ray starts outside every branch sphere; when it starts inside one whose centre is behind it the hits below that branch are lost (a concrete two-value tree returns nothing although the ray hits a value).", "quantifier": "all histories of tree calls over real spheres, all query spheres, unit-normal frusta, unit rays; the counterexample in f32", "why_tests_cant": "Exactness depends on sphere union really enclosing both children along every path of every tree shape; tests build a few trees.", "anchors": ["src/volume/sphere.rs: Union, Contains, SurfaceArea, Discrete, Continuous", "src/dbvt/wrapped.rs: TreeValueWrapped", "src/dbvt/mod.rs: query", "src/algorithm/broad_phase/dbvt.rs"]}
{"id": "C62", "title": "The two phases together: no penetrating pair of primitives is lost, no confirmed pair is apart", "statement": "Take primitives with placements that rotate, scale uniformly and translate, bound each by its box transformed into the world, run a broad phase (brute force, sweep and prune from any remembered axis, or the dynamic tree after any legal history and a tick) on the boxes and the GJK test on the candidate pairs. In exact arithmetic every pair of bodies that share a disc (2D) or a ball (3D) of some size is among the candidates; in two dimensions, if neither is a circle, GJK then confirms it; and a candidate that GJK confirms (2D and 3D) really has a point in common.", "quantifier": "every list of bodies of any length, every pair, every history of the tree, every random draw, every remembered sweep axis and variance", "why_tests_cant": "it relates the bounds of eleven primitives, three broad phases and the narrow phase over all placements; a test can only try some scenes", "anchors": ["src/algorithm/broad_phase/brute_force.rs", "src/algorithm/broad_phase/sweep_prune.rs", "src/algorithm/broad_phase/dbvt.rs", "src/algorithm/minkowski/gjk/mod.rs", "src/primitive/primitive2.rs", "src/primitive/primitive3.rs", "src/traits.rs"]}
{"id": "C63", "title": "The narrow phase in floating point: what still holds with rounding, overflow and NaN", "statement": "Whatever the scalar arithmetic does (rounding, overflow, infinities, NaN), as long as the two shapes answer support queries - which every primitive does under every transform that inverts vectors, for every direction - the 2D and 3D intersection tests, the CollisionOnly contact queries and the 2D distance always return, and the 2D time of impact never panics; a reported hit is a triangle (tetrahedron) of differences of support points; FullResolution reports a collision exactly when the intersection test does, or panics, and it panics only if no edge of some polygon of such differences has a computed distance below infinity (2D; in floats: each is NaN or infinite), or some difference is seen by every face of a polytope of such differences (3D). In IEEE floats of any format, a body whose displacement has a NaN coordinate is reported as colliding with every body, FullResolution panics in 2D and returns an all-NaN normal and depth in 3D, the distance is none in 2D and a panic in 3D, and the time of impact is none. In f32 finite coordinates are not enough: overlapping squares of side 2^43 make FullResolution panic (2^42 is fine), and separated rectangles of size 10*2^40 by 2^40 are reported as colliding (2^38 is fine).", "quantifier": "all scalar types and operations (no law assumed), all support functions that answer, all directions, transforms, iteration limits, tolerances and fuels; all IEEE formats and all primitives for the NaN part", "why_tests_cant": "Tests run with ordinary numbers; that no input can make the query panic, and exactly which can, ranges over all inputs including NaN, infinities and values near overflow.", "anchors": ["src/algorithm/minkowski/gjk/mod.rs:intersect", "src/algorithm/minkowski/gjk/mod.rs:intersection", "src/algorithm/minkowski/gjk/mod.rs:distance", "src/algorithm/minkowski/gjk/mod.rs:intersection_time_of_impact", "src/algorithm/minkowski/epa/epa2d.rs:closest_edge", "src/algorithm/minkowski/epa/epa3d.rs:closest_face_to_origin", "src/primitive/primitive2.rs:support_point", "src/primitive/primitive3.rs:support_point"]}
{"id": "C64", "title": "Contacts in the plane when edges point at the origin: NaN never wins", "statement": "In exact arithmetic with IEEE-754's special values (0/0 is NaN, NaN compares false), the 2D contact computation on two convex primitives with finite numbers (particles, segments, discs, rectangles, squares, polygons of fewer than ten vertices; scaled, rotated, moved) never panics: although edges of the expanding polygon that lie on a line through the origin get NaN normals and distances, some other edge is always chosen. It reports a collision exactly when the test on real numbers does (C39), every contact it reports consists of finite numbers and holds (unit normal, positive depth, a point of the first shape lying that deep along the normal from a point of the second), and whenever the real-number computation of C41 yields a normal, the contact is that same one, with a depth no separating translation undercuts.", "quantifier": "all convex sets with support functions, all pairs of primitives, all similarity transforms, all tolerances, all iteration limits, both strategies", "why_tests_cant": "whether a NaN edge is ever selected (and the assertion after the search fails) depends on the whole history of the expanding polygon", "anchors": ["src/algorithm/minkowski/epa/epa2d.rs: EPA2::process, closest_edge, point", "src/algorithm/minkowski/gjk/mod.rs: GJK::intersection", "src/algorithm/minkowski/gjk/simplex/simplex2d.rs: reduce_to_closest_feature"]}
{"id": "C65", "title": "Approximate comparison of planes", "statement": "abs_diff_eq, relative_eq and ulps_eq of planes (plane.rs) are symmetric for all float planes and tolerances; a plane equals itself under the absolute comparison exactly when its coefficients are finite, under the other two exactly when none is NaN; a plane with a NaN coefficient equals nothing. Planes accepted by the absolute test have coefficients less than the successor of the tolerance apart (and coefficients within the tolerance are accepted), so over the reals they evaluate alike up to eps(|x|+|y|+|z|+1) at every point; planes accepted by the ulps test have coefficients that pass the absolute test or have equal signs and are at most max_ulps neighbouring floats apart; the absolute test is the strictest. The default ulps comparison with zero, which guards every division of the crate, is for every float exactly '|x| <= machine epsilon' (including NaN and infinities). Not transitive, and doubled or negated coefficients of the same plane are not recognised (refuted).", "quantifier": "every IEEE format with at least 4 bits of precision, every pair of planes (NaN and infinities included), every tolerance", "why_tests_cant": "The statement ranges over all pairs of bit patterns; tests compare a few planes.", "anchors": ["src/plane.rs:113-165 AbsDiffEq/RelativeEq/UlpsEq for Plane", "src/plane.rs:86,105,205,219,230,244 ulps_eq!", "src/algorithm/minkowski/gjk/mod.rs:120,292,308 ulps_eq!", "src/algorithm/minkowski/gjk/simplex/simplex3d.rs:92", "src/algorithm/minkowski/gjk/simplex/simplex2d.rs:61"]}
{"id": "C66", "title": "The time-of-impact query ends", "statement": "In exact arithmetic `GJK::intersection_time_of_impact` returns for any two primitives of the plane that have corners (everything but circles, under similarity transforms), whatever their relative displacement (not zero) and the tolerance: the unbounded loop makes at most a number of turns that depends on the numbers of corners only. With tolerance zero the returned time is the first time at which the shapes meet, and None exactly when they never do. In single precision this fails: for a rectangle 0.125 x 384 at rest and a rectangle 32 x 4 that moves by (-108, 256), with the default tolerance, the loop comes back to the same state and never returns; so does it in space for a tetrahedron and a moving particle; and in space it can panic for cuboids (exact f32 runs): an assertion on barycentric coordinates fails by rounding although the cuboids do meet, or a face with two equal corners has no plane. In space it need not end even in exact arithmetic: for a pyramid with corners (1,0,1), (1,0,-1), (-1,1,1), (-1,1,-1), (-1,-1,0) at rest and a particle that starts at (-1,3,0), moves by (3,-6,0) and hits it at 4/9, no number of turns ends the loop (any tolerance up to 1/4): the simplex goes back and forth between two mirror images while the time creeps up to 9/29.", "quantifier": "for all particles, segments, rectangles and convex polygons (below the hill-climbing threshold), all similarity transforms, displacements and tolerances >= 0 (real arithmetic); for every number of turns (the single precision run that never returns)", "why_tests_cant": "termination of a loop without iteration limit; a test can only observe runs that end", "anchors": ["src/algorithm/minkowski/gjk/mod.rs: GJK::intersection_time_of_impact", "src/algorithm/minkowski/gjk/simplex/simplex2d.rs: get_closest_point_to_origin"]}
{"id": "C67", "title": "When the distance of two shapes is found", "statement": "The 2D distance query answers with the distance (within the tolerance) for every two rectangles with the same rotation (any scales, sizes, positions) that are apart, by more than the comparison tolerance, in the direction of one of their sides: two iterations are enough; for every two circles that are apart (not both of radius 0) it answers in one iteration, exactly with the distance of the centres less both radii, and so it does in space for every two spheres; in space it answers within two iterations for every two cuboids with the same rotation that are apart in the directions of two (or three) of their sides. (All this in exact arithmetic.) It is NOT true that the distance of two separated convex shapes is always found, whatever the iteration limit: a triangle and a square 9 apart get None (touching) under every limit of at least 3, and for another separated triangle and square the simplex recurs and the query gives None under every limit (single precision, witnesses).", "quantifier": "all sizes, scales, positions, a common rotation, all tolerances and iteration limits", "why_tests_cant": "the answer depends on the sequence of simplices the loop goes through; that no limit is large enough is a statement about all limits", "anchors": ["src/algorithm/minkowski/gjk/mod.rs: distance, distance_complex", "src/algorithm/minkowski/gjk/simplex/simplex2d.rs: get_closest_point_to_origin, reduce_to_closest_feature"]}
{"id": "C68", "title": "Support points in IEEE floats", "statement": "For every floating point format, every list of vertices, every direction vector and every transform, with products that round, overflow or are NaN: the point a polygon of fewer than ten vertices, a rectangle, a quad, a cuboid or a convex hull returns is the image of the first vertex whose computed product with the local direction is largest, NaN and minus infinity never counting; when no product counts it is the image of the local origin, which need not belong to the shape (f32 witness: a triangle far from its origin, all products overflowing). When the terms of the products stay below 2^(emax-3), the vertex is as good as the best one up to 3u (plane) or 4u (space) times the sums of the absolute terms, plus 8 or 14 half smallest floats, u half a unit in the last place of 1; and the corner of a rectangle or cuboid is, against every real point of the box of its stored half sizes, at most 6u or 8u times the support value short, plus the same underflow terms. A cylinder and a capsule take the cap by the sign bit of the local direction, so also for zeros and infinities. A disc or sphere of radius r whose local direction has a length L without overflow or underflow returns in each coordinate r times the unit direction up to 17 u r plus (2L+1) half smallest floats. A disc or sphere whose direction has a computed squared length of zero returns no number in any coordinate; when the squared length overflows it returns the centre (f32 witnesses for directions of length 2^-100 and 2^100).", "quantifier": "for all float formats (precision at least 2 for the error bounds), vertex lists of any length, finite, infinite and NaN coordinates, directions, sizes and transforms", "why_tests_cant": "all floats, all formats and lists of any length", "anchors": ["src/primitive/util.rs: get_max_point", "src/primitive/{rectangle,circle,polygon}.rs: support_point", "src/primitive/{cuboid,sphere,capsule,cylinder,quad,polyhedron}.rs: support_point"]}
