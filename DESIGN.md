# Formal model of rustgd/collision-rs in Rocq (Coq 8.16.1)

Sources: `rocq/theories/`. Theorem names per property: `MANIFEST.json`. Properties: `properties.jsonl`.
Seeded wrong programs: `seeded/`. Assumptions per theorem: the last section (generated by `tools/assumptions.py`).

## 1. Trusted base

* Coq 8.16.1's kernel (including `vm_compute`, used for the f32 witnesses).
* The axioms `Print Assumptions` lists for each theorem (section 6): none for the tree and broad-phase theorems,
  and for theorems mentioning reals the standard library's own: `ClassicalDedekindReals.sig_forall_dec`,
  `ClassicalDedekindReals.sig_not_dec`, `FunctionalExtensionality.functional_extensionality_dep`, and where Flocq's
  or `Reals`' classical lemmas are used `Classical_Prop.classic`. No axiom is declared in this development; the other
  names a scan of the loaded libraries shows (`RbaseSymbolsImpl.*`, `ssrunder.*`) are module-type fields of the
  standard library, realised there.
* Libraries: stdpp (lists, finite maps, decision procedures), Flocq (`IEEE754.BinarySingleNaN`: the IEEE-754 floats
  are executable Coq functions, their correctness theorems are Flocq's).
* That the Gallina functions mean what the Rust code does. Each definition cites file and lines of /repo. What the
  code calls from other crates is modelled too and must be trusted likewise: cgmath 0.1x vectors, matrices,
  quaternions, `Decomposed` (`Vec.v`, `GeoModel.v`, `PrimModel.v`), `approx` (`ulps_eq!`/`relative_eq!` as described
  in section 3), `Vec` (indexing panics, `insert`, `swap_remove`, `dedup`, `sort_by` as a stable sort), `rand` (an
  arbitrary oracle).

  Evidence for it, short of proof: every test of the crate with a definite outcome (`src/**` test modules and
  `tests/*.rs`, except serde and the one with random boxes) is replayed on the model by computation in the
  precision of the test, with the expected values the test states (`Conform*.v`); all agree, including the ones
  whose digits show the order of roundings. The crate itself cannot be run here.

## 2. How code becomes a model

* A Rust function is a Gallina function, `&mut` arguments are returned, `Option` is `option`.
* Panics (index out of range, `unwrap` on `None`, `panic!`, `assert!`) are the value `Panic` of the type `res` (`Res.v`);
  the no-panic theorems say that it is not returned.
* Loops without structural recursion take fuel. `OutOfFuel` is not a behaviour; theorems either prove it absent
  (C05, C08-C13, C39 termination, C41) or are stated for runs that return (`= Ok ..`), and say so.
* Loops bounded by `max_iterations` in the code keep that bound; where the code returns `None` for two different
  reasons, the model remembers which one (`Separated`/`Exhausted`, `Distance`/`Touching`/`DistExhausted`, the
  boolean "tolerance met" of EPA). These ghosts are erased by `gjk_forget`, `dist_forget`, `option_map fst`, and the
  public functions of the model return what the code returns.
* Generic code stays generic: trees and broad phases are parametrised by the bound's operations, geometry by the
  operational class `Num` (`+ - * / neg sqrt abs < <= ==`), with no laws attached. Laws are proved for the instances:
  `Num_float prec emax` (IEEE-754 binary floats of every format, so f32 and f64), `Num_R` (exact reals), `Num_xr`
  (reals with signed zeros, infinities and NaN but no rounding).

## 3. What is simplified

* `usize`, `u32` are unbounded `nat`: overflow of indices is not modelled. Memory exhaustion is not modelled.
* `sort_by` is a stable insertion sort with the given comparator; on inconsistent comparators (NaN) Rust's order is
  unspecified and the model's is one of the possible ones.
* `ulps_eq!(x, 0)` with cgmath's defaults is modelled as `|x| <= epsilon`: proved equal to the bit-pattern definition for
  every float (C65_ulps_zero); `ulps_ne!` is its negation; `relative_eq!` is modelled with
  its two-sided definition. The theorems over `R` quantify over every `epsilon >= 0` unless a fixed one is named.
* In `Num_R`, `1/0 = 0` is Coq's convention; theorems over `R` therefore exclude division by zero by hypothesis or
  prove it does not occur, and the behaviour of the code in the excluded cases is shown on f32 or `xr` instead
  (C27-C29, C36, C41, C42).
* Theorems over `R` do not account for rounding. The theorems about floats (C17-C20, C32, C33, the `_refuted`
  witnesses) do.
* `f32` witnesses are computed by Flocq's executable floats: round to nearest even, subnormals, NaN payload ignored.
* Not modelled: `serde` derives, `Debug`/`Display`, the `prelude` and `lib.rs` re-exports, `volume/obb.rs`
  (declarations without operations), threads (the crate has none), allocation.

## 4. Files

| file | contents |
|---|---|
| Res, DbvtModel, DbvtVisitors, BroadModel | `dbvt/`, `algorithm/broad_phase/` |
| DbvtGhost, DbvtInv, DbvtInsert, DbvtRemove, DbvtRotate, DbvtRefit, DbvtUpdate, DbvtQuery, DbvtSpec, DbvtHistory | ghost tree and invariant, one file per operation, the specification (a finite map), histories |
| PropsDbvt, PropsRay, PropsRotation, PropsStack, PropsBroad, PropsAxis | C01-C20 |
| Num, Vec, AabbModel, GeoModel, PrimModel, MinkModel | scalars, `volume/`, `plane.rs`, `frustum.rs`, `line.rs`, `ray.rs`, `bound.rs`, `primitive/`, `algorithm/minkowski/`, `contact.rs` |
| FloatMono, AabbTree, PropsAabbTree | monotonicity of float operations; trees of float boxes (C32, C33) |
| Xr, PropsRayBox, PropsAgree | extended reals, ray-box tests (C27-C29) |
| PropsAabb, PropsAabbReal, PropsSphere, PropsPlane, PropsLine | C21-C26, C30, C31, C34-C37 |
| ShapeSpec, MinkSpec | the specification vocabulary: shapes as sets of points, convex sets, support functions, separation |
| PropsSupport, PropsHill | C38 |
| Gjk2, PropsGjk2, Gjk3, PropsGjk3, Epa2, PropsEpa2, Dist, PropsDist | GJK and EPA: C39-C42 |
| PrimEnum, PropsNarrow | the enums `Primitive2`/`Primitive3`, their sets of points; C39-C42, C57 for every primitive |
| Toi2, PropsToi, Toi3, PropsToi3 | time of impact: C43, C44 in space |
| ToiHalt, PropsToiHalt, PropsToiHang, PropsToiHang3, PropsToiHang3R | the time-of-impact loop ends on plane shapes with corners; runs in f32, and in space in exact arithmetic, that do not end: C66 |
| PropsFloatSup | support points in IEEE floats of every format, overflow and NaN included: C68 |
| DistBox, PropsDistBox | distance queries in the plane that answer, and runs that never do: C67 |
| PropsDist3 | distance queries in space that answer (spheres, cuboids apart along two sides): C67 |
| Epa3Chain, Epa3Cover, Epa3, PropsEpa3 | EPA in space: directed edges and closed surfaces, covering of directions, the polytope invariant; C57 |
| Complex, ComplexModel, PropsComplex, PropsComplex3 | compound shapes and the narrow phase of `GJK::intersection_complex` etc.: C44 |
| PropsBound, PropsDedup | bounds of primitives (C45), vertex deduplication of polyhedra (C56) |
| RaySpec, PropsPrimRay, CylRay, PropsCylRay, PropsCapRay, PropsBoxRay, PropsPolyRay | rays against primitives: C46-C50 |
| XformModel, PropsXform | transformed ray queries, particles: C51, C52 |
| MeshSpec, MeshModel, MeshBuild, MeshGeo, MeshClimb, PropsMesh, MeshCover, MeshRay, MeshFind, PropsMeshRay | half-edge polyhedra: construction, support by hill climbing, ray walk: C53-C55 |
| PrimRay, PropsPrimXf | the ray queries of the enums `Primitive2`/`Primitive3`, plain and under transforms: C58 |
| InterpModel, PropsInterp | `Interpolate`, `TranslationInterpolate`: C59 |
| PropsCull | frustum queries on trees of float boxes: C60 |
| PropsSphereTree | trees of bounding spheres (`sphere_ops`): C61 |
| PropsPipeline | primitives, their boxes, a broad phase and GJK composed: C62 |
| PropsRobust | the narrow phase over an arbitrary scalar type; NaN in IEEE floats; f32 overflow: C63 |
| PropsEpaXr | 2D GJK and EPA in exact arithmetic with NaN and infinities (`xr`), followed in parallel with the real computation: C64 |
| ApproxModel, PropsApprox | the approx crate's comparisons with bit patterns, `AbsDiffEq`/`RelativeEq`/`UlpsEq` for planes: C65 |
| PropsExtra | additions to C18 (many frames), C24 (segments), C30, C31, C36 |
| PropsMet | concrete cases meeting the hypotheses of C09-C34 |
| ConformGjk, ConformPrim, ConformTree, ConformVol | the crate's own tests replayed on the model (tests, not theorems; no claim rests on them) |

## 5. Per property: model and proof

* **C01-C03, C06, C07, C15, C16** (map semantics, no panic, maintenance). A ghost binary tree represents the node
  arena; `Inv` ties arena, free list, value list and refit queue to it. Every operation preserves it (one file each).
  A history is a list of API calls; by induction a history's observable results equal those of a finite map
  `handle -> value`. C06: invariant "every branch is exact or queued, or an ancestor of a queued node".
* **C04, C16 boundary**: explicit histories reaching `Panic`.
* **C05**: potential function over the refit queue; fuel bound proved sufficient.
* **C08-C13**: the query loop with its 256-slot stack is refined to a traversal of the ghost tree; completeness from a
  monotone visitor and exact bounds; stack use bounded by height; C11: a parametric family of trees of height > 256.
* **C14**: algebra of unions; witness of the refit order dependence.
* **C17-C20**: induction over lists; C18 by the sortedness invariant of the active list; C19 by computation of the
  variance accumulators (they are discarded); C20 via C09.
* **C21-C26, C31**: AABB algebra over an ordered scalar (C21-C24 also for floats), reals for the set-theoretic readings.
* **C27-C29**: slab tests over `xr`, where zero directions give infinities, against the set of points of the half-line.
* **C30, C34-C37**: real geometry (Cauchy-Schwarz, Gram determinants).
* **C32, C33**: monotonicity of rounded `min`, `max`, `+`, `*`, `/` on finite floats (Flocq), so float unions and
  slab tests are monotone, so no branch above a hit leaf is pruned; composed with C09/C12.
* **C38**: support functions of each primitive against its set of points under similarity transforms; for the hill climb of polygons with ten or more vertices the exact boundary of when it finds the furthest vertex (PropsHill: the heights along a convex polygon rise once and fall once, seen from the start of the search).
* **C39, C40**: loop invariants of GJK (an edge/triangle of support points with the search direction pointing to the
  origin's side); termination in 2D by a strictly shrinking cap of vertex differences. In 3D termination is not proved
  (the statement keeps the "budget ran out" case).
* **C41**: the expanding polygon is a ring whose edge cones tile the plane; inserting a support point beyond an edge
  splits one cone; the least edge distance bounds every support value from below.
* **C42, C44**: the distance loop keeps the closest point of its simplex; the answer is bracketed by the simplex (from
  above) and by the support value (from below). Compound shapes: folds over the pairs of parts, with the pre-test and
  the best-contact rule unfolded.
* **C43**: conservative advancement over the relative motion; each step is shown not to overshoot (partial
  correctness: a returned time is one of contact, and no earlier time is), runs that do not return are not described.
* **C45-C52**: per primitive, the set of points of the shape against the formulas of the code; rays as half-lines; the
  answers characterised exactly (including the wrong ones), the deviations kept as `_refuted`.
* **C53-C55**: a polyhedron with faces is a list of half-edges; `MeshSpec` says what a proper closed convex surface is;
  hill climbing is shown to end at a maximum by a "local maximum of a convex surface is global" argument; the ray walk
  by following the projection of the ray on the faces.
* **C56**: the deduplicating constructor as a fold; what it returns and where indices go wrong.
* **C57**: EPA in space. Invariant: the faces form a closed surface (every directed side is cancelled by its reverse,
  an integer chain equation), every vertex lies behind every face plane, the vertices are not coplanar, and their hull
  contains the origin. Adding a point removes the faces that see it and cones over the left-over sides; the horizon
  identity writes the new normals as positive combinations of an old visible and an old hidden normal. A closed surface
  seen from inside covers every direction (walk along a generic path), so the least face distance bounds every support
  value from below and the foot of the perpendicular is in the hull.
* **C58**: dispatch of the ray queries over the primitive enums; each arm is one of C46-C55, the transformed query is
  the query of the moved shape when the transform is rigid.
* **C59**: interpolation over the reals with the standard library's `acos`, `cos`, `sin`; polynomial identities for the
  quaternion part, Shepperd's method case by case, monotonicity of `cos` on [0, pi] for the plane.
* **C60**: the float corner test is monotone: for a finite normal each rounded product is dominated by one at a corner of
  the enclosing box, sums of values below plus infinity stay monotone, so a culled branch box has only culled boxes below.
* **C61**: sphere union satisfies the enclosure laws over the reals (distance between centres plus the inner radius at most
  the outer), the tree theorems C09, C12, C20 apply; rays through the branch-wise form of C12.
* **C62**: composition. A shape is in its transformed bound (C45); two sets that share a disc have boxes that intersect strictly; the
  broad phases are exact on boxes (C17, C18, C20); GJK is exact on polygons and sound on everything (C39, C40). 3D confirmation of
  every penetrating pair is false (C40) and circles may exhaust the iterations, so those are not claimed.
* **C63**: the loops are followed over an arbitrary `Num` instance (no law assumed): a state is a list of computed differences of support
  points, and the only `Panic`s left are the selection of an edge or face. NaN: propagation lemmas by case analysis on Flocq's floats, then the
  runs are followed step by step. Overflow: the model is run in f32 by `vm_compute` (witnesses of the refuted statements only).
* **C64**: a simulation between the run over `xr` and the run over R (finite numbers stay finite away from 0/0); the invariant of the expanding
  polygon is that some edge does not lie on a line through the origin (true of every GJK simplex and kept by every insertion), so the NaN
  edges lose every comparison and the assertion of `closest_edge` holds; in the non-degenerate case the runs are equal step by step (C41).
* **C65**: floats of one sign are numbered by their bit patterns (strictly monotone, the successor adds one); symmetry and closeness from
  correct rounding (Flocq).
* **C66**: between two clippings of the ray the distance to the ray point drops strictly, so no simplex returns; a
  clipping at the foot of an edge happens at a time determined by three corners, a clipping at a corner either makes a
  convex function of time change sign (once per pair of corners) or is followed by the end or by an edge clipping.  The
  histories are duplicate-free lists inside finite sets, which bounds the turns.  In f32 the state of the loop is computed
  to be periodic (bit patterns compared), hence no fuel suffices.  In space the same is done for a
  tetrahedron and a particle; in exact arithmetic a pyramid and a particle give an explicit two-turn recurrence of the
  time, proved by induction on the fuel to stay in [1/4, 9/29).
* **C67**: parallel rectangles: in the frame of the sides the difference is a box, the first support points are opposite
  corners, and the second turn lands on the side that faces the origin; circles and spheres: the support points are
  computed; cuboids apart along two sides: in any coordinates that keep dot products, both turns stay on the edge of
  the difference box that faces the origin. The
  negative theorems run the float model on one period of the simplex (`vm_compute`) and conclude for every limit.
* **C68**: the scan over vertices keeps "the current best is the first maximum of the counted products" by induction over the
  list in IEEE order; the error of a computed product is bounded from Flocq's relative-plus-absolute rounding error
  (`error_N_FLT`), finite because the terms stay three binades below overflow. Discs: case analysis on the special values of
  the squared length. Witnesses are f32 runs by `vm_compute`.

Refuted expectations are kept as theorems with suffix `_refuted`: the property's statement then gives the exact
boundary of truth, and the witness is a concrete run of the model.

## 6. Assumptions per theorem (generated)

### Closed under the global context

C01_values_are_the_live_map, C01_outputs_as_expected, C02_size, C03_legal_calls_return, C03_accessors_return, C04_clear_with_pending_flag_then_update_panics, C04_remove_last_with_pending_flag_then_update_panics, C05_do_refit_terminates, C06_refit_exact, C06_empty_height, C07_maintenance_keeps_values, C08_query_sound, C08_query_returns_the_values, C09_query_exact_after_tick, C09_query_exact_by_branches, C10_query_returns_up_to_256_values, C10_query_returns_up_to_height_256, C15_reorder_invisible, C16_stale_handles, C16_stale_handles_after_clear_panic, C11_query_panics_beyond_256_copies, C11_copies_can_be_inserted, C12_query_ray_exact, C12_query_ray_exact_by_branches, C12_discrete_and_frustum_queries_exact, C13_closest_is_a_hit, C13_closest_is_minimal, C13_origin_inside_branch_refuted, C14_rotation_inert, C14_rotation_inert_after_refit, C14_draw_observable_on_dirty_children_refuted, C17_brute_force_exact, C18_sweep_and_prune_exact, C18_axis_out_of_range_panics, C18_configured_axis, C18_every_frame, C18_every_frame_boxes2, C18_every_frame_boxes3, C19_axis_always_x, C20_dbvt_broad_phase_exact, C20_agrees_with_brute_force, C20_returns_iff_enough_flags, C21_new2_least_box, C21_new3_least_box, C21_nan_order, C22_union2_least_upper_bound, C22_union3_least_upper_bound, C22_union2_semilattice, C22_union3_semilattice, C23_grow2_least_box, C23_grow3_least_box, C23_nan_ignored, C23_contains2_point_half_open, C23_contains3_point_half_open, C23_contains2_after_grow_refuted, C23_contains3_after_grow_refuted, C24_contains2_is_subset, C24_contains3_is_subset, C24_contains2_partial_order, C24_contains3_partial_order, C24_contains_ends, C25_intersects2_iff_not_separated, C25_intersects3_iff_not_separated, C25_flat_boxes_miss_themselves, C26_transform2_least_over_corners, C26_transform3_least_over_corners, C29_aabb2_discrete_iff_continuous, C29_aabb3_disagreement_iff_all_nan, C44_deepest, C44_nan_depth_panics, C44_collision_only, C44_collision_only_toi, C44_collision_only_none, C44_earliest, C44_min_distance, C44_empty_shape, C50_panics_iff_empty, C51_singular_panics, C58_polyhedron_without_faces_panics, C63_intersect2, C63_distance2, C63_time_of_impact2, C63_contact2, C63_intersect3, C63_contact3, C63_supports2, C63_supports3, C63_not_below

### `ClassicalDedekindReals.sig_forall_dec`

C51_transformed_hit2, C51_transformed_hit3, C51_transformed_test2, C51_transformed_test3, C51_identity2, C51_identity3

### `ClassicalDedekindReals.sig_forall_dec`, `ClassicalDedekindReals.sig_not_dec`, `FunctionalExtensionality.functional_extensionality_dep`

C19_compute_axis, C24_contains2_segment, C24_contains3_segment, C25_intersects2_iff_interiors_meet, C25_intersects3_iff_interiors_meet, C26_transform2_tight, C26_transform3_tight, C27_ray_aabb2_exact, C27_hit_point_in_box, C27_generic_ray_hits_iff_half_line_meets_box, C27_zero_direction_reports_nan_refuted, C28_ray_aabb3_exact, C28_hit_point_in_box, C28_generic_ray_hits_iff_half_line_meets_box, C29_aabb3_finite_disagreement, C31_add_v2_translates, C31_add_v3_translates, C31_mul_v2_scales, C31_mul_v3_scales, C31_mul_s_scales, C31_add_margin2, C31_add_margin3, C31_negative_margin_inflates_refuted, C31_center, C31_volume_monotone, C31_volume_exact, C31_flat_area_refuted, C30_intersects_iff_balls_meet, C30_intersects_symmetric, C30_contains_point, C30_contains_sphere_iff_subset, C30_contains_box_iff_subset, C30_contains_segment_iff_subset, C30_box_contains_sphere_iff_subset, C30_union_smallest_enclosing, C30_union_box_encloses, C30_box_union_sphere_least, C30_extents_tight, C30_margin, C30_transform_rigid, C30_transform_scaling_refuted, C30_ray_outside_first_hit, C30_ray_inside_reports_point_behind, C30_ray_discrete_iff_continuous, C30_area, C34_point_exact, C34_sphere_exact, C34_box_exact, C34_frustum_in_iff_inside, C34_frustum_out_iff_behind_a_plane, C34_frustum_out_disjoint, C34_cross_is_conservative_refuted, C35_frustum_is_the_clip_volume, C35_point_exact, C35_point_agrees_with_frustum, C35_box_clip, C35_sphere_clip, C35_ortho_matrix_volume, C35_perspective_exact, C35_perspective_far_panics_refuted, C35_fov_exact, C35_ortho_to_frustum_region, C35_ortho_to_frustum_empty_refuted, C35_unusable_matrix, C35_every_matrix, C36_from_points_negated_distance, C36_from_points_none_iff_collinear, C36_from_point_normal_contains_point, C36_normalize_same_plane, C36_ray_hits_negated_plane, C36_ray_documented_plane_refuted, C36_plane_plane_test, C36_plane_plane_exact, C36_three_planes_point, C36_three_planes_test, C36_ray_in_plane_refuted, C36_parallel_ray_hit_refuted, C36_constructors, C37_ray_segment_exact, C37_zero_direction_hits_everything_refuted, C37_point_ray3_within_tolerance, C37_point_ray2_within_tolerance, C37_unnormalised_ray_misses_point_refuted, C38_circle, C38_sphere, C38_capsule, C38_cylinder, C38_rectangle, C38_cuboid, C38_quad, C38_line, C38_small_polygon, C38_polyhedron, C38_particle2, C38_particle3, C38_decomposed2, C38_decomposed3, C38_singular_panics, C38_nonuniform_refuted, C38_large_polygon_vertex, C38_hill_climb_exact, C38_hill_climb_side_refuted, C39_no_panic, C39_hit_encloses_origin, C39_hit_means_overlap, C39_none_means_separated, C39_polygons_never_exhausted, C39_polygons_none_iff_separated, C39_polygons_overlap_detected, C39_small_polygons, C39_rectangles, C39_primitives, C40_hit_encloses_origin, C40_hit_means_overlap, C40_none_means_separated, C40_no_panic, C40_primitives, C41_contact_good, C41_polygon_contact_tight, C41_zero_normal, C41_collision_only, C41_no_panic, C41_rectangles, C41_small_polygons, C41_primitives, C41_origin_on_edge_true_depth, C42_distance2, C42_colliding2, C42_distance3, C42_colliding3, C42_primitives2, C42_primitives3, C43_no_panic, C43_none_means_no_meeting, C43_time_of_impact, C43_meeting_found, C43_contact_point, C43_primitives2, C43_none_means_no_meeting3, C43_time_of_impact3, C43_contact_point3, C43_impact3, C43_primitives3, C44_intersection2, C44_contact2, C44_distance2, C44_toi2, C44_hit3, C44_intersection3, C44_contact3, C44_distance3, C44_toi3, C44_near3, C44_toi_point2, C44_toi_point3, C45_bound2_smallest, C45_polygon_bound, C45_bound2_contains, C45_transformed_bound2, C45_bound3_smallest, C45_polyhedron_bound, C45_bound3_contains, C45_transformed_bound3, C45_decomposed2_affine, C45_decomposed3_affine, C45_polygon_bound_refuted, C45_sphere_exact, C45_sphere_tight, C45_cube_sphere_refuted, C46_circle_test_iff_hit, C46_sphere_test_iff_hit, C46_circle_test_exact, C46_sphere_test_exact, C46_circle_outside_exact, C46_sphere_outside_exact, C46_circle_hit_on_boundary, C46_sphere_hit_on_boundary, C46_inside_missed_refuted, C46_inside_behind_refuted, C46_direction_length_refuted, C47_cylinder_test_exact, C47_cylinder_test_sound, C47_cylinder_test_complete, C47_cylinder_hit_on_surface, C47_cylinder_hit_from_side, C47_cylinder_hit_from_above, C47_cylinder_axis_test, C47_cylinder_axis_hit, C48_capsule_test_exact, C48_capsule_test_sound, C48_capsule_hit_from_ends, C48_capsule_hit_axis, C48_capsule_hit_from_side, C48_end_entry_disagreement_refuted, C49_cuboid_hit_outside, C49_cuboid_hit_inside, C49_cuboid_face_ray_missed, C49_cuboid_test_agrees, C49_quad_hit, C49_quad_hit_at_origin, C49_quad_edge_ray_missed, C49_quad_test_agrees, C49_rectangle_hit_outside, C49_rectangle_hit_inside, C49_rectangle_side_ray_missed, C49_rectangle_test_agrees, C50_polygon_point_is_first, C50_polygon_inside_missed, C51_decomposed2_inverse, C51_affine2_inverse, C51_decomposed3_inverse, C51_circle_moved, C51_sphere_moved, C51_polygon_moved, C52_sweep2, C52_sweep3, C52_particle_circle, C52_particle_sphere, C53_construction, C53_faces_in_order, C53_bounds_of_vertices, C53_no_faces, C54_support, C54_open_surface_refuted, C55_terminates, C55_sound, C55_exact, C55_no_faces_panics, C56_vertices, C56_no_copies, C56_exact, C56_last_vertex_panics, C57_contact_good, C57_polyhedron_contact_tight, C57_collision_only, C57_no_panic, C57_point, C57_primitives, C57_flat_primitives, C57_particle, C58_primitive3, C58_decomposed2_finite, C58_decomposed3_finite, C58_polyhedron_with_faces, C58_particle3, C58_particle2, C59_endpoints3, C59_straight3, C59_scale_between3, C59_quaternion_length, C59_quaternion_of_matrix, C59_basis3_endpoints, C59_matrix_acts, C59_quaternion_refuted, C59_translation3, C59_translation2, C59_translation_refuted, C61_sphere_query_exact, C61_broad_phase_is_brute_force, C61_frustum_query_exact, C61_ray_query_exact, C62_brute_force2, C62_brute_force3, C62_sweep_and_prune2, C62_sweep_and_prune3, C62_dbvt2, C62_dbvt3, C64_no_panic, C64_same_answer, C64_contact_true, C64_same_contact, C64_decomposed2, C64_primitives, C64_primitives_same_contact, C65_evaluate, C66_terminates, C66_primitives2, C66_exact_time, C66_never_returns_exact3_refuted, C67_rectangles, C67_disjoint_rectangles, C67_circles, C67_spheres, C67_cuboids_edge

### `ClassicalDedekindReals.sig_forall_dec`, `ClassicalDedekindReals.sig_not_dec`, `Classical_Prop.classic`, `FunctionalExtensionality.functional_extensionality_dep`

C13_box_tree_origin_inside_refuted, C29_aabb2_agree_on_floats, C32_no_margin2, C32_no_margin3, C32_box_query2_exact, C32_box_query3_exact, C32_dbvt_broad_phase2_is_brute_force, C32_dbvt_broad_phase3_is_brute_force, C32_sweep_and_prune2, C32_sweep_and_prune3, C32_nan_bound_hides_others_refuted, C33_ray_query2_exact, C33_ray_query3_exact, C33_axis_parallel_ray_query3_refuted, C30_union_box_misses_box_refuted, C38_large_polygon_refuted, C39_tolerance_reports_separated_refuted, C40_overlapping_cubes_missed_refuted, C41_origin_on_edge_refuted, C42_particles_refuted, C42_triangle_none_refuted, C42_tetrahedron_panics_refuted, C42_overlap_distance_refuted, C43_resting_discs_refuted, C43_initial_overlap_normal_refuted, C43_contact_point_refuted, C44_runs, C44_collision_only_time_refuted, C47_top_entry_disagreement_refuted, C47_bottom_entry_missed_refuted, C47_from_below_reports_exit_refuted, C47_axis_ray_ignores_radius_refuted, C47_inside_missed_refuted, C48_end_entry_reports_outside_refuted, C48_spurious_point_refuted, C48_inside_missed_refuted, C49_face_ray_missed_refuted, C50_polygon_ray_from_outside, C50_last_side_ignored_refuted, C51_scaled_circle_missed_refuted, C52_start_inside_refuted, C52_resting_particle_missed_refuted, C54_nan_direction_refuted, C54_flat_vertex_refuted, C55_flat_faces_refuted, C56_front_copy_refuted, C57_point_outside_refuted, C58_primitive2, C59_basis2, C59_basis2_between, C59_basis2_refuted, C59_endpoints2, C59_straight2, C60_frustum_query_exact, C61_ray_query_refuted, C63_nan_collides2, C63_nan_contact2, C63_nan_distance2, C63_nan_time_of_impact2, C63_nan_collides3, C63_nan_contact3, C63_nan_distance3, C63_nan_time_of_impact3, C63_nan_displacement2, C63_nan_displacement3, C63_bodies_answer2, C63_bodies_answer3, C63_lost_body2, C63_lost_body3, C63_f32_overflow_panic_refuted, C63_f32_overflow_collides_refuted, C65_ulps_zero, C65_ulps_zero3, C65_epsilon, C65_symmetric, C65_reflexive, C65_nan, C65_abs_close, C65_ulps_close, C65_abs_strictest, C65_transitive_refuted, C65_same_plane_refuted, C66_never_returns_refuted, C66_never_returns3_refuted, C66_assertion_panics_refuted, C66_flat_face_panics_refuted, C67_corner_none_refuted, C67_never_found_refuted, C68_vertex, C68_points2, C68_points3, C68_box2, C68_box3, C68_cap, C68_disc, C68_ball, C68_disc_short, C68_disc_long, C68_disc_refuted, C68_overflow_refuted

