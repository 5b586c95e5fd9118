{
 "claims": [
  {
   "property": "C01",
   "status": "proved",
   "theorems": [
    "C01_values_are_the_live_map",
    "C01_outputs_as_expected"
   ],
   "note": ""
  },
  {
   "property": "C02",
   "status": "proved",
   "theorems": [
    "C02_size"
   ],
   "note": ""
  },
  {
   "property": "C03",
   "status": "proved",
   "theorems": [
    "C03_legal_calls_return",
    "C03_accessors_return"
   ],
   "note": ""
  },
  {
   "property": "C04",
   "status": "proved",
   "theorems": [
    "C04_clear_with_pending_flag_then_update_panics",
    "C04_remove_last_with_pending_flag_then_update_panics"
   ],
   "note": ""
  },
  {
   "property": "C05",
   "status": "proved",
   "theorems": [
    "C05_do_refit_terminates"
   ],
   "note": ""
  },
  {
   "property": "C06",
   "status": "proved",
   "theorems": [
    "C06_refit_exact",
    "C06_empty_height"
   ],
   "note": ""
  },
  {
   "property": "C07",
   "status": "proved",
   "theorems": [
    "C07_maintenance_keeps_values"
   ],
   "note": ""
  },
  {
   "property": "C08",
   "status": "proved",
   "theorems": [
    "C08_query_sound",
    "C08_query_returns_the_values"
   ],
   "note": ""
  },
  {
   "property": "C09",
   "status": "proved",
   "theorems": [
    "C09_query_exact_after_tick",
    "C09_query_exact_by_branches"
   ],
   "note": ""
  },
  {
   "property": "C10",
   "status": "proved",
   "theorems": [
    "C10_query_returns_up_to_256_values",
    "C10_query_returns_up_to_height_256"
   ],
   "note": ""
  },
  {
   "property": "C15",
   "status": "proved",
   "theorems": [
    "C15_reorder_invisible"
   ],
   "note": ""
  },
  {
   "property": "C16",
   "status": "proved",
   "theorems": [
    "C16_stale_handles",
    "C16_stale_handles_after_clear_panic"
   ],
   "note": ""
  },
  {
   "property": "C11",
   "status": "proved",
   "theorems": [
    "C11_query_panics_beyond_256_copies",
    "C11_copies_can_be_inserted"
   ],
   "note": ""
  },
  {
   "property": "C12",
   "status": "proved",
   "theorems": [
    "C12_query_ray_exact",
    "C12_query_ray_exact_by_branches",
    "C12_discrete_and_frustum_queries_exact"
   ],
   "note": ""
  },
  {
   "property": "C13",
   "status": "proved",
   "theorems": [
    "C13_closest_is_a_hit",
    "C13_closest_is_minimal",
    "C13_origin_inside_branch_refuted",
    "C13_box_tree_origin_inside_refuted"
   ],
   "note": ""
  },
  {
   "property": "C14",
   "status": "proved",
   "theorems": [
    "C14_rotation_inert",
    "C14_rotation_inert_after_refit",
    "C14_draw_observable_on_dirty_children_refuted"
   ],
   "note": ""
  },
  {
   "property": "C17",
   "status": "proved",
   "theorems": [
    "C17_brute_force_exact"
   ],
   "note": ""
  },
  {
   "property": "C18",
   "status": "proved",
   "theorems": [
    "C18_sweep_and_prune_exact",
    "C18_axis_out_of_range_panics",
    "C18_configured_axis",
    "C18_every_frame",
    "C18_every_frame_boxes2",
    "C18_every_frame_boxes3"
   ],
   "note": ""
  },
  {
   "property": "C19",
   "status": "proved",
   "theorems": [
    "C19_axis_always_x",
    "C19_compute_axis"
   ],
   "note": ""
  },
  {
   "property": "C20",
   "status": "proved",
   "theorems": [
    "C20_dbvt_broad_phase_exact",
    "C20_agrees_with_brute_force",
    "C20_returns_iff_enough_flags"
   ],
   "note": ""
  },
  {
   "property": "C21",
   "status": "proved",
   "theorems": [
    "C21_new2_least_box",
    "C21_new3_least_box",
    "C21_nan_order"
   ],
   "note": ""
  },
  {
   "property": "C22",
   "status": "proved",
   "theorems": [
    "C22_union2_least_upper_bound",
    "C22_union3_least_upper_bound",
    "C22_union2_semilattice",
    "C22_union3_semilattice"
   ],
   "note": ""
  },
  {
   "property": "C23",
   "status": "proved",
   "theorems": [
    "C23_grow2_least_box",
    "C23_grow3_least_box",
    "C23_nan_ignored",
    "C23_contains2_point_half_open",
    "C23_contains3_point_half_open",
    "C23_contains2_after_grow_refuted",
    "C23_contains3_after_grow_refuted"
   ],
   "note": ""
  },
  {
   "property": "C24",
   "status": "proved",
   "theorems": [
    "C24_contains2_is_subset",
    "C24_contains3_is_subset",
    "C24_contains2_partial_order",
    "C24_contains3_partial_order",
    "C24_contains2_segment",
    "C24_contains3_segment",
    "C24_contains_ends"
   ],
   "note": ""
  },
  {
   "property": "C25",
   "status": "proved",
   "theorems": [
    "C25_intersects2_iff_not_separated",
    "C25_intersects3_iff_not_separated",
    "C25_flat_boxes_miss_themselves",
    "C25_intersects2_iff_interiors_meet",
    "C25_intersects3_iff_interiors_meet"
   ],
   "note": ""
  },
  {
   "property": "C26",
   "status": "proved",
   "theorems": [
    "C26_transform2_least_over_corners",
    "C26_transform3_least_over_corners",
    "C26_transform2_tight",
    "C26_transform3_tight"
   ],
   "note": ""
  },
  {
   "property": "C27",
   "status": "proved",
   "theorems": [
    "C27_ray_aabb2_exact",
    "C27_hit_point_in_box",
    "C27_generic_ray_hits_iff_half_line_meets_box",
    "C27_zero_direction_reports_nan_refuted"
   ],
   "note": ""
  },
  {
   "property": "C28",
   "status": "proved",
   "theorems": [
    "C28_ray_aabb3_exact",
    "C28_hit_point_in_box",
    "C28_generic_ray_hits_iff_half_line_meets_box"
   ],
   "note": ""
  },
  {
   "property": "C29",
   "status": "proved",
   "theorems": [
    "C29_aabb2_discrete_iff_continuous",
    "C29_aabb3_disagreement_iff_all_nan",
    "C29_aabb2_agree_on_floats",
    "C29_aabb3_finite_disagreement"
   ],
   "note": ""
  },
  {
   "property": "C31",
   "status": "proved",
   "theorems": [
    "C31_add_v2_translates",
    "C31_add_v3_translates",
    "C31_mul_v2_scales",
    "C31_mul_v3_scales",
    "C31_mul_s_scales",
    "C31_add_margin2",
    "C31_add_margin3",
    "C31_negative_margin_inflates_refuted",
    "C31_center",
    "C31_volume_monotone",
    "C31_volume_exact",
    "C31_flat_area_refuted"
   ],
   "note": ""
  },
  {
   "property": "C32",
   "status": "proved",
   "theorems": [
    "C32_no_margin2",
    "C32_no_margin3",
    "C32_box_query2_exact",
    "C32_box_query3_exact",
    "C32_dbvt_broad_phase2_is_brute_force",
    "C32_dbvt_broad_phase3_is_brute_force",
    "C32_sweep_and_prune2",
    "C32_sweep_and_prune3",
    "C32_nan_bound_hides_others_refuted"
   ],
   "note": ""
  },
  {
   "property": "C33",
   "status": "proved",
   "theorems": [
    "C33_ray_query2_exact",
    "C33_ray_query3_exact",
    "C33_axis_parallel_ray_query3_refuted"
   ],
   "note": ""
  },
  {
   "property": "C30",
   "status": "proved",
   "theorems": [
    "C30_intersects_iff_balls_meet",
    "C30_intersects_symmetric",
    "C30_contains_point",
    "C30_contains_sphere_iff_subset",
    "C30_contains_box_iff_subset",
    "C30_contains_segment_iff_subset",
    "C30_box_contains_sphere_iff_subset",
    "C30_union_smallest_enclosing",
    "C30_union_box_encloses",
    "C30_union_box_misses_box_refuted",
    "C30_box_union_sphere_least",
    "C30_extents_tight",
    "C30_margin",
    "C30_transform_rigid",
    "C30_transform_scaling_refuted",
    "C30_ray_outside_first_hit",
    "C30_ray_inside_reports_point_behind",
    "C30_ray_discrete_iff_continuous",
    "C30_area"
   ],
   "note": ""
  },
  {
   "property": "C34",
   "status": "proved",
   "theorems": [
    "C34_point_exact",
    "C34_sphere_exact",
    "C34_box_exact",
    "C34_frustum_in_iff_inside",
    "C34_frustum_out_iff_behind_a_plane",
    "C34_frustum_out_disjoint",
    "C34_cross_is_conservative_refuted"
   ],
   "note": ""
  },
  {
   "property": "C35",
   "status": "proved",
   "theorems": [
    "C35_frustum_is_the_clip_volume",
    "C35_point_exact",
    "C35_point_agrees_with_frustum",
    "C35_box_clip",
    "C35_sphere_clip",
    "C35_ortho_matrix_volume",
    "C35_perspective_exact",
    "C35_perspective_far_panics_refuted",
    "C35_fov_exact",
    "C35_ortho_to_frustum_region",
    "C35_ortho_to_frustum_empty_refuted",
    "C35_unusable_matrix",
    "C35_every_matrix"
   ],
   "note": ""
  },
  {
   "property": "C36",
   "status": "proved",
   "theorems": [
    "C36_from_points_negated_distance",
    "C36_from_points_none_iff_collinear",
    "C36_from_point_normal_contains_point",
    "C36_normalize_same_plane",
    "C36_ray_hits_negated_plane",
    "C36_ray_documented_plane_refuted",
    "C36_plane_plane_test",
    "C36_plane_plane_exact",
    "C36_three_planes_point",
    "C36_three_planes_test",
    "C36_ray_in_plane_refuted",
    "C36_parallel_ray_hit_refuted",
    "C36_constructors"
   ],
   "note": ""
  },
  {
   "property": "C37",
   "status": "proved",
   "theorems": [
    "C37_ray_segment_exact",
    "C37_zero_direction_hits_everything_refuted",
    "C37_point_ray3_within_tolerance",
    "C37_point_ray2_within_tolerance",
    "C37_unnormalised_ray_misses_point_refuted"
   ],
   "note": ""
  },
  {
   "property": "C38",
   "status": "proved",
   "theorems": [
    "C38_circle",
    "C38_sphere",
    "C38_capsule",
    "C38_cylinder",
    "C38_rectangle",
    "C38_cuboid",
    "C38_quad",
    "C38_line",
    "C38_small_polygon",
    "C38_polyhedron",
    "C38_particle2",
    "C38_particle3",
    "C38_decomposed2",
    "C38_decomposed3",
    "C38_singular_panics",
    "C38_nonuniform_refuted",
    "C38_large_polygon_vertex",
    "C38_large_polygon_refuted",
    "C38_hill_climb_exact",
    "C38_hill_climb_side_refuted"
   ],
   "note": ""
  },
  {
   "property": "C39",
   "status": "proved",
   "theorems": [
    "C39_no_panic",
    "C39_hit_encloses_origin",
    "C39_hit_means_overlap",
    "C39_none_means_separated",
    "C39_polygons_never_exhausted",
    "C39_polygons_none_iff_separated",
    "C39_polygons_overlap_detected",
    "C39_small_polygons",
    "C39_rectangles",
    "C39_primitives",
    "C39_tolerance_reports_separated_refuted"
   ],
   "note": ""
  },
  {
   "property": "C40",
   "status": "proved",
   "theorems": [
    "C40_hit_encloses_origin",
    "C40_hit_means_overlap",
    "C40_none_means_separated",
    "C40_no_panic",
    "C40_primitives",
    "C40_overlapping_cubes_missed_refuted"
   ],
   "note": ""
  },
  {
   "property": "C41",
   "status": "proved",
   "theorems": [
    "C41_contact_good",
    "C41_polygon_contact_tight",
    "C41_zero_normal",
    "C41_collision_only",
    "C41_no_panic",
    "C41_rectangles",
    "C41_small_polygons",
    "C41_primitives",
    "C41_origin_on_edge_refuted",
    "C41_origin_on_edge_true_depth"
   ],
   "note": ""
  },
  {
   "property": "C42",
   "status": "proved",
   "theorems": [
    "C42_distance2",
    "C42_colliding2",
    "C42_distance3",
    "C42_colliding3",
    "C42_particles_refuted",
    "C42_triangle_none_refuted",
    "C42_tetrahedron_panics_refuted",
    "C42_overlap_distance_refuted",
    "C42_primitives2",
    "C42_primitives3"
   ],
   "note": ""
  },
  {
   "property": "C43",
   "status": "proved",
   "theorems": [
    "C43_no_panic",
    "C43_none_means_no_meeting",
    "C43_time_of_impact",
    "C43_meeting_found",
    "C43_contact_point",
    "C43_primitives2",
    "C43_none_means_no_meeting3",
    "C43_time_of_impact3",
    "C43_contact_point3",
    "C43_impact3",
    "C43_primitives3",
    "C43_resting_discs_refuted",
    "C43_initial_overlap_normal_refuted",
    "C43_contact_point_refuted"
   ],
   "note": "The loop is modelled with fuel and the theorems speak about the runs that return; that it returns for shapes with corners is C66 (refuted in f32)."
  },
  {
   "property": "C44",
   "status": "proved",
   "theorems": [
    "C44_deepest",
    "C44_nan_depth_panics",
    "C44_collision_only",
    "C44_collision_only_toi",
    "C44_collision_only_none",
    "C44_earliest",
    "C44_min_distance",
    "C44_empty_shape",
    "C44_intersection2",
    "C44_contact2",
    "C44_distance2",
    "C44_toi2",
    "C44_hit3",
    "C44_intersection3",
    "C44_contact3",
    "C44_distance3",
    "C44_toi3",
    "C44_near3",
    "C44_toi_point2",
    "C44_toi_point3",
    "C44_runs",
    "C44_collision_only_time_refuted"
   ],
   "note": ""
  },
  {
   "property": "C45",
   "status": "proved",
   "theorems": [
    "C45_bound2_smallest",
    "C45_polygon_bound",
    "C45_bound2_contains",
    "C45_transformed_bound2",
    "C45_bound3_smallest",
    "C45_polyhedron_bound",
    "C45_bound3_contains",
    "C45_transformed_bound3",
    "C45_decomposed2_affine",
    "C45_decomposed3_affine",
    "C45_polygon_bound_refuted",
    "C45_sphere_exact",
    "C45_sphere_tight",
    "C45_cube_sphere_refuted"
   ],
   "note": ""
  },
  {
   "property": "C46",
   "status": "proved",
   "theorems": [
    "C46_circle_test_iff_hit",
    "C46_sphere_test_iff_hit",
    "C46_circle_test_exact",
    "C46_sphere_test_exact",
    "C46_circle_outside_exact",
    "C46_sphere_outside_exact",
    "C46_circle_hit_on_boundary",
    "C46_sphere_hit_on_boundary",
    "C46_inside_missed_refuted",
    "C46_inside_behind_refuted",
    "C46_direction_length_refuted"
   ],
   "note": ""
  },
  {
   "property": "C47",
   "status": "proved",
   "theorems": [
    "C47_cylinder_test_exact",
    "C47_cylinder_test_sound",
    "C47_cylinder_test_complete",
    "C47_cylinder_hit_on_surface",
    "C47_cylinder_hit_from_side",
    "C47_cylinder_hit_from_above",
    "C47_cylinder_axis_test",
    "C47_cylinder_axis_hit",
    "C47_top_entry_disagreement_refuted",
    "C47_bottom_entry_missed_refuted",
    "C47_from_below_reports_exit_refuted",
    "C47_axis_ray_ignores_radius_refuted",
    "C47_inside_missed_refuted"
   ],
   "note": ""
  },
  {
   "property": "C48",
   "status": "proved",
   "theorems": [
    "C48_capsule_test_exact",
    "C48_capsule_test_sound",
    "C48_capsule_hit_from_ends",
    "C48_capsule_hit_axis",
    "C48_capsule_hit_from_side",
    "C48_end_entry_reports_outside_refuted",
    "C48_spurious_point_refuted",
    "C48_inside_missed_refuted",
    "C48_end_entry_disagreement_refuted"
   ],
   "note": ""
  },
  {
   "property": "C49",
   "status": "proved",
   "theorems": [
    "C49_cuboid_hit_outside",
    "C49_cuboid_hit_inside",
    "C49_cuboid_face_ray_missed",
    "C49_cuboid_test_agrees",
    "C49_quad_hit",
    "C49_quad_hit_at_origin",
    "C49_quad_edge_ray_missed",
    "C49_quad_test_agrees",
    "C49_rectangle_hit_outside",
    "C49_rectangle_hit_inside",
    "C49_rectangle_side_ray_missed",
    "C49_rectangle_test_agrees",
    "C49_face_ray_missed_refuted"
   ],
   "note": ""
  },
  {
   "property": "C50",
   "status": "proved",
   "theorems": [
    "C50_panics_iff_empty",
    "C50_polygon_ray_from_outside",
    "C50_polygon_point_is_first",
    "C50_polygon_inside_missed",
    "C50_last_side_ignored_refuted"
   ],
   "note": ""
  },
  {
   "property": "C51",
   "status": "proved",
   "theorems": [
    "C51_transformed_hit2",
    "C51_transformed_hit3",
    "C51_transformed_test2",
    "C51_transformed_test3",
    "C51_singular_panics",
    "C51_decomposed2_inverse",
    "C51_affine2_inverse",
    "C51_decomposed3_inverse",
    "C51_identity2",
    "C51_identity3",
    "C51_circle_moved",
    "C51_sphere_moved",
    "C51_polygon_moved",
    "C51_scaled_circle_missed_refuted"
   ],
   "note": ""
  },
  {
   "property": "C52",
   "status": "proved",
   "theorems": [
    "C52_sweep2",
    "C52_sweep3",
    "C52_particle_circle",
    "C52_particle_sphere",
    "C52_start_inside_refuted",
    "C52_resting_particle_missed_refuted"
   ],
   "note": ""
  },
  {
   "property": "C53",
   "status": "proved",
   "theorems": [
    "C53_construction",
    "C53_faces_in_order",
    "C53_bounds_of_vertices",
    "C53_no_faces"
   ],
   "note": ""
  },
  {
   "property": "C54",
   "status": "proved",
   "theorems": [
    "C54_support",
    "C54_open_surface_refuted",
    "C54_nan_direction_refuted",
    "C54_flat_vertex_refuted"
   ],
   "note": ""
  },
  {
   "property": "C55",
   "status": "proved",
   "theorems": [
    "C55_terminates",
    "C55_sound",
    "C55_exact",
    "C55_no_faces_panics",
    "C55_flat_faces_refuted"
   ],
   "note": ""
  },
  {
   "property": "C56",
   "status": "proved",
   "theorems": [
    "C56_vertices",
    "C56_no_copies",
    "C56_exact",
    "C56_last_vertex_panics",
    "C56_front_copy_refuted"
   ],
   "note": ""
  },
  {
   "property": "C57",
   "status": "proved",
   "theorems": [
    "C57_contact_good",
    "C57_polyhedron_contact_tight",
    "C57_collision_only",
    "C57_no_panic",
    "C57_point",
    "C57_primitives",
    "C57_flat_primitives",
    "C57_particle",
    "C57_point_outside_refuted"
   ],
   "note": ""
  },
  {
   "property": "C58",
   "status": "proved",
   "theorems": [
    "C58_primitive2",
    "C58_primitive3",
    "C58_decomposed2_finite",
    "C58_decomposed3_finite",
    "C58_polyhedron_without_faces_panics",
    "C58_polyhedron_with_faces",
    "C58_particle3",
    "C58_particle2"
   ],
   "note": ""
  },
  {
   "property": "C59",
   "status": "proved",
   "theorems": [
    "C59_endpoints3",
    "C59_straight3",
    "C59_scale_between3",
    "C59_quaternion_length",
    "C59_quaternion_of_matrix",
    "C59_basis3_endpoints",
    "C59_matrix_acts",
    "C59_quaternion_refuted",
    "C59_basis2",
    "C59_basis2_between",
    "C59_basis2_refuted",
    "C59_endpoints2",
    "C59_straight2",
    "C59_translation3",
    "C59_translation2",
    "C59_translation_refuted"
   ],
   "note": ""
  },
  {
   "property": "C60",
   "status": "proved",
   "theorems": [
    "C60_frustum_query_exact"
   ],
   "note": ""
  },
  {
   "property": "C61",
   "status": "proved",
   "theorems": [
    "C61_sphere_query_exact",
    "C61_broad_phase_is_brute_force",
    "C61_frustum_query_exact",
    "C61_ray_query_exact",
    "C61_ray_query_refuted"
   ],
   "note": ""
  },
  {
   "property": "C62",
   "status": "proved",
   "theorems": [
    "C62_brute_force2",
    "C62_brute_force3",
    "C62_sweep_and_prune2",
    "C62_sweep_and_prune3",
    "C62_dbvt2",
    "C62_dbvt3"
   ],
   "note": ""
  },
  {
   "property": "C63",
   "status": "proved",
   "theorems": [
    "C63_intersect2",
    "C63_distance2",
    "C63_time_of_impact2",
    "C63_contact2",
    "C63_intersect3",
    "C63_contact3",
    "C63_supports2",
    "C63_supports3",
    "C63_not_below",
    "C63_nan_collides2",
    "C63_nan_contact2",
    "C63_nan_distance2",
    "C63_nan_time_of_impact2",
    "C63_nan_collides3",
    "C63_nan_contact3",
    "C63_nan_distance3",
    "C63_nan_time_of_impact3",
    "C63_nan_displacement2",
    "C63_nan_displacement3",
    "C63_bodies_answer2",
    "C63_bodies_answer3",
    "C63_lost_body2",
    "C63_lost_body3",
    "C63_f32_overflow_panic_refuted",
    "C63_f32_overflow_collides_refuted"
   ],
   "note": ""
  },
  {
   "property": "C64",
   "status": "proved",
   "theorems": [
    "C64_no_panic",
    "C64_same_answer",
    "C64_contact_true",
    "C64_same_contact",
    "C64_decomposed2",
    "C64_primitives",
    "C64_primitives_same_contact"
   ],
   "note": ""
  },
  {
   "property": "C65",
   "status": "proved",
   "theorems": [
    "C65_ulps_zero",
    "C65_ulps_zero3",
    "C65_epsilon",
    "C65_symmetric",
    "C65_reflexive",
    "C65_nan",
    "C65_abs_close",
    "C65_ulps_close",
    "C65_abs_strictest",
    "C65_evaluate",
    "C65_transitive_refuted",
    "C65_same_plane_refuted"
   ],
   "note": ""
  },
  {
   "property": "C66",
   "status": "proved",
   "theorems": [
    "C66_terminates",
    "C66_primitives2",
    "C66_exact_time",
    "C66_never_returns_refuted",
    "C66_never_returns3_refuted",
    "C66_never_returns_exact3_refuted",
    "C66_assertion_panics_refuted",
    "C66_flat_face_panics_refuted"
   ],
   "note": ""
  },
  {
   "property": "C67",
   "status": "proved",
   "theorems": [
    "C67_rectangles",
    "C67_disjoint_rectangles",
    "C67_circles",
    "C67_spheres",
    "C67_cuboids_edge",
    "C67_corner_none_refuted",
    "C67_never_found_refuted"
   ],
   "note": ""
  },
  {
   "property": "C68",
   "status": "proved",
   "theorems": [
    "C68_vertex",
    "C68_points2",
    "C68_points3",
    "C68_box2",
    "C68_box3",
    "C68_cap",
    "C68_disc",
    "C68_ball",
    "C68_disc_short",
    "C68_disc_long",
    "C68_disc_refuted",
    "C68_overflow_refuted"
   ],
   "note": ""
  }
 ]
}