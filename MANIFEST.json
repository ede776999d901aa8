{
 "claims": [
  {
   "property": "C01",
   "status": "proved",
   "theorems": [
    "C01_dynamic_index_vec_is_vec",
    "C01_dynamic_index_vec_from_u8_is_vec",
    "C01_dynamic_index_vec_new_is_vec"
   ],
   "note": ""
  },
  {
   "property": "C02",
   "status": "proved",
   "theorems": [
    "C02_u32_index_vec_exact_below_2_32",
    "C02_u32_index_vec_truncates"
   ],
   "note": ""
  },
  {
   "property": "C03",
   "status": "proved",
   "theorems": [
    "C03_mesh_history_refines_spec",
    "C03_mesh_ids_stay_valid"
   ],
   "note": ""
  },
  {
   "property": "C04",
   "status": "proved",
   "theorems": [
    "C04_try_add_connection_outcome",
    "C04_change_vertex_outcome"
   ],
   "note": ""
  },
  {
   "property": "C05",
   "status": "proved",
   "theorems": [
    "C05_half_edge_topology"
   ],
   "note": ""
  },
  {
   "property": "C06",
   "status": "proved",
   "theorems": [
    "C06_edges_of_face_follow_vertices"
   ],
   "note": ""
  },
  {
   "property": "C07",
   "status": "proved",
   "theorems": [
    "C07_edges_originating_exact"
   ],
   "note": ""
  },
  {
   "property": "C08",
   "status": "proved",
   "theorems": [
    "C08_edges_ending_exact",
    "C08_edges_of_vertex_exact",
    "C08_faces_of_vertex_exact"
   ],
   "note": ""
  },
  {
   "property": "C09",
   "status": "proved",
   "theorems": [
    "C09_twin_is_successor_of_opposite",
    "C09_no_twin_means_no_opposite",
    "C09_twin_never_opposite"
   ],
   "note": ""
  },
  {
   "property": "C10",
   "status": "proved",
   "theorems": [
    "C10_from_iterator_3d",
    "C10_from_iterator_2d"
   ],
   "note": ""
  },
  {
   "property": "C11",
   "status": "proved",
   "theorems": [
    "C11_new_3d",
    "C11_new_2d",
    "C11_nan_accepted"
   ],
   "note": ""
  },
  {
   "property": "C12",
   "status": "proved",
   "theorems": [
    "C12_merge_3d",
    "C12_merge_2d",
    "C12_merge_laws_3d",
    "C12_merge_laws_2d"
   ],
   "note": ""
  },
  {
   "property": "C13",
   "status": "proved",
   "theorems": [
    "C13_containment_3d",
    "C13_containment_2d"
   ],
   "note": ""
  },
  {
   "property": "C14",
   "status": "proved",
   "theorems": [
    "C14_collides_with_3d",
    "C14_collides_with_2d"
   ],
   "note": ""
  },
  {
   "property": "C15",
   "status": "proved",
   "theorems": [
    "C15_distance_to_point_3d",
    "C15_distance_to_point_2d",
    "C15_distance_to_box_3d",
    "C15_distance_to_box_2d"
   ],
   "note": ""
  },
  {
   "property": "C16",
   "status": "proved",
   "theorems": [
    "C16_exact_3d",
    "C16_exact_2d",
    "C16_f64_collapse_3d",
    "C16_f64_collapse_2d"
   ],
   "note": ""
  },
  {
   "property": "C17",
   "status": "proved",
   "theorems": [
    "C17_kdtree_keeps_points"
   ],
   "note": ""
  },
  {
   "property": "C18",
   "status": "proved",
   "theorems": [
    "C18_in_sphere_exact",
    "C18_in_sphere_sound_f64",
    "C18_in_sphere_f64_refuted"
   ],
   "note": ""
  },
  {
   "property": "C19",
   "status": "proved",
   "theorems": [
    "C19_in_box_exact",
    "C19_in_box_sound_f64",
    "C19_in_box_f64_refuted"
   ],
   "note": ""
  },
  {
   "property": "C20",
   "status": "proved",
   "theorems": [
    "C20_nearest_exact",
    "C20_nearest_empty"
   ],
   "note": ""
  },
  {
   "property": "C21",
   "status": "proved",
   "theorems": [
    "C21_knearest_count",
    "C21_knearest_refuted"
   ],
   "note": ""
  },
  {
   "property": "C22",
   "status": "proved",
   "theorems": [
    "C22_octree_sound",
    "C22_octree_keeps_off_grid"
   ],
   "note": ""
  },
  {
   "property": "C23",
   "status": "proved",
   "theorems": [
    "C23_octree_loses_boundary",
    "C23_octree_corners_refuted"
   ],
   "note": ""
  },
  {
   "property": "C24",
   "status": "proved",
   "theorems": [
    "C24_any_3d",
    "C24_any_2d"
   ],
   "note": ""
  },
  {
   "property": "C25",
   "status": "proved",
   "theorems": [
    "C25_crossing_3d",
    "C25_crossing_2d",
    "C25_crossing_once_refuted"
   ],
   "note": ""
  },
  {
   "property": "C26",
   "status": "proved",
   "theorems": [
    "C26_colliding_3d",
    "C26_colliding_2d"
   ],
   "note": ""
  },
  {
   "property": "C27",
   "status": "proved",
   "theorems": [
    "C27_unbounded_3d",
    "C27_unbounded_2d"
   ],
   "note": ""
  },
  {
   "property": "C28",
   "status": "proved",
   "theorems": [
    "C28_combinators",
    "C28_de_morgan"
   ],
   "note": ""
  },
  {
   "property": "C29",
   "status": "proved",
   "theorems": [
    "C29_filter_random_accessible"
   ],
   "note": ""
  },
  {
   "property": "C30",
   "status": "proved",
   "theorems": [
    "C30_all",
    "C30_all_order"
   ],
   "note": ""
  },
  {
   "property": "C31",
   "status": "proved",
   "theorems": [
    "C31_any_never_restricts",
    "C31_any_is_identity",
    "C31_any_refuted"
   ],
   "note": ""
  },
  {
   "property": "C32",
   "status": "proved",
   "theorems": [
    "C32_union"
   ],
   "note": ""
  },
  {
   "property": "C33",
   "status": "proved",
   "theorems": [
    "C33_apply_view"
   ],
   "note": ""
  },
  {
   "property": "C34",
   "status": "proved",
   "theorems": [
    "C34_sphere",
    "C34_circle",
    "C34_box2",
    "C34_box3",
    "C34_box_of_bounding_box",
    "C34_outlier"
   ],
   "note": ""
  },
  {
   "property": "C35",
   "status": "proved",
   "theorems": [
    "C35_pack_dupes_lossless",
    "C35_pack_dupes_any"
   ],
   "note": ""
  },
  {
   "property": "C36",
   "status": "proved",
   "theorems": [
    "C36_heal_mesh"
   ],
   "note": ""
  },
  {
   "property": "C37",
   "status": "proved",
   "theorems": [
    "C37_heal_mesh_keeps_duplicates_refuted",
    "C37_heal_mesh_face_count"
   ],
   "note": ""
  },
  {
   "property": "C38",
   "status": "proved",
   "theorems": [
    "C38_subdivide_linear",
    "C38_midpoint"
   ],
   "note": ""
  },
  {
   "property": "C39",
   "status": "proved",
   "theorems": [
    "C39_unify_only_flips"
   ],
   "note": ""
  },
  {
   "property": "C40",
   "status": "proved",
   "theorems": [
    "C40_roundtrip",
    "C40_no_box",
    "C40_never_fails",
    "C40_u64_always_fails_refuted"
   ],
   "note": ""
  },
  {
   "property": "C41",
   "status": "proved",
   "theorems": [
    "C41_lowest_point_missing_refuted",
    "C41_single_point_refuted"
   ],
   "note": ""
  },
  {
   "property": "C42",
   "status": "proved",
   "theorems": [
    "C42_hull"
   ],
   "note": ""
  },
  {
   "property": "C43",
   "status": "proved",
   "theorems": [
    "C43_simplified"
   ],
   "note": ""
  },
  {
   "property": "C44",
   "status": "proved",
   "theorems": [
    "C44_product_entries",
    "C44_scalar_product",
    "C44_monoid",
    "C44_product_composes",
    "C44_affine_matrices",
    "C44_projective_compose_refuted",
    "C44_zeroes"
   ],
   "note": ""
  },
  {
   "property": "C45",
   "status": "proved",
   "theorems": [
    "C45_rotation_2d",
    "C45_rotation_axis",
    "C45_rotation_3d",
    "C45_translation_scale",
    "C45_cloud_2d"
   ],
   "note": ""
  },
  {
   "property": "C46",
   "status": "proved",
   "theorems": [
    "C46_pipe3_history",
    "C46_pipe4_history",
    "C46_pipes_act"
   ],
   "note": ""
  },
  {
   "property": "C47",
   "status": "proved",
   "theorems": [
    "C47_norm3",
    "C47_norm2",
    "C47_norm_f64_refuted"
   ],
   "note": ""
  },
  {
   "property": "C48",
   "status": "proved",
   "theorems": [
    "C48_new",
    "C48_sums",
    "C48_products",
    "C48_quotients",
    "C48_promise_refuted"
   ],
   "note": ""
  },
  {
   "property": "C49",
   "status": "proved",
   "theorems": [
    "C49_sphere_z_is_y",
    "C49_distance_to_own_center"
   ],
   "note": ""
  },
  {
   "property": "C50",
   "status": "proved",
   "theorems": [
    "C50_from_bb_twice_the_size_refuted",
    "C50_move",
    "C50_corners_outside",
    "C50_some_corner_outside",
    "C50_apart_boxes_collide_refuted"
   ],
   "note": ""
  },
  {
   "property": "C51",
   "status": "proved",
   "theorems": [
    "C51_sat_separates",
    "C51_sat_symmetric",
    "C51_colliders",
    "C51_sat_aabb_exact",
    "C51_false_positive_refuted"
   ],
   "note": ""
  },
  {
   "property": "C52",
   "status": "proved",
   "theorems": [
    "C52_line_box",
    "C52_along_axis_refuted"
   ],
   "note": ""
  },
  {
   "property": "C53",
   "status": "proved",
   "theorems": [
    "C53_length_3d",
    "C53_length_2d",
    "C53_center_of_gravity_3d",
    "C53_center_of_gravity_2d"
   ],
   "note": ""
  },
  {
   "property": "C54",
   "status": "proved",
   "theorems": [
    "C54_segments",
    "C54_edits"
   ],
   "note": ""
  },
  {
   "property": "C55",
   "status": "proved",
   "theorems": [
    "C55_insertion",
    "C55_append_disagrees"
   ],
   "note": ""
  },
  {
   "property": "C56",
   "status": "proved",
   "theorems": [
    "C56_preorder",
    "C56_contracts_refuted"
   ],
   "note": ""
  },
  {
   "property": "C57",
   "status": "proved",
   "theorems": [
    "C57_terminated_line",
    "C57_stripped_unique",
    "C57_unterminated_line",
    "C57_end",
    "C57_all_lines"
   ],
   "note": ""
  },
  {
   "property": "C58",
   "status": "proved",
   "theorems": [
    "C58_xyz_round_trip",
    "C58_xy_round_trip",
    "C58_number_texts_exist",
    "C58_comma_space_refuted"
   ],
   "note": ""
  },
  {
   "property": "C59",
   "status": "proved",
   "theorems": [
    "C59_xyz_last_coordinate",
    "C59_wrong_point_refuted"
   ],
   "note": ""
  },
  {
   "property": "C60",
   "status": "proved",
   "theorems": [
    "C60_colors",
    "C60_round_trip"
   ],
   "note": ""
  },
  {
   "property": "C61",
   "status": "proved",
   "theorems": [
    "C61_round_trip",
    "C61_identical"
   ],
   "note": ""
  },
  {
   "property": "C62",
   "status": "proved",
   "theorems": [
    "C62_text_points",
    "C62_text_mesh",
    "C62_binary_points",
    "C62_binary_mesh",
    "C62_wrong_order",
    "C62_wrong_order_binary",
    "C62_types_refuted"
   ],
   "note": ""
  },
  {
   "property": "C63",
   "status": "proved",
   "theorems": [
    "C63_vertices",
    "C63_mesh_vertices",
    "C63_faces"
   ],
   "note": ""
  },
  {
   "property": "C64",
   "status": "proved",
   "theorems": [
    "C64_saves",
    "C64_triplets",
    "C64_duped",
    "C64_unique",
    "C64_flat_refuted",
    "C64_same"
   ],
   "note": ""
  },
  {
   "property": "C65",
   "status": "proved",
   "theorems": [
    "C65_truncated"
   ],
   "note": ""
  },
  {
   "property": "C66",
   "status": "proved",
   "theorems": [
    "C66_complete",
    "C66_missing",
    "C66_count",
    "C66_short_header",
    "C66_duped"
   ],
   "note": ""
  },
  {
   "property": "C67",
   "status": "proved",
   "theorems": [
    "C67_at_most_one",
    "C67_file",
    "C67_refuted"
   ],
   "note": ""
  },
  {
   "property": "C68",
   "status": "proved",
   "theorems": [
    "C68_bare",
    "C68_refuted"
   ],
   "note": ""
  },
  {
   "property": "C69",
   "status": "proved",
   "theorems": [
    "C69_positions",
    "C69_error"
   ],
   "note": ""
  },
  {
   "property": "C70",
   "status": "proved",
   "theorems": [
    "C70_mesh",
    "C70_points",
    "C70_indices"
   ],
   "note": ""
  },
  {
   "property": "C71",
   "status": "proved",
   "theorems": [
    "C71_mesh",
    "C71_points",
    "C71_not_triangle",
    "C71_indices"
   ],
   "note": ""
  },
  {
   "property": "C72",
   "status": "proved",
   "theorems": [
    "C72_read_unsigned",
    "C72_decode_encode",
    "C72_encoding_exists",
    "C72_reversed",
    "C72_read_signed",
    "C72_read_f64",
    "C72_read_f32",
    "C72_short",
    "C72_f64_round_trip",
    "C72_f32_round_trip",
    "C72_f32_as_f64",
    "C72_f64_as_f32",
    "C72_array",
    "C72_slice_be_refuted"
   ],
   "note": ""
  },
  {
   "property": "C73",
   "status": "proved",
   "theorems": [
    "C73_blocks"
   ],
   "note": ""
  },
  {
   "property": "C74",
   "status": "proved",
   "theorems": [
    "C74_xyz",
    "C74_xy",
    "C74_xyz_start"
   ],
   "note": ""
  },
  {
   "property": "C75",
   "status": "proved",
   "theorems": [
    "C75_out_of_range_face_id_aliases"
   ],
   "note": ""
  },
  {
   "property": "C76",
   "status": "proved",
   "theorems": [
    "C76_from_iterator_3d_overflow",
    "C76_from_iterator_2d_overflow"
   ],
   "note": ""
  },
  {
   "property": "C77",
   "status": "proved",
   "theorems": [
    "C77_octree_depth_refuted",
    "C77_octree_shallow"
   ],
   "note": ""
  },
  {
   "property": "C78",
   "status": "proved",
   "theorems": [
    "C78_intersection_candidates"
   ],
   "note": ""
  },
  {
   "property": "C79",
   "status": "proved",
   "theorems": [
    "C79_f64_pruning_refuted"
   ],
   "note": ""
  },
  {
   "property": "C80",
   "status": "proved",
   "theorems": [
    "C80_pipeline"
   ],
   "note": ""
  },
  {
   "property": "C81",
   "status": "proved",
   "theorems": [
    "C81_box_filter_corner_refuted"
   ],
   "note": ""
  },
  {
   "property": "C82",
   "status": "proved",
   "theorems": [
    "C82_unify_follows_neighbours"
   ],
   "note": ""
  },
  {
   "property": "C83",
   "status": "proved",
   "theorems": [
    "C83_unify_planar"
   ],
   "note": ""
  },
  {
   "property": "C84",
   "status": "proved",
   "theorems": [
    "C84_set_size",
    "C84_set_size_flat"
   ],
   "note": ""
  },
  {
   "property": "C85",
   "status": "proved",
   "theorems": [
    "C85_center"
   ],
   "note": ""
  },
  {
   "property": "C86",
   "status": "proved",
   "theorems": [
    "C86_look_at_target",
    "C86_look_at_isometry_iff",
    "C86_look_at_distorts_refuted"
   ],
   "note": ""
  },
  {
   "property": "C87",
   "status": "proved",
   "theorems": [
    "C87_sizes_3d",
    "C87_sizes_2d",
    "C87_collides_total"
   ],
   "note": ""
  },
  {
   "property": "C88",
   "status": "proved",
   "theorems": [
    "C88_center_3d",
    "C88_center_2d",
    "C88_center_outside_refuted"
   ],
   "note": ""
  },
  {
   "property": "C89",
   "status": "proved",
   "theorems": [
    "C89_box2_exact",
    "C89_sphere_box_exact",
    "C89_box_exact",
    "C89_sphere_box_panics",
    "C89_circle_box_panics",
    "C89_box_box_panics",
    "C89_unwrap_refuted"
   ],
   "note": ""
  },
  {
   "property": "C90",
   "status": "proved",
   "theorems": [
    "C90_tri_new"
   ],
   "note": ""
  },
  {
   "property": "C91",
   "status": "proved",
   "theorems": [
    "C91_ray_triangle",
    "C91_ray_mesh",
    "C91_shared_edge_missed_refuted"
   ],
   "note": ""
  },
  {
   "property": "C92",
   "status": "proved",
   "theorems": [
    "C92_closest",
    "C92_index",
    "C92_for_each",
    "C92_behind_refuted"
   ],
   "note": ""
  },
  {
   "property": "C93",
   "status": "proved",
   "theorems": [
    "C93_sort_3d",
    "C93_sort_2d",
    "C93_ties_refuted",
    "C93_nan_3d",
    "C93_nan_2d"
   ],
   "note": ""
  },
  {
   "property": "C94",
   "status": "proved",
   "theorems": [
    "C94_scale_3d",
    "C94_scale_2d"
   ],
   "note": ""
  },
  {
   "property": "C95",
   "status": "proved",
   "theorems": [
    "C95_join",
    "C95_extrude",
    "C95_distance_nd"
   ],
   "note": ""
  },
  {
   "property": "C96",
   "status": "proved",
   "theorems": [
    "C96_distance",
    "C96_epsilon_refuted",
    "C96_closed_line_refuted",
    "C96_negative_epsilon_refuted",
    "C96_single_point_refuted"
   ],
   "note": ""
  },
  {
   "property": "C97",
   "status": "proved",
   "theorems": [
    "C97_fourth",
    "C97_reserve"
   ],
   "note": ""
  },
  {
   "property": "C98",
   "status": "proved",
   "theorems": [
    "C98_mesh",
    "C98_points"
   ],
   "note": ""
  },
  {
   "property": "C99",
   "status": "proved",
   "theorems": [
    "C99_text",
    "C99_text_any",
    "C99_binary",
    "C99_binary_refuted"
   ],
   "note": ""
  },
  {
   "property": "C100",
   "status": "proved",
   "theorems": [
    "C100_mesh",
    "C100_points",
    "C100_no_faces",
    "C100_errors"
   ],
   "note": ""
  },
  {
   "property": "C101",
   "status": "proved",
   "theorems": [
    "C101_obj",
    "C101_obj_points",
    "C101_off_counts",
    "C101_off_vertex",
    "C101_off_face",
    "C101_pts_count",
    "C101_pts_vertex"
   ],
   "note": ""
  },
  {
   "property": "C102",
   "status": "proved",
   "theorems": [
    "C102_obj_mesh",
    "C102_obj_points",
    "C102_gcode",
    "C102_off_mesh",
    "C102_off_points",
    "C102_pts",
    "C102_panics"
   ],
   "note": ""
  },
  {
   "property": "C103",
   "status": "proved",
   "theorems": [
    "C103_fused"
   ],
   "note": ""
  },
  {
   "property": "C104",
   "status": "proved",
   "theorems": [
    "C104_off_vertices",
    "C104_off_faces",
    "C104_pts"
   ],
   "note": ""
  },
  {
   "property": "C105",
   "status": "proved",
   "theorems": [
    "C105_polygon"
   ],
   "note": ""
  },
  {
   "property": "C106",
   "status": "proved",
   "theorems": [
    "C106_ignored",
    "C106_counts_refuted"
   ],
   "note": ""
  },
  {
   "property": "C107",
   "status": "proved",
   "theorems": [
    "C107_ignored",
    "C107_refuted"
   ],
   "note": ""
  },
  {
   "property": "C108",
   "status": "proved",
   "theorems": [
    "C108_blocks",
    "C108_truncated",
    "C108_point",
    "C108_trailing",
    "C108_rows",
    "C108_matrix",
    "C108_header"
   ],
   "note": ""
  },
  {
   "property": "C109",
   "status": "proved",
   "theorems": [
    "C109_fourth_row",
    "C109_refuted"
   ],
   "note": ""
  },
  {
   "property": "C110",
   "status": "proved",
   "theorems": [
    "C110_total",
    "C110_refuted"
   ],
   "note": ""
  },
  {
   "property": "C111",
   "status": "proved",
   "theorems": [
    "C111_las",
    "C111_continues",
    "C111_ptx",
    "C111_psl"
   ],
   "note": ""
  },
  {
   "property": "C112",
   "status": "proved",
   "theorems": [
    "C112_points"
   ],
   "note": ""
  },
  {
   "property": "C113",
   "status": "proved",
   "theorems": [
    "C113_header",
    "C113_iff",
    "C113_refuted"
   ],
   "note": ""
  },
  {
   "property": "C114",
   "status": "proved",
   "theorems": [
    "C114_truncated"
   ],
   "note": ""
  },
  {
   "property": "C115",
   "status": "proved",
   "theorems": [
    "C115_iff",
    "C115_total"
   ],
   "note": ""
  },
  {
   "property": "C116",
   "status": "proved",
   "theorems": [
    "C116_signature",
    "C116_refuted"
   ],
   "note": ""
  },
  {
   "property": "C117",
   "status": "proved",
   "theorems": [
    "C117_edge_neighbours",
    "C117_edge_neighbours_of_manifold",
    "C117_unknown_face",
    "C117_neighbours_missed_refuted"
   ],
   "note": ""
  },
  {
   "property": "C118",
   "status": "proved",
   "theorems": [
    "C118_vertex_neighbours",
    "C118_itself_included",
    "C118_faces_of_vertex",
    "C118_unknown_face"
   ],
   "note": ""
  },
  {
   "property": "C119",
   "status": "proved",
   "theorems": [
    "C119_vertex_edits_keep_edges"
   ],
   "note": ""
  },
  {
   "property": "C120",
   "status": "proved",
   "theorems": [
    "C120_candidates",
    "C120_no_data"
   ],
   "note": ""
  },
  {
   "property": "C121",
   "status": "proved",
   "theorems": [
    "C121_candidates_are_near"
   ],
   "note": ""
  },
  {
   "property": "C122",
   "status": "proved",
   "theorems": [
    "C122_cluster_vertices",
    "C122_no_box",
    "C122_too_big"
   ],
   "note": ""
  },
  {
   "property": "C123",
   "status": "proved",
   "theorems": [
    "C123_moves_little",
    "C123_zero_size_refuted",
    "C123_negative_size"
   ],
   "note": ""
  },
  {
   "property": "C124",
   "status": "proved",
   "theorems": [
    "C124_bezier",
    "C124_bezier_hull",
    "C124_too_few"
   ],
   "note": ""
  },
  {
   "property": "C125",
   "status": "proved",
   "theorems": [
    "C125_debug_panics",
    "C125_release_panics",
    "C125_wrong_coefficients_refuted",
    "C125_end_missing_refuted"
   ],
   "note": ""
  },
  {
   "property": "C126",
   "status": "proved",
   "theorems": [
    "C126_linear",
    "C126_too_few"
   ],
   "note": ""
  },
  {
   "property": "C127",
   "status": "proved",
   "theorems": [
    "C127_lost_point_refuted",
    "C127_repeated_point_refuted",
    "C127_one_point_refuted",
    "C127_no_points",
    "C127_at_most"
   ],
   "note": ""
  },
  {
   "property": "C128",
   "status": "proved",
   "theorems": [
    "C128_cosine",
    "C128_between"
   ],
   "note": ""
  },
  {
   "property": "C129",
   "status": "proved",
   "theorems": [
    "C129_rectangle",
    "C129_rectangle_rounding_refuted"
   ],
   "note": ""
  },
  {
   "property": "C130",
   "status": "proved",
   "theorems": [
    "C130_arc",
    "C130_backwards_refuted",
    "C130_one_point_refuted",
    "C130_no_points"
   ],
   "note": ""
  },
  {
   "property": "C131",
   "status": "proved",
   "theorems": [
    "C131_ellipse",
    "C131_lower_half_refuted"
   ],
   "note": ""
  },
  {
   "property": "C132",
   "status": "proved",
   "theorems": [
    "C132_involut",
    "C132_start_ignored_refuted"
   ],
   "note": ""
  },
  {
   "property": "C133",
   "status": "proved",
   "theorems": [
    "C133_history",
    "C133_copy",
    "C133_index_wraps_refuted"
   ],
   "note": ""
  },
  {
   "property": "C134",
   "status": "proved",
   "theorems": [
    "C134_box",
    "C134_two_points_refuted",
    "C134_contains_pushed_refuted"
   ],
   "note": ""
  },
  {
   "property": "C135",
   "status": "proved",
   "theorems": [
    "C135_move",
    "C135_order",
    "C135_move_back_refuted"
   ],
   "note": ""
  },
  {
   "property": "C136",
   "status": "proved",
   "theorems": [
    "C136_from_vec",
    "C136_push_after_from_refuted",
    "C136_set_partial_write_refuted"
   ],
   "note": ""
  },
  {
   "property": "C137",
   "status": "proved",
   "theorems": [
    "C137_pairs",
    "C137_exact",
    "C137_empty_body"
   ],
   "note": ""
  },
  {
   "property": "C138",
   "status": "proved",
   "theorems": [
    "C138_list",
    "C138_tree",
    "C138_agree",
    "C138_bounding",
    "C138_tree_misses_refuted"
   ],
   "note": ""
  },
  {
   "property": "C139",
   "status": "proved",
   "theorems": [
    "C139_angle",
    "C139_symmetric",
    "C139_panics",
    "C139_short_refuted"
   ],
   "note": ""
  },
  {
   "property": "C140",
   "status": "proved",
   "theorems": [
    "C140_filter",
    "C140_no_direction",
    "C140_own_direction_refuted"
   ],
   "note": ""
  },
  {
   "property": "C141",
   "status": "proved",
   "theorems": [
    "C141_rad_to",
    "C141_accepts_opposite_refuted",
    "C141_refuses_close_refuted"
   ],
   "note": ""
  },
  {
   "property": "C142",
   "status": "proved",
   "theorems": [
    "C142_flatten",
    "C142_closest",
    "C142_coordinates",
    "C142_default"
   ],
   "note": ""
  },
  {
   "property": "C143",
   "status": "proved",
   "theorems": [
    "C143_normals",
    "C143_flat",
    "C143_nan_panics",
    "C143_in_plane_refuted"
   ],
   "note": ""
  },
  {
   "property": "C144",
   "status": "proved",
   "theorems": [
    "C144_edit3",
    "C144_edit2",
    "C144_lawful",
    "C144_undo",
    "C144_undo_refuted",
    "C144_sphere_refuted"
   ],
   "note": ""
  },
  {
   "property": "C145",
   "status": "proved",
   "theorems": [
    "C145_set_position",
    "C145_new_nd",
    "C145_from",
    "C145_from_nd_fails",
    "C145_center_nd",
    "C145_center_overflow_refuted",
    "C145_zero"
   ],
   "note": ""
  },
  {
   "property": "C146",
   "status": "proved",
   "theorems": [
    "C146_turned",
    "C146_compose",
    "C146_center"
   ],
   "note": ""
  },
  {
   "property": "C147",
   "status": "proved",
   "theorems": [
    "C147_size_lost",
    "C147_identity",
    "C147_size_lost_2d",
    "C147_center_2d"
   ],
   "note": ""
  },
  {
   "property": "C148",
   "status": "proved",
   "theorems": [
    "C148_segment3",
    "C148_segment2",
    "C148_scale3",
    "C148_scale2",
    "C148_transform",
    "C148_line",
    "C148_middle_refuted",
    "C148_transform_2d"
   ],
   "note": ""
  },
  {
   "property": "C149",
   "status": "proved",
   "theorems": [
    "C149_preorder",
    "C149_contracts_refuted",
    "C149_circle_equal"
   ],
   "note": ""
  },
  {
   "property": "C150",
   "status": "proved",
   "theorems": [
    "C150_box",
    "C150_ball",
    "C150_convert_refuted",
    "C150_scale_refuted",
    "C150_box2_edit"
   ],
   "note": ""
  },
  {
   "property": "C151",
   "status": "proved",
   "theorems": [
    "C151_parse3",
    "C151_parse2",
    "C151_round_trip",
    "C151_sphere_refuted"
   ],
   "note": ""
  },
  {
   "property": "C152",
   "status": "proved",
   "theorems": [
    "C152_parse",
    "C152_parse2",
    "C152_round_trip",
    "C152_join",
    "C152_refuted"
   ],
   "note": ""
  },
  {
   "property": "C153",
   "status": "proved",
   "theorems": [
    "C153_corners",
    "C153_half_turn",
    "C153_counterclockwise_refuted",
    "C153_panics"
   ],
   "note": ""
  },
  {
   "property": "C154",
   "status": "proved",
   "theorems": [
    "C154_negative_directions",
    "C154_negative_directions_signs",
    "C154_products",
    "C154_angle_exists",
    "C154_normalized",
    "C154_normalized_agree_f64_refuted",
    "C154_unit_directions",
    "C154_negative"
   ],
   "note": ""
  },
  {
   "property": "C155",
   "status": "proved",
   "theorems": [
    "C155_corners",
    "C155_box_of_corners"
   ],
   "note": ""
  },
  {
   "property": "C156",
   "status": "proved",
   "theorems": [
    "C156_set_position",
    "C156_copy",
    "C156_from",
    "C156_new_nd",
    "C156_center_nd",
    "C156_other_dimension",
    "C156_sphere_z_refuted"
   ],
   "note": ""
  },
  {
   "property": "C157",
   "status": "proved",
   "theorems": [
    "C157_exact",
    "C157_exact_3d",
    "C157_f64",
    "C157_f64_refuted"
   ],
   "note": ""
  },
  {
   "property": "C158",
   "status": "proved",
   "theorems": [
    "C158_xyz",
    "C158_xy",
    "C158_obj_points",
    "C158_off_points",
    "C158_pts",
    "C158_ptx",
    "C158_gcode",
    "C158_ply_points",
    "C158_obj_mesh",
    "C158_off_mesh",
    "C158_ply_mesh",
    "C158_point_refuted",
    "C158_face_refuted"
   ],
   "note": ""
  },
  {
   "property": "C159",
   "status": "proved",
   "theorems": [
    "C159_ply_points",
    "C159_ply_mesh",
    "C159_psl",
    "C159_las",
    "C159_stl_triplets",
    "C159_stl_duped",
    "C159_stl_unique"
   ],
   "note": ""
  },
  {
   "property": "C160",
   "status": "proved",
   "theorems": [
    "C160_triplets",
    "C160_duped",
    "C160_unique",
    "C160_noticed_refuted"
   ],
   "note": ""
  },
  {
   "property": "C161",
   "status": "proved",
   "theorems": [
    "C161_mesh",
    "C161_points",
    "C161_saved",
    "C161_panic_refuted"
   ],
   "note": ""
  },
  {
   "property": "C162",
   "status": "proved",
   "theorems": [
    "C162_text",
    "C162_ply",
    "C162_stl",
    "C162_psl",
    "C162_empty_refuted"
   ],
   "note": ""
  },
  {
   "property": "C163",
   "status": "proved",
   "theorems": [
    "C163_text",
    "C163_ply",
    "C163_stl_text",
    "C163_binary"
   ],
   "note": ""
  },
  {
   "property": "C164",
   "status": "proved",
   "theorems": [
    "C164_xyz",
    "C164_xy",
    "C164_obj_points",
    "C164_gcode",
    "C164_off_points",
    "C164_pts",
    "C164_obj_mesh",
    "C164_off_mesh",
    "C164_stl",
    "C164_never"
   ],
   "note": ""
  },
  {
   "property": "C165",
   "status": "proved",
   "theorems": [
    "C165_psl",
    "C165_stl_triplets",
    "C165_stl_meshes",
    "C165_ply_points",
    "C165_ply_mesh",
    "C165_saved"
   ],
   "note": ""
  },
  {
   "property": "C166",
   "status": "proved",
   "theorems": [
    "C166_symmetric",
    "C166_symmetric_2d",
    "C166_self",
    "C166_not_negative",
    "C166_accurate",
    "C166_accurate_2d",
    "C166_triangle_refuted",
    "C166_apart_refuted",
    "C166_overflow_refuted"
   ],
   "note": ""
  },
  {
   "property": "C167",
   "status": "proved",
   "theorems": [
    "C167_nearest",
    "C167_nearest_true",
    "C167_exact_refuted"
   ],
   "note": ""
  },
  {
   "property": "C168",
   "status": "proved",
   "theorems": [
    "C168_in_sphere",
    "C168_in_sphere_true",
    "C168_in_box",
    "C168_tiny_refuted"
   ],
   "note": ""
  },
  {
   "property": "C169",
   "status": "proved",
   "theorems": [
    "C169_points",
    "C169_lines",
    "C169_shapes",
    "C169_ids",
    "C169_containers",
    "C169_positive",
    "C169_zeros_refuted"
   ],
   "note": ""
  },
  {
   "property": "C170",
   "status": "proved",
   "theorems": [
    "C170_preorder",
    "C170_containers",
    "C170_lexicographic",
    "C170_equal_refuted",
    "C170_partial_cmp_refuted"
   ],
   "note": ""
  },
  {
   "property": "C171",
   "status": "proved",
   "theorems": [
    "C171_ply_points_loaded",
    "C171_ply_mesh_loaded",
    "C171_stl_loaded",
    "C171_ends",
    "C171_stops",
    "C171_ptx_refuted",
    "C171_ply_refuted"
   ],
   "note": ""
  },
  {
   "property": "C172",
   "status": "proved",
   "theorems": [
    "C172_xyz",
    "C172_xy",
    "C172_stl",
    "C172_stl_panic",
    "C172_ply",
    "C172_colors",
    "C172_ply_binary",
    "C172_interrupted_refuted",
    "C172_loads"
   ],
   "note": ""
  },
  {
   "property": "C173",
   "status": "proved",
   "theorems": [
    "C173_total",
    "C173_direction",
    "C173_direction_2d",
    "C173_huge_refuted",
    "C173_tiny_refuted",
    "C173_length_refuted",
    "C173_face_refuted"
   ],
   "note": ""
  },
  {
   "property": "C174",
   "status": "proved",
   "theorems": [
    "C174_sphere",
    "C174_circle",
    "C174_bounding_refuted",
    "C174_box",
    "C174_box_2d",
    "C174_box_bounding"
   ],
   "note": ""
  },
  {
   "property": "C175",
   "status": "proved",
   "theorems": [
    "C175_new",
    "C175_with_support",
    "C175_from",
    "C175_from_u8",
    "C175_set_refuted"
   ],
   "note": ""
  },
  {
   "property": "C176",
   "status": "proved",
   "theorems": [
    "C176_start_and_sense",
    "C176_start_and_sense_2d",
    "C176_insert",
    "C176_insert_2d",
    "C176_move_and_scale",
    "C176_move_and_scale_2d"
   ],
   "note": ""
  },
  {
   "property": "C177",
   "status": "proved",
   "theorems": [
    "C177_path",
    "C177_path_2d",
    "C177_polygon",
    "C177_polygon_2d",
    "C177_grows",
    "C177_grows_2d",
    "C177_start_refuted",
    "C177_vertex_refuted"
   ],
   "note": ""
  },
  {
   "property": "C178",
   "status": "proved",
   "theorems": [
    "C178_point",
    "C178_point_2d",
    "C178_accurate",
    "C178_accurate_2d",
    "C178_boxes",
    "C178_boxes_2d",
    "C178_zero_refuted"
   ],
   "note": ""
  },
  {
   "property": "C179",
   "status": "proved",
   "theorems": [
    "C179_stl",
    "C179_ptx",
    "C179_xy",
    "C179_obj",
    "C179_off",
    "C179_pts",
    "C179_gcode",
    "C179_las",
    "C179_kind",
    "C179_ply",
    "C179_stl_line",
    "C179_ptx_line",
    "C179_xy_line",
    "C179_obj_line",
    "C179_off_line",
    "C179_pts_line",
    "C179_gcode_line",
    "C179_ply_line",
    "C179_ply_line_refuted",
    "C179_converted",
    "C179_any_text",
    "C179_any_refuted"
   ],
   "note": ""
  },
  {
   "property": "C180",
   "status": "proved",
   "theorems": [
    "C180_accurate",
    "C180_accurate_2d",
    "C180_integers",
    "C180_integers_2d",
    "C180_range_refuted",
    "C180_order_refuted",
    "C180_infinite_refuted"
   ],
   "note": ""
  },
  {
   "property": "C181",
   "status": "proved",
   "theorems": [
    "C181_exact",
    "C181_hull",
    "C181_tiny_refuted"
   ],
   "note": ""
  },
  {
   "property": "C182",
   "status": "proved",
   "theorems": [
    "C182_sphere",
    "C182_box",
    "C182_nearest"
   ],
   "note": ""
  },
  {
   "property": "C183",
   "status": "proved",
   "theorems": [
    "C183_deep",
    "C183_vertex",
    "C183_touch_refuted"
   ],
   "note": ""
  },
  {
   "property": "C184",
   "status": "proved",
   "theorems": [
    "C184_collides_3d",
    "C184_collides_2d",
    "C184_tree_3d",
    "C184_tree_2d"
   ],
   "note": ""
  },
  {
   "property": "C185",
   "status": "proved",
   "theorems": [
    "C185_simple",
    "C185_simple_2d",
    "C185_pipe",
    "C185_pipe_2d",
    "C185_accuracy",
    "C185_whole",
    "C185_compose_refuted"
   ],
   "note": ""
  },
  {
   "property": "C186",
   "status": "proved",
   "theorems": [
    "C186_collides_3d",
    "C186_collides_2d",
    "C186_tree_3d",
    "C186_tree_2d",
    "C186_margin_refuted"
   ],
   "note": ""
  },
  {
   "property": "C187",
   "status": "proved",
   "theorems": [
    "C187_mesh",
    "C187_mesh_history",
    "C187_added_face",
    "C187_half_edge",
    "C187_next_range",
    "C187_vertex_queries",
    "C187_searchable",
    "C187_mixed_parts_refuted"
   ],
   "note": ""
  },
  {
   "property": "C188",
   "status": "proved",
   "theorems": [
    "C188_heal",
    "C188_subdivide",
    "C188_unify",
    "C188_normals_and_saving",
    "C188_saved_ply_refuted"
   ],
   "note": ""
  },
  {
   "property": "C189",
   "status": "proved",
   "theorems": [
    "C189_center",
    "C189_center_of_two",
    "C189_center_function",
    "C189_center_function_2d",
    "C189_subdivide",
    "C189_refine",
    "C189_infinite_refuted",
    "C189_degenerate_refuted",
    "C189_center_order_refuted"
   ],
   "note": ""
  },
  {
   "property": "C190",
   "status": "proved",
   "theorems": [
    "C190_net",
    "C190_searchable",
    "C190_sides",
    "C190_box",
    "C190_flat_scale_refuted",
    "C190_move_refuted"
   ],
   "note": ""
  },
  {
   "property": "C191",
   "status": "proved",
   "theorems": [
    "C191_tells",
    "C191_kinds",
    "C191_line_segment_refuted",
    "C191_parse_refuted"
   ],
   "note": ""
  },
  {
   "property": "C192",
   "status": "proved",
   "theorems": [
    "C192_exact",
    "C192_mesh",
    "C192_sloped_refuted"
   ],
   "note": ""
  },
  {
   "property": "C193",
   "status": "proved",
   "theorems": [
    "C193_box",
    "C193_tree",
    "C193_directions",
    "C193_face_refuted"
   ],
   "note": ""
  },
  {
   "property": "C194",
   "status": "proved",
   "theorems": [
    "C194_triplets",
    "C194_duped",
    "C194_unique"
   ],
   "note": ""
  },
  {
   "property": "C195",
   "status": "proved",
   "theorems": [
    "C195_ply",
    "C195_obj",
    "C195_off",
    "C195_stl_duped",
    "C195_stl_unique"
   ],
   "note": ""
  },
  {
   "property": "C196",
   "status": "proved",
   "theorems": [
    "C196_box",
    "C196_clouds_3d",
    "C196_clouds_2d",
    "C196_meshes",
    "C196_tree_clouds",
    "C196_tree_meshes",
    "C196_tree_2d"
   ],
   "note": ""
  },
  {
   "property": "C197",
   "status": "proved",
   "theorems": [
    "C197_unique",
    "C197_agree",
    "C197_nan_refuted"
   ],
   "note": ""
  },
  {
   "property": "C198",
   "status": "proved",
   "theorems": [
    "C198_healed"
   ],
   "note": ""
  },
  {
   "property": "C199",
   "status": "proved",
   "theorems": [
    "C199_ply",
    "C199_obj",
    "C199_off",
    "C199_stl_duped",
    "C199_stl_unique"
   ],
   "note": ""
  },
  {
   "property": "C200",
   "status": "proved",
   "theorems": [
    "C200_once",
    "C200_twice",
    "C200_idempotent_refuted"
   ],
   "note": ""
  },
  {
   "property": "C201",
   "status": "proved",
   "theorems": [
    "C201_subdivide",
    "C201_subdivide_back",
    "C201_heal"
   ],
   "note": ""
  },
  {
   "property": "C202",
   "status": "proved",
   "theorems": [
    "C202_solid"
   ],
   "note": ""
  },
  {
   "property": "C203",
   "status": "proved",
   "theorems": [
    "C203_new_vertices",
    "C203_surface_edges"
   ],
   "note": ""
  }
 ]
}