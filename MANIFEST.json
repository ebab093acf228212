{
 "claims": [
  {
   "property": "C01",
   "status": "proved",
   "theorems": [
    "C01_vector_space",
    "C01_dot_cross",
    "C01_cross_zero"
   ],
   "note": ""
  },
  {
   "property": "C02",
   "status": "proved",
   "theorems": [
    "C02_norm",
    "C02_unit"
   ],
   "note": ""
  },
  {
   "property": "C03",
   "status": "proved",
   "theorems": [
    "C03_roundtrip_error",
    "C03_roundtrip_error_no_origin",
    "C03_roundtrip_iff",
    "C03_local_coordinates"
   ],
   "note": ""
  },
  {
   "property": "C04",
   "status": "proved",
   "theorems": [
    "C04_in_place",
    "C04_with_origin",
    "C04_global"
   ],
   "note": ""
  },
  {
   "property": "C05",
   "status": "proved",
   "theorems": [
    "C05_binary64",
    "C05_binary64_finite",
    "C05_line",
    "C05_line_offset"
   ],
   "note": ""
  },
  {
   "property": "C06",
   "status": "proved",
   "theorems": [
    "C06_bernstein",
    "C06_ends",
    "C06_empty"
   ],
   "note": ""
  },
  {
   "property": "C07",
   "status": "proved",
   "theorems": [
    "C07_hull",
    "C07_functionals",
    "C07_affine"
   ],
   "note": ""
  },
  {
   "property": "C08",
   "status": "proved",
   "theorems": [
    "C08_breakpoints"
   ],
   "note": ""
  },
  {
   "property": "C09",
   "status": "proved",
   "theorems": [
    "C09_one_segment",
    "C09_breakpoint_values",
    "C09_joined"
   ],
   "note": ""
  },
  {
   "property": "C10",
   "status": "proved",
   "theorems": [
    "C10_closed_defect",
    "C10_already_closed"
   ],
   "note": ""
  },
  {
   "property": "C11",
   "status": "proved",
   "theorems": [
    "C11_harmless",
    "C11_overwritten",
    "C11_iff",
    "C11_second_call"
   ],
   "note": ""
  },
  {
   "property": "C12",
   "status": "proved",
   "theorems": [
    "C12_segments",
    "C12_interpolates",
    "C12_too_few"
   ],
   "note": ""
  },
  {
   "property": "C13",
   "status": "proved",
   "theorems": [
    "C13_arc_flat",
    "C13_angle_unique"
   ],
   "note": ""
  },
  {
   "property": "C14",
   "status": "proved",
   "theorems": [
    "C14_arc_value",
    "C14_arc_ends"
   ],
   "note": ""
  },
  {
   "property": "C15",
   "status": "proved",
   "theorems": [
    "C15_arc_ok_iff",
    "C15_arc_error"
   ],
   "note": ""
  },
  {
   "property": "C16",
   "status": "proved",
   "theorems": [
    "C16_reparameterisation",
    "C16_ends",
    "C16_reject"
   ],
   "note": ""
  },
  {
   "property": "C17",
   "status": "proved",
   "theorems": [
    "C17_equalises"
   ],
   "note": ""
  },
  {
   "property": "C18",
   "status": "proved",
   "theorems": [
    "C18_length",
    "C18_straight",
    "C18_zero"
   ],
   "note": ""
  },
  {
   "property": "C19",
   "status": "proved",
   "theorems": [
    "C19_bijection",
    "C19_mirror",
    "C19_clusters",
    "C19_identity",
    "C19_beta1"
   ],
   "note": ""
  },
  {
   "property": "C20",
   "status": "proved",
   "theorems": [
    "C20_distribute",
    "C20_beta1",
    "C20_zero",
    "C20_cluster_function"
   ],
   "note": ""
  },
  {
   "property": "C21",
   "status": "proved",
   "theorems": [
    "C21_sub",
    "C21_reversed",
    "C21_length_refuted"
   ],
   "note": ""
  },
  {
   "property": "C22",
   "status": "proved",
   "theorems": [
    "C22_on_ellipse",
    "C22_quadrant",
    "C22_ends",
    "C22_bad_side"
   ],
   "note": ""
  },
  {
   "property": "C23",
   "status": "proved",
   "theorems": [
    "C23_exact",
    "C23_mismatch"
   ],
   "note": ""
  },
  {
   "property": "C24",
   "status": "proved",
   "theorems": [
    "C24_edges_iff",
    "C24_init",
    "C24_bilinear"
   ],
   "note": ""
  },
  {
   "property": "C25",
   "status": "proved",
   "theorems": [
    "C25_displace",
    "C25_errors_kept",
    "C25_copy"
   ],
   "note": ""
  },
  {
   "property": "C26",
   "status": "proved",
   "theorems": [
    "C26_rotation",
    "C26_rigid",
    "C26_compose",
    "C26_inverse",
    "C26_bad_axis"
   ],
   "note": ""
  },
  {
   "property": "C27",
   "status": "proved",
   "theorems": [
    "C27_reflection",
    "C27_reversing",
    "C27_involution",
    "C27_bad_axis"
   ],
   "note": ""
  },
  {
   "property": "C28",
   "status": "proved",
   "theorems": [
    "C28_value_x",
    "C28_value_y",
    "C28_thickness",
    "C28_missing",
    "C28_none"
   ],
   "note": ""
  },
  {
   "property": "C29",
   "status": "proved",
   "theorems": [
    "C29_revolved",
    "C29_radius",
    "C29_seams",
    "C29_cone"
   ],
   "note": ""
  },
  {
   "property": "C30",
   "status": "proved",
   "theorems": [
    "C30_never",
    "C30_why"
   ],
   "note": ""
  },
  {
   "property": "C31",
   "status": "proved",
   "theorems": [
    "C31_blend",
    "C31_at_edge",
    "C31_above",
    "C31_below_refuted"
   ],
   "note": ""
  },
  {
   "property": "C32",
   "status": "proved",
   "theorems": [
    "C32_ascending",
    "C32_descending_refuted",
    "C32_flat",
    "C32_bad_axis"
   ],
   "note": ""
  },
  {
   "property": "C33",
   "status": "proved",
   "theorems": [
    "C33_sides",
    "C33_closed",
    "C33_exact",
    "C33_order",
    "C33_past"
   ],
   "note": ""
  },
  {
   "property": "C34",
   "status": "proved",
   "theorems": [
    "C34_on_sphere",
    "C34_seams"
   ],
   "note": ""
  },
  {
   "property": "C35",
   "status": "proved",
   "theorems": [
    "C35_on_cube",
    "C35_covers",
    "C35_seams",
    "C35_seam_table",
    "C35_bad_face"
   ],
   "note": ""
  },
  {
   "property": "C36",
   "status": "proved",
   "theorems": [
    "C36_cube_refuted",
    "C36_sphere_refuted"
   ],
   "note": ""
  },
  {
   "property": "C37",
   "status": "proved",
   "theorems": [
    "C37_triangles",
    "C37_default",
    "C37_mirror",
    "C37_zero"
   ],
   "note": ""
  },
  {
   "property": "C38",
   "status": "proved",
   "theorems": [
    "C38_crack_free"
   ],
   "note": ""
  },
  {
   "property": "C39",
   "status": "proved",
   "theorems": [
    "C39_binary64",
    "C39_binary64_exact",
    "C39_binary64_short",
    "C39_grid",
    "C39_uniform",
    "C39_one_step"
   ],
   "note": ""
  },
  {
   "property": "C40",
   "status": "proved",
   "theorems": [
    "C40_columns",
    "C40_covers_iff",
    "C40_raises"
   ],
   "note": ""
  },
  {
   "property": "C41",
   "status": "proved",
   "theorems": [
    "C41_s_ignored",
    "C41_count",
    "C41_swept"
   ],
   "note": ""
  },
  {
   "property": "C42",
   "status": "proved",
   "theorems": [
    "C42_watertight"
   ],
   "note": ""
  },
  {
   "property": "C43",
   "status": "proved",
   "theorems": [
    "C43_accepts_iff",
    "C43_generates_open",
    "C43_generates_closed"
   ],
   "note": ""
  },
  {
   "property": "C44",
   "status": "proved",
   "theorems": [
    "C44_watertight",
    "C44_open"
   ],
   "note": ""
  },
  {
   "property": "C45",
   "status": "proved",
   "theorems": [
    "C45_decides",
    "C45_stored_normals",
    "C45_area_test",
    "C45_no_lines_refuted"
   ],
   "note": ""
  },
  {
   "property": "C46",
   "status": "proved",
   "theorems": [
    "C46_net_area",
    "C46_translation",
    "C46_rotation",
    "C46_reflection",
    "C46_moved_patch"
   ],
   "note": ""
  },
  {
   "property": "C47",
   "status": "proved",
   "theorems": [
    "C47_append",
    "C47_replace"
   ],
   "note": ""
  },
  {
   "property": "C48",
   "status": "proved",
   "theorems": [
    "C48_repair",
    "C48_chain_refuted"
   ],
   "note": ""
  },
  {
   "property": "C49",
   "status": "proved",
   "theorems": [
    "C49_bookkeeping",
    "C49_rejects",
    "C49_options"
   ],
   "note": ""
  },
  {
   "property": "C50",
   "status": "proved",
   "theorems": [
    "C50_last_wins",
    "C50_default_names_distinct"
   ],
   "note": ""
  },
  {
   "property": "C51",
   "status": "proved",
   "theorems": [
    "C51_pipeline"
   ],
   "note": ""
  },
  {
   "property": "C52",
   "status": "proved",
   "theorems": [
    "C52_twice"
   ],
   "note": ""
  },
  {
   "property": "C53",
   "status": "proved",
   "theorems": [
    "C53_stale",
    "C53_refreshed"
   ],
   "note": ""
  },
  {
   "property": "C54",
   "status": "proved",
   "theorems": [
    "C54_refused",
    "C54_applies",
    "C54_tuple"
   ],
   "note": ""
  },
  {
   "property": "C55",
   "status": "proved",
   "theorems": [
    "C55_files",
    "C55_stops",
    "C55_untagged_distinct"
   ],
   "note": ""
  },
  {
   "property": "C56",
   "status": "proved",
   "theorems": [
    "C56_merge_iff"
   ],
   "note": ""
  },
  {
   "property": "C57",
   "status": "proved",
   "theorems": [
    "C57_merged",
    "C57_children",
    "C57_rejects"
   ],
   "note": ""
  },
  {
   "property": "C58",
   "status": "proved",
   "theorems": [
    "C58_stored",
    "C58_ignored"
   ],
   "note": ""
  },
  {
   "property": "C59",
   "status": "proved",
   "theorems": [
    "C59_totals",
    "C59_failures",
    "C59_generates_first",
    "C59_hull",
    "C59_translation",
    "C59_order"
   ],
   "note": ""
  },
  {
   "property": "C60",
   "status": "proved",
   "theorems": [
    "C60_iff",
    "C60_error"
   ],
   "note": ""
  },
  {
   "property": "C61",
   "status": "proved",
   "theorems": [
    "C61_exact",
    "C61_succeeds",
    "C61_calls",
    "C61_tables",
    "C61_scalars",
    "C61_overlap",
    "C61_vector",
    "C61_step"
   ],
   "note": ""
  },
  {
   "property": "C62",
   "status": "proved",
   "theorems": [
    "C62_comparable",
    "C62_rows",
    "C62_affine",
    "C62_mean_value",
    "C62_converges",
    "C62_distinct_positions"
   ],
   "note": ""
  },
  {
   "property": "C63",
   "status": "proved",
   "theorems": [
    "C63_joined",
    "C63_component",
    "C63_aligned",
    "C63_missing_coordinates"
   ],
   "note": ""
  },
  {
   "property": "C64",
   "status": "proved",
   "theorems": [
    "C64_data",
    "C64_fraction",
    "C64_errors"
   ],
   "note": ""
  },
  {
   "property": "C65",
   "status": "proved",
   "theorems": [
    "C65_list",
    "C65_names"
   ],
   "note": ""
  },
  {
   "property": "C66",
   "status": "proved",
   "theorems": [
    "C66_attributes",
    "C66_inherited",
    "C66_reserved",
    "C66_unread",
    "C66_late",
    "C66_study"
   ],
   "note": ""
  },
  {
   "property": "C67",
   "status": "proved",
   "theorems": [
    "C67_no_influence",
    "C67_degenerate",
    "C67_t_B2_alone"
   ],
   "note": ""
  },
  {
   "property": "C68",
   "status": "proved",
   "theorems": [
    "C68_fin_seams",
    "C68_fin_gap",
    "C68_fin_stalls",
    "C68_wing_seams",
    "C68_gap_size"
   ],
   "note": ""
  },
  {
   "property": "C69",
   "status": "proved",
   "theorems": [
    "C69_flat_seams",
    "C69_overlap",
    "C69_panel_missed"
   ],
   "note": ""
  },
  {
   "property": "C70",
   "status": "proved",
   "theorems": [
    "C70_pieces",
    "C70_line",
    "C70_degenerate"
   ],
   "note": ""
  },
  {
   "property": "C71",
   "status": "proved",
   "theorems": [
    "C71_shallow_shares",
    "C71_shallow_reflected",
    "C71_deep_independent"
   ],
   "note": ""
  },
  {
   "property": "C72",
   "status": "proved",
   "theorems": [
    "C72_coons",
    "C72_cone",
    "C72_paths",
    "C72_rejected",
    "C72_parameters"
   ],
   "note": ""
  },
  {
   "property": "C73",
   "status": "proved",
   "theorems": [
    "C73_repair_watertight"
   ],
   "note": ""
  },
  {
   "property": "C74",
   "status": "proved",
   "theorems": [
    "C74_sound",
    "C74_degenerate_refuted",
    "C74_revolved_refuted"
   ],
   "note": ""
  },
  {
   "property": "C75",
   "status": "proved",
   "theorems": [
    "C75_reflected_dict_refuted"
   ],
   "note": ""
  },
  {
   "property": "C76",
   "status": "proved",
   "theorems": [
    "C76_single_section_refuted"
   ],
   "note": ""
  },
  {
   "property": "C77",
   "status": "proved",
   "theorems": [
    "C77_sticky_failure"
   ],
   "note": ""
  },
  {
   "property": "C78",
   "status": "proved",
   "theorems": [
    "C78_non_ghosts"
   ],
   "note": ""
  },
  {
   "property": "C79",
   "status": "proved",
   "theorems": [
    "C79_closed",
    "C79_root_iff",
    "C79_flat_close"
   ],
   "note": ""
  },
  {
   "property": "C80",
   "status": "proved",
   "theorems": [
    "C80_insulated",
    "C80_construct",
    "C80_points",
    "C80_line",
    "C80_polyline_shares"
   ],
   "note": ""
  },
  {
   "property": "C81",
   "status": "proved",
   "theorems": [
    "C81_elements",
    "C81_again"
   ],
   "note": ""
  },
  {
   "property": "C82",
   "status": "proved",
   "theorems": [
    "C82_round_trip"
   ],
   "note": ""
  },
  {
   "property": "C83",
   "status": "proved",
   "theorems": [
    "C83_files"
   ],
   "note": ""
  },
  {
   "property": "C84",
   "status": "proved",
   "theorems": [
    "C84_box_refuted",
    "C84_box_closed"
   ],
   "note": ""
  },
  {
   "property": "C85",
   "status": "proved",
   "theorems": [
    "C85_near_exact",
    "C85_cracks"
   ],
   "note": ""
  },
  {
   "property": "C86",
   "status": "proved",
   "theorems": [
    "C86_joints",
    "C86_natural",
    "C86_closed_refuted"
   ],
   "note": ""
  },
  {
   "property": "C87",
   "status": "proved",
   "theorems": [
    "C87_fin_closed",
    "C87_fin_builds",
    "C87_fin_default"
   ],
   "note": ""
  },
  {
   "property": "C88",
   "status": "proved",
   "theorems": [
    "C88_prism",
    "C88_straight"
   ],
   "note": ""
  },
  {
   "property": "C89",
   "status": "proved",
   "theorems": [
    "C89_wedge",
    "C89_study"
   ],
   "note": ""
  },
  {
   "property": "C90",
   "status": "proved",
   "theorems": [
    "C90_chain",
    "C90_volume",
    "C90_straight",
    "C90_factor",
    "C90_limit",
    "C90_backwards"
   ],
   "note": ""
  },
  {
   "property": "C91",
   "status": "proved",
   "theorems": [
    "C91_finner",
    "C91_study"
   ],
   "note": ""
  },
  {
   "property": "C92",
   "status": "proved",
   "theorems": [
    "C92_rotation",
    "C92_frame",
    "C92_twice"
   ],
   "note": ""
  },
  {
   "property": "C93",
   "status": "proved",
   "theorems": [
    "C93_inward",
    "C93_outward",
    "C93_single",
    "C93_ogive"
   ],
   "note": ""
  },
  {
   "property": "C94",
   "status": "proved",
   "theorems": [
    "C94_falcon",
    "C94_mass"
   ],
   "note": ""
  },
  {
   "property": "C95",
   "status": "proved",
   "theorems": [
    "C95_cylinder"
   ],
   "note": ""
  },
  {
   "property": "C96",
   "status": "proved",
   "theorems": [
    "C96_pair",
    "C96_mass"
   ],
   "note": ""
  },
  {
   "property": "C97",
   "status": "proved",
   "theorems": [
    "C97_nothing",
    "C97_plain",
    "C97_nested",
    "C97_absolute",
    "C97_unopened",
    "C97_merge"
   ],
   "note": ""
  },
  {
   "property": "C98",
   "status": "proved",
   "theorems": [
    "C98_consistent",
    "C98_explicit_analysis_not_saved",
    "C98_properties",
    "C98_transform_keeps",
    "C98_failed",
    "C98_table",
    "C98_mixed"
   ],
   "note": ""
  },
  {
   "property": "C99",
   "status": "proved",
   "theorems": [
    "C99_component",
    "C99_pair",
    "C99_turned",
    "C99_open"
   ],
   "note": ""
  },
  {
   "property": "C100",
   "status": "proved",
   "theorems": [
    "C100_values",
    "C100_arranged",
    "C100_same_components",
    "C100_own_names_iff",
    "C100_totals",
    "C100_analysed"
   ],
   "note": ""
  },
  {
   "property": "C101",
   "status": "proved",
   "theorems": [
    "C101_files",
    "C101_half_written",
    "C101_nothing",
    "C101_properties"
   ],
   "note": ""
  },
  {
   "property": "C102",
   "status": "proved",
   "theorems": [
    "C102_planform",
    "C102_undefined"
   ],
   "note": ""
  },
  {
   "property": "C103",
   "status": "proved",
   "theorems": [
    "C103_htv",
    "C103_mass"
   ],
   "note": ""
  },
  {
   "property": "C104",
   "status": "proved",
   "theorems": [
    "C104_ledger",
    "C104_symmetric"
   ],
   "note": ""
  },
  {
   "property": "C105",
   "status": "proved",
   "theorems": [
    "C105_x43",
    "C105_mass"
   ],
   "note": ""
  },
  {
   "property": "C106",
   "status": "proved",
   "theorems": [
    "C106_d21",
    "C106_spike",
    "C106_mass"
   ],
   "note": ""
  },
  {
   "property": "C107",
   "status": "proved",
   "theorems": [
    "C107_closed",
    "C107_open"
   ],
   "note": ""
  },
  {
   "property": "C108",
   "status": "proved",
   "theorems": [
    "C108_revolved",
    "C108_swept",
    "C108_box_iff",
    "C108_roberts"
   ],
   "note": ""
  },
  {
   "property": "C109",
   "status": "proved",
   "theorems": [
    "C109_hifire4",
    "C109_short",
    "C109_mass",
    "C109_gap",
    "C109_default_gap"
   ],
   "note": ""
  },
  {
   "property": "C110",
   "status": "proved",
   "theorems": [
    "C110_waverider",
    "C110_short",
    "C110_length_only",
    "C110_mass",
    "C110_incidence"
   ],
   "note": ""
  },
  {
   "property": "C111",
   "status": "proved",
   "theorems": [
    "C111_disc",
    "C111_accepts"
   ],
   "note": ""
  },
  {
   "property": "C112",
   "status": "proved",
   "theorems": [
    "C112_hifire8",
    "C112_mass",
    "C112_fins",
    "C112_wing_fixed",
    "C112_default"
   ],
   "note": ""
  },
  {
   "property": "C113",
   "status": "proved",
   "theorems": [
    "C113_refex",
    "C113_script",
    "C113_mass",
    "C113_canards",
    "C113_apart",
    "C113_default"
   ],
   "note": ""
  },
  {
   "property": "C114",
   "status": "proved",
   "theorems": [
    "C114_parts",
    "C114_mass"
   ],
   "note": ""
  },
  {
   "property": "C115",
   "status": "proved",
   "theorems": [
    "C115_deep",
    "C115_regenerated",
    "C115_shallow"
   ],
   "note": ""
  }
 ]
}