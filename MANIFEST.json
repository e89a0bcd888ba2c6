{
 "claims": [
  {
   "property": "C01",
   "status": "proved",
   "theorems": [
    "C01_lossless_reexport"
   ],
   "note": "Uses the standard library's axioms ClassicalDedekindReals.sig_forall_dec, ClassicalDedekindReals.sig_not_dec, Classical_Prop.classic, FunctionalExtensionality.functional_extensionality_dep."
  },
  {
   "property": "C02",
   "status": "proved",
   "theorems": [
    "C02_save_reload",
    "C02_save_reload_exact"
   ],
   "note": "Uses the standard library's axioms ClassicalDedekindReals.sig_forall_dec, ClassicalDedekindReals.sig_not_dec, Classical_Prop.classic, FunctionalExtensionality.functional_extensionality_dep."
  },
  {
   "property": "C03",
   "status": "proved",
   "theorems": [
    "C03_loaded_consistent"
   ],
   "note": "Uses the standard library's axioms ClassicalDedekindReals.sig_forall_dec, ClassicalDedekindReals.sig_not_dec, Classical_Prop.classic, FunctionalExtensionality.functional_extensionality_dep."
  },
  {
   "property": "C04",
   "status": "proved",
   "theorems": [
    "C04_trailing_data_rejected"
   ],
   "note": "Uses the standard library's axioms ClassicalDedekindReals.sig_forall_dec, ClassicalDedekindReals.sig_not_dec, Classical_Prop.classic, FunctionalExtensionality.functional_extensionality_dep."
  },
  {
   "property": "C05",
   "status": "proved",
   "theorems": [
    "C05_truncated_file_rejected"
   ],
   "note": "Uses the standard library's axioms ClassicalDedekindReals.sig_forall_dec, ClassicalDedekindReals.sig_not_dec, Classical_Prop.classic, FunctionalExtensionality.functional_extensionality_dep."
  },
  {
   "property": "C06",
   "status": "proved",
   "theorems": [
    "C06_load_injective",
    "C06_without_nan_hypothesis_refuted"
   ],
   "note": "Also refuted without the NaN hypothesis. The code does not meet a stronger or a natural form of the property; a concrete file, mesh or call refutes it: C06_without_nan_hypothesis_refuted. Uses the standard library's axioms ClassicalDedekindReals.sig_forall_dec, ClassicalDedekindReals.sig_not_dec, Classical_Prop.classic, FunctionalExtensionality.functional_extensionality_dep."
  },
  {
   "property": "C07",
   "status": "proved",
   "theorems": [
    "C07_reexport_stable",
    "C07_byte_exactness_refuted"
   ],
   "note": "The byte-exactness expectation is refuted with a witness file. The code does not meet a stronger or a natural form of the property; a concrete file, mesh or call refutes it: C07_byte_exactness_refuted. Uses the standard library's axioms ClassicalDedekindReals.sig_forall_dec, ClassicalDedekindReals.sig_not_dec, Classical_Prop.classic, FunctionalExtensionality.functional_extensionality_dep."
  },
  {
   "property": "C08",
   "status": "proved",
   "theorems": [
    "C08_single_index",
    "C08_single_index_never_exports"
   ],
   "note": "Uses the standard library's axioms ClassicalDedekindReals.sig_forall_dec, ClassicalDedekindReals.sig_not_dec, Classical_Prop.classic, FunctionalExtensionality.functional_extensionality_dep."
  },
  {
   "property": "C09",
   "status": "proved",
   "theorems": [
    "C09_single_vertex_number_rejected",
    "C09_never_one_vertex_number"
   ],
   "note": "Uses the standard library's axioms ClassicalDedekindReals.sig_forall_dec, ClassicalDedekindReals.sig_not_dec, Classical_Prop.classic, FunctionalExtensionality.functional_extensionality_dep."
  },
  {
   "property": "C10",
   "status": "proved",
   "theorems": [
    "C10_not_portable"
   ],
   "note": "Uses the standard library's axioms ClassicalDedekindReals.sig_forall_dec, ClassicalDedekindReals.sig_not_dec, Classical_Prop.classic, FunctionalExtensionality.functional_extensionality_dep."
  },
  {
   "property": "C11",
   "status": "proved",
   "theorems": [
    "C11_kind_from_extension",
    "C11_one_extension",
    "C11_flags_ignored"
   ],
   "note": "No axioms."
  },
  {
   "property": "C12",
   "status": "proved",
   "theorems": [
    "C12_no_file"
   ],
   "note": "No axioms."
  },
  {
   "property": "C13",
   "status": "proved",
   "theorems": [
    "C13_skinned_extension_loses",
    "C13_static_bundled_extension",
    "C13_wrong_extension"
   ],
   "note": "Uses the standard library's axioms ClassicalDedekindReals.sig_forall_dec, ClassicalDedekindReals.sig_not_dec, Classical_Prop.classic, FunctionalExtensionality.functional_extensionality_dep."
  },
  {
   "property": "C14",
   "status": "proved",
   "theorems": [
    "C14_bare_name",
    "C14_directory_created"
   ],
   "note": "No axioms."
  },
  {
   "property": "C15",
   "status": "proved",
   "theorems": [
    "C15_prefix_written",
    "C15_failed_export_object",
    "C15_atomic_refuted",
    "C15_single_index_destroyed"
   ],
   "note": "The code does not meet a stronger or a natural form of the property; a concrete file, mesh or call refutes it: C15_atomic_refuted. Uses the standard library's axioms ClassicalDedekindReals.sig_forall_dec, ClassicalDedekindReals.sig_not_dec, Classical_Prop.classic, FunctionalExtensionality.functional_extensionality_dep."
  },
  {
   "property": "C16",
   "status": "proved",
   "theorems": [
    "C16_export_frame"
   ],
   "note": "No axioms."
  },
  {
   "property": "C17",
   "status": "proved",
   "theorems": [
    "C17_loaded_once"
   ],
   "note": "No axioms."
  },
  {
   "property": "C18",
   "status": "proved",
   "theorems": [
    "C18_translate",
    "C18_translate_succeeds"
   ],
   "note": "Uses the standard library's axioms ClassicalDedekindReals.sig_forall_dec, ClassicalDedekindReals.sig_not_dec, Classical_Prop.classic, FunctionalExtensionality.functional_extensionality_dep."
  },
  {
   "property": "C19",
   "status": "proved",
   "theorems": [
    "C19_all_or_nothing"
   ],
   "note": "No axioms."
  },
  {
   "property": "C20",
   "status": "proved",
   "theorems": [
    "C20_translate_unpacked",
    "C20_own_vertices_refuted",
    "C20_still_loadable_refuted"
   ],
   "note": "The code does not meet a stronger or a natural form of the property; a concrete file, mesh or call refutes it: C20_own_vertices_refuted, C20_still_loadable_refuted. Uses the standard library's axioms ClassicalDedekindReals.sig_forall_dec, ClassicalDedekindReals.sig_not_dec, Classical_Prop.classic, FunctionalExtensionality.functional_extensionality_dep."
  },
  {
   "property": "C21",
   "status": "proved",
   "theorems": [
    "C21_translate_compose",
    "C21_translate_undo",
    "C21_undo_in_doubles_refuted"
   ],
   "note": "The code does not meet a stronger or a natural form of the property; a concrete file, mesh or call refutes it: C21_undo_in_doubles_refuted. Uses the standard library's axioms ClassicalDedekindReals.sig_forall_dec, ClassicalDedekindReals.sig_not_dec, Classical_Prop.classic, FunctionalExtensionality.functional_extensionality_dep."
  },
  {
   "property": "C22",
   "status": "proved",
   "theorems": [
    "C22_rotate",
    "C22_infinite_angle"
   ],
   "note": "Uses the standard library's axioms ClassicalDedekindReals.sig_forall_dec, ClassicalDedekindReals.sig_not_dec, Classical_Prop.classic, FunctionalExtensionality.functional_extensionality_dep."
  },
  {
   "property": "C23",
   "status": "proved",
   "theorems": [
    "C23_rotate_rigid",
    "C23_rotate_zero",
    "C23_rotate_axis_add",
    "C23_rotate_axis_undo",
    "C23_rotate_undo"
   ],
   "note": "Uses the standard library's axioms ClassicalDedekindReals.sig_forall_dec, ClassicalDedekindReals.sig_not_dec, Classical_Prop.classic, FunctionalExtensionality.functional_extensionality_dep."
  },
  {
   "property": "C24",
   "status": "proved",
   "theorems": [
    "C24_rotate_shrinks",
    "C24_rotate_narrow"
   ],
   "note": "Uses the standard library's axioms ClassicalDedekindReals.sig_forall_dec, ClassicalDedekindReals.sig_not_dec, Classical_Prop.classic, FunctionalExtensionality.functional_extensionality_dep."
  },
  {
   "property": "C25",
   "status": "proved",
   "theorems": [
    "C25_compatible",
    "C25_equivalence",
    "C25_total",
    "C25_kinds_refuted",
    "C25_unknown_type_refuted"
   ],
   "note": "The code does not meet a stronger or a natural form of the property; a concrete file, mesh or call refutes it: C25_kinds_refuted, C25_unknown_type_refuted. Uses the standard library's axioms ClassicalDedekindReals.sig_forall_dec, ClassicalDedekindReals.sig_not_dec, Classical_Prop.classic, FunctionalExtensionality.functional_extensionality_dep."
  },
  {
   "property": "C26",
   "status": "proved",
   "theorems": [
    "C26_union"
   ],
   "note": "No axioms."
  },
  {
   "property": "C27",
   "status": "proved",
   "theorems": [
    "C27_sums",
    "C27_tables"
   ],
   "note": "No axioms."
  },
  {
   "property": "C28",
   "status": "proved",
   "theorems": [
    "C28_overflow",
    "C28_atomic_refuted"
   ],
   "note": "The code does not meet a stronger or a natural form of the property; a concrete file, mesh or call refutes it: C28_atomic_refuted. Uses the standard library's axioms ClassicalDedekindReals.sig_forall_dec, ClassicalDedekindReals.sig_not_dec, Classical_Prop.classic, FunctionalExtensionality.functional_extensionality_dep."
  },
  {
   "property": "C29",
   "status": "proved",
   "theorems": [
    "C29_incompatible"
   ],
   "note": "No axioms."
  },
  {
   "property": "C30",
   "status": "proved",
   "theorems": [
    "C30_other_alone",
    "C30_bystanders",
    "C30_itself",
    "C30_self_merge",
    "C30_stores",
    "C30_shared_refuted"
   ],
   "note": "The code does not meet a stronger or a natural form of the property; a concrete file, mesh or call refutes it: C30_shared_refuted. No axioms."
  },
  {
   "property": "C31",
   "status": "proved",
   "theorems": [
    "C31_associative"
   ],
   "note": "No axioms."
  },
  {
   "property": "C32",
   "status": "proved",
   "theorems": [
    "C32_content"
   ],
   "note": "Uses the standard library's axioms ClassicalDedekindReals.sig_forall_dec, ClassicalDedekindReals.sig_not_dec, Classical_Prop.classic, FunctionalExtensionality.functional_extensionality_dep."
  },
  {
   "property": "C33",
   "status": "proved",
   "theorems": [
    "C33_wrong_length",
    "C33_outcome",
    "C33_error_keeps",
    "C33_atomic_refuted"
   ],
   "note": "The code does not meet a stronger or a natural form of the property; a concrete file, mesh or call refutes it: C33_atomic_refuted. Uses the standard library's axioms ClassicalDedekindReals.sig_forall_dec, ClassicalDedekindReals.sig_not_dec, Classical_Prop.classic, FunctionalExtensionality.functional_extensionality_dep."
  },
  {
   "property": "C34",
   "status": "proved",
   "theorems": [
    "C34_duplicates"
   ],
   "note": "Uses the standard library's axioms ClassicalDedekindReals.sig_forall_dec, ClassicalDedekindReals.sig_not_dec, Classical_Prop.classic, FunctionalExtensionality.functional_extensionality_dep."
  },
  {
   "property": "C35",
   "status": "proved",
   "theorems": [
    "C35_compose",
    "C35_identity",
    "C35_inverse"
   ],
   "note": "Uses the standard library's axioms ClassicalDedekindReals.sig_forall_dec, ClassicalDedekindReals.sig_not_dec, Classical_Prop.classic, FunctionalExtensionality.functional_extensionality_dep."
  },
  {
   "property": "C36",
   "status": "proved",
   "theorems": [
    "C36_counts",
    "C36_packed_lengths",
    "C36_unloadable_refuted"
   ],
   "note": "The code does not meet a stronger or a natural form of the property; a concrete file, mesh or call refutes it: C36_unloadable_refuted. Uses the standard library's axioms ClassicalDedekindReals.sig_forall_dec, ClassicalDedekindReals.sig_not_dec, Classical_Prop.classic, FunctionalExtensionality.functional_extensionality_dep."
  },
  {
   "property": "C37",
   "status": "proved",
   "theorems": [
    "C37_bounds",
    "C37_bounds_exact",
    "C37_succeeds"
   ],
   "note": "Uses the standard library's axioms ClassicalDedekindReals.sig_forall_dec, ClassicalDedekindReals.sig_not_dec, Classical_Prop.classic, FunctionalExtensionality.functional_extensionality_dep."
  },
  {
   "property": "C38",
   "status": "proved",
   "theorems": [
    "C38_erased",
    "C38_contain_refuted"
   ],
   "note": "The code does not meet a stronger or a natural form of the property; a concrete file, mesh or call refutes it: C38_contain_refuted. Uses the standard library's axioms ClassicalDedekindReals.sig_forall_dec, ClassicalDedekindReals.sig_not_dec, Classical_Prop.classic, FunctionalExtensionality.functional_extensionality_dep."
  },
  {
   "property": "C39",
   "status": "proved",
   "theorems": [
    "C39_origin_inside",
    "C39_origin_inside_exact",
    "C39_tight_refuted"
   ],
   "note": "The code does not meet a stronger or a natural form of the property; a concrete file, mesh or call refutes it: C39_tight_refuted. Uses the standard library's axioms ClassicalDedekindReals.sig_forall_dec, ClassicalDedekindReals.sig_not_dec, Classical_Prop.classic, FunctionalExtensionality.functional_extensionality_dep."
  },
  {
   "property": "C40",
   "status": "proved",
   "theorems": [
    "C40_frame",
    "C40_idempotent",
    "C40_second_export"
   ],
   "note": "No axioms."
  },
  {
   "property": "C41",
   "status": "proved",
   "theorems": [
    "C41_bounds_survive"
   ],
   "note": "Uses the standard library's axioms ClassicalDedekindReals.sig_forall_dec, ClassicalDedekindReals.sig_not_dec, Classical_Prop.classic, FunctionalExtensionality.functional_extensionality_dep."
  },
  {
   "property": "C42",
   "status": "proved",
   "theorems": [
    "C42_center",
    "C42_succeeds",
    "C42_bad_number",
    "C42_exact_center",
    "C42_double_center",
    "C42_recentre",
    "C42_recentre_refuted"
   ],
   "note": "The code does not meet a stronger or a natural form of the property; a concrete file, mesh or call refutes it: C42_recentre_refuted. Uses the standard library's axioms ClassicalDedekindReals.sig_forall_dec, ClassicalDedekindReals.sig_not_dec, Classical_Prop.classic, FunctionalExtensionality.functional_extensionality_dep."
  },
  {
   "property": "C43",
   "status": "proved",
   "theorems": [
    "C43_header_attribute_geom",
    "C43_material",
    "C43_lod",
    "C43_lod_no_error",
    "C43_lod_equivalence",
    "C43_material_equivalence",
    "C43_pivot_error",
    "C43_equal_parts_refuted",
    "C43_zero_sign_refuted",
    "C43_nan_refuted"
   ],
   "note": "The code does not meet a stronger or a natural form of the property; a concrete file, mesh or call refutes it: C43_equal_parts_refuted, C43_zero_sign_refuted, C43_nan_refuted. Uses the standard library's axioms ClassicalDedekindReals.sig_forall_dec, ClassicalDedekindReals.sig_not_dec, Classical_Prop.classic, FunctionalExtensionality.functional_extensionality_dep."
  },
  {
   "property": "C44",
   "status": "proved",
   "theorems": [
    "C44_history",
    "C44_history_export"
   ],
   "note": "Uses the standard library's axioms ClassicalDedekindReals.sig_forall_dec, ClassicalDedekindReals.sig_not_dec, Classical_Prop.classic, FunctionalExtensionality.functional_extensionality_dep."
  },
  {
   "property": "C45",
   "status": "proved",
   "theorems": [
    "C45_load",
    "C45_truncated",
    "C45_save_reload",
    "C45_resave",
    "C45_files",
    "C45_open_save",
    "C45_bare_name",
    "C45_identity_refuted",
    "C45_material_refuted"
   ],
   "note": "The code does not meet a stronger or a natural form of the property; a concrete file, mesh or call refutes it: C45_identity_refuted, C45_material_refuted. Uses the standard library's axioms ClassicalDedekindReals.sig_forall_dec, ClassicalDedekindReals.sig_not_dec, Classical_Prop.classic, FunctionalExtensionality.functional_extensionality_dep."
  },
  {
   "property": "C46",
   "status": "proved",
   "theorems": [
    "C46_merge",
    "C46_triangles",
    "C46_dangling",
    "C46_bounds",
    "C46_savable",
    "C46_saved_faces",
    "C46_triangles_refuted",
    "C46_other_refuted",
    "C46_atomic_refuted",
    "C46_savable_refuted"
   ],
   "note": "The code does not meet a stronger or a natural form of the property; a concrete file, mesh or call refutes it: C46_triangles_refuted, C46_other_refuted, C46_atomic_refuted, C46_savable_refuted. Uses the standard library's axioms ClassicalDedekindReals.sig_forall_dec, ClassicalDedekindReals.sig_not_dec, Classical_Prop.classic, FunctionalExtensionality.functional_extensionality_dep."
  },
  {
   "property": "C47",
   "status": "proved",
   "theorems": [
    "C47_loadable_files_are_serialisations"
   ],
   "note": "Uses the standard library's axioms ClassicalDedekindReals.sig_forall_dec, ClassicalDedekindReals.sig_not_dec, Classical_Prop.classic, FunctionalExtensionality.functional_extensionality_dep."
  },
  {
   "property": "C48",
   "status": "proved",
   "theorems": [
    "C48_file_length"
   ],
   "note": "Uses the standard library's axioms ClassicalDedekindReals.sig_forall_dec, ClassicalDedekindReals.sig_not_dec, Classical_Prop.classic, FunctionalExtensionality.functional_extensionality_dep."
  },
  {
   "property": "C49",
   "status": "proved",
   "theorems": [
    "C49_save_reopen",
    "C49_open_save"
   ],
   "note": "Uses the standard library's axioms ClassicalDedekindReals.sig_forall_dec, ClassicalDedekindReals.sig_not_dec, Classical_Prop.classic, FunctionalExtensionality.functional_extensionality_dep."
  },
  {
   "property": "C50",
   "status": "proved",
   "theorems": [
    "C50_merged_twice",
    "C50_independence_refuted",
    "C50_self_merge"
   ],
   "note": "The code does not meet a stronger or a natural form of the property; a concrete file, mesh or call refutes it: C50_independence_refuted. No axioms."
  },
  {
   "property": "C51",
   "status": "proved",
   "theorems": [
    "C51_translate",
    "C51_bounds_refuted"
   ],
   "note": "The code does not meet a stronger or a natural form of the property; a concrete file, mesh or call refutes it: C51_bounds_refuted. Uses the standard library's axioms ClassicalDedekindReals.sig_forall_dec, ClassicalDedekindReals.sig_not_dec, Classical_Prop.classic, FunctionalExtensionality.functional_extensionality_dep."
  },
  {
   "property": "C52",
   "status": "proved",
   "theorems": [
    "C52_load_layout",
    "C52_export_layout",
    "C52_single_value"
   ],
   "note": "Uses the standard library's axioms ClassicalDedekindReals.sig_forall_dec, ClassicalDedekindReals.sig_not_dec, Classical_Prop.classic, FunctionalExtensionality.functional_extensionality_dep."
  },
  {
   "property": "C53",
   "status": "proved",
   "theorems": [
    "C53_load_layout",
    "C53_save_layout"
   ],
   "note": "Uses the standard library's axioms ClassicalDedekindReals.sig_forall_dec, ClassicalDedekindReals.sig_not_dec, Classical_Prop.classic, FunctionalExtensionality.functional_extensionality_dep."
  },
  {
   "property": "C54",
   "status": "proved",
   "theorems": [
    "C54_translate_accuracy",
    "C54_undo_accuracy",
    "C54_grid_exact"
   ],
   "note": "Uses the standard library's axioms ClassicalDedekindReals.sig_forall_dec, ClassicalDedekindReals.sig_not_dec, Classical_Prop.classic, FunctionalExtensionality.functional_extensionality_dep."
  },
  {
   "property": "C55",
   "status": "proved",
   "theorems": [
    "C55_rotate_accuracy"
   ],
   "note": "Uses the standard library's axioms ClassicalDedekindReals.sig_forall_dec, ClassicalDedekindReals.sig_not_dec, Classical_Prop.classic, FunctionalExtensionality.functional_extensionality_dep."
  },
  {
   "property": "C56",
   "status": "proved",
   "theorems": [
    "C56_save_accuracy",
    "C56_translate_save_accuracy",
    "C56_rotate_save_accuracy"
   ],
   "note": "Uses the standard library's axioms ClassicalDedekindReals.sig_forall_dec, ClassicalDedekindReals.sig_not_dec, Classical_Prop.classic, FunctionalExtensionality.functional_extensionality_dep."
  },
  {
   "property": "C57",
   "status": "proved",
   "theorems": [
    "C57_size",
    "C57_unknown_type",
    "C57_all_in_use_refuted"
   ],
   "note": "The code does not meet a stronger or a natural form of the property; a concrete file, mesh or call refutes it: C57_all_in_use_refuted. Uses the standard library's axioms ClassicalDedekindReals.sig_forall_dec, ClassicalDedekindReals.sig_not_dec, Classical_Prop.classic, FunctionalExtensionality.functional_extensionality_dep."
  },
  {
   "property": "C58",
   "status": "proved",
   "theorems": [
    "C58_agrees",
    "C58_nothing_else",
    "C58_files",
    "C58_same_files_refuted"
   ],
   "note": "The code does not meet a stronger or a natural form of the property; a concrete file, mesh or call refutes it: C58_same_files_refuted. Uses the standard library's axioms ClassicalDedekindReals.sig_forall_dec, ClassicalDedekindReals.sig_not_dec, Classical_Prop.classic, FunctionalExtensionality.functional_extensionality_dep."
  },
  {
   "property": "C59",
   "status": "proved",
   "theorems": [
    "C59_resave",
    "C59_same_bytes",
    "C59_open_save",
    "C59_bare_name",
    "C59_lossless_refuted"
   ],
   "note": "The code does not meet a stronger or a natural form of the property; a concrete file, mesh or call refutes it: C59_lossless_refuted. Uses the standard library's axioms ClassicalDedekindReals.sig_forall_dec, ClassicalDedekindReals.sig_not_dec, Classical_Prop.classic, FunctionalExtensionality.functional_extensionality_dep."
  },
  {
   "property": "C60",
   "status": "proved",
   "theorems": [
    "C60_get",
    "C60_read_write",
    "C60_read_write_ok",
    "C60_write_read",
    "C60_any_order_refuted"
   ],
   "note": "The code does not meet a stronger or a natural form of the property; a concrete file, mesh or call refutes it: C60_any_order_refuted. Uses the standard library's axioms ClassicalDedekindReals.sig_forall_dec, ClassicalDedekindReals.sig_not_dec, Classical_Prop.classic, FunctionalExtensionality.functional_extensionality_dep."
  },
  {
   "property": "C61",
   "status": "proved",
   "theorems": [
    "C61_moves",
    "C61_agrees_exactly",
    "C61_agrees_doubles",
    "C61_same_zeros_refuted",
    "C61_short_offset_refuted",
    "C61_shared_vertices_refuted",
    "C61_skinned_refuted"
   ],
   "note": "The code does not meet a stronger or a natural form of the property; a concrete file, mesh or call refutes it: C61_same_zeros_refuted, C61_short_offset_refuted, C61_shared_vertices_refuted, C61_skinned_refuted. Uses the standard library's axioms ClassicalDedekindReals.sig_forall_dec, ClassicalDedekindReals.sig_not_dec, Classical_Prop.classic, FunctionalExtensionality.functional_extensionality_dep."
  },
  {
   "property": "C62",
   "status": "proved",
   "theorems": [
    "C62_turns",
    "C62_agrees",
    "C62_infinite_angle",
    "C62_no_tangent_refuted"
   ],
   "note": "The code does not meet a stronger or a natural form of the property; a concrete file, mesh or call refutes it: C62_no_tangent_refuted. Uses the standard library's axioms ClassicalDedekindReals.sig_forall_dec, ClassicalDedekindReals.sig_not_dec, Classical_Prop.classic, FunctionalExtensionality.functional_extensionality_dep."
  },
  {
   "property": "C63",
   "status": "proved",
   "theorems": [
    "C63_enlarges",
    "C63_enlarges_exact",
    "C63_after_translate",
    "C63_after_rotate",
    "C63_tight_refuted"
   ],
   "note": "The code does not meet a stronger or a natural form of the property; a concrete file, mesh or call refutes it: C63_tight_refuted. Uses the standard library's axioms ClassicalDedekindReals.sig_forall_dec, ClassicalDedekindReals.sig_not_dec, Classical_Prop.classic, FunctionalExtensionality.functional_extensionality_dep."
  },
  {
   "property": "C64",
   "status": "proved",
   "theorems": [
    "C64_joins",
    "C64_agrees",
    "C64_textures_refuted",
    "C64_savable_refuted",
    "C64_all_or_nothing_refuted"
   ],
   "note": "The code does not meet a stronger or a natural form of the property; a concrete file, mesh or call refutes it: C64_textures_refuted, C64_savable_refuted, C64_all_or_nothing_refuted. Uses the standard library's axioms ClassicalDedekindReals.sig_forall_dec, ClassicalDedekindReals.sig_not_dec, Classical_Prop.classic, FunctionalExtensionality.functional_extensionality_dep."
  },
  {
   "property": "C65",
   "status": "proved",
   "theorems": [
    "C65_copy",
    "C65_copy_range",
    "C65_copy_shared",
    "C65_independent_refuted",
    "C65_order",
    "C65_order_range",
    "C65_order_short",
    "C65_order_long_refuted"
   ],
   "note": "The code does not meet a stronger or a natural form of the property; a concrete file, mesh or call refutes it: C65_independent_refuted, C65_order_long_refuted. Uses the standard library's axioms ClassicalDedekindReals.sig_forall_dec, ClassicalDedekindReals.sig_not_dec, Classical_Prop.classic, FunctionalExtensionality.functional_extensionality_dep."
  },
  {
   "property": "C66",
   "status": "proved",
   "theorems": [
    "C66_renames",
    "C66_savable",
    "C66_range"
   ],
   "note": "No axioms."
  },
  {
   "property": "C67",
   "status": "proved",
   "theorems": [
    "C67_tuple_refused",
    "C67_deletes",
    "C67_savable",
    "C67_negative_refuted",
    "C67_copied_refuted",
    "C67_all_or_nothing_refuted"
   ],
   "note": "The code does not meet a stronger or a natural form of the property; a concrete file, mesh or call refutes it: C67_negative_refuted, C67_copied_refuted, C67_all_or_nothing_refuted. Uses the standard library's axioms ClassicalDedekindReals.sig_forall_dec, ClassicalDedekindReals.sig_not_dec, Classical_Prop.classic, FunctionalExtensionality.functional_extensionality_dep."
  },
  {
   "property": "C68",
   "status": "proved",
   "theorems": [
    "C68_tuple_refused",
    "C68_tuple_raises",
    "C68_edits",
    "C68_attribute_refuted"
   ],
   "note": "The code does not meet a stronger or a natural form of the property; a concrete file, mesh or call refutes it: C68_attribute_refuted. Uses the standard library's axioms ClassicalDedekindReals.sig_forall_dec, ClassicalDedekindReals.sig_not_dec, Classical_Prop.classic, FunctionalExtensionality.functional_extensionality_dep."
  },
  {
   "property": "C69",
   "status": "proved",
   "theorems": [
    "C69_few_vertices",
    "C69_removes_24",
    "C69_ranges_break",
    "C69_given_vertex_refuted",
    "C69_replaces_24",
    "C69_given_index_refuted"
   ],
   "note": "The code does not meet a stronger or a natural form of the property; a concrete file, mesh or call refutes it: C69_given_vertex_refuted, C69_given_index_refuted. Uses the standard library's axioms ClassicalDedekindReals.sig_forall_dec, ClassicalDedekindReals.sig_not_dec, Classical_Prop.classic, FunctionalExtensionality.functional_extensionality_dep."
  },
  {
   "property": "C70",
   "status": "proved",
   "theorems": [
    "C70_removes",
    "C70_tuple_refused",
    "C70_first_refuted",
    "C70_positions_refuted"
   ],
   "note": "The code does not meet a stronger or a natural form of the property; a concrete file, mesh or call refutes it: C70_first_refuted, C70_positions_refuted. Uses the standard library's axioms ClassicalDedekindReals.sig_forall_dec, ClassicalDedekindReals.sig_not_dec, Classical_Prop.classic, FunctionalExtensionality.functional_extensionality_dep."
  },
  {
   "property": "C71",
   "status": "proved",
   "theorems": [
    "C71_copies",
    "C71_loaded_refuted"
   ],
   "note": "The code does not meet a stronger or a natural form of the property; a concrete file, mesh or call refutes it: C71_loaded_refuted. Uses the standard library's axioms ClassicalDedekindReals.sig_forall_dec, ClassicalDedekindReals.sig_not_dec, Classical_Prop.classic, FunctionalExtensionality.functional_extensionality_dep."
  },
  {
   "property": "C72",
   "status": "proved",
   "theorems": [
    "C72_lods",
    "C72_geoms",
    "C72_fails",
    "C72_equivalence",
    "C72_loaded",
    "C72_saved",
    "C72_constructed_refuted"
   ],
   "note": "The code does not meet a stronger or a natural form of the property; a concrete file, mesh or call refutes it: C72_constructed_refuted. Uses the standard library's axioms ClassicalDedekindReals.sig_forall_dec, ClassicalDedekindReals.sig_not_dec, Classical_Prop.classic, FunctionalExtensionality.functional_extensionality_dep."
  },
  {
   "property": "C73",
   "status": "proved",
   "theorems": [
    "C73_sums",
    "C73_dot",
    "C73_cross",
    "C73_division",
    "C73_division_by_vector",
    "C73_subtraction_double",
    "C73_cross_refuted",
    "C73_cross_double_refuted"
   ],
   "note": "The code does not meet a stronger or a natural form of the property; a concrete file, mesh or call refutes it: C73_cross_refuted, C73_cross_double_refuted. Uses the standard library's axioms ClassicalDedekindReals.sig_forall_dec, ClassicalDedekindReals.sig_not_dec, Classical_Prop.classic, FunctionalExtensionality.functional_extensionality_dep."
  },
  {
   "property": "C74",
   "status": "proved",
   "theorems": [
    "C74_duplicate",
    "C74_centred",
    "C74_fails",
    "C74_bounds_refuted"
   ],
   "note": "The code does not meet a stronger or a natural form of the property; a concrete file, mesh or call refutes it: C74_bounds_refuted. Uses the standard library's axioms ClassicalDedekindReals.sig_forall_dec, ClassicalDedekindReals.sig_not_dec, FunctionalExtensionality.functional_extensionality_dep."
  },
  {
   "property": "C75",
   "status": "proved",
   "theorems": [
    "C75_head",
    "C75_attrib",
    "C75_material",
    "C75_lod",
    "C75_geom",
    "C75_two_meshes",
    "C75_same_file",
    "C75_objects",
    "C75_then_new",
    "C75_skinned_refuted",
    "C75_nodes_refuted",
    "C75_mmax_refuted"
   ],
   "note": "The code does not meet a stronger or a natural form of the property; a concrete file, mesh or call refutes it: C75_skinned_refuted, C75_nodes_refuted, C75_mmax_refuted. Uses the standard library's axioms ClassicalDedekindReals.sig_forall_dec, ClassicalDedekindReals.sig_not_dec, Classical_Prop.classic, FunctionalExtensionality.functional_extensionality_dep."
  },
  {
   "property": "C76",
   "status": "proved",
   "theorems": [
    "C76_translate",
    "C76_rotate",
    "C76_formats_refuted"
   ],
   "note": "The code does not meet a stronger or a natural form of the property; a concrete file, mesh or call refutes it: C76_formats_refuted. Uses the standard library's axioms ClassicalDedekindReals.sig_forall_dec, ClassicalDedekindReals.sig_not_dec, Classical_Prop.classic, FunctionalExtensionality.functional_extensionality_dep."
  },
  {
   "property": "C77",
   "status": "proved",
   "theorems": [
    "C77_translate",
    "C77_rotate"
   ],
   "note": "Uses the standard library's axioms ClassicalDedekindReals.sig_forall_dec, ClassicalDedekindReals.sig_not_dec, Classical_Prop.classic, FunctionalExtensionality.functional_extensionality_dep."
  },
  {
   "property": "C78",
   "status": "proved",
   "theorems": [
    "C78_merge_order"
   ],
   "note": "Uses the standard library's axioms ClassicalDedekindReals.sig_forall_dec, ClassicalDedekindReals.sig_not_dec, Classical_Prop.classic, FunctionalExtensionality.functional_extensionality_dep."
  },
  {
   "property": "C79",
   "status": "proved",
   "theorems": [
    "C79_turn_moved"
   ],
   "note": "Uses the standard library's axioms ClassicalDedekindReals.sig_forall_dec, ClassicalDedekindReals.sig_not_dec, Classical_Prop.classic, FunctionalExtensionality.functional_extensionality_dep."
  },
  {
   "property": "C80",
   "status": "proved",
   "theorems": [
    "C80_double",
    "C80_exact"
   ],
   "note": "Uses the standard library's axioms ClassicalDedekindReals.sig_forall_dec, ClassicalDedekindReals.sig_not_dec, Classical_Prop.classic, FunctionalExtensionality.functional_extensionality_dep."
  },
  {
   "property": "C81",
   "status": "proved",
   "theorems": [
    "C81_root",
    "C81_lines",
    "C81_total",
    "C81_types_refuted",
    "C81_comment_refuted"
   ],
   "note": "The code does not meet a stronger or a natural form of the property; a concrete file, mesh or call refutes it: C81_types_refuted, C81_comment_refuted. No axioms."
  },
  {
   "property": "C82",
   "status": "proved",
   "theorems": [
    "C82_children",
    "C82_own",
    "C82_no_root",
    "C82_include_refuted"
   ],
   "note": "The code does not meet a stronger or a natural form of the property; a concrete file, mesh or call refutes it: C82_include_refuted. No axioms."
  },
  {
   "property": "C83",
   "status": "proved",
   "theorems": [
    "C83_root",
    "C83_raises",
    "C83_comps",
    "C83_nested_refuted"
   ],
   "note": "The code does not meet a stronger or a natural form of the property; a concrete file, mesh or call refutes it: C83_nested_refuted. No axioms."
  },
  {
   "property": "C84",
   "status": "proved",
   "theorems": [
    "C84_path"
   ],
   "note": "No axioms."
  },
  {
   "property": "C85",
   "status": "proved",
   "theorems": [
    "C85_cells",
    "C85_unique",
    "C85_notation_refuted"
   ],
   "note": "The code does not meet a stronger or a natural form of the property; a concrete file, mesh or call refutes it: C85_notation_refuted. No axioms."
  },
  {
   "property": "C86",
   "status": "proved",
   "theorems": [
    "C86_printed",
    "C86_raises",
    "C86_rigid",
    "C86_yaw_refuted"
   ],
   "note": "The code does not meet a stronger or a natural form of the property; a concrete file, mesh or call refutes it: C86_yaw_refuted. Uses the standard library's axioms ClassicalDedekindReals.sig_forall_dec, ClassicalDedekindReals.sig_not_dec, FunctionalExtensionality.functional_extensionality_dep."
  },
  {
   "property": "C87",
   "status": "proved",
   "theorems": [
    "C87_sample",
    "C87_face",
    "C87_short",
    "C87_loads",
    "C87_samples_refuted",
    "C87_no_directory_refuted"
   ],
   "note": "The code does not meet a stronger or a natural form of the property; a concrete file, mesh or call refutes it: C87_samples_refuted, C87_no_directory_refuted. No axioms."
  },
  {
   "property": "C88",
   "status": "proved",
   "theorems": [
    "C88_mesh",
    "C88_float4_stops",
    "C88_corners",
    "C88_any_layout_refuted",
    "C88_material",
    "C88_script"
   ],
   "note": "The code does not meet a stronger or a natural form of the property; a concrete file, mesh or call refutes it: C88_any_layout_refuted. Uses the standard library's axioms ClassicalDedekindReals.sig_forall_dec, ClassicalDedekindReals.sig_not_dec, Classical_Prop.classic, FunctionalExtensionality.functional_extensionality_dep."
  },
  {
   "property": "C89",
   "status": "proved",
   "theorems": [
    "C89_table",
    "C89_vertices",
    "C89_box",
    "C89_literals",
    "C89_box_saved",
    "C89_box_surface",
    "C89_colbox_saved",
    "C89_colbox_surface",
    "C89_colbox_bounds_refuted",
    "C89_colbox_compare"
   ],
   "note": "The code does not meet a stronger or a natural form of the property; a concrete file, mesh or call refutes it: C89_colbox_bounds_refuted. Uses the standard library's axioms ClassicalDedekindReals.sig_forall_dec, ClassicalDedekindReals.sig_not_dec, Classical_Prop.classic, FunctionalExtensionality.functional_extensionality_dep."
  },
  {
   "property": "C90",
   "status": "proved",
   "theorems": [
    "C90_rigid",
    "C90_measures",
    "C90_merge",
    "C90_triangles",
    "C90_open_refuted"
   ],
   "note": "The code does not meet a stronger or a natural form of the property; a concrete file, mesh or call refutes it: C90_open_refuted. Uses the standard library's axioms ClassicalDedekindReals.sig_forall_dec, ClassicalDedekindReals.sig_not_dec, Classical_Prop.classic, FunctionalExtensionality.functional_extensionality_dep."
  },
  {
   "property": "C91",
   "status": "proved",
   "theorems": [
    "C91_printed",
    "C91_unopened",
    "C91_raises",
    "C91_unique",
    "C91_jet",
    "C91_wings_refuted",
    "C91_negative_refuted",
    "C91_own_refuted"
   ],
   "note": "The code does not meet a stronger or a natural form of the property; a concrete file, mesh or call refutes it: C91_wings_refuted, C91_negative_refuted, C91_own_refuted. No axioms."
  },
  {
   "property": "C92",
   "status": "proved",
   "theorems": [
    "C92_numbers",
    "C92_loaded",
    "C92_lossless",
    "C92_reopen",
    "C92_merged_files",
    "C92_reordered_file",
    "C92_translate_refuted"
   ],
   "note": "The code does not meet a stronger or a natural form of the property; a concrete file, mesh or call refutes it: C92_translate_refuted. Uses the standard library's axioms ClassicalDedekindReals.sig_forall_dec, ClassicalDedekindReals.sig_not_dec, Classical_Prop.classic, FunctionalExtensionality.functional_extensionality_dep."
  },
  {
   "property": "C93",
   "status": "proved",
   "theorems": [
    "C93_programs",
    "C93_start",
    "C93_repeated_refuted"
   ],
   "note": "The code does not meet a stronger or a natural form of the property; a concrete file, mesh or call refutes it: C93_repeated_refuted. No axioms."
  },
  {
   "property": "C94",
   "status": "proved",
   "theorems": [
    "C94_constructor",
    "C94_export",
    "C94_tidy",
    "C94_with",
    "C94_failed_open",
    "C94_failed_load_refuted"
   ],
   "note": "The code does not meet a stronger or a natural form of the property; a concrete file, mesh or call refutes it: C94_failed_load_refuted. Uses the standard library's axioms ClassicalDedekindReals.sig_forall_dec, ClassicalDedekindReals.sig_not_dec, Classical_Prop.classic, FunctionalExtensionality.functional_extensionality_dep."
  },
  {
   "property": "C95",
   "status": "proved",
   "theorems": [
    "C95_load",
    "C95_trailing",
    "C95_loaded",
    "C95_kept",
    "C95_edits",
    "C95_export",
    "C95_attained"
   ],
   "note": "Uses the standard library's axioms ClassicalDedekindReals.sig_forall_dec, ClassicalDedekindReals.sig_not_dec, Classical_Prop.classic, FunctionalExtensionality.functional_extensionality_dep."
  },
  {
   "property": "C96",
   "status": "proved",
   "theorems": [
    "C96_fit",
    "C96_result",
    "C96_copies",
    "C96_passes_over",
    "C96_order",
    "C96_order_refuted",
    "C96_surface"
   ],
   "note": "The code does not meet a stronger or a natural form of the property; a concrete file, mesh or call refutes it: C96_order_refuted. Uses the standard library's axioms ClassicalDedekindReals.sig_forall_dec, ClassicalDedekindReals.sig_not_dec, FunctionalExtensionality.functional_extensionality_dep."
  },
  {
   "property": "C97",
   "status": "proved",
   "theorems": [
    "C97_loads",
    "C97_long8",
    "C97_history",
    "C97_moves",
    "C97_copies",
    "C97_copies_surface",
    "C97_translate",
    "C97_col"
   ],
   "note": "Uses the standard library's axioms ClassicalDedekindReals.sig_forall_dec, ClassicalDedekindReals.sig_not_dec, Classical_Prop.classic, FunctionalExtensionality.functional_extensionality_dep."
  },
  {
   "property": "C98",
   "status": "proved",
   "theorems": [
    "C98_exact",
    "C98_doubles",
    "C98_surface",
    "C98_succeeds",
    "C98_merge"
   ],
   "note": "Uses the standard library's axioms ClassicalDedekindReals.sig_forall_dec, ClassicalDedekindReals.sig_not_dec, Classical_Prop.classic, FunctionalExtensionality.functional_extensionality_dep."
  },
  {
   "property": "C99",
   "status": "proved",
   "theorems": [
    "C99_drift",
    "C99_distances",
    "C99_linear",
    "C99_saved",
    "C99_example"
   ],
   "note": "Uses the standard library's axioms ClassicalDedekindReals.sig_forall_dec, ClassicalDedekindReals.sig_not_dec, Classical_Prop.classic, FunctionalExtensionality.functional_extensionality_dep."
  },
  {
   "property": "C100",
   "status": "proved",
   "theorems": [
    "C100_read_during_save",
    "C100_all_or_error",
    "C100_still",
    "C100_resized",
    "C100_mixture",
    "C100_old_or_new_refuted"
   ],
   "note": "The code does not meet a stronger or a natural form of the property; a concrete file, mesh or call refutes it: C100_old_or_new_refuted. Model of the file as the contents it has one after the other; renames, removal and network file systems are not modelled. Uses the standard library's axioms ClassicalDedekindReals.sig_forall_dec, ClassicalDedekindReals.sig_not_dec, Classical_Prop.classic, FunctionalExtensionality.functional_extensionality_dep."
  },
  {
   "property": "C101",
   "status": "proved",
   "theorems": [
    "C101_same_bytes",
    "C101_alone",
    "C101_bytes",
    "C101_mixture",
    "C101_garbage",
    "C101_one_of_them_refuted",
    "C101_loads_refuted"
   ],
   "note": "The code does not meet a stronger or a natural form of the property; a concrete file, mesh or call refutes it: C101_one_of_them_refuted, C101_loads_refuted. Each flush is one step of any size, so all buffer sizes are covered; network file systems are not modelled. Uses the standard library's axioms ClassicalDedekindReals.sig_forall_dec, ClassicalDedekindReals.sig_not_dec, Classical_Prop.classic, FunctionalExtensionality.functional_extensionality_dep."
  },
  {
   "property": "C102",
   "status": "proved",
   "theorems": [
    "C102_threads",
    "C102_translate",
    "C102_serial",
    "C102_lost_update",
    "C102_serializable_refuted",
    "C102_export",
    "C102_export_merge_refuted"
   ],
   "note": "The code does not meet a stronger or a natural form of the property; a concrete file, mesh or call refutes it: C102_serializable_refuted, C102_export_merge_refuted. A step is the work on one material or the final assignment (one access to self.vertices each); free-threaded interpreters are not modelled. Uses the standard library's axioms ClassicalDedekindReals.sig_forall_dec, ClassicalDedekindReals.sig_not_dec, Classical_Prop.classic, FunctionalExtensionality.functional_extensionality_dep."
  },
  {
   "property": "C103",
   "status": "proved",
   "theorems": [
    "C103_as_printed",
    "C103_bare_names",
    "C103_order_mismatch",
    "C103_order_list",
    "C103_order",
    "C103_offset",
    "C103_merge",
    "C103_merge_ignored",
    "C103_box_offset",
    "C103_box_merged"
   ],
   "note": "The third program is not valid Python as printed (a with statement has no body); it is modelled with the body indented. Uses the standard library's axioms ClassicalDedekindReals.sig_forall_dec, ClassicalDedekindReals.sig_not_dec, Classical_Prop.classic, FunctionalExtensionality.functional_extensionality_dep."
  },
  {
   "property": "C104",
   "status": "proved",
   "theorems": [
    "C104_writable",
    "C104_reload",
    "C104_inconsistent_lost",
    "C104_wrong_count_refuted",
    "C104_rename"
   ],
   "note": "The code does not meet a stronger or a natural form of the property; a concrete file, mesh or call refutes it: C104_wrong_count_refuted. Attributes hold values of the types of the model (ints, floats, bytes, lists); other Python types are outside the model. Uses the standard library's axioms ClassicalDedekindReals.sig_forall_dec, ClassicalDedekindReals.sig_not_dec, Classical_Prop.classic, FunctionalExtensionality.functional_extensionality_dep."
  },
  {
   "property": "C105",
   "status": "proved",
   "theorems": [
    "C105_fits",
    "C105_other_errors",
    "C105_full",
    "C105_unloadable"
   ],
   "note": "The buffer follows CPython's io.BufferedWriter. Uses the standard library's axioms ClassicalDedekindReals.sig_forall_dec, ClassicalDedekindReals.sig_not_dec, Classical_Prop.classic, FunctionalExtensionality.functional_extensionality_dep."
  },
  {
   "property": "C106",
   "status": "proved",
   "theorems": [
    "C106_kind",
    "C106_kind_same",
    "C106_kind_separators",
    "C106_kind_everywhere_refuted",
    "C106_no_directory",
    "C106_drive",
    "C106_dirname_same",
    "C106_posix",
    "C106_bare_name",
    "C106_saved"
   ],
   "note": "The code does not meet a stronger or a natural form of the property; a concrete file, mesh or call refutes it: C106_kind_everywhere_refuted. ntpath of CPython 3.8 to 3.11; 3.12 splits names of network shares differently. The size of C long is a parameter elsewhere (C10). No axioms."
  },
  {
   "property": "C107",
   "status": "proved",
   "theorems": [
    "C107_translate_exact",
    "C107_stays_at_origin",
    "C107_translate_double",
    "C107_rotate",
    "C107_rotate_double",
    "C107_translate_succeeds",
    "C107_rotate_succeeds"
   ],
   "note": "In doubles the rotate statement assumes finite positions of length at most 2^1000 and a bound on the error of the C library's cosine and sine. Uses the standard library's axioms ClassicalDedekindReals.sig_forall_dec, ClassicalDedekindReals.sig_not_dec, Classical_Prop.classic, FunctionalExtensionality.functional_extensionality_dep."
  },
  {
   "property": "C108",
   "status": "proved",
   "theorems": [
    "C108_same",
    "C108_success",
    "C108_bound",
    "C108_small_file_refuted",
    "C108_attributes_refuted"
   ],
   "note": "The code does not meet a stronger or a natural form of the property; a concrete file, mesh or call refutes it: C108_small_file_refuted, C108_attributes_refuted. The count is of objects of the mesh's own classes; the bytes and tuples that the read calls make are not counted, and memory is unlimited in the model. No axioms."
  },
  {
   "property": "C109",
   "status": "proved",
   "theorems": [
    "C109_length",
    "C109_histories",
    "C109_merge"
   ],
   "note": "Reorderings are by permutations; meshes whose oriented attributes have four components are excluded, since rotate shortens them (C24). Uses the standard library's axioms ClassicalDedekindReals.sig_forall_dec, ClassicalDedekindReals.sig_not_dec, Classical_Prop.classic, FunctionalExtensionality.functional_extensionality_dep."
  },
  {
   "property": "C110",
   "status": "proved",
   "theorems": [
    "C110_head",
    "C110_head_lines",
    "C110_head_distinct",
    "C110_numeral",
    "C110_attribute",
    "C110_attribute_unknown",
    "C110_attribute_distinct",
    "C110_versions_refuted",
    "C110_loaded_refuted",
    "C110_mesh_refuted"
   ],
   "note": "The code does not meet a stronger or a natural form of the property; a concrete file, mesh or call refutes it: C110_versions_refuted, C110_loaded_refuted, C110_mesh_refuted. Fields that were never set (None) and Python 3.11, in which len of a type raises, are left out. Uses the standard library's axioms ClassicalDedekindReals.sig_forall_dec, ClassicalDedekindReals.sig_not_dec, Classical_Prop.classic, FunctionalExtensionality.functional_extensionality_dep."
  }
 ]
}