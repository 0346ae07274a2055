{
 "claims": [
  {
   "property": "C01",
   "status": "proved",
   "theorems": [
    "C01_obj_parse_terminates"
   ],
   "note": ""
  },
  {
   "property": "C02",
   "status": "proved",
   "theorems": [
    "C02_mtl_parse_is_total"
   ],
   "note": ""
  },
  {
   "property": "C03",
   "status": "proved",
   "theorems": [
    "C03_release_panic_iff",
    "C03_never_panics_refuted"
   ],
   "note": "exact condition for a panic; that there is none is refuted"
  },
  {
   "property": "C04",
   "status": "proved",
   "theorems": [
    "C04_debug_overflow_iff",
    "C04_otherwise_the_same",
    "C04_debug_ok_iff",
    "C04_debug_error_iff",
    "C04_debug_panic_iff",
    "C04_no_assertion_fails"
   ],
   "note": "obj"
  },
  {
   "property": "C05",
   "status": "proved",
   "theorems": [
    "C05_tokens_are_utf8"
   ],
   "note": ""
  },
  {
   "property": "C06",
   "status": "proved",
   "theorems": [
    "C06_tokens_are_the_declared_ones"
   ],
   "note": ""
  },
  {
   "property": "C07",
   "status": "proved",
   "theorems": [
    "C07_whitespace_is_irrelevant",
    "C07_trailing_whitespace_is_irrelevant"
   ],
   "note": ""
  },
  {
   "property": "C08",
   "status": "proved",
   "theorems": [
    "C08_comments_are_invisible"
   ],
   "note": ""
  },
  {
   "property": "C09",
   "status": "proved",
   "theorems": [
    "C09_obj_blank_lines",
    "C09_mtl_blank_lines"
   ],
   "note": ""
  },
  {
   "property": "C10",
   "status": "proved",
   "theorems": [
    "C10_vertex_data",
    "C10_all_objects",
    "C10_vertex_text",
    "C10_texture_vertex_text",
    "C10_normal_text",
    "C10_doc_comment_refuted"
   ],
   "note": "the refuted theorem: the comment at obj.rs:127-128"
  },
  {
   "property": "C11",
   "status": "proved",
   "theorems": [
    "C11_accepted_iff",
    "C11_nearest",
    "C11_nearest_unique",
    "C11_infinity",
    "C11_nan",
    "C11_every_f64",
    "C11_long_exponent_refuted"
   ],
   "note": "for exponents below 65536 or tokens of at most 60000 bytes; refuted beyond"
  },
  {
   "property": "C12",
   "status": "proved",
   "theorems": [
    "C12_indices_denote"
   ],
   "note": ""
  },
  {
   "property": "C13",
   "status": "proved",
   "theorems": [
    "C13_indices_resolve"
   ],
   "note": ""
  },
  {
   "property": "C14",
   "status": "proved",
   "theorems": [
    "C14_same_form"
   ],
   "note": ""
  },
  {
   "property": "C15",
   "status": "proved",
   "theorems": [
    "C15_fan",
    "C15_text",
    "C15_C16_in_order",
    "C15_C16_counts"
   ],
   "note": ""
  },
  {
   "property": "C16",
   "status": "proved",
   "theorems": [
    "C16_polyline",
    "C16_points",
    "C16_polyline_text",
    "C16_points_text",
    "C15_C16_in_order",
    "C15_C16_counts"
   ],
   "note": ""
  },
  {
   "property": "C17",
   "status": "proved",
   "theorems": [
    "C17_shape_entries"
   ],
   "note": ""
  },
  {
   "property": "C18",
   "status": "proved",
   "theorems": [
    "C18_groups",
    "C18_group_set",
    "C18_named",
    "C18_default",
    "C18_bare_front",
    "C18_bare_later"
   ],
   "note": ""
  },
  {
   "property": "C19",
   "status": "proved",
   "theorems": [
    "C19_smoothing",
    "C19_smoothing_group_set",
    "C19_last",
    "C19_default"
   ],
   "note": ""
  },
  {
   "property": "C20",
   "status": "proved",
   "theorems": [
    "C20_partition",
    "C20_material",
    "C20_empty_last",
    "C20_last",
    "C20_none"
   ],
   "note": ""
  },
  {
   "property": "C21",
   "status": "proved",
   "theorems": [
    "C21_names_in_order",
    "C21_later_objects"
   ],
   "note": ""
  },
  {
   "property": "C22",
   "status": "proved",
   "theorems": [
    "C22_libraries",
    "C22_library_lines"
   ],
   "note": ""
  },
  {
   "property": "C23",
   "status": "proved",
   "theorems": [
    "C23_unknown_statement",
    "C23_only"
   ],
   "note": ""
  },
  {
   "property": "C24",
   "status": "proved",
   "theorems": [
    "C24_error_line",
    "C24_error_line_bounds",
    "C24_error_iff",
    "C24_mtl_error_line",
    "C24_mtl_error_line_bounds",
    "C24_mtl_error_iff"
   ],
   "note": ""
  },
  {
   "property": "C25",
   "status": "proved",
   "theorems": [
    "C25_negative_indices_refuted",
    "C25_points",
    "C25_lines",
    "C25_faces",
    "C25_no_reference"
   ],
   "note": "relative indices are refuted; what the code does instead is proved"
  },
  {
   "property": "C26",
   "status": "proved",
   "theorems": [
    "C26_all_references_kept_refuted",
    "C26_references_kept"
   ],
   "note": "refuted; the true part is proved"
  },
  {
   "property": "C27",
   "status": "proved",
   "theorems": [
    "C27_crlf_refuted",
    "C27_carriage_return",
    "C27_line",
    "C27_crlf",
    "C27_mtl",
    "C27_mtl_crlf"
   ],
   "note": "refuted; what happens at a carriage return is proved, and that no text with one of the common lines survives"
  },
  {
   "property": "C28",
   "status": "proved",
   "theorems": [
    "C28_continuation_refuted",
    "C28_backslash_is_a_space"
   ],
   "note": "the OBJ format's continuation is refuted; the true part is proved"
  },
  {
   "property": "C29",
   "status": "proved",
   "theorems": [
    "C29_read_back",
    "C29_writer",
    "C29_writer_complete"
   ],
   "note": ""
  },
  {
   "property": "C30",
   "status": "proved",
   "theorems": [
    "C30_parse_ok_iff",
    "C30_one_reading",
    "C30_debug_ok"
   ],
   "note": ""
  },
  {
   "property": "C31",
   "status": "proved",
   "theorems": [
    "C31_parse_ok_iff",
    "C31_one_reading",
    "C31_materials_in_order"
   ],
   "note": ""
  },
  {
   "property": "C32",
   "status": "proved",
   "theorems": [
    "C32_color_last",
    "C32_number_last",
    "C32_illum_last",
    "C32_map_last",
    "C32_color_default",
    "C32_number_default",
    "C32_illum_default",
    "C32_map_default",
    "C32_different_fields_commute",
    "C32_own_statements"
   ],
   "note": ""
  },
  {
   "property": "C33",
   "status": "proved",
   "theorems": [
    "C33_any_layout",
    "C33_writer",
    "C33_readable_iff",
    "C33_readable_bytes_iff"
   ],
   "note": "also exactly which materials can be read"
  },
  {
   "property": "C34",
   "status": "proved",
   "theorems": [
    "C34_accepted",
    "C34_value",
    "C34_unknown",
    "C34_not_an_integer",
    "C34_end_of_input"
   ],
   "note": ""
  },
  {
   "property": "C35",
   "status": "proved",
   "theorems": [
    "C35_index",
    "C35_smoothing_group",
    "C35_read_back",
    "C35_parsed_read_back"
   ],
   "note": ""
  },
  {
   "property": "C36",
   "status": "proved",
   "theorems": [
    "C36_found_iff",
    "C36_in_range_iff"
   ],
   "note": ""
  },
  {
   "property": "C37",
   "status": "proved",
   "theorems": [
    "C37_same_form",
    "C37_equivalence"
   ],
   "note": ""
  },
  {
   "property": "C38",
   "status": "proved",
   "theorems": [
    "C38_isize",
    "C38_usize"
   ],
   "note": ""
  },
  {
   "property": "C39",
   "status": "proved",
   "theorems": [
    "C39_library_names",
    "C39_object_names",
    "C39_group_names",
    "C39_material_names",
    "C39_mtl_names",
    "C39_written",
    "C39_mtl_written"
   ],
   "note": ""
  },
  {
   "property": "C40",
   "status": "proved",
   "theorems": [
    "C40_second_parse_objset",
    "C40_second_parse_mtlset"
   ],
   "note": ""
  },
  {
   "property": "C41",
   "status": "proved",
   "theorems": [
    "C41_object",
    "C41_object_set",
    "C41_parsed_object",
    "C41_parsed_object_set",
    "C41_every_object_refuted"
   ],
   "note": "never panics is refuted for a hand-made object with an index usize::MAX in a debug build; everything else is proved"
  },
  {
   "property": "C42",
   "status": "proved",
   "theorems": [
    "C42_sizes",
    "C42_mtl_size",
    "C42_names",
    "C42_mtl_names",
    "C42_groups",
    "C42_quadratic"
   ],
   "note": "the lists of groups of all elements together may grow quadratically"
  },
  {
   "property": "C43",
   "status": "proved",
   "theorems": [
    "C43_names_are_not_newlines_refuted",
    "C43_mtl_names_are_not_newlines_refuted",
    "C43_object_names_refuted",
    "C43_group_and_library_names",
    "C43_only_missing",
    "C43_mtl_only_missing"
   ],
   "note": "refuted; the true part is proved"
  },
  {
   "property": "C44",
   "status": "proved",
   "theorems": [
    "C44_every_element_in_a_group_refuted",
    "C44_if_every_g_has_a_name"
   ],
   "note": "refuted; the true part is proved"
  },
  {
   "property": "C45",
   "status": "proved",
   "theorems": [
    "C45_error_text",
    "C45_error_determined"
   ],
   "note": ""
  },
  {
   "property": "C46",
   "status": "proved",
   "theorems": [
    "C46_object_set",
    "C46_material_set",
    "C46_reflexive",
    "C46_mtl_reflexive",
    "C46_reflexive_refuted",
    "C46_mtl_reflexive_refuted",
    "C46_triple",
    "C46_shape",
    "C46_obj_error",
    "C46_mtl_error"
   ],
   "note": "reflexivity is refuted (NaN); the exact relation is proved"
  },
  {
   "property": "C47",
   "status": "proved",
   "theorems": [
    "C47_only",
    "C47_all",
    "C47_again"
   ],
   "note": "up to the size of the text (isize::MAX bytes)"
  },
  {
   "property": "C48",
   "status": "proved",
   "theorems": [
    "C48_obj",
    "C48_mtl"
   ],
   "note": ""
  },
  {
   "property": "C49",
   "status": "proved",
   "theorems": [
    "C49_mtl",
    "C49_obj",
    "C49_obj_texts_refuted"
   ],
   "note": "for OBJ texts concatenation is refuted; merging the sets is proved"
  },
  {
   "property": "C50",
   "status": "proved",
   "theorems": [
    "C50_obj",
    "C50_mtl",
    "C50_vp_never",
    "C50_Tf_never",
    "C50_obj_refuted",
    "C50_mtl_refuted",
    "C50_obj_only_refuted",
    "C50_mtl_only_refuted"
   ],
   "note": "that the grammars are implemented is refuted in both directions; what holds of the texts of the grammars is proved"
  },
  {
   "property": "C51",
   "status": "proved",
   "theorems": [
    "C51_obj",
    "C51_free_form",
    "C51_mtl"
   ],
   "note": ""
  },
  {
   "property": "C52",
   "status": "proved",
   "theorems": [
    "C52_color",
    "C52_consistent",
    "C52_dual",
    "C52_transitive",
    "C52_total",
    "C52_parsed",
    "C52_illumination"
   ],
   "note": ""
  },
  {
   "property": "C53",
   "status": "proved",
   "theorems": [
    "C53_object",
    "C53_object_use",
    "C53_smoothing_group"
   ],
   "note": ""
  },
  {
   "property": "C54",
   "status": "proved",
   "theorems": [
    "C54_objects"
   ],
   "note": ""
  },
  {
   "property": "C55",
   "status": "proved",
   "theorems": [
    "C55_swapped",
    "C55_any_refuted"
   ],
   "note": "the proviso is necessary (refuted without)"
  },
  {
   "property": "C56",
   "status": "proved",
   "theorems": [
    "C56_split",
    "C56_together",
    "C56_points",
    "C56_line",
    "C56_face"
   ],
   "note": ""
  },
  {
   "property": "C57",
   "status": "proved",
   "theorems": [
    "C57_unused"
   ],
   "note": ""
  },
  {
   "property": "C58",
   "status": "proved",
   "theorems": [
    "C58_obj_top",
    "C58_mtl_top",
    "C58_obj_final",
    "C58_mtl_final",
    "C58_final_error_refuted"
   ],
   "note": "that a final newline never changes an error is refuted"
  },
  {
   "property": "C59",
   "status": "proved",
   "theorems": [
    "C59_data",
    "C59_mtl_data"
   ],
   "note": ""
  },
  {
   "property": "C60",
   "status": "proved",
   "theorems": [
    "C60_obj_explained",
    "C60_mtl_explained",
    "C60_obj_never",
    "C60_mtl_never",
    "C60_obj_every_kind",
    "C60_mtl_every_kind"
   ],
   "note": ""
  },
  {
   "property": "C61",
   "status": "proved",
   "theorems": [
    "C61_obj",
    "C61_mtl"
   ],
   "note": ""
  },
  {
   "property": "C62",
   "status": "proved",
   "theorems": [
    "C62_obj",
    "C62_obj_stuck",
    "C62_mtl",
    "C62_mtl_stuck"
   ],
   "note": ""
  },
  {
   "property": "C63",
   "status": "proved",
   "theorems": [
    "C63_vertex",
    "C63_texture_vertex",
    "C63_normal_vertex",
    "C63_fewest_digits"
   ],
   "note": ""
  },
  {
   "property": "C64",
   "status": "proved",
   "theorems": [
    "C64_overwritten"
   ],
   "note": ""
  },
  {
   "property": "C65",
   "status": "proved",
   "theorems": [
    "C65_lines",
    "C65_first_word",
    "C65_mtl_first_word"
   ],
   "note": ""
  },
  {
   "property": "C66",
   "status": "proved",
   "theorems": [
    "C66_obj",
    "C66_obj_says",
    "C66_mtl",
    "C66_mtl_says"
   ],
   "note": ""
  },
  {
   "property": "C67",
   "status": "proved",
   "theorems": [
    "C67_obj",
    "C67_obj_lines",
    "C67_obj_panic",
    "C67_obj_overflow",
    "C67_mtl",
    "C67_mtl_lines"
   ],
   "note": ""
  },
  {
   "property": "C68",
   "status": "proved",
   "theorems": [
    "C68_obj",
    "C68_mtl",
    "C68_places",
    "C68_each_obj",
    "C68_each_mtl",
    "C68_volume_obj",
    "C68_volume_mtl"
   ],
   "note": ""
  },
  {
   "property": "C69",
   "status": "proved",
   "theorems": [
    "C69_meaning",
    "C69_accepts_iff",
    "C69_optional_refuted"
   ],
   "note": "the refuted theorem: one value for a colour is documented but rejected"
  },
  {
   "property": "C70",
   "status": "proved",
   "theorems": [
    "C70_meaning",
    "C70_one_object",
    "C70_picture",
    "C70_state_refuted",
    "C70_relative_refuted",
    "C70_scope_refuted",
    "C70_library_refuted"
   ],
   "note": "the refuted theorems: state kept across o, relative references never misread, references to earlier objects, mtllib anywhere"
  },
  {
   "property": "C71",
   "status": "proved",
   "theorems": [
    "C71_boundary",
    "C71_closed",
    "C71_area",
    "C71_ends",
    "C71_used"
   ],
   "note": "C71_area is about real numbers and uses two standard library axioms"
  },
  {
   "property": "C72",
   "status": "proved",
   "theorems": [
    "C72_tiles",
    "C72_weakly_convex",
    "C72_polygon_is_hull",
    "C72_concave_refuted"
   ],
   "note": "about real numbers, two standard library axioms; the refuted theorem: concave polygons, which README.md allows"
  },
  {
   "property": "C73",
   "status": "proved",
   "theorems": [
    "C73_parse",
    "C73_calls",
    "C73_obj_reached",
    "C73_mtl_reached"
   ],
   "note": "the model with machine words (UsizeModel.v) agrees with the model with nat; the MTL parser has no counter besides those of peek and next"
  },
  {
   "property": "C74",
   "status": "proved",
   "theorems": [
    "C74_obj",
    "C74_mtl",
    "C74_obj_byte",
    "C74_mtl_byte",
    "C74_byte_order_mark"
   ],
   "note": ""
  },
  {
   "property": "C75",
   "status": "proved",
   "theorems": [
    "C75_obj",
    "C75_mtl",
    "C75_object_set",
    "C75_material_set",
    "C75_obj_error",
    "C75_mtl_error",
    "C75_string",
    "C75_literal",
    "C75_number",
    "C75_number_read",
    "C75_display_refuted"
   ],
   "note": "For any choice of the escaped characters beyond ASCII and of the numbers written with an exponent. C75_display_refuted: Display does not determine the value."
  },
  {
   "property": "C76",
   "status": "proved",
   "theorems": [
    "C76_unbroken_obj",
    "C76_unbroken_mtl",
    "C76_indented_obj",
    "C76_indented_mtl",
    "C76_broken_obj",
    "C76_broken_mtl",
    "C76_sparing_obj",
    "C76_sparing_mtl",
    "C76_only",
    "C76_text_obj",
    "C76_text_mtl",
    "C76_triple",
    "C76_object_set",
    "C76_material_set",
    "C76_obj_error",
    "C76_mtl_error",
    "C76_obj",
    "C76_mtl"
   ],
   "note": "For any choice of the escaped characters beyond ASCII and of the numbers written with an exponent."
  },
  {
   "property": "C77",
   "status": "proved",
   "theorems": [
    "C77_library",
    "C77_use",
    "C77_used",
    "C77_distinct_refuted"
   ],
   "note": "Both directions, for whole texts; the OBJ text that uses the materials is write_set of set_using, if it is not longer than isize::MAX. Names in a library need not be distinct (refuted)."
  },
  {
   "property": "C78",
   "status": "proved",
   "theorems": [
    "C78_obj",
    "C78_mtl",
    "C78_obj_one",
    "C78_mtl_one",
    "C78_obj_only",
    "C78_mtl_only"
   ],
   "note": "CompleteSpec names every outcome in terms of the text; a program that differs from the parser for one text violates it."
  },
  {
   "property": "C79",
   "status": "proved",
   "theorems": [
    "C79_index",
    "C79_element",
    "C79_group",
    "C79_smoothing_group",
    "C79_error",
    "C79_object",
    "C79_object_set",
    "C79_parsed",
    "C79_alike",
    "C79_every_set_refuted"
   ],
   "note": "The texts are those of DisplayTextSpec. That equal texts mean alike sets is refuted for hand-made sets, whose group names can imitate the separators, and proved for parsed ones."
  },
  {
   "property": "C80",
   "status": "proved",
   "theorems": [
    "C80_kind",
    "C80_kinds",
    "C80_once"
   ],
   "note": "mtl::ErrorKind is the only type that derives Hash; a hasher is any state with any write_isize."
  },
  {
   "property": "C81",
   "status": "proved",
   "theorems": [
    "C81_ending",
    "C81_release",
    "C81_ok",
    "C81_debug",
    "C81_debug_ok",
    "C81_wide",
    "C81_same_refuted",
    "C81_mtl",
    "C81_mtl_ok",
    "C81_mtl_error",
    "C81_calls",
    "C81_obj_reached",
    "C81_mtl_reached"
   ],
   "note": "NarrowModel is parametric in the word size; for texts of at most isize::MAX bytes of the platform. That the results are equal is refuted with a smoothing group number of 2^32."
  }
 ]
}