{
 "claims": [
  {
   "property": "C01",
   "status": "proved",
   "theorems": [
    "C01_bbox_tightest",
    "C01_bbox_tightest_double",
    "C01_bbox_empty",
    "C01_bbox_nan_refuted"
   ],
   "note": "Exact rationals and non-NaN doubles."
  },
  {
   "property": "C02",
   "status": "proved",
   "theorems": [
    "C02_has_point",
    "C02_intersection_exact",
    "C02_intersection_empty",
    "C02_double_underflow_refuted"
   ],
   "note": "Exact rationals; the double-precision failure by area underflow is C02_double_underflow_refuted."
  },
  {
   "property": "C03",
   "status": "proved",
   "theorems": [
    "C03_union_least",
    "C03_union_comm",
    "C03_union_assoc",
    "C03_union_idem",
    "C03_union_ignores_left",
    "C03_union_ignores_right",
    "C03_union_fold",
    "C03_union_covers_refuted"
   ],
   "note": "Exact rationals. The naive 'union covers both' is refuted by C03_union_covers_refuted."
  },
  {
   "property": "C04",
   "status": "proved",
   "theorems": [
    "C04_collide_common_point",
    "C04_collide_intersection",
    "C04_collide_sym",
    "C04_collide_point"
   ],
   "note": "Exact rationals."
  },
  {
   "property": "C05",
   "status": "proved",
   "theorems": [
    "C05_contains_exact",
    "C05_contains_points",
    "C05_contains_trans",
    "C05_contains_strict",
    "C05_not_in_itself"
   ],
   "note": "Exact rationals."
  },
  {
   "property": "C06",
   "status": "proved",
   "theorems": [
    "C06_translate_compose",
    "C06_translate_inverse",
    "C06_translate_dims",
    "C06_translate_points",
    "C06_scale_center",
    "C06_scale_dims",
    "C06_scale_compose",
    "C06_scale_one",
    "C06_scale_translate_commute",
    "C06_div_undoes_mul",
    "C06_div_zero",
    "C06_scale_grows",
    "C06_measures"
   ],
   "note": "Exact rationals."
  },
  {
   "property": "C07",
   "status": "proved",
   "theorems": [
    "C07_same_box_equal",
    "C07_hash_equal_boxes_equal",
    "C07_hash_minus_one",
    "C07_hash_period",
    "C07_equality_refuted"
   ],
   "note": "Integer corners; CPython's int hash is modelled, the tuple combiner is arbitrary."
  },
  {
   "property": "C08",
   "status": "proved",
   "theorems": [
    "C08_lt_by_area",
    "C08_lt_irreflexive",
    "C08_lt_transitive",
    "C08_ties_transitive",
    "C08_derived_order_broken",
    "C08_derived_order",
    "C08_derived_equal"
   ],
   "note": "Exact rationals."
  },
  {
   "property": "C09",
   "status": "proved",
   "theorems": [
    "C09_buffer_sizes",
    "C09_buffer_bad_size",
    "C09_buffer_is_queue"
   ],
   "note": "Refinement to a list-based bounded queue for every operation history."
  },
  {
   "property": "C10",
   "status": "proved",
   "theorems": [
    "C10_nearest_half_away",
    "C10_nearest_unique",
    "C10_nearest_error",
    "C10_snap_error",
    "C10_nearest_odd",
    "C10_nearest_monotone",
    "C10_snap_path",
    "C10_snap_path_total",
    "C10_zero_cell",
    "C10_double_half_refuted",
    "C10_double_integer_refuted"
   ],
   "note": "Exact rationals; double-precision failures as _refuted witnesses."
  },
  {
   "property": "C11",
   "status": "proved",
   "theorems": [
    "C11_open_simplify",
    "C11_open_exact",
    "C11_open_short",
    "C11_open_no_buffer",
    "C11_spur_base_refuted"
   ],
   "note": "Full characterisation of the output; the naive reading is refuted by C11_spur_base_refuted."
  },
  {
   "property": "C12",
   "status": "proved",
   "theorems": [
    "C12_open_covers",
    "C12_backtrack_refuted"
   ],
   "note": "The need for the hypothesis is shown by C12_backtrack_refuted."
  },
  {
   "property": "C13",
   "status": "proved",
   "theorems": [
    "C13_closed_vertices",
    "C13_closed_order_kept",
    "C13_closed_order_rotated",
    "C13_closed_two",
    "C13_closed_short",
    "C13_area_changes_refuted"
   ],
   "note": "Order-preserving and reordering ranges both characterised; C13_area_changes_refuted is the observable consequence."
  },
  {
   "property": "C14",
   "status": "proved",
   "theorems": [
    "C14_collinear_cross",
    "C14_collinear_swap_first",
    "C14_collinear_swap_last",
    "C14_collinear_affine",
    "C14_collinear_coincident"
   ],
   "note": "Affine invariance for every invertible map; permutations are generated by the two swaps."
  },
  {
   "property": "C15",
   "status": "proved",
   "theorems": [
    "C15_angle",
    "C15_bounds",
    "C15_symmetric",
    "C15_self",
    "C15_zero",
    "C15_shift",
    "C15_turn",
    "C15_triangle",
    "C15_default"
   ],
   "note": "Real arithmetic; the standard library's axioms of the reals."
  },
  {
   "property": "C16",
   "status": "proved",
   "theorems": [
    "C16_destination",
    "C16_sense",
    "C16_meridian",
    "C16_forward",
    "C16_default",
    "C16_default_refuted"
   ],
   "note": "Real arithmetic; the standard library's axioms of the reals."
  },
  {
   "property": "C17",
   "status": "proved",
   "theorems": [
    "C17_midpoint"
   ],
   "note": "Real arithmetic; the standard library's axioms of the reals."
  },
  {
   "property": "C18",
   "status": "proved",
   "theorems": [
    "C18_bounds",
    "C18_ends",
    "C18_surface",
    "C18_south"
   ],
   "note": "Real arithmetic; the standard library's axioms of the reals."
  },
  {
   "property": "C19",
   "status": "proved",
   "theorems": [
    "C19_cardinal",
    "C19_cardinal_turn",
    "C19_hours",
    "C19_hours_turn"
   ],
   "note": "Exact rationals."
  },
  {
   "property": "C20",
   "status": "proved",
   "theorems": [
    "C20_flat",
    "C20_triangle",
    "C20_start",
    "C20_orientation",
    "C20_shift",
    "C20_cut",
    "C20_region",
    "C20_parts",
    "C20_result",
    "C20_order",
    "C20_empty",
    "C20_box_refuted"
   ],
   "note": "Real arithmetic; the standard library's axioms of the reals. The loop of geocentroid has fuel; that it ends is not claimed."
  },
  {
   "property": "C21",
   "status": "proved",
   "theorems": [
    "C21_corangle",
    "C21_huge_refuted"
   ],
   "note": "Real arithmetic for termination; doubles (Flocq over the standard library's reals) for the refutation."
  },
  {
   "property": "C22",
   "status": "proved",
   "theorems": [
    "C22_mercator",
    "C22_pole",
    "C22_ellipsoid",
    "C22_ellipsoid_back",
    "C22_ellipsoid_near",
    "C22_sphere"
   ],
   "note": "Real arithmetic; the standard library's axioms of the reals. Whether the loop of EMercator.rect2geo ends is not claimed: over the reals it is a limit; the estimate after n turns is bounded (C22_ellipsoid_near)."
  },
  {
   "property": "C23",
   "status": "proved",
   "theorems": [
    "C23_tmercator",
    "C23_edge"
   ],
   "note": "Real arithmetic; the standard library's axioms of the reals."
  },
  {
   "property": "C24",
   "status": "proved",
   "theorems": [
    "C24_near",
    "C24_far_refuted",
    "C24_edge",
    "C24_centre",
    "C24_centre_refuted",
    "C24_antipode",
    "C24_polar"
   ],
   "note": "Real arithmetic; the standard library's axioms of the reals. At 90 degrees from the origin the doubles do not divide by exactly zero."
  },
  {
   "property": "C25",
   "status": "proved",
   "theorems": [
    "C25_conic",
    "C25_default_refuted"
   ],
   "note": "Real arithmetic; the standard library's axioms of the reals."
  },
  {
   "property": "C26",
   "status": "proved",
   "theorems": [
    "C26_width",
    "C26_round_trip",
    "C26_null_round_trip",
    "C26_out_of_range"
   ],
   "note": "The code of null is 256^size, one more than the width can store (C26_null_round_trip)."
  },
  {
   "property": "C27",
   "status": "proved",
   "theorems": [
    "C27_ivar_encode",
    "C27_ivar_decode",
    "C27_row_with_ivar"
   ],
   "note": "The attribute fmt is modelled as never set by the constructor."
  },
  {
   "property": "C28",
   "status": "proved",
   "theorems": [
    "C28_new",
    "C28_error_bound",
    "C28_encodable",
    "C28_maximum_refused",
    "C28_null_refused"
   ],
   "note": "Exact rationals; the refused set is characterised exactly."
  },
  {
   "property": "C29",
   "status": "proved",
   "theorems": [
    "C29_codes_stable",
    "C29_wrong_length",
    "C29_never_null",
    "C29_double_drift_refuted"
   ],
   "note": "Exact rationals; in double arithmetic an 8-byte field drifts (C29_double_drift_refuted)."
  },
  {
   "property": "C30",
   "status": "proved",
   "theorems": [
    "C30_round_trip",
    "C30_trailing_nuls_lost",
    "C30_null",
    "C30_null_refused",
    "C30_string_never_null",
    "C30_size_zero",
    "C30_oversize",
    "C30_surrogate",
    "C30_resave"
   ],
   "note": "Python's strict UTF-8 codec is modelled. Re-saving any readable cell is also proved."
  },
  {
   "property": "C31",
   "status": "proved",
   "theorems": [
    "C31_round_trip",
    "C31_encode_columns",
    "C31_column_size",
    "C31_too_few",
    "C31_extra_ignored"
   ],
   "note": "Fields as built by their constructors."
  },
  {
   "property": "C32",
   "status": "proved",
   "theorems": [
    "C32_base128_terminates",
    "C32_vlv_round_trip",
    "C32_vlv_negative",
    "C32_svlv_round_trip",
    "C32_vlv_prefix_free",
    "C32_vlv_minimal",
    "C32_vlv_no_padding",
    "C32_vlv_truncated",
    "C32_svlv_truncated",
    "C32_read_padded_refuted"
   ],
   "note": "Also proved: codes are shortest, never padded, and a truncated code raises TypeError; padded codes are accepted by the reader (C32_read_padded_refuted)."
  },
  {
   "property": "C33",
   "status": "proved",
   "theorems": [
    "C33_ascii_round_trip",
    "C33_non_ascii",
    "C33_no_terminator_hangs",
    "C33_embedded_nul"
   ],
   "note": "The endless loop on a missing terminator is stated for every amount of fuel."
  },
  {
   "property": "C34",
   "status": "proved",
   "theorems": [
    "C34_round_trip",
    "C34_shape"
   ],
   "note": "Exact rationals; the shape part (names, counts, errors) is proved for any arithmetic, doubles included. The file system is not modelled: close gives the bytes the reader starts from."
  },
  {
   "property": "C35",
   "status": "proved",
   "theorems": [
    "C35_accepted",
    "C35_grid_line",
    "C35_any_parts_refuted"
   ],
   "note": "Exact rationals."
  },
  {
   "property": "C36",
   "status": "proved",
   "theorems": [
    "C36_terminates",
    "C36_hangs",
    "C36_stored"
   ],
   "note": "Exact rationals."
  },
  {
   "property": "C37",
   "status": "proved",
   "theorems": [
    "C37_no_part",
    "C37_single_point",
    "C37_close_fails",
    "C37_empty_polygon",
    "C37_quantisation",
    "C37_later_entities_refuted"
   ],
   "note": "C37_close_fails holds for any arithmetic."
  },
  {
   "property": "C38",
   "status": "proved",
   "theorems": [
    "C38_upper_edge",
    "C38_lon_180"
   ],
   "note": "IEEE binary64 via SpecFloat; proofs use Flocq's equivalence and the axioms of the standard library's reals."
  },
  {
   "property": "C39",
   "status": "proved",
   "theorems": [
    "C39_round_trip",
    "C39_accepted"
   ],
   "note": "Names of ASCII characters other than NUL; float bounds are refused (C39_accepted)."
  },
  {
   "property": "C40",
   "status": "proved",
   "theorems": [
    "C40_round_trip",
    "C40_first_bad"
   ],
   "note": "The index text is modelled after decoding, with universal newlines."
  },
  {
   "property": "C41",
   "status": "proved",
   "theorems": [
    "C41_never_opens",
    "C41_open",
    "C41_close",
    "C41_read_if_imported"
   ],
   "note": "Paths and the file system are not modelled. Conditional part: the parameter of rg_open says whether collections is in scope. Rows are returned as GRow's encode/decode give them (C31)."
  },
  {
   "property": "C42",
   "status": "proved",
   "theorems": [
    "C42_later_entities_shifted",
    "C42_first_row_safe",
    "C42_exception_safe_refuted"
   ],
   "note": "Exact description of what is read after a failed write; the harmless case is C42_first_row_safe."
  },
  {
   "property": "C43",
   "status": "proved",
   "theorems": [
    "C43_write_read",
    "C43_new",
    "C43_background"
   ],
   "note": ""
  },
  {
   "property": "C44",
   "status": "proved",
   "theorems": [
    "C44_gray",
    "C44_gray_new",
    "C44_colour",
    "C44_colour_new",
    "C44_colour_grows",
    "C44_colour_short_refuted",
    "C44_gray_wraps_refuted"
   ],
   "note": "Colours with the wrong number of components and coordinates out of range are covered by the refuted readings."
  },
  {
   "property": "C45",
   "status": "proved",
   "theorems": [
    "C45_gray",
    "C45_colour",
    "C45_ends"
   ],
   "note": "Exact rationals."
  },
  {
   "property": "C46",
   "status": "proved",
   "theorems": [
    "C46_terminates",
    "C46_pixel",
    "C46_neighbours",
    "C46_drawn",
    "C46_outline",
    "C46_reverse_refuted"
   ],
   "note": "The set of pixels depends on the direction of travel (C46_reverse_refuted)."
  },
  {
   "property": "C47",
   "status": "proved",
   "theorems": [
    "C47_marks",
    "C47_marks_added",
    "C47_balance",
    "C47_too_low",
    "C47_negative_row_refuted",
    "C47_double_drift_refuted"
   ],
   "note": "Exact rationals for the position of marks; the balance of directions and the IndexError hold for any arithmetic, doubles included. In doubles a mark can be a pixel off (C47_double_drift_refuted)."
  },
  {
   "property": "C48",
   "status": "proved",
   "theorems": [
    "C48_row",
    "C48_rows",
    "C48_second_fill",
    "C48_polygon_gray",
    "C48_polygon_bw",
    "C48_polygon_colour",
    "C48_rectangle",
    "C48_triangle",
    "C48_left_overflow_refuted"
   ],
   "note": "A set of marks per row; polygons are those of C47."
  },
  {
   "property": "C49",
   "status": "proved",
   "theorems": [
    "C49_lru",
    "C49_transparent",
    "C49_bounded",
    "C49_counters",
    "C49_clear",
    "C49_info_ignores"
   ],
   "note": "Keys are compared with exact equality (the int/float distinction of typed keys is not modelled). Hits and misses are those of functions that no other function calls."
  },
  {
   "property": "C50",
   "status": "proved",
   "theorems": [
    "C50_var",
    "C50_covar",
    "C50_corr",
    "C50_failures",
    "C50_longer_second_refuted"
   ],
   "note": "Real arithmetic; the standard library's axioms of the reals."
  },
  {
   "property": "C51",
   "status": "proved",
   "theorems": [
    "C51_agree",
    "C51_invariant",
    "C51_range",
    "C51_failures",
    "C51_negative_refuted"
   ],
   "note": "Real arithmetic; the standard library's axioms of the reals."
  },
  {
   "property": "C52",
   "status": "proved",
   "theorems": [
    "C52_join",
    "C52_failures",
    "C52_pivot_order"
   ],
   "note": "The default pivots and keys (listings of a set) are arguments here; C52_pivot_order shows the pivots' order does not matter. Values have an equality that reflects =."
  },
  {
   "property": "C53",
   "status": "proved",
   "theorems": [
    "C53_getall",
    "C53_getone",
    "C53_indexby",
    "C53_addkey",
    "C53_addkey_raises",
    "C53_delkeys",
    "C53_unknown_column",
    "C53_indexby_unknown",
    "C53_failures"
   ],
   "note": "Hashing of the index values is not modelled."
  },
  {
   "property": "C54",
   "status": "proved",
   "theorems": [
    "C54_round_trip",
    "C54_columns",
    "C54_read",
    "C54_read_keys",
    "C54_no_header",
    "C54_write_failures",
    "C54_keys_order_refuted",
    "C54_empty_last_cell_refuted"
   ],
   "note": "Single-character separator and comment mark; the whole file is decoded before its first line is looked at; ASCII column names."
  },
  {
   "property": "C55",
   "status": "proved",
   "theorems": [
    "C55_get",
    "C55_beyond",
    "C55_below",
    "C55_order",
    "C55_range",
    "C55_no_stops",
    "C55_argument_changed_refuted",
    "C55_below_range_refuted"
   ],
   "note": "Exact rationals. Several stops may share a position: the first of them is shown there and the last one is where the next interval starts. Below all stops (x < 0) the line through the last and first stop is used (C55_below)."
  },
  {
   "property": "C56",
   "status": "proved",
   "theorems": [
    "C56_hex",
    "C56_double_refuted"
   ],
   "note": "Exact rationals; in doubles a digit can be one too low (C56_double_refuted)."
  },
  {
   "property": "C57",
   "status": "proved",
   "theorems": [
    "C57_damlev"
   ],
   "note": "The alignments are an inductive definition of their own (NamesSpec.align)."
  },
  {
   "property": "C58",
   "status": "proved",
   "theorems": [
    "C58_symmetric",
    "C58_zero",
    "C58_bounds",
    "C58_triangle_refuted"
   ],
   "note": "Corollaries of C57."
  },
  {
   "property": "C59",
   "status": "proved",
   "theorems": [
    "C59_value",
    "C59_nonneg",
    "C59_at_most_one",
    "C59_self",
    "C59_at_most_one_refuted",
    "C59_star_refuted",
    "C59_symmetric_refuted",
    "C59_one_means_equal_refuted",
    "C59_empty_fails_refuted"
   ],
   "note": "Exact rationals. C59_value describes the whole computation; jaro is 1 on some unequal strings, and an empty string against one containing '*' raises ZeroDivisionError."
  },
  {
   "property": "C60",
   "status": "proved",
   "theorems": [
    "C60_mapping",
    "C60_no_values",
    "C60_empty_strings"
   ],
   "note": "Exact rationals for the scores."
  },
  {
   "property": "C61",
   "status": "proved",
   "theorems": [
    "C61_folds",
    "C61_folds_unique",
    "C61_length",
    "C61_plain",
    "C61_twice",
    "C61_all_ascii_refuted",
    "C61_abbreviations"
   ],
   "note": "The body of abbreviations after the missing global is not modelled (unreachable); str.upper is an argument."
  },
  {
   "property": "C62",
   "status": "proved",
   "theorems": [
    "C62_round_trip",
    "C62_document",
    "C62_ellipsoid",
    "C62_ellipsoid_document",
    "C62_conic",
    "C62_double_degrees_refuted",
    "C62_double_refuted"
   ],
   "note": "Real arithmetic; the standard library's axioms of the reals. The JSON text itself is not modelled. C62_double_* are about IEEE doubles."
  },
  {
   "property": "C63",
   "status": "proved",
   "theorems": [
    "C63_names",
    "C63_membership",
    "C63_same_name_refuted",
    "C63_space_refuted"
   ],
   "note": "Real arithmetic; the standard library's axioms of the reals. The file system is reduced to the content of the file; tqdm passes the names through (C70)."
  },
  {
   "property": "C64",
   "status": "proved",
   "theorems": [
    "C64_width_dash",
    "C64_changed_list_refuted",
    "C64_copy"
   ],
   "note": "The meaning of a file is given by the PostScript scanner and interpreter of PsSpec.v; formatted numbers are symbols that stand for themselves. Number systems whose equality test is equality (reals, rationals)."
  },
  {
   "property": "C65",
   "status": "proved",
   "theorems": [
    "C65_ink",
    "C65_same_ink_refuted",
    "C65_mixed_refuted",
    "C65_gray_again",
    "C65_color_again"
   ],
   "note": "The meaning of a file is given by the PostScript scanner and interpreter of PsSpec.v; formatted numbers are symbols that stand for themselves. Number systems whose equality test is equality."
  },
  {
   "property": "C66",
   "status": "proved",
   "theorems": [
    "C66_box",
    "C66_flat_refuted"
   ],
   "note": "Real arithmetic; the standard library's axioms of the reals."
  },
  {
   "property": "C67",
   "status": "proved",
   "theorems": [
    "C67_fit",
    "C67_saves"
   ],
   "note": "Real arithmetic; the standard library's axioms of the reals. The meaning of a file is given by the PostScript scanner and interpreter of PsSpec.v; formatted numbers are symbols that stand for themselves."
  },
  {
   "property": "C68",
   "status": "proved",
   "theorems": [
    "C68_defined",
    "C68_shown",
    "C68_read_defs"
   ],
   "note": "The meaning of a file is given by the PostScript scanner and interpreter of PsSpec.v; formatted numbers are symbols that stand for themselves."
  },
  {
   "property": "C69",
   "status": "proved",
   "theorems": [
    "C69_images",
    "C69_rows",
    "C69_not_bytes_refuted"
   ],
   "note": "The meaning of a file is given by the PostScript scanner and interpreter of PsSpec.v; formatted numbers are symbols that stand for themselves."
  },
  {
   "property": "C70",
   "status": "proved",
   "theorems": [
    "C70_transparent",
    "C70_unsized",
    "C70_trange"
   ],
   "note": "Exact rational clock; the terminal has no wide or control characters beyond carriage return."
  },
  {
   "property": "C71",
   "status": "proved",
   "theorems": [
    "C71_no_residue",
    "C71_interval",
    "C71_meter",
    "C71_meter_over",
    "C71_bar_full"
   ],
   "note": "Exact rational clock; the terminal model overwrites cells after a carriage return and has no line wrapping."
  },
  {
   "property": "C72",
   "status": "proved",
   "theorems": [
    "C72_geometry_round_trip"
   ],
   "note": "Doubles are their 64-bit patterns; files are byte lists with a position; opening and closing files is not modelled."
  },
  {
   "property": "C73",
   "status": "proved",
   "theorems": [
    "C73_header_length",
    "C73_multipoint_m_refuted"
   ],
   "note": "Doubles are their 64-bit patterns; files are byte lists with a position; opening and closing files is not modelled. C73_multipoint_m_refuted gives the bytes for type 28."
  },
  {
   "property": "C74",
   "status": "proved",
   "theorems": [
    "C74_no_parts_first",
    "C74_empty_shape",
    "C74_no_parts_later",
    "C74_z_types",
    "C74_untyped_point"
   ],
   "note": "Doubles are their 64-bit patterns; files are byte lists with a position; opening and closing files is not modelled."
  },
  {
   "property": "C75",
   "status": "proved",
   "theorems": [
    "C75_second_save",
    "C75_unchanged"
   ],
   "note": "Doubles are their 64-bit patterns; files are byte lists with a position; opening and closing files is not modelled."
  },
  {
   "property": "C76",
   "status": "proved",
   "theorems": [
    "C76_table_round_trip",
    "C76_file_length",
    "C76_multibyte_refuted"
   ],
   "note": "Doubles are their 64-bit patterns; files are byte lists with a position; opening and closing files is not modelled. The text of a float is an argument of the model; a float that is read is its text."
  },
  {
   "property": "C77",
   "status": "proved",
   "theorems": [
    "C77_pairing",
    "C77_deleted",
    "C77_deleted_shift_refuted"
   ],
   "note": "Doubles are their 64-bit patterns; files are byte lists with a position; opening and closing files is not modelled. The text of a float is an argument of the model; a float that is read is its text."
  },
  {
   "property": "C78",
   "status": "proved",
   "theorems": [
    "C78_area",
    "C78_reversed",
    "C78_shifted",
    "C78_rotated",
    "C78_additive",
    "C78_open_ring_refuted",
    "C78_area_exceptions",
    "C78_doubles",
    "C78_large_ring_refuted",
    "C78_view_point",
    "C78_view_multipoint",
    "C78_view_one_part",
    "C78_view_lines",
    "C78_view_polygons",
    "C78_view_polygons_doubles",
    "C78_parts_unique",
    "C78_groups_unique",
    "C78_view_exception",
    "C78_view_no_parts",
    "C78_view_other",
    "C78_read_shapes",
    "C78_writer_shapes"
   ],
   "note": "Laws of areas over the reals; exactness and orientation in doubles for integer coordinates; C78_large_ring_refuted and C78_open_ring_refuted show where they stop. Tuples and lists are not distinguished."
  },
  {
   "property": "C79",
   "status": "proved",
   "theorems": [
    "C79_parts",
    "C79_part"
   ],
   "note": "The splitting of the points; the whole of sf2pf is C110."
  },
  {
   "property": "C80",
   "status": "proved",
   "theorems": [
    "C80_pgm",
    "C80_ppm",
    "C80_pbm"
   ],
   "note": "The byte string handed to write(); the file system is not modelled."
  },
  {
   "property": "C81",
   "status": "proved",
   "theorems": [
    "C81_flat",
    "C81_ends",
    "C81_steep",
    "C81_reverse",
    "C81_fails",
    "C81_int_colour",
    "C81_right_end_refuted",
    "C81_negative_alpha_refuted"
   ],
   "note": "Exact rationals, non-negative coordinates (int() truncates towards zero)."
  },
  {
   "property": "C82",
   "status": "proved",
   "theorems": [
    "C82_pprint",
    "C82_default"
   ],
   "note": "Cells are str (the %s of other values is not modelled)."
  },
  {
   "property": "C83",
   "status": "proved",
   "theorems": [
    "C83_value",
    "C83_bounds"
   ],
   "note": "Exact rationals; 0.1 is one tenth."
  },
  {
   "property": "C84",
   "status": "proved",
   "theorems": [
    "C84_omercator",
    "C84_quarter",
    "C84_far_refuted"
   ],
   "note": "Real arithmetic; the standard library's axioms of the reals. C84_far_refuted is for origins on the equator."
  },
  {
   "property": "C85",
   "status": "proved",
   "theorems": [
    "C85_eckert"
   ],
   "note": "Real arithmetic; the standard library's axioms of the reals."
  },
  {
   "property": "C86",
   "status": "proved",
   "theorems": [
    "C86_mercator",
    "C86_emercator",
    "C86_conic",
    "C86_others"
   ],
   "note": "Real arithmetic; the standard library's axioms of the reals. Transverse and oblique Mercator are in C120."
  },
  {
   "property": "C87",
   "status": "proved",
   "theorems": [
    "C87_counts",
    "C87_throttled",
    "C87_left_behind"
   ],
   "note": "Exact rational clock."
  },
  {
   "property": "C88",
   "status": "proved",
   "theorems": [
    "C88_double",
    "C88_percentage_refuted"
   ],
   "note": "IEEE doubles (Flocq over the standard library's reals)."
  },
  {
   "property": "C89",
   "status": "proved",
   "theorems": [
    "C89_point",
    "C89_point_zero",
    "C89_planify_closed",
    "C89_planify_open",
    "C89_snapped",
    "C89_planify_zero",
    "C89_base",
    "C89_same_cell_refuted"
   ],
   "note": "Real arithmetic; the standard library's axioms of the reals. What a generator yields before a projection raises is not modelled."
  },
  {
   "property": "C90",
   "status": "proved",
   "theorems": [
    "C90_paths",
    "C90_circle_after_text_refuted"
   ],
   "note": "The meaning of a file is given by the PostScript scanner and interpreter of PsSpec.v; formatted numbers are symbols that stand for themselves."
  },
  {
   "property": "C91",
   "status": "proved",
   "theorems": [
    "C91_anchor",
    "C91_unbalanced_refuted",
    "C91_backslash_refuted"
   ],
   "note": "Real arithmetic; the standard library's axioms of the reals. The meaning of a file is given by the PostScript scanner and interpreter of PsSpec.v; formatted numbers are symbols that stand for themselves."
  },
  {
   "property": "C92",
   "status": "proved",
   "theorems": [
    "C92_calls",
    "C92_half_drawn_refuted"
   ],
   "note": "An exception keeps the lines emitted before it. Backgrounds are numbers and tuples."
  },
  {
   "property": "C93",
   "status": "proved",
   "theorems": [
    "C93_saving_succeeds",
    "C93_adding",
    "C93_geometry_unique"
   ],
   "note": "Doubles are their 64-bit patterns; files are byte lists with a position; opening and closing files is not modelled."
  },
  {
   "property": "C94",
   "status": "proved",
   "theorems": [
    "C94_order",
    "C94_layout"
   ],
   "note": "Doubles are their 64-bit patterns; files are byte lists with a position; opening and closing files is not modelled."
  },
  {
   "property": "C95",
   "status": "proved",
   "theorems": [
    "C95_table_layout"
   ],
   "note": "Doubles are their 64-bit patterns; files are byte lists with a position; opening and closing files is not modelled. The text of a float is an argument of the model; a float that is read is its text."
  },
  {
   "property": "C96",
   "status": "proved",
   "theorems": [
    "C96_saving_table",
    "C96_saving_table_fails",
    "C96_blank_number"
   ],
   "note": "Doubles are their 64-bit patterns; files are byte lists with a position; opening and closing files is not modelled. The text of a float is an argument of the model; a float that is read is its text. Truth values start with an ASCII letter."
  },
  {
   "property": "C97",
   "status": "proved",
   "theorems": [
    "C97_row_without_columns",
    "C97_row_by_position",
    "C97_empty_row",
    "C97_row_by_name",
    "C97_missing_name_refuted"
   ],
   "note": "Doubles are their 64-bit patterns; files are byte lists with a position; opening and closing files is not modelled. The text of a float is an argument of the model; a float that is read is its text."
  },
  {
   "property": "C98",
   "status": "proved",
   "theorems": [
    "C98_dropped_columns"
   ],
   "note": "Doubles are their 64-bit patterns; files are byte lists with a position; opening and closing files is not modelled. The text of a float is an argument of the model; a float that is read is its text."
  },
  {
   "property": "C99",
   "status": "proved",
   "theorems": [
    "C99_opening",
    "C99_no_rows"
   ],
   "note": "Doubles are their 64-bit patterns; files are byte lists with a position; opening and closing files is not modelled. The text of a float is an argument of the model; a float that is read is its text."
  },
  {
   "property": "C100",
   "status": "proved",
   "theorems": [
    "C100_save_again",
    "C100_measured",
    "C100_identity_refuted"
   ],
   "note": "Doubles are their 64-bit patterns; files are byte lists with a position; opening and closing files is not modelled. The text of a float is an argument of the model; a float that is read is its text. C100_identity_refuted gives a file that changes."
  },
  {
   "property": "C101",
   "status": "proved",
   "theorems": [
    "C101_blank_number",
    "C101_blank_text_refuted"
   ],
   "note": "Doubles are their 64-bit patterns; files are byte lists with a position; opening and closing files is not modelled. The text of a float is an argument of the model; a float that is read is its text. Cells are assumed to be code points without surrogates and truth values not empty."
  },
  {
   "property": "C102",
   "status": "proved",
   "theorems": [
    "C102_delete_shape",
    "C102_out_of_range",
    "C102_nothing",
    "C102_parts",
    "C102_points",
    "C102_table_untouched",
    "C102_pairing_refuted"
   ],
   "note": "Doubles are their 64-bit patterns; files are byte lists with a position; opening and closing files is not modelled. The text of a float is an argument of the model; a float that is read is its text."
  },
  {
   "property": "C103",
   "status": "proved",
   "theorems": [
    "C103_balance",
    "C103_point",
    "C103_only_appends",
    "C103_update_refused",
    "C103_in_sync_refuted"
   ],
   "note": "Doubles are their 64-bit patterns; files are byte lists with a position; opening and closing files is not modelled. The text of a float is an argument of the model; a float that is read is its text."
  },
  {
   "property": "C104",
   "status": "proved",
   "theorems": [
    "C104_unsaveable",
    "C104_type",
    "C104_program",
    "C104_plain_points"
   ],
   "note": "Doubles are their 64-bit patterns; files are byte lists with a position; opening and closing files is not modelled. The text of a float is an argument of the model; a float that is read is its text."
  },
  {
   "property": "C105",
   "status": "proved",
   "theorems": [
    "C105_as_writer",
    "C105_balanced"
   ],
   "note": "Doubles are their 64-bit patterns; files are byte lists with a position; opening and closing files is not modelled. The text of a float is an argument of the model; a float that is read is its text."
  },
  {
   "property": "C106",
   "status": "proved",
   "theorems": [
    "C106_export",
    "C106_not_saved",
    "C106_quote_refuted",
    "C106_same_path_refuted"
   ],
   "note": "The shell is any function from a command and files to files and a status; ExportSpec.v says how a POSIX shell reads a command. Links, permissions and paths written in several ways are not modelled."
  },
  {
   "property": "C107",
   "status": "proved",
   "theorems": [
    "C107_export",
    "C107_blank_refuted"
   ],
   "note": "The shell is any function from a command and files to files and a status; ExportSpec.v says how a POSIX shell reads a command. Links, permissions and paths written in several ways are not modelled."
  },
  {
   "property": "C108",
   "status": "proved",
   "theorems": [
    "C108_animation",
    "C108_cleaned",
    "C108_box",
    "C108_nothing_drawn",
    "C108_status_refuted",
    "C108_flat_refuted"
   ],
   "note": "The shell is any function from a command and files to files and a status; ExportSpec.v says how a POSIX shell reads a command. Links, permissions and paths written in several ways are not modelled. Real arithmetic; the standard library's axioms of the reals. The temporary directory is an argument; TemporaryDirectory makes names of plain characters."
  },
  {
   "property": "C109",
   "status": "proved",
   "theorems": [
    "C109_exact",
    "C109_doubles",
    "C109_transparent"
   ],
   "note": "coord.haversine over the reals for exact coordinates; for doubles any function that may raise."
  },
  {
   "property": "C110",
   "status": "proved",
   "theorems": [
    "C110_converted",
    "C110_read_back",
    "C110_deleted_refuted"
   ],
   "note": "Doubles are their 64-bit patterns; files are byte lists with a position; opening and closing files is not modelled. The text of a float is an argument of the model; a float that is read is its text. Coordinates inside the world for reading back. C110_deleted_refuted gives a table with a deleted row."
  },
  {
   "property": "C111",
   "status": "proved",
   "theorems": [
    "C111_opens",
    "C111_outcome",
    "C111_ends",
    "C111_never_ends",
    "C111_multipoints"
   ],
   "note": "Reading past 2**31 entries is bounded only by the file; memory is not modelled. The .shx file is not looked at by shapes()."
  },
  {
   "property": "C112",
   "status": "proved",
   "theorems": [
    "C112_opens",
    "C112_rows"
   ],
   "note": "Tables that declare 0 rows are in C76."
  },
  {
   "property": "C113",
   "status": "proved",
   "theorems": [
    "C113_opens",
    "C113_ends",
    "C113_never_ends",
    "C113_reads"
   ],
   "note": "Memory is not modelled: a huge declared count raises MemoryError or OverflowError in [None] * n before anything is read."
  },
  {
   "property": "C114",
   "status": "proved",
   "theorems": [
    "C114_truth",
    "C114_has_point",
    "C114_contains",
    "C114_intersection",
    "C114_union",
    "C114_union_ignores",
    "C114_collide",
    "C114_center",
    "C114_translate_ordered",
    "C114_translate_flat_refuted",
    "C114_center_overflow_refuted"
   ],
   "note": "Real arithmetic; the standard library's axioms of the reals. C02_double_underflow_refuted shows that sides far below 2**-500 are not enough."
  },
  {
   "property": "C115",
   "status": "proved",
   "theorems": [
    "C115_columns",
    "C115_records",
    "C115_iter",
    "C115_record",
    "C115_record_outside",
    "C115_one"
   ],
   "note": "The value of a float stays its text; which texts float() accepts is modelled. Tables that declare 0 rows are in C76."
  },
  {
   "property": "C116",
   "status": "proved",
   "theorems": [
    "C116_opened",
    "C116_opens",
    "C116_one",
    "C116_boxes",
    "C116_boxes64",
    "C116_points",
    "C116_points64",
    "C116_enough"
   ],
   "note": "Exact arithmetic and doubles. Opening bytes that are not of the layout is C113."
  },
  {
   "property": "C117",
   "status": "proved",
   "theorems": [
    "C117_one",
    "C117_shapes",
    "C117_iter",
    "C117_counted",
    "C117_indexed",
    "C117_zero",
    "C117_kinds",
    "C117_cut"
   ],
   "note": "Bytes of .shp and .shx, no .dbf; which errors are raised is C111. Types 18 and 28 can be read never and only without measures (C111_multipoints)."
  },
  {
   "property": "C118",
   "status": "proved",
   "theorems": [
    "C118_accepted",
    "C118_round_trip",
    "C118_ends",
    "C118_hangs"
   ],
   "note": "Codes of 8 bytes are C38 (points on the upper edge raise). Rings narrower than 2^-20 degrees are only covered in exact arithmetic (C35)."
  },
  {
   "property": "C119",
   "status": "proved",
   "theorems": [
    "C119_cases",
    "C119_one",
    "C119_gray",
    "C119_gray_beside",
    "C119_bits",
    "C119_bits_beside",
    "C119_padding",
    "C119_colour",
    "C119_colour_unread",
    "C119_above",
    "C119_last"
   ],
   "note": "Writes below the canvas are C44_colour_grows. In C119_gray_beside, a tuple that is not (value, alpha) raises ValueError first; not stated."
  },
  {
   "property": "C120",
   "status": "proved",
   "theorems": [
    "C120_mercator",
    "C120_emercator",
    "C120_tmercator",
    "C120_omercator",
    "C120_stereographic",
    "C120_azimuthal_area",
    "C120_conic_area"
   ],
   "note": "Real arithmetic; the standard library's axioms of the reals. Derivatives along the parallel and the meridian. AzimuthalEquidistant is in C24_polar; EckertIV (equal-area up to its iteration error) is not covered."
  },
  {
   "property": "C121",
   "status": "proved",
   "theorems": [
    "C121_list",
    "C121_address",
    "C121_no_part",
    "C121_no_point",
    "C121_update",
    "C121_update_part",
    "C121_new_point",
    "C121_wrong_point"
   ],
   "note": "A layer with such a list cannot be saved (C104_unsaveable). Part numbers out of range are in the example only."
  },
  {
   "property": "C122",
   "status": "proved",
   "theorems": [
    "C122_blend",
    "C122_gray",
    "C122_colour",
    "C122_flat",
    "C122_last_row",
    "C122_top_edge_refuted"
   ],
   "note": "Real arithmetic; the standard library's axioms of the reals. Doubles by way of Flocq. Rows near the top and left edges are excluded because of C122_top_edge_refuted; the two end columns carry the weights of C81_ends."
  },
  {
   "property": "C123",
   "status": "proved",
   "theorems": [
    "C123_gray",
    "C123_colour",
    "C123_repeated",
    "C123_closed"
   ],
   "note": "Real arithmetic; the standard library's axioms of the reals. Doubles by way of Flocq."
  },
  {
   "property": "C124",
   "status": "proved",
   "theorems": [
    "C124_get",
    "C124_hex",
    "C124_beyond",
    "C124_values"
   ],
   "note": "Real arithmetic; the standard library's axioms of the reals. Doubles by way of Flocq; the double gradient is shown to follow the exact one (C55). C56_double_refuted shows that the digit can indeed be one too low."
  },
  {
   "property": "C125",
   "status": "proved",
   "theorems": [
    "C125_close",
    "C125_encodable",
    "C125_maximum_refused",
    "C125_stable",
    "C125_readable",
    "C125_top_refuted"
   ],
   "note": "Real arithmetic; the standard library's axioms of the reals. Doubles by way of Flocq. Drift outside the condition: C29_double_drift_refuted (eight bytes), C125_top_refuted (last code)."
  },
  {
   "property": "C126",
   "status": "proved",
   "theorems": [
    "C126_sum",
    "C126_avg",
    "C126_var",
    "C126_covar",
    "C126_corr",
    "C126_transparent",
    "C126_fails",
    "C126_constant_refuted",
    "C126_zero_sign_refuted"
   ],
   "note": "Real arithmetic; the standard library's axioms of the reals. Doubles by way of Flocq. math.fsum is taken to be correctly rounded, as documented, and math.sqrt to be the IEEE operation. The Gini coefficients, and corr in the transparency theorem, are not bounded in doubles; the exact versions are C49-C51."
  },
  {
   "property": "C127",
   "status": "proved",
   "theorems": [
    "C127_nearest",
    "C127_error",
    "C127_special",
    "C127_open",
    "C127_closed",
    "C127_zero_cell",
    "C127_binary",
    "C127_tenths_refuted"
   ],
   "note": "Real arithmetic; the standard library's axioms of the reals. Doubles by way of Flocq. What a lazy simplify yields before a point that raises is not modelled."
  },
  {
   "property": "C128",
   "status": "proved",
   "theorems": [
    "C128_corangle",
    "C128_exact_refuted"
   ],
   "note": "Real arithmetic; the standard library's axioms of the reals. Doubles by way of Flocq. math.pi is taken as its double, whose exact value is P64; angles between 2^50 and 2^56 are not covered, beyond is C21_huge_refuted."
  },
  {
   "property": "C129",
   "status": "proved",
   "theorems": [
    "C129_marks",
    "C129_exact",
    "C129_fill_bw",
    "C129_fill_gray",
    "C129_fill_colour"
   ],
   "note": "Real arithmetic; the standard library's axioms of the reals. Doubles by way of Flocq. Integer vertices, as planify gives them; a crossing near the middle between two pixels can be rounded to the other side (C47_double_drift_refuted)."
  },
  {
   "property": "C130",
   "status": "proved",
   "theorems": [
    "C130_strerr",
    "C130_mapping",
    "C130_jaro",
    "C130_jaro_range",
    "C130_self",
    "C130_winkler"
   ],
   "note": "Real arithmetic; the standard library's axioms of the reals. Doubles by way of Flocq. The range of jaro and jaro_winkler is claimed under the conditions of C59_at_most_one, outside which even the exact similarity exceeds 1 (C59_at_most_one_refuted)."
  },
  {
   "property": "C131",
   "status": "proved",
   "theorems": [
    "C131_area",
    "C131_order",
    "C131_translate",
    "C131_translate_refuted",
    "C131_scale",
    "C131_divide"
   ],
   "note": "Real arithmetic; the standard library's axioms of the reals. Doubles by way of Flocq. Comparisons, intersection, union and centre of such boxes: C114."
  },
  {
   "property": "C132",
   "status": "proved",
   "theorems": [
    "C132_pythagoras",
    "C132_diameter",
    "C132_bounds",
    "C132_zero",
    "C132_translate",
    "C132_scale"
   ],
   "note": "Real arithmetic; the standard library's axioms of the reals. Over the reals; the rounding of math.hypot is not modelled."
  },
  {
   "property": "C133",
   "status": "proved",
   "theorems": [
    "C133_cardinal",
    "C133_hours",
    "C133_special",
    "C133_collinear_integers",
    "C133_collinear_lines",
    "C133_collinear_close",
    "C133_collinear_refuted"
   ],
   "note": "Real arithmetic; the standard library's axioms of the reals. Doubles by way of Flocq. The float operator % follows CPython's float_rem (exact fmod, then one addition)."
  },
  {
   "property": "C134",
   "status": "proved",
   "theorems": [
    "C134_one_meaning",
    "C134_box",
    "C134_box_text",
    "C134_box_many",
    "C134_buffer",
    "C134_buffer_text",
    "C134_ivar_refuted",
    "C134_ivar_never",
    "C134_svar",
    "C134_fvar",
    "C134_ivar_text",
    "C134_fvar_text",
    "C134_svar_text",
    "C134_kinds"
   ],
   "note": "Integer corners, bounds and items only: the texts of floats are not modelled. The round trip of repr() is refuted for the grid variables (C134_ivar_refuted and C134_ivar_never, C134_fvar, C134_svar give what happens instead)."
  },
  {
   "property": "C135",
   "status": "proved",
   "theorems": [
    "C135_kakwani",
    "C135_deaton",
    "C135_deaton_order",
    "C135_kakwani_order_refuted",
    "C135_equal",
    "C135_deaton_equal_refuted",
    "C135_fails"
   ],
   "note": "Real arithmetic; the standard library's axioms of the reals. Doubles by way of Flocq. The bounds need the mean to be at least 2^-499; below it only the errors are characterised."
  },
  {
   "property": "C136",
   "status": "proved",
   "theorems": [
    "C136_box",
    "C136_page",
    "C136_far_refuted"
   ],
   "note": "Real arithmetic; the standard library's axioms of the reals. Doubles by way of Flocq. The numbers of the file are taken exactly, as repr() writes them; the arithmetic of the PostScript interpreter is not rounded."
  },
  {
   "property": "C137",
   "status": "proved",
   "theorems": [
    "C137_hull",
    "C137_box",
    "C137_sense",
    "C137_linear",
    "C137_region",
    "C137_geocentroid",
    "C137_crossing_refuted"
   ],
   "note": "Real arithmetic; the standard library's axioms of the reals."
  },
  {
   "property": "C138",
   "status": "proved",
   "theorems": [
    "C138_name_error",
    "C138_opened",
    "C138_opens",
    "C138_one",
    "C138_errors",
    "C138_ends",
    "C138_never_ends"
   ],
   "note": "Bounds of real columns are exact. Digits outside ASCII in the index are refused by the model."
  },
  {
   "property": "C139",
   "status": "proved",
   "theorems": [
    "C139_texts",
    "C139_rejects",
    "C139_special",
    "C139_nearest",
    "C139_overflow",
    "C139_sign",
    "C139_exact",
    "C139_order",
    "C139_same",
    "C139_back",
    "C139_strict",
    "C139_cell",
    "C139_case"
   ],
   "note": "Real arithmetic; the standard library's axioms of the reals. Doubles by way of Flocq. float() itself is the interpreter; the model states the correct rounding CPython documents, of a text that the reader has stripped."
  },
  {
   "property": "C140",
   "status": "proved",
   "theorems": [
    "C140_back",
    "C140_apart",
    "C140_valid",
    "C140_shortest",
    "C140_length",
    "C140_same",
    "C140_again",
    "C140_fits",
    "C140_table",
    "C140_case"
   ],
   "note": "Real arithmetic; the standard library's axioms of the reals. Doubles by way of Flocq. str() and float() are the interpreter; the model states what CPython documents for them (shortest repr, correct rounding)."
  },
  {
   "property": "C141",
   "status": "proved",
   "theorems": [
    "C141_one_meaning",
    "C141_box",
    "C141_box_refuted",
    "C141_box_text",
    "C141_real_text",
    "C141_real_repr",
    "C141_number"
   ],
   "note": "Real arithmetic; the standard library's axioms of the reals. What eval() does with the infinite corner (NameError) is not modelled, only that the text is not made of numerals."
  },
  {
   "property": "C142",
   "status": "proved",
   "theorems": [
    "C142_tokens",
    "C142_special",
    "C142_infinite_refuted"
   ],
   "note": "Real arithmetic; the standard library's axioms of the reals. The PostScript scanner is that of C64 to C69. A renderer may keep reals in single precision; that is outside the file."
  },
  {
   "property": "C143",
   "status": "proved",
   "theorems": [
    "C143_frame",
    "C143_one_frame",
    "C143_apart",
    "C143_document",
    "C143_document_apart"
   ],
   "note": "Real arithmetic; the standard library's axioms of the reals. The writing and reading of JSON is the standard library's; it is modelled here for what frame.py gives it: no escapes in strings, no true, false or null, and dictionaries as pairs in order. What save() puts in (degrees of the centre) and what load() makes of the settings is C62."
  },
  {
   "property": "C144",
   "status": "proved",
   "theorems": [
    "C144_again",
    "C144_stable",
    "C144_close",
    "C144_centre_refuted"
   ],
   "note": "Real arithmetic; the standard library's axioms of the reals. The factors 180/pi and pi/180 are those of CPython's math module. The corners of the box are taken as they are in the file; what BBox makes of corners given in another order is C01 and C62."
  },
  {
   "property": "C145",
   "status": "proved",
   "theorems": [
    "C145_cells",
    "C145_one_cell",
    "C145_order",
    "C145_zero",
    "C145_quotient_refuted"
   ],
   "note": "Real arithmetic; the standard library's axioms of the reals. The projection itself is not part of this claim (its trigonometric functions are real functions, C89); // is modelled as CPython computes it on floats."
  },
  {
   "property": "C146",
   "status": "proved",
   "theorems": [
    "C146_shown",
    "C146_forward",
    "C146_one"
   ],
   "note": "Real arithmetic; the standard library's axioms of the reals."
  }
 ]
}