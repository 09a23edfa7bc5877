{
 "claims": [
  {
   "property": "C01",
   "status": "proved",
   "theorems": [
    "C01_new",
    "C01_splat",
    "C01_extract",
    "C01_replace",
    "C01_mask_new",
    "C01_mask_splat",
    "C01_mask_extract",
    "C01_mask_replace",
    "C01_extensional"
   ],
   "note": ""
  },
  {
   "property": "C02",
   "status": "proved",
   "theorems": [
    "C02_read",
    "C02_bounded"
   ],
   "note": ""
  },
  {
   "property": "C03",
   "status": "proved",
   "theorems": [
    "C03_write",
    "C03_round_trip"
   ],
   "note": ""
  },
  {
   "property": "C04",
   "status": "proved",
   "theorems": [
    "C04_add",
    "C04_sub",
    "C04_mul",
    "C04_ring",
    "C04_assign"
   ],
   "note": ""
  },
  {
   "property": "C05",
   "status": "proved",
   "theorems": [
    "C05_div",
    "C05_rem",
    "C05_division_identity",
    "C05_assign"
   ],
   "note": ""
  },
  {
   "property": "C06",
   "status": "proved",
   "theorems": [
    "C06_div",
    "C06_rem",
    "C06_shl",
    "C06_shr",
    "C06_safe_operators_defined_refuted"
   ],
   "note": "The refuted theorem shows safe operators with undefined results; the others say exactly when they are defined."
  },
  {
   "property": "C07",
   "status": "proved",
   "theorems": [
    "C07_arithmetic",
    "C07_division",
    "C07_division_undefined",
    "C07_bitwise",
    "C07_mask",
    "C07_assign",
    "C07_mask_assign"
   ],
   "note": ""
  },
  {
   "property": "C08",
   "status": "proved",
   "theorems": [
    "C08_bits",
    "C08_laws",
    "C08_masks",
    "C08_assign",
    "C08_mask_assign"
   ],
   "note": ""
  },
  {
   "property": "C09",
   "status": "proved",
   "theorems": [
    "C09_neg",
    "C09_laws"
   ],
   "note": ""
  },
  {
   "property": "C10",
   "status": "proved",
   "theorems": [
    "C10_shl",
    "C10_shr",
    "C10_assign"
   ],
   "note": ""
  },
  {
   "property": "C11",
   "status": "proved",
   "theorems": [
    "C11_scalar_amounts",
    "C11_assign",
    "C11_long_amount_undefined_refuted"
   ],
   "note": "The refuted theorem is the defect named in the statement."
  },
  {
   "property": "C12",
   "status": "proved",
   "theorems": [
    "C12_rotates",
    "C12_laws"
   ],
   "note": ""
  },
  {
   "property": "C13",
   "status": "proved",
   "theorems": [
    "C13_signed_exact",
    "C13_signed_nonneg",
    "C13_signed_rotate_refuted"
   ],
   "note": "The refuted theorem is the defect named in the statement."
  },
  {
   "property": "C14",
   "status": "proved",
   "theorems": [
    "C14_min_max",
    "C14_laws"
   ],
   "note": ""
  },
  {
   "property": "C15",
   "status": "proved",
   "theorems": [
    "C15_comparisons",
    "C15_complementary",
    "C15_mask_elements"
   ],
   "note": ""
  },
  {
   "property": "C16",
   "status": "proved",
   "theorems": [
    "C16_equality",
    "C16_pointer_sized"
   ],
   "note": ""
  },
  {
   "property": "C17",
   "status": "proved",
   "theorems": [
    "C17_order",
    "C17_transitive",
    "C17_irreflexive"
   ],
   "note": ""
  },
  {
   "property": "C18",
   "status": "proved",
   "theorems": [
    "C18_select",
    "C18_select_not"
   ],
   "note": ""
  },
  {
   "property": "C19",
   "status": "proved",
   "theorems": [
    "C19_obtained",
    "C19_defined"
   ],
   "note": ""
  },
  {
   "property": "C20",
   "status": "proved",
   "theorems": [
    "C20_m128x1",
    "C20_canonical_refuted"
   ],
   "note": "The refuted theorem shows a cast that yields a mask lane which is neither true nor false."
  },
  {
   "property": "C21",
   "status": "proved",
   "theorems": [
    "C21_reductions",
    "C21_msize"
   ],
   "note": ""
  },
  {
   "property": "C22",
   "status": "proved",
   "theorems": [
    "C22_bitmask",
    "C22_masks",
    "C22_fits",
    "C22_same_on_all_targets_refuted"
   ],
   "note": "The refuted theorem shows that the bit order depends on the byte order of the target."
  },
  {
   "property": "C23",
   "status": "proved",
   "theorems": [
    "C23_two_vectors",
    "C23_one_vector",
    "C23_available",
    "C23_identity",
    "C23_compose",
    "C23_m16x32_refuted"
   ],
   "note": "The refuted theorem records that m16x32 has no shuffle implementation."
  },
  {
   "property": "C24",
   "status": "proved",
   "theorems": [
    "C24_in_range"
   ],
   "note": ""
  },
  {
   "property": "C25",
   "status": "proved",
   "theorems": [
    "C25_targets_agree",
    "C25_any_index",
    "C25_fallback",
    "C25_out_of_range_refuted",
    "C25_checked_refuted"
   ],
   "note": "The refuted theorems show how results for out-of-range indices differ between targets."
  },
  {
   "property": "C26",
   "status": "proved",
   "theorems": [
    "C26_swap_bytes",
    "C26_endian"
   ],
   "note": ""
  },
  {
   "property": "C27",
   "status": "proved",
   "theorems": [
    "C27_counts"
   ],
   "note": ""
  },
  {
   "property": "C28",
   "status": "proved",
   "theorems": [
    "C28_reductions",
    "C28_order",
    "C28_additive"
   ],
   "note": ""
  },
  {
   "property": "C29",
   "status": "proved",
   "theorems": [
    "C29_integers",
    "C29_masks"
   ],
   "note": ""
  },
  {
   "property": "C30",
   "status": "proved",
   "theorems": [
    "C30_elements"
   ],
   "note": ""
  },
  {
   "property": "C31",
   "status": "proved",
   "theorems": [
    "C31_iterators",
    "C31_order"
   ],
   "note": ""
  },
  {
   "property": "C32",
   "status": "proved",
   "theorems": [
    "C32_casts",
    "C32_mask_values",
    "C32_shape"
   ],
   "note": ""
  },
  {
   "property": "C33",
   "status": "proved",
   "theorems": [
    "C33_integers",
    "C33_masks",
    "C33_floats"
   ],
   "note": ""
  },
  {
   "property": "C34",
   "status": "proved",
   "theorems": [
    "C34_arrays"
   ],
   "note": ""
  },
  {
   "property": "C35",
   "status": "proved",
   "theorems": [
    "C35_bits",
    "C35_masks"
   ],
   "note": ""
  },
  {
   "property": "C36",
   "status": "proved",
   "theorems": [
    "C36_offsets",
    "C36_counted_offsets",
    "C36_laws"
   ],
   "note": ""
  },
  {
   "property": "C37",
   "status": "proved",
   "theorems": [
    "C37_difference",
    "C37_after_offset",
    "C37_zero_sized",
    "C37_inverse_of_offset_refuted"
   ],
   "note": "The refuted theorem is the defect named in the statement."
  },
  {
   "property": "C38",
   "status": "proved",
   "theorems": [
    "C38_gather",
    "C38_local"
   ],
   "note": ""
  },
  {
   "property": "C39",
   "status": "proved",
   "theorems": [
    "C39_scatter",
    "C39_gather_after_scatter"
   ],
   "note": ""
  },
  {
   "property": "C40",
   "status": "proved",
   "theorems": [
    "C40_as_array",
    "C40_coherent",
    "C40_separates",
    "C40_pointers"
   ],
   "note": ""
  },
  {
   "property": "C41",
   "status": "proved",
   "theorems": [
    "C41_text",
    "C41_distinct",
    "C41_integers_distinct",
    "C41_integers",
    "C41_masks_distinct"
   ],
   "note": ""
  },
  {
   "property": "C42",
   "status": "proved",
   "theorems": [
    "C42_default"
   ],
   "note": ""
  },
  {
   "property": "C43",
   "status": "proved",
   "theorems": [
    "C43_comparisons",
    "C43_null",
    "C43_equality"
   ],
   "note": ""
  },
  {
   "property": "C44",
   "status": "proved",
   "theorems": [
    "C44_arithmetic",
    "C44_scalar_arithmetic",
    "C44_assign",
    "C44_comparisons",
    "C44_equality",
    "C44_self_equality",
    "C44_sqrt",
    "C44_estimates"
   ],
   "note": ""
  },
  {
   "property": "C45",
   "status": "proved",
   "theorems": [
    "C45_negation",
    "C45_bits",
    "C45_involution"
   ],
   "note": ""
  },
  {
   "property": "C46",
   "status": "proved",
   "theorems": [
    "C46_classification"
   ],
   "note": ""
  },
  {
   "property": "C47",
   "status": "proved",
   "theorems": [
    "C47_min_max",
    "C47_extreme_elements"
   ],
   "note": ""
  },
  {
   "property": "C48",
   "status": "proved",
   "theorems": [
    "C48_reductions",
    "C48_nan",
    "C48_sum_portable",
    "C48_product_portable",
    "C48_iterators",
    "C48_tree_order_refuted"
   ],
   "note": "The refuted theorem shows that the documented tree order is not the one computed. Float theorems use the axioms of the standard library reals."
  },
  {
   "property": "C49",
   "status": "proved",
   "theorems": [
    "C49_casts"
   ],
   "note": ""
  },
  {
   "property": "C50",
   "status": "proved",
   "theorems": [
    "C50_unary",
    "C50_times_pi",
    "C50_powf",
    "C50_mul_add",
    "C50_mul_adde",
    "C50_portable",
    "C50_llvm",
    "C50_s390x_fused_refuted"
   ],
   "note": "The scalar functions of libm, LLVM and SLEEF are parameters. The refuted theorem shows that mul_add is not fused on s390x."
  },
  {
   "property": "C51",
   "status": "proved",
   "theorems": [
    "C51_pairs",
    "C51_f32x2_refuted"
   ],
   "note": "The scalar functions of SLEEF are parameters. The refuted theorem is the defect named in the statement."
  },
  {
   "property": "C52",
   "status": "proved",
   "theorems": [
    "C52_images",
    "C52_portable_refuted"
   ],
   "note": "The refuted theorem is the defect named in the statement."
  },
  {
   "property": "C53",
   "status": "proved",
   "theorems": [
    "C53_scalar_masks"
   ],
   "note": ""
  },
  {
   "property": "C54",
   "status": "proved",
   "theorems": [
    "C54_lossless",
    "C54_injective",
    "C54_masks",
    "C54_into_mask"
   ],
   "note": ""
  },
  {
   "property": "C55",
   "status": "proved",
   "theorems": [
    "C55_limits",
    "C55_constants"
   ],
   "note": ""
  },
  {
   "property": "C56",
   "status": "proved",
   "theorems": [
    "C56_pack",
    "C56_transform"
   ],
   "note": "The examples are programs written with the crate. Scalar f32 arithmetic is that of one lane."
  },
  {
   "property": "C57",
   "status": "proved",
   "theorems": [
    "C57_exact",
    "C57_order",
    "C57_panics",
    "C57_parallel",
    "C57_empty",
    "C57_parallel_agrees_refuted"
   ],
   "note": "rayon is modelled as any split of the items into consecutive parts. The refuted theorem is the defect named in the statement."
  },
  {
   "property": "C58",
   "status": "proved",
   "theorems": [
    "C58_exact",
    "C58_panics"
   ],
   "note": "Scalar f32 arithmetic is that of one lane."
  },
  {
   "property": "C59",
   "status": "proved",
   "theorems": [
    "C59_unique",
    "C59_scalar",
    "C59_vector",
    "C59_default_region",
    "C59_panics",
    "C59_any_point_refuted"
   ],
   "note": "The refuted theorem is the defect named in the statement. Points with 3.5 < |c|^2 are covered for the scalar counter only."
  },
  {
   "property": "C60",
   "status": "proved",
   "theorems": [
    "C60_equal",
    "C60_meaning",
    "C60_panics"
   ],
   "note": ""
  },
  {
   "property": "C61",
   "status": "proved",
   "theorems": [
    "C61_singular",
    "C61_close",
    "C61_exact",
    "C61_inverse",
    "C61_no_panic",
    "C61_any_matrix_refuted"
   ],
   "note": "The claim that both versions agree on which matrices are invertible for arbitrary floats is false and refuted by a witness."
  },
  {
   "property": "C62",
   "status": "proved",
   "theorems": [
    "C62_simd",
    "C62_scalar",
    "C62_agree",
    "C62_result",
    "C62_max",
    "C62_numbers",
    "C62_range",
    "C62_scalar_truncated",
    "C62_all_counted_refuted",
    "C62_too_large"
   ],
   "note": "That the scalar version counts all permutations for every size main.rs accepts is false: for 13 and 14 elements the count wraps."
  },
  {
   "property": "C63",
   "status": "proved",
   "theorems": [
    "C63_scalar",
    "C63_simd",
    "C63_fmuladd",
    "C63_s390x",
    "C63_unique",
    "C63_agree",
    "C63_agree_refuted",
    "C63_parallel",
    "C63_width",
    "C63_safe_refuted",
    "C63_parallel_panics",
    "C63_data",
    "C63_start"
   ],
   "note": "That the vector version always gives the numbers of the scalar version, and that x8 is memory safe, is false: C63_agree_refuted and C63_safe_refuted."
  },
  {
   "property": "C64",
   "status": "proved",
   "theorems": [
    "C64_scalar",
    "C64_state",
    "C64_unique",
    "C64_vector",
    "C64_alive",
    "C64_thread_rng",
    "C64_first_lane"
   ],
   "note": "C64_thread_rng and C64_first_lane state what the fixed seeds of the example do to the quality of the numbers."
  },
  {
   "property": "C65",
   "status": "proved",
   "theorems": [
    "C65_plane",
    "C65_sphere",
    "C65_nearest",
    "C65_packet_plane",
    "C65_packet_sphere",
    "C65_packet_nearest"
   ],
   "note": "SLEEF targets are not covered: there abs, sqrt and mul_adde go through SLEEF."
  },
  {
   "property": "C66",
   "status": "proved",
   "theorems": [
    "C66_debug_plane",
    "C66_debug_sphere",
    "C66_ground",
    "C66_agree_refuted"
   ],
   "note": "That packets and single rays always agree is false: C66_agree_refuted."
  },
  {
   "property": "C67",
   "status": "proved",
   "theorems": [
    "C67_basis",
    "C67_turn",
    "C67_packet_basis",
    "C67_packet_turn",
    "C67_packet_turn1"
   ],
   "note": "SLEEF targets are not covered."
  },
  {
   "property": "C68",
   "status": "proved",
   "theorems": [
    "C68_scalar",
    "C68_vector",
    "C68_same_samples",
    "C68_test_scalar",
    "C68_test_vector",
    "C68_random_scalar",
    "C68_random_vector",
    "C68_debug",
    "C68_range_refuted"
   ],
   "note": "SLEEF targets are not covered. That the value of vector always lies between 0 and 1 is false: C68_range_refuted."
  },
  {
   "property": "C69",
   "status": "proved",
   "theorems": [
    "C69_tiled",
    "C69_test",
    "C69_random",
    "C69_debug"
   ],
   "note": "SLEEF targets are not covered."
  },
  {
   "property": "C70",
   "status": "proved",
   "theorems": [
    "C70_scalar",
    "C70_vector",
    "C70_scalar_parallel",
    "C70_vector_parallel",
    "C70_no_columns",
    "C70_program_scalar",
    "C70_program_scalar_parallel",
    "C70_program_vector",
    "C70_program_vector_parallel",
    "C70_random_scene",
    "C70_test_scene",
    "C70_same_directions",
    "C70_debug"
   ],
   "note": "SLEEF targets are not covered."
  },
  {
   "property": "C71",
   "status": "proved",
   "theorems": [
    "C71_tiled",
    "C71_parallel",
    "C71_schedules",
    "C71_program",
    "C71_program_parallel",
    "C71_width",
    "C71_no_columns",
    "C71_debug"
   ],
   "note": "SLEEF targets are not covered. A turn of a row, with its gathers and scatters, is not interrupted in the model."
  },
  {
   "property": "C72",
   "status": "proved",
   "theorems": [
    "C72_bytes",
    "C72_planes",
    "C72_unique",
    "C72_program"
   ],
   "note": "The PNG encoder is not modelled."
  },
  {
   "property": "C73",
   "status": "proved",
   "theorems": [
    "C73_scalar",
    "C73_scalar_short",
    "C73_kernels",
    "C73_serial",
    "C73_serial_fails",
    "C73_sums",
    "C73_tree"
   ],
   "note": "exp, ln and powf are parameters. SLEEF targets are not covered."
  },
  {
   "property": "C74",
   "status": "proved",
   "theorems": [
    "C74_parallel",
    "C74_orders",
    "C74_parallel_fails",
    "C74_program",
    "C74_same_as_serial_refuted"
   ],
   "note": "A turn of a chunk is not interrupted in the model; the chunks are disjoint. The claim that parallel and serial results agree is refuted."
  },
  {
   "property": "C75",
   "status": "proved",
   "theorems": [
    "C75_scalar",
    "C75_vector",
    "C75_scalar_run",
    "C75_vector_run",
    "C75_unknown",
    "C75_same_bits_refuted"
   ],
   "note": "SLEEF targets are not covered. That both versions give the same bits is refuted."
  },
  {
   "property": "C76",
   "status": "proved",
   "theorems": [
    "C76_exact",
    "C76_conserved",
    "C76_stopped",
    "C76_solar_system"
   ],
   "note": "About the formulas of the example in exact arithmetic; C75 shows that the programs evaluate these formulas in f64."
  },
  {
   "property": "C77",
   "status": "proved",
   "theorems": [
    "C77_pbm",
    "C77_ppm",
    "C77_pbm_panics",
    "C77_any_width_refuted",
    "C77_program_pbm",
    "C77_program_ppm",
    "C77_program_stops"
   ],
   "note": "That every accepted size gives a valid PBM file is refuted."
  },
  {
   "property": "C78",
   "status": "proved",
   "theorems": [
    "C78_scalar",
    "C78_vector_refuted"
   ],
   "note": "Refuted for the vector version. Vec is modelled by its sizes only."
  },
  {
   "property": "C79",
   "status": "proved",
   "theorems": [
    "C79_sum",
    "C79_iter",
    "C79_slices",
    "C79_parallel",
    "C79_dot",
    "C79_prices"
   ],
   "note": "For finite numbers whose partial sums cannot overflow; C48 and C57 cover the others step by step."
  },
  {
   "property": "C80",
   "status": "proved",
   "theorems": [
    "C80_writer",
    "C80_scalar_mask",
    "C80_string",
    "C80_array",
    "C80_buffer"
   ],
   "note": ""
  },
  {
   "property": "C81",
   "status": "proved",
   "theorems": [
    "C81_integers",
    "C81_no_width",
    "C81_pointers",
    "C81_masks",
    "C81_distinct",
    "C81_masks_distinct",
    "C81_any_options_refuted"
   ],
   "note": "that any options keep vectors apart is refuted (a fill character that is a digit, precision 0)"
  },
  {
   "property": "C82",
   "status": "proved",
   "theorems": [
    "C82_recpre",
    "C82_recpre_any_refuted",
    "C82_rsqrte",
    "C82_product",
    "C82_iter",
    "C82_mul_adde"
   ],
   "note": "recpre for numbers whose reciprocal is too large is refuted"
  },
  {
   "property": "C83",
   "status": "proved",
   "theorems": [
    "C83_component",
    "C83_state",
    "C83_seed",
    "C83_thread_rng",
    "C83_lanes",
    "C83_full",
    "C83_any_seed_refuted"
   ],
   "note": "the full cycle for every seed is refuted"
  },
  {
   "property": "C84",
   "status": "proved",
   "theorems": [
    "C84_scalar",
    "C84_vector",
    "C84_belongs",
    "C84_threads_agree",
    "C84_independent_threads_refuted"
   ],
   "note": "that threads draw independent numbers is refuted"
  }
 ]
}