{
 "claims": [
  {
   "property": "C01",
   "status": "proved",
   "theorems": [
    "C01_mul",
    "C01_mul_cancel",
    "C01_mul_type",
    "C01_mul_group"
   ],
   "note": ""
  },
  {
   "property": "C02",
   "status": "proved",
   "theorems": [
    "C02_div",
    "C02_div_self",
    "C02_mul_div",
    "C02_div_type"
   ],
   "note": ""
  },
  {
   "property": "C03",
   "status": "proved",
   "theorems": [
    "C03_pow",
    "C03_pow_laws",
    "C03_pow_type"
   ],
   "note": ""
  },
  {
   "property": "C04",
   "status": "proved",
   "theorems": [
    "C04_inplace",
    "C04_imul_self"
   ],
   "note": ""
  },
  {
   "property": "C05",
   "status": "proved",
   "theorems": [
    "C05_idiv_self_refuted",
    "C05_idiv_self_empty"
   ],
   "note": "The statement says what the code does; C05_idiv_self_refuted gives a counterexample to the rule a user would expect."
  },
  {
   "property": "C06",
   "status": "proved",
   "theorems": [
    "C06_add_sub",
    "C06_type"
   ],
   "note": ""
  },
  {
   "property": "C07",
   "status": "proved",
   "theorems": [
    "C07_hash_order_independent",
    "C07_hash_separates_powers"
   ],
   "note": ""
  },
  {
   "property": "C08",
   "status": "proved",
   "theorems": [
    "C08_eq_separates_refuted",
    "C08_collisions"
   ],
   "note": "The statement says what the code does; C08_eq_separates_refuted gives a counterexample to the rule a user would expect."
  },
  {
   "property": "C09",
   "status": "proved",
   "theorems": [
    "C09_ordering",
    "C09_sum_abs",
    "C09_total_preorder"
   ],
   "note": ""
  },
  {
   "property": "C10",
   "status": "proved",
   "theorems": [
    "C10_rescale_preserves_value",
    "C10_rescale_units"
   ],
   "note": ""
  },
  {
   "property": "C11",
   "status": "proved",
   "theorems": [
    "C11_rescale_iff_convertible",
    "C11_rescale_bad_units"
   ],
   "note": ""
  },
  {
   "property": "C12",
   "status": "proved",
   "theorems": [
    "C12_path_independent",
    "C12_path_same_outcome",
    "C12_roundtrip"
   ],
   "note": ""
  },
  {
   "property": "C13",
   "status": "proved",
   "theorems": [
    "C13_factor_unique",
    "C13_factor_group",
    "C13_factor_products"
   ],
   "note": ""
  },
  {
   "property": "C14",
   "status": "proved",
   "theorems": [
    "C14_same_units_exact"
   ],
   "note": ""
  },
  {
   "property": "C15",
   "status": "proved",
   "theorems": [
    "C15_references_reduced",
    "C15_references_correct",
    "C15_consistent_exists_unique",
    "C15_reference_of_quantity"
   ],
   "note": ""
  },
  {
   "property": "C16",
   "status": "proved",
   "theorems": [
    "C16_new_units_harmless",
    "C16_new_units_harmless_simplified"
   ],
   "note": ""
  },
  {
   "property": "C17",
   "status": "proved",
   "theorems": [
    "C17_simplified_preserves_value"
   ],
   "note": ""
  },
  {
   "property": "C18",
   "status": "proved",
   "theorems": [
    "C18_simplified_canonical",
    "C18_simplified_idempotent"
   ],
   "note": ""
  },
  {
   "property": "C19",
   "status": "proved",
   "theorems": [
    "C19_simplified_terminates_iff",
    "C19_simplified_terminates_refuted",
    "C19_which_exception"
   ],
   "note": "The statement says what the code does; C19_simplified_terminates_refuted gives a counterexample to the rule a user would expect."
  },
  {
   "property": "C20",
   "status": "proved",
   "theorems": [
    "C20_defaults_convertible",
    "C20_simplified_after_changes",
    "C20_set_default_atomic",
    "C20_set_default_others_unchanged",
    "C20_set_default_iff",
    "C20_set_default_units_reach",
    "C20_what_is_set",
    "C20_set_default_units_atomic_refuted",
    "C20_first_unit"
   ],
   "note": "The statement says what the code does; C20_set_default_units_atomic_refuted gives a counterexample to the rule a user would expect."
  },
  {
   "property": "C21",
   "status": "proved",
   "theorems": [
    "C21_set_default_type_error_refuted",
    "C21_set_default_type_error_cases"
   ],
   "note": "The statement says what the code does; C21_set_default_type_error_refuted gives a counterexample to the rule a user would expect."
  },
  {
   "property": "C22",
   "status": "proved",
   "theorems": [
    "C22_dimensionless_magnitude"
   ],
   "note": ""
  },
  {
   "property": "C23",
   "status": "proved",
   "theorems": [
    "C23_first_convertible",
    "C23_rescale_without_argument",
    "C23_text_comparison_refuted"
   ],
   "note": "The statement says what the code does; C23_text_comparison_refuted gives a counterexample to the rule a user would expect."
  },
  {
   "property": "C24",
   "status": "proved",
   "theorems": [
    "C24_integers_not_truncated",
    "C24_explicit_int_dtype"
   ],
   "note": ""
  },
  {
   "property": "C25",
   "status": "proved",
   "theorems": [
    "C25_add",
    "C25_sub",
    "C25_add_elements",
    "C25_neg_abs",
    "C25_pos_refused"
   ],
   "note": ""
  },
  {
   "property": "C26",
   "status": "proved",
   "theorems": [
    "C26_add_sub_mod_iff"
   ],
   "note": ""
  },
  {
   "property": "C27",
   "status": "proved",
   "theorems": [
    "C27_plain_sums",
    "C27_plain_sums_iff"
   ],
   "note": ""
  },
  {
   "property": "C28",
   "status": "proved",
   "theorems": [
    "C28_products",
    "C28_quotients",
    "C28_never_fail",
    "C28_no_conversion"
   ],
   "note": ""
  },
  {
   "property": "C29",
   "status": "proved",
   "theorems": [
    "C29_pow_units",
    "C29_pow_value",
    "C29_rpow"
   ],
   "note": ""
  },
  {
   "property": "C30",
   "status": "proved",
   "theorems": [
    "C30_remainder",
    "C30_remainder_meaning",
    "C30_plain_left"
   ],
   "note": ""
  },
  {
   "property": "C31",
   "status": "proved",
   "theorems": [
    "C31_floor_div_units",
    "C31_floor_div_same_units",
    "C31_floor_div_refuted"
   ],
   "note": "The statement says what the code does; C31_floor_div_refuted gives a counterexample to the rule a user would expect."
  },
  {
   "property": "C32",
   "status": "proved",
   "theorems": [
    "C32_sums",
    "C32_products",
    "C32_powers",
    "C32_comparisons"
   ],
   "note": ""
  },
  {
   "property": "C33",
   "status": "proved",
   "theorems": [
    "C33_order",
    "C33_order_iff"
   ],
   "note": ""
  },
  {
   "property": "C34",
   "status": "proved",
   "theorems": [
    "C34_eq_elements",
    "C34_incompatible",
    "C34_never_raises",
    "C34_complementary",
    "C34_eq_iff",
    "C34_equivalence"
   ],
   "note": ""
  },
  {
   "property": "C35",
   "status": "proved",
   "theorems": [
    "C35_plain_ignores_units",
    "C35_plain_comparison_refuted"
   ],
   "note": "The statement says what the code does; C35_plain_comparison_refuted gives a counterexample to the rule a user would expect."
  },
  {
   "property": "C36",
   "status": "proved",
   "theorems": [
    "C36_plain_data",
    "C36_quantity_data",
    "C36_empty_dimensionality_refuted"
   ],
   "note": "The statement says what the code does; C36_empty_dimensionality_refuted gives a counterexample to the rule a user would expect."
  },
  {
   "property": "C37",
   "status": "proved",
   "theorems": [
    "C37_factor_dropped",
    "C37_unit_strings_refuted"
   ],
   "note": "The statement says what the code does; C37_unit_strings_refuted gives a counterexample to the rule a user would expect."
  },
  {
   "property": "C38",
   "status": "proved",
   "theorems": [
    "C38_unary",
    "C38_unary_unit_independent",
    "C38_uniform",
    "C38_uniform_plain",
    "C38_arctan2",
    "C38_radians_degrees",
    "C38_rounding_refuted",
    "C38_products",
    "C38_products_defined",
    "C38_rounding_values",
    "C38_remainders",
    "C38_angle"
   ],
   "note": "The statement says what the code does; C38_rounding_refuted gives a counterexample to the rule a user would expect."
  },
  {
   "property": "C39",
   "status": "proved",
   "theorems": [
    "C39_two_quantities",
    "C39_plain_operand"
   ],
   "note": ""
  },
  {
   "property": "C40",
   "status": "proved",
   "theorems": [
    "C40_log_exp",
    "C40_arctrig",
    "C40_trig"
   ],
   "note": ""
  },
  {
   "property": "C41",
   "status": "proved",
   "theorems": [
    "C41_first_checked",
    "C41_second_unchecked_refuted"
   ],
   "note": "The statement says what the code does; C41_second_unchecked_refuted gives a counterexample to the rule a user would expect."
  },
  {
   "property": "C42",
   "status": "proved",
   "theorems": [
    "C42_defined",
    "C42_value",
    "C42_unit_independent"
   ],
   "note": ""
  },
  {
   "property": "C43",
   "status": "proved",
   "theorems": [
    "C43_accepts_iff",
    "C43_identical_units",
    "C43_refuted",
    "C43_hypot"
   ],
   "note": "The statement says what the code does; C43_refuted gives a counterexample to the rule a user would expect."
  },
  {
   "property": "C44",
   "status": "proved",
   "theorems": [
    "C44_reductions",
    "C44_shape",
    "C44_defined",
    "C44_defined_nonempty",
    "C44_unit_independent",
    "C44_rescale",
    "C44_cumsum",
    "C44_cumsum_defined"
   ],
   "note": ""
  },
  {
   "property": "C45",
   "status": "proved",
   "theorems": [
    "C45_prod",
    "C45_prod_defined",
    "C45_var",
    "C45_cumprod"
   ],
   "note": ""
  },
  {
   "property": "C46",
   "status": "proved",
   "theorems": [
    "C46_clip",
    "C46_clip_scalar",
    "C46_clip_defined",
    "C46_clip_plain_refused"
   ],
   "note": ""
  },
  {
   "property": "C47",
   "status": "proved",
   "theorems": [
    "C47_getitem_basic",
    "C47_getitem",
    "C47_setitem",
    "C47_setitem_basic",
    "C47_mask",
    "C47_read_back",
    "C47_setitem_defined",
    "C47_put"
   ],
   "note": ""
  },
  {
   "property": "C48",
   "status": "proved",
   "theorems": [
    "C48_tolist"
   ],
   "note": ""
  },
  {
   "property": "C49",
   "status": "proved",
   "theorems": [
    "C49_searchsorted",
    "C49_searchsorted_defined"
   ],
   "note": ""
  },
  {
   "property": "C50",
   "status": "proved",
   "theorems": [
    "C50_trapz_points",
    "C50_trapz_spacing",
    "C50_trapz_same_shape"
   ],
   "note": ""
  },
  {
   "property": "C51",
   "status": "proved",
   "theorems": [
    "C51_views",
    "C51_views_protected",
    "C51_history",
    "C51_fill_refuted"
   ],
   "note": "The statement says what the code does; C51_fill_refuted gives a counterexample to the rule a user would expect."
  },
  {
   "property": "C52",
   "status": "proved",
   "theorems": [
    "C52_set_units",
    "C52_when",
    "C52_errors"
   ],
   "note": ""
  },
  {
   "property": "C53",
   "status": "proved",
   "theorems": [
    "C53_others",
    "C53_corrupts_refuted"
   ],
   "note": "The statement says what the code does; C53_corrupts_refuted gives a counterexample to the rule a user would expect."
  },
  {
   "property": "C54",
   "status": "proved",
   "theorems": [
    "C54_units_immutable",
    "C54_refusals"
   ],
   "note": ""
  },
  {
   "property": "C55",
   "status": "proved",
   "theorems": [
    "C55_effects_confined",
    "C55_pure",
    "C55_results_fresh",
    "C55_history"
   ],
   "note": ""
  },
  {
   "property": "C56",
   "status": "proved",
   "theorems": [
    "C56_deepcopy_shares_refuted",
    "C56_copy_independent",
    "C56_copy_history"
   ],
   "note": "The statement says what the code does; C56_deepcopy_shares_refuted gives a counterexample to the rule a user would expect."
  },
  {
   "property": "C57",
   "status": "proved",
   "theorems": [
    "C57_inplace",
    "C57_numpy2_refuted"
   ],
   "note": "The statement says what the code does; C57_numpy2_refuted gives a counterexample to the rule a user would expect."
  },
  {
   "property": "C58",
   "status": "proved",
   "theorems": [
    "C58_names_keep_their_value",
    "C58_lookup",
    "C58_register",
    "C58_created"
   ],
   "note": ""
  },
  {
   "property": "C59",
   "status": "proved",
   "theorems": [
    "C59_clashes_refused",
    "C59_same_name_accepted",
    "C59_constants",
    "C59_redefinition_refuted",
    "C59_arrays_are_ambiguous"
   ],
   "note": "The statement says what the code does; C59_redefinition_refuted gives a counterexample to the rule a user would expect."
  },
  {
   "property": "C60",
   "status": "proved",
   "theorems": [
    "C60_failed_creation",
    "C60_name_clash",
    "C60_atomic_refuted"
   ],
   "note": "The statement says what the code does; C60_atomic_refuted gives a counterexample to the rule a user would expect."
  },
  {
   "property": "C61",
   "status": "proved",
   "theorems": [
    "C61_only_arithmetic",
    "C61_everything_else_refused",
    "C61_unknown_names",
    "C61_unknown_names_inside",
    "C61_only_its_names",
    "C61_exponents_without_units",
    "C61_reserved_words",
    "C61_builtins_refuted"
   ],
   "note": "The statement says what the code does; C61_builtins_refuted gives a counterexample to the rule a user would expect."
  },
  {
   "property": "C62",
   "status": "proved",
   "theorems": [
    "C62_text_means_the_product",
    "C62_compound_unit",
    "C62_dimensionless",
    "C62_created_units"
   ],
   "note": ""
  },
  {
   "property": "C63",
   "status": "proved",
   "theorems": [
    "C63_same_text_iff_equal",
    "C63_injective_refuted",
    "C63_equal_print_same_refuted"
   ],
   "note": "The statement says what the code does; C63_injective_refuted, C63_equal_print_same_refuted give counterexamples to the rule a user would expect."
  },
  {
   "property": "C64",
   "status": "proved",
   "theorems": [
    "C64_plain",
    "C64_unicode",
    "C64_latex",
    "C64_html",
    "C64_attributes",
    "C64_sides",
    "C64_symbols",
    "C64_compound_alone",
    "C64_unicode_decimals",
    "C64_fractions_refuted",
    "C64_compound_refuted"
   ],
   "note": "The statement says what the code does; C64_fractions_refuted, C64_compound_refuted give counterexamples to the rule a user would expect."
  },
  {
   "property": "C65",
   "status": "proved",
   "theorems": [
    "C65_add",
    "C65_sub",
    "C65_add_defined",
    "C65_mul",
    "C65_div",
    "C65_mul_defined",
    "C65_scale",
    "C65_unscale",
    "C65_inverse",
    "C65_scale_defined",
    "C65_neg",
    "C65_pow",
    "C65_pow_defined",
    "C65_sqrt",
    "C65_rescale",
    "C65_rescale_defined",
    "C65_simplified"
   ],
   "note": ""
  },
  {
   "property": "C66",
   "status": "proved",
   "theorems": [
    "C66_sums",
    "C66_factors",
    "C66_kept",
    "C66_products",
    "C66_refuted",
    "C66_powers"
   ],
   "note": "The statement says what the code does; C66_refuted gives a counterexample to the rule a user would expect."
  },
  {
   "property": "C67",
   "status": "proved",
   "theorems": [
    "C67_shape_and_units",
    "C67_refuted"
   ],
   "note": "The statement says what the code does; C67_refuted gives a counterexample to the rule a user would expect."
  },
  {
   "property": "C68",
   "status": "proved",
   "theorems": [
    "C68_refuted",
    "C68_reflected_sub",
    "C68_reflected_sub_defined"
   ],
   "note": "The statement says what the code does; C68_refuted gives a counterexample to the rule a user would expect."
  },
  {
   "property": "C69",
   "status": "proved",
   "theorems": [
    "C69_sum",
    "C69_mean",
    "C69_defined"
   ],
   "note": ""
  },
  {
   "property": "C70",
   "status": "proved",
   "theorems": [
    "C70_quantity",
    "C70_uncertain",
    "C70_unit",
    "C70_same_process",
    "C70_half_made_refuted",
    "C70_other_definition_refuted",
    "C70_name_taken",
    "C70_compound_refuted"
   ],
   "note": "The statement says what the code does; C70_half_made_refuted, C70_other_definition_refuted, C70_compound_refuted give counterexamples to the rule a user would expect."
  },
  {
   "property": "C71",
   "status": "proved",
   "theorems": [
    "C71_transparent",
    "C71_once",
    "C71_first_result",
    "C71_owned",
    "C71_equal_arguments_refuted"
   ],
   "note": "The statement says what the code does; C71_equal_arguments_refuted gives a counterexample to the rule a user would expect."
  },
  {
   "property": "C72",
   "status": "proved",
   "theorems": [
    "C72_what_happens",
    "C72_units_do_not_matter",
    "C72_same_outcome",
    "C72_defined",
    "C72_keywords_refuted",
    "C72_keywords_error",
    "C72_default_handler_refuted"
   ],
   "note": "The statement says what the code does; C72_keywords_refuted, C72_default_handler_refuted give counterexamples to the rule a user would expect."
  },
  {
   "property": "C73",
   "status": "proved",
   "theorems": [
    "C73_import",
    "C73_exception_ends_import",
    "C73_names",
    "C73_unambiguous",
    "C73_nothing_else",
    "C73_symbols_refuted",
    "C73_labels_read_back",
    "C73_defaults",
    "C73_std_defaults",
    "C73_defaults_wf",
    "C73_simplifiable",
    "C73_simplified_total",
    "C73_statampere_refuted"
   ],
   "note": "The statement says what the code does; C73_symbols_refuted, C73_statampere_refuted give counterexamples to the rule a user would expect."
  },
  {
   "property": "C74",
   "status": "proved",
   "theorems": [
    "C74_argmax",
    "C74_argmin",
    "C74_nonzero",
    "C74_unit_independent"
   ],
   "note": ""
  },
  {
   "property": "C75",
   "status": "proved",
   "theorems": [
    "C75_nanmax_ignores_axis",
    "C75_nanmax_refuted"
   ],
   "note": "The statement says what the code does; C75_nanmax_refuted gives a counterexample to the rule a user would expect."
  },
  {
   "property": "C76",
   "status": "proved",
   "theorems": [
    "C76_diff",
    "C76_diff_bad_axis"
   ],
   "note": ""
  },
  {
   "property": "C77",
   "status": "proved",
   "theorems": [
    "C77_ediff1d",
    "C77_padding",
    "C77_padding_units_ignored",
    "C77_padding_refuted"
   ],
   "note": "The statement says what the code does; C77_padding_refuted gives a counterexample to the rule a user would expect."
  },
  {
   "property": "C78",
   "status": "proved",
   "theorems": [
    "C78_gradient_uniform",
    "C78_gradient_linear_exact",
    "C78_gradient_refuted"
   ],
   "note": "The statement says what the code does; C78_gradient_refuted gives a counterexample to the rule a user would expect."
  },
  {
   "property": "C79",
   "status": "proved",
   "theorems": [
    "C79_cross"
   ],
   "note": ""
  },
  {
   "property": "C80",
   "status": "proved",
   "theorems": [
    "C80_unwrap",
    "C80_default_loses_units",
    "C80_unwrap_refuted"
   ],
   "note": "The statement says what the code does; C80_unwrap_refuted gives a counterexample to the rule a user would expect."
  },
  {
   "property": "C81",
   "status": "proved",
   "theorems": [
    "C81_errors_change_nothing",
    "C81_reachable"
   ],
   "note": ""
  },
  {
   "property": "C82",
   "status": "proved",
   "theorems": [
    "C82_views_share"
   ],
   "note": ""
  },
  {
   "property": "C83",
   "status": "proved",
   "theorems": [
    "C83_setitem",
    "C83_items_keep_the_type",
    "C83_no_float_into_int",
    "C83_truncates"
   ],
   "note": ""
  },
  {
   "property": "C84",
   "status": "proved",
   "theorems": [
    "C84_quantity_of_quantity"
   ],
   "note": ""
  },
  {
   "property": "C85",
   "status": "proved",
   "theorems": [
    "C85_caret",
    "C85_middle_dot",
    "C85_empty"
   ],
   "note": ""
  },
  {
   "property": "C86",
   "status": "proved",
   "theorems": [
    "C86_max_min",
    "C86_argmax",
    "C86_defined",
    "C86_axis_refuted"
   ],
   "note": "The statement says what the code does; C86_axis_refuted gives a counterexample to the rule a user would expect."
  },
  {
   "property": "C87",
   "status": "proved",
   "theorems": [
    "C87_unit_on_the_left",
    "C87_ufunc",
    "C87_not_commutative",
    "C87_in_place",
    "C87_rejected"
   ],
   "note": ""
  },
  {
   "property": "C88",
   "status": "proved",
   "theorems": [
    "C88_copy_unit",
    "C88_copy_dimensionless_refuted",
    "C88_deepcopy",
    "C88_deepcopy_unit",
    "C88_deepcopy_uncertain_refuted"
   ],
   "note": "The statement says what the code does; C88_copy_dimensionless_refuted, C88_deepcopy_uncertain_refuted give counterexamples to the rule a user would expect."
  },
  {
   "property": "C89",
   "status": "proved",
   "theorems": [
    "C89_standard_sizes",
    "C89_rescale",
    "C89_pond_refuted"
   ],
   "note": "The statement says what the code does; C89_pond_refuted gives a counterexample to the rule a user would expect."
  },
  {
   "property": "C90",
   "status": "proved",
   "theorems": [
    "C90_accuracy",
    "C90_definitions"
   ],
   "note": ""
  },
  {
   "property": "C91",
   "status": "proved",
   "theorems": [
    "C91_round_trip"
   ],
   "note": ""
  },
  {
   "property": "C92",
   "status": "proved",
   "theorems": [
    "C92_order"
   ],
   "note": ""
  },
  {
   "property": "C93",
   "status": "proved",
   "theorems": [
    "C93_import",
    "C93_units"
   ],
   "note": ""
  },
  {
   "property": "C94",
   "status": "proved",
   "theorems": [
    "C94_addition",
    "C94_products",
    "C94_signs"
   ],
   "note": ""
  },
  {
   "property": "C95",
   "status": "proved",
   "theorems": [
    "C95_comparisons"
   ],
   "note": ""
  },
  {
   "property": "C96",
   "status": "proved",
   "theorems": [
    "C96_simplified",
    "C96_library"
   ],
   "note": ""
  },
  {
   "property": "C97",
   "status": "proved",
   "theorems": [
    "C97_round",
    "C97_round_unique",
    "C97_idempotent",
    "C97_builtin_round",
    "C97_unit_independent_refuted"
   ],
   "note": "The statement says what the code does; C97_unit_independent_refuted gives a counterexample to the rule a user would expect."
  },
  {
   "property": "C98",
   "status": "proved",
   "theorems": [
    "C98_argsort",
    "C98_defined",
    "C98_unit_independent"
   ],
   "note": ""
  },
  {
   "property": "C99",
   "status": "proved",
   "theorems": [
    "C99_trace",
    "C99_trace_defined",
    "C99_squeeze",
    "C99_squeeze_axis"
   ],
   "note": ""
  },
  {
   "property": "C100",
   "status": "proved",
   "theorems": [
    "C100_somes",
    "C100_nan_reductions",
    "C100_defined",
    "C100_without_nan",
    "C100_without_nan_sum"
   ],
   "note": ""
  },
  {
   "property": "C101",
   "status": "proved",
   "theorems": [
    "C101_nanmax",
    "C101_nanargmax",
    "C101_axis_ignored",
    "C101_axis_refuted"
   ],
   "note": "The statement says what the code does; C101_axis_refuted gives a counterexample to the rule a user would expect."
  },
  {
   "property": "C102",
   "status": "proved",
   "theorems": [
    "C102_rescale",
    "C102_simplified",
    "C102_simplified_defined",
    "C102_add_sub",
    "C102_add_sub_defined",
    "C102_comparisons",
    "C102_nan_not_equal"
   ],
   "note": ""
  },
  {
   "property": "C103",
   "status": "proved",
   "theorems": [
    "C103_prefixes"
   ],
   "note": ""
  },
  {
   "property": "C104",
   "status": "proved",
   "theorems": [
    "C104_import",
    "C104_frame",
    "C104_value",
    "C104_pure_numbers",
    "C104_known",
    "C104_positive",
    "C104_conversions",
    "C104_no_names",
    "C104_printed",
    "C104_labels_refuted",
    "C104_exception_ends_import"
   ],
   "note": "The statement says what the code does; C104_labels_refuted gives a counterexample to the rule a user would expect."
  },
  {
   "property": "C105",
   "status": "proved",
   "theorems": [
    "C105_nansum",
    "C105_nanmean",
    "C105_defined",
    "C105_without_nan",
    "C105_counts_nan_values_refuted"
   ],
   "note": "The statement says what the code does; C105_counts_nan_values_refuted gives a counterexample to the rule a user would expect."
  },
  {
   "property": "C106",
   "status": "proved",
   "theorems": [
    "C106_nanmax_nanmin",
    "C106_axis_ignored",
    "C106_axis_refuted"
   ],
   "note": "The statement says what the code does; C106_axis_refuted gives a counterexample to the rule a user would expect."
  },
  {
   "property": "C107",
   "status": "proved",
   "theorems": [
    "C107_str",
    "C107_repr",
    "C107_units_read_back",
    "C107_format",
    "C107_format_arrays",
    "C107_uncertain_repr",
    "C107_uncertain_str",
    "C107_unicode",
    "C107_unicode_uncertain",
    "C107_sigma_refuted"
   ],
   "note": "The statement says what the code does; C107_sigma_refuted gives a counterexample to the rule a user would expect."
  },
  {
   "property": "C108",
   "status": "proved",
   "theorems": [
    "C108_str_tells_the_name",
    "C108_created",
    "C108_repr_identifies",
    "C108_repr_created",
    "C108_name_twice_refuted"
   ],
   "note": "The statement says what the code does; C108_name_twice_refuted gives a counterexample to the rule a user would expect."
  },
  {
   "property": "C109",
   "status": "proved",
   "theorems": [
    "C109_parts",
    "C109_rescale",
    "C109_set_real",
    "C109_set_imag",
    "C109_set_defined",
    "C109_set_iff",
    "C109_dimensionless_refuted",
    "C109_real_dtype",
    "C109_real_dtype_imag"
   ],
   "note": "The statement says what the code does; C109_dimensionless_refuted gives a counterexample to the rule a user would expect."
  },
  {
   "property": "C110",
   "status": "proved",
   "theorems": [
    "C110_grammar",
    "C110_unambiguous",
    "C110_meaning",
    "C110_precedence"
   ],
   "note": ""
  },
  {
   "property": "C111",
   "status": "proved",
   "theorems": [
    "C111_composition",
    "C111_parentheses",
    "C111_products",
    "C111_powers",
    "C111_numbers"
   ],
   "note": ""
  },
  {
   "property": "C112",
   "status": "proved",
   "theorems": [
    "C112_label_values",
    "C112_units_only",
    "C112_histories",
    "C112_naming",
    "C112_unit_strings",
    "C112_refused_strings"
   ],
   "note": ""
  },
  {
   "property": "C113",
   "status": "proved",
   "theorems": [
    "C113_defaults_convertible",
    "C113_simplified",
    "C113_systems"
   ],
   "note": ""
  },
  {
   "property": "C114",
   "status": "proved",
   "theorems": [
    "C114_temperatures_refuted",
    "C114_no_offsets"
   ],
   "note": "The statement says what the code does; C114_temperatures_refuted gives a counterexample to the rule a user would expect."
  },
  {
   "property": "C115",
   "status": "proved",
   "theorems": [
    "C115_library",
    "C115_one_result",
    "C115_units_of_inputs"
   ],
   "note": ""
  },
  {
   "property": "C116",
   "status": "proved",
   "theorems": [
    "C116_library",
    "C116_units_erased",
    "C116_equality_refuted"
   ],
   "note": "The statement says what the code does; C116_equality_refuted gives a counterexample to the rule a user would expect."
  },
  {
   "property": "C117",
   "status": "proved",
   "theorems": [
    "C117_undisturbed",
    "C117_names_kept",
    "C117_lookup",
    "C117_lookup_name",
    "C117_names_refuted",
    "C117_order_refuted"
   ],
   "note": "The statement says what the code does; C117_names_refuted, C117_order_refuted give counterexamples to the rule a user would expect."
  },
  {
   "property": "C118",
   "status": "proved",
   "theorems": [
    "C118_simplified",
    "C118_succeeds"
   ],
   "note": ""
  },
  {
   "property": "C119",
   "status": "proved",
   "theorems": [
    "C119_defaults",
    "C119_refuted"
   ],
   "note": "The statement says what the code does; C119_refuted gives a counterexample to the rule a user would expect."
  },
  {
   "property": "C120",
   "status": "proved",
   "theorems": [
    "C120_creation",
    "C120_creation_again",
    "C120_defaults",
    "C120_defaults_again"
   ],
   "note": ""
  },
  {
   "property": "C121",
   "status": "proved",
   "theorems": [
    "C121_undisturbed",
    "C121_interrupted",
    "C121_refuted"
   ],
   "note": "The statement says what the code does; C121_refuted gives a counterexample to the rule a user would expect."
  },
  {
   "property": "C122",
   "status": "proved",
   "theorems": [
    "C122_checked",
    "C122_one_run"
   ],
   "note": ""
  },
  {
   "property": "C123",
   "status": "proved",
   "theorems": [
    "C123_accuracy",
    "C123_import",
    "C123_units"
   ],
   "note": ""
  },
  {
   "property": "C124",
   "status": "proved",
   "theorems": [
    "C124_simplified",
    "C124_library"
   ],
   "note": ""
  },
  {
   "property": "C125",
   "status": "proved",
   "theorems": [
    "C125_addition",
    "C125_products",
    "C125_comparisons",
    "C125_library",
    "C125_round_trip",
    "C125_round_trip_library"
   ],
   "note": ""
  },
  {
   "property": "C126",
   "status": "proved",
   "theorems": [
    "C126_order",
    "C126_extremes",
    "C126_range",
    "C126_units",
    "C126_extremes_units"
   ],
   "note": ""
  },
  {
   "property": "C127",
   "status": "proved",
   "theorems": [
    "C127_range",
    "C127_units",
    "C127_signs"
   ],
   "note": ""
  },
  {
   "property": "C128",
   "status": "proved",
   "theorems": [
    "C128_library_kept",
    "C128_labels",
    "C128_simplified"
   ],
   "note": ""
  },
  {
   "property": "C129",
   "status": "proved",
   "theorems": [
    "C129_unit_independent"
   ],
   "note": ""
  },
  {
   "property": "C130",
   "status": "proved",
   "theorems": [
    "C130_transparent",
    "C130_owned",
    "C130_finishes",
    "C130_once_refuted"
   ],
   "note": "The statement says what the code does; C130_once_refuted gives a counterexample to the rule a user would expect."
  }
 ]
}