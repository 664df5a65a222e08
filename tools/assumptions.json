{
"C01_mul": [],
"C01_mul_cancel": [],
"C01_mul_group": [],
"C01_mul_type": [],
"C02_div": [],
"C02_div_self": [],
"C02_div_type": [],
"C02_mul_div": [],
"C03_pow": [],
"C03_pow_laws": [],
"C03_pow_type": [],
"C04_imul_self": [],
"C04_inplace": [],
"C05_idiv_self_empty": [],
"C05_idiv_self_refuted": [],
"C06_add_sub": [],
"C06_type": [],
"C07_hash_order_independent": [],
"C07_hash_separates_powers": [],
"C08_collisions": [],
"C08_eq_separates_refuted": [],
"C09_ordering": [],
"C09_sum_abs": [],
"C09_total_preorder": [],
"C100_defined": [
"classic",
"functional_extensionality_dep",
"sig_forall_dec",
"sig_not_dec"
],
"C100_nan_reductions": [
"classic",
"functional_extensionality_dep",
"sig_forall_dec",
"sig_not_dec"
],
"C100_somes": [],
"C100_without_nan": [
"classic",
"functional_extensionality_dep",
"sig_forall_dec",
"sig_not_dec"
],
"C100_without_nan_sum": [
"classic",
"functional_extensionality_dep",
"sig_forall_dec",
"sig_not_dec"
],
"C101_axis_ignored": [],
"C101_axis_refuted": [],
"C101_nanargmax": [
"classic",
"functional_extensionality_dep",
"sig_forall_dec",
"sig_not_dec"
],
"C101_nanmax": [
"classic",
"functional_extensionality_dep",
"sig_forall_dec",
"sig_not_dec"
],
"C102_add_sub": [
"classic",
"functional_extensionality_dep",
"sig_forall_dec",
"sig_not_dec"
],
"C102_add_sub_defined": [
"classic",
"functional_extensionality_dep",
"sig_forall_dec",
"sig_not_dec"
],
"C102_comparisons": [
"classic",
"functional_extensionality_dep",
"sig_forall_dec",
"sig_not_dec"
],
"C102_nan_not_equal": [
"classic",
"functional_extensionality_dep",
"sig_forall_dec",
"sig_not_dec"
],
"C102_rescale": [
"classic",
"functional_extensionality_dep",
"sig_forall_dec",
"sig_not_dec"
],
"C102_simplified": [
"classic",
"functional_extensionality_dep",
"sig_forall_dec",
"sig_not_dec"
],
"C102_simplified_defined": [
"classic",
"functional_extensionality_dep",
"sig_forall_dec",
"sig_not_dec"
],
"C103_prefixes": [
"classic",
"functional_extensionality_dep",
"sig_forall_dec",
"sig_not_dec"
],
"C104_conversions": [
"classic",
"functional_extensionality_dep",
"sig_forall_dec",
"sig_not_dec"
],
"C104_exception_ends_import": [],
"C104_frame": [
"classic",
"functional_extensionality_dep",
"sig_forall_dec",
"sig_not_dec"
],
"C104_import": [
"classic",
"functional_extensionality_dep",
"sig_forall_dec",
"sig_not_dec"
],
"C104_known": [
"classic",
"functional_extensionality_dep",
"sig_forall_dec",
"sig_not_dec"
],
"C104_labels_refuted": [
"classic",
"functional_extensionality_dep",
"sig_forall_dec",
"sig_not_dec"
],
"C104_no_names": [
"classic",
"functional_extensionality_dep",
"sig_forall_dec",
"sig_not_dec"
],
"C104_positive": [
"classic",
"functional_extensionality_dep",
"sig_forall_dec",
"sig_not_dec"
],
"C104_printed": [
"classic",
"functional_extensionality_dep",
"sig_forall_dec",
"sig_not_dec"
],
"C104_pure_numbers": [
"classic",
"functional_extensionality_dep",
"sig_forall_dec",
"sig_not_dec"
],
"C104_value": [
"classic",
"functional_extensionality_dep",
"sig_forall_dec",
"sig_not_dec"
],
"C105_counts_nan_values_refuted": [
"classic",
"functional_extensionality_dep",
"sig_forall_dec",
"sig_not_dec"
],
"C105_defined": [
"classic",
"functional_extensionality_dep",
"sig_forall_dec",
"sig_not_dec"
],
"C105_nanmean": [
"classic",
"functional_extensionality_dep",
"sig_forall_dec",
"sig_not_dec"
],
"C105_nansum": [
"classic",
"functional_extensionality_dep",
"sig_forall_dec",
"sig_not_dec"
],
"C105_without_nan": [
"classic",
"functional_extensionality_dep",
"sig_forall_dec",
"sig_not_dec"
],
"C106_axis_ignored": [
"classic",
"functional_extensionality_dep",
"sig_forall_dec",
"sig_not_dec"
],
"C106_axis_refuted": [
"classic",
"functional_extensionality_dep",
"sig_forall_dec",
"sig_not_dec"
],
"C106_nanmax_nanmin": [
"classic",
"functional_extensionality_dep",
"sig_forall_dec",
"sig_not_dec"
],
"C107_format": [],
"C107_format_arrays": [],
"C107_repr": [],
"C107_sigma_refuted": [],
"C107_str": [],
"C107_uncertain_repr": [],
"C107_uncertain_str": [],
"C107_unicode": [],
"C107_unicode_uncertain": [],
"C107_units_read_back": [],
"C108_created": [],
"C108_name_twice_refuted": [],
"C108_repr_created": [],
"C108_repr_identifies": [],
"C108_str_tells_the_name": [],
"C109_dimensionless_refuted": [],
"C109_parts": [
"classic",
"functional_extensionality_dep",
"sig_forall_dec",
"sig_not_dec"
],
"C109_real_dtype": [
"classic",
"functional_extensionality_dep",
"sig_forall_dec",
"sig_not_dec"
],
"C109_real_dtype_imag": [],
"C109_rescale": [
"classic",
"functional_extensionality_dep",
"sig_forall_dec",
"sig_not_dec"
],
"C109_set_defined": [
"classic",
"functional_extensionality_dep",
"sig_forall_dec",
"sig_not_dec"
],
"C109_set_iff": [
"classic",
"functional_extensionality_dep",
"sig_forall_dec",
"sig_not_dec"
],
"C109_set_imag": [
"classic",
"functional_extensionality_dep",
"sig_forall_dec",
"sig_not_dec"
],
"C109_set_real": [
"classic",
"functional_extensionality_dep",
"sig_forall_dec",
"sig_not_dec"
],
"C10_rescale_preserves_value": [
"classic",
"functional_extensionality_dep",
"sig_forall_dec",
"sig_not_dec"
],
"C10_rescale_units": [
"classic",
"functional_extensionality_dep",
"sig_forall_dec",
"sig_not_dec"
],
"C110_grammar": [],
"C110_meaning": [],
"C110_precedence": [],
"C110_unambiguous": [],
"C111_composition": [],
"C111_numbers": [],
"C111_parentheses": [],
"C111_powers": [
"classic",
"functional_extensionality_dep",
"sig_forall_dec",
"sig_not_dec"
],
"C111_products": [
"classic",
"functional_extensionality_dep",
"sig_forall_dec",
"sig_not_dec"
],
"C112_histories": [
"classic",
"functional_extensionality_dep",
"sig_forall_dec",
"sig_not_dec"
],
"C112_label_values": [],
"C112_naming": [],
"C112_unit_strings": [],
"C112_refused_strings": [],
"C112_units_only": [],
"C113_defaults_convertible": [
"classic",
"functional_extensionality_dep",
"sig_forall_dec",
"sig_not_dec"
],
"C113_simplified": [
"classic",
"functional_extensionality_dep",
"sig_forall_dec",
"sig_not_dec"
],
"C113_systems": [
"classic",
"functional_extensionality_dep",
"sig_forall_dec",
"sig_not_dec"
],
"C114_no_offsets": [
"classic",
"functional_extensionality_dep",
"sig_forall_dec",
"sig_not_dec"
],
"C114_temperatures_refuted": [
"classic",
"functional_extensionality_dep",
"sig_forall_dec",
"sig_not_dec"
],
"C115_library": [
"classic",
"functional_extensionality_dep",
"sig_forall_dec",
"sig_not_dec"
],
"C115_one_result": [
"classic",
"functional_extensionality_dep",
"sig_forall_dec",
"sig_not_dec"
],
"C115_units_of_inputs": [
"classic",
"functional_extensionality_dep",
"sig_forall_dec",
"sig_not_dec"
],
"C116_equality_refuted": [
"classic",
"functional_extensionality_dep",
"sig_forall_dec",
"sig_not_dec"
],
"C116_library": [
"classic",
"functional_extensionality_dep",
"sig_forall_dec",
"sig_not_dec"
],
"C116_units_erased": [
"classic",
"functional_extensionality_dep",
"sig_forall_dec",
"sig_not_dec"
],
"C117_lookup": [],
"C117_lookup_name": [],
"C117_names_kept": [],
"C117_names_refuted": [],
"C117_order_refuted": [],
"C117_undisturbed": [],
"C118_simplified": [
"classic",
"functional_extensionality_dep",
"sig_forall_dec",
"sig_not_dec"
],
"C118_succeeds": [
"classic",
"functional_extensionality_dep",
"sig_forall_dec",
"sig_not_dec"
],
"C119_defaults": [
"classic",
"functional_extensionality_dep",
"sig_forall_dec",
"sig_not_dec"
],
"C119_refuted": [],
"C11_rescale_bad_units": [],
"C11_rescale_iff_convertible": [
"classic",
"functional_extensionality_dep",
"sig_forall_dec",
"sig_not_dec"
],
"C120_creation": [],
"C120_creation_again": [
"classic",
"functional_extensionality_dep",
"sig_forall_dec",
"sig_not_dec"
],
"C120_defaults": [],
"C120_defaults_again": [
"classic",
"functional_extensionality_dep",
"sig_forall_dec",
"sig_not_dec"
],
"C121_interrupted": [
"classic",
"functional_extensionality_dep",
"sig_forall_dec",
"sig_not_dec"
],
"C121_refuted": [],
"C121_undisturbed": [
"classic",
"functional_extensionality_dep",
"sig_forall_dec",
"sig_not_dec"
],
"C122_checked": [
"classic",
"functional_extensionality_dep",
"sig_forall_dec",
"sig_not_dec"
],
"C122_one_run": [
"classic",
"functional_extensionality_dep",
"sig_forall_dec",
"sig_not_dec"
],
"C123_accuracy": [
"classic",
"functional_extensionality_dep",
"sig_forall_dec",
"sig_not_dec"
],
"C123_import": [
"classic",
"functional_extensionality_dep",
"sig_forall_dec",
"sig_not_dec"
],
"C123_units": [
"classic",
"functional_extensionality_dep",
"sig_forall_dec",
"sig_not_dec"
],
"C124_library": [
"classic",
"functional_extensionality_dep",
"sig_forall_dec",
"sig_not_dec"
],
"C124_simplified": [
"classic",
"functional_extensionality_dep",
"sig_forall_dec",
"sig_not_dec"
],
"C125_addition": [
"classic",
"functional_extensionality_dep",
"sig_forall_dec",
"sig_not_dec"
],
"C125_comparisons": [
"classic",
"functional_extensionality_dep",
"sig_forall_dec",
"sig_not_dec"
],
"C125_library": [
"classic",
"functional_extensionality_dep",
"sig_forall_dec",
"sig_not_dec"
],
"C125_products": [
"classic",
"functional_extensionality_dep",
"sig_forall_dec",
"sig_not_dec"
],
"C125_round_trip": [
"classic",
"functional_extensionality_dep",
"sig_forall_dec",
"sig_not_dec"
],
"C125_round_trip_library": [
"classic",
"functional_extensionality_dep",
"sig_forall_dec",
"sig_not_dec"
],
"C126_extremes": [
"classic",
"functional_extensionality_dep",
"sig_forall_dec",
"sig_not_dec"
],
"C126_extremes_units": [
"classic",
"functional_extensionality_dep",
"sig_forall_dec",
"sig_not_dec"
],
"C126_order": [
"classic",
"functional_extensionality_dep",
"sig_forall_dec",
"sig_not_dec"
],
"C126_range": [
"classic",
"functional_extensionality_dep",
"sig_forall_dec",
"sig_not_dec"
],
"C126_units": [
"classic",
"functional_extensionality_dep",
"sig_forall_dec",
"sig_not_dec"
],
"C127_range": [
"classic",
"functional_extensionality_dep",
"sig_forall_dec",
"sig_not_dec"
],
"C127_signs": [
"classic",
"functional_extensionality_dep",
"sig_forall_dec",
"sig_not_dec"
],
"C127_units": [
"classic",
"functional_extensionality_dep",
"sig_forall_dec",
"sig_not_dec"
],
"C128_labels": [
"classic",
"functional_extensionality_dep",
"sig_forall_dec",
"sig_not_dec"
],
"C128_library_kept": [
"classic",
"functional_extensionality_dep",
"sig_forall_dec",
"sig_not_dec"
],
"C128_simplified": [
"classic",
"functional_extensionality_dep",
"sig_forall_dec",
"sig_not_dec"
],
"C129_unit_independent": [
"classic",
"functional_extensionality_dep",
"sig_forall_dec",
"sig_not_dec"
],
"C12_path_independent": [
"classic",
"functional_extensionality_dep",
"sig_forall_dec",
"sig_not_dec"
],
"C12_path_same_outcome": [
"classic",
"functional_extensionality_dep",
"sig_forall_dec",
"sig_not_dec"
],
"C12_roundtrip": [
"classic",
"functional_extensionality_dep",
"sig_forall_dec",
"sig_not_dec"
],
"C130_finishes": [],
"C130_once_refuted": [],
"C130_owned": [],
"C130_transparent": [],
"C13_factor_group": [
"classic",
"functional_extensionality_dep",
"sig_forall_dec",
"sig_not_dec"
],
"C13_factor_products": [
"classic",
"functional_extensionality_dep",
"sig_forall_dec",
"sig_not_dec"
],
"C13_factor_unique": [
"classic",
"functional_extensionality_dep",
"sig_forall_dec",
"sig_not_dec"
],
"C14_same_units_exact": [],
"C15_consistent_exists_unique": [
"classic",
"functional_extensionality_dep",
"sig_forall_dec",
"sig_not_dec"
],
"C15_reference_of_quantity": [
"classic",
"functional_extensionality_dep",
"sig_forall_dec",
"sig_not_dec"
],
"C15_references_correct": [
"classic",
"functional_extensionality_dep",
"sig_forall_dec",
"sig_not_dec"
],
"C15_references_reduced": [],
"C16_new_units_harmless": [],
"C16_new_units_harmless_simplified": [],
"C17_simplified_preserves_value": [
"classic",
"functional_extensionality_dep",
"sig_forall_dec",
"sig_not_dec"
],
"C18_simplified_canonical": [
"classic",
"functional_extensionality_dep",
"sig_forall_dec",
"sig_not_dec"
],
"C18_simplified_idempotent": [
"classic",
"functional_extensionality_dep",
"sig_forall_dec",
"sig_not_dec"
],
"C19_simplified_terminates_iff": [
"classic",
"functional_extensionality_dep",
"sig_forall_dec",
"sig_not_dec"
],
"C19_simplified_terminates_refuted": [],
"C19_which_exception": [
"classic",
"functional_extensionality_dep",
"sig_forall_dec",
"sig_not_dec"
],
"C20_defaults_convertible": [
"classic",
"functional_extensionality_dep",
"sig_forall_dec",
"sig_not_dec"
],
"C20_first_unit": [],
"C20_set_default_atomic": [],
"C20_set_default_iff": [
"classic",
"functional_extensionality_dep",
"sig_forall_dec",
"sig_not_dec"
],
"C20_set_default_others_unchanged": [],
"C20_set_default_units_atomic_refuted": [
"classic",
"functional_extensionality_dep",
"sig_forall_dec",
"sig_not_dec"
],
"C20_set_default_units_reach": [
"classic",
"functional_extensionality_dep",
"sig_forall_dec",
"sig_not_dec"
],
"C20_simplified_after_changes": [
"classic",
"functional_extensionality_dep",
"sig_forall_dec",
"sig_not_dec"
],
"C20_what_is_set": [],
"C21_set_default_type_error_cases": [],
"C21_set_default_type_error_refuted": [
"classic",
"functional_extensionality_dep",
"sig_forall_dec",
"sig_not_dec"
],
"C22_dimensionless_magnitude": [
"classic",
"functional_extensionality_dep",
"sig_forall_dec",
"sig_not_dec"
],
"C23_first_convertible": [
"classic",
"functional_extensionality_dep",
"sig_forall_dec",
"sig_not_dec"
],
"C23_rescale_without_argument": [],
"C23_text_comparison_refuted": [],
"C24_explicit_int_dtype": [],
"C24_integers_not_truncated": [
"classic",
"functional_extensionality_dep",
"sig_forall_dec",
"sig_not_dec"
],
"C25_add": [
"classic",
"functional_extensionality_dep",
"sig_forall_dec",
"sig_not_dec"
],
"C25_add_elements": [
"classic",
"functional_extensionality_dep",
"sig_forall_dec",
"sig_not_dec"
],
"C25_neg_abs": [
"classic",
"functional_extensionality_dep",
"sig_forall_dec",
"sig_not_dec"
],
"C25_pos_refused": [],
"C25_sub": [
"classic",
"functional_extensionality_dep",
"sig_forall_dec",
"sig_not_dec"
],
"C26_add_sub_mod_iff": [
"classic",
"functional_extensionality_dep",
"sig_forall_dec",
"sig_not_dec"
],
"C27_plain_sums": [
"classic",
"functional_extensionality_dep",
"sig_forall_dec",
"sig_not_dec"
],
"C27_plain_sums_iff": [
"classic",
"functional_extensionality_dep",
"sig_forall_dec",
"sig_not_dec"
],
"C28_never_fail": [],
"C28_no_conversion": [],
"C28_products": [
"classic",
"functional_extensionality_dep",
"sig_forall_dec",
"sig_not_dec"
],
"C28_quotients": [
"classic",
"functional_extensionality_dep",
"sig_forall_dec",
"sig_not_dec"
],
"C29_pow_units": [],
"C29_pow_value": [
"classic",
"functional_extensionality_dep",
"sig_forall_dec",
"sig_not_dec"
],
"C29_rpow": [],
"C30_plain_left": [],
"C30_remainder": [
"classic",
"functional_extensionality_dep",
"sig_forall_dec",
"sig_not_dec"
],
"C30_remainder_meaning": [
"classic",
"functional_extensionality_dep",
"sig_forall_dec",
"sig_not_dec"
],
"C31_floor_div_refuted": [
"classic",
"functional_extensionality_dep",
"sig_forall_dec",
"sig_not_dec"
],
"C31_floor_div_same_units": [
"classic",
"functional_extensionality_dep",
"sig_forall_dec",
"sig_not_dec"
],
"C31_floor_div_units": [
"classic",
"functional_extensionality_dep",
"sig_forall_dec",
"sig_not_dec"
],
"C32_comparisons": [
"classic",
"functional_extensionality_dep",
"sig_forall_dec",
"sig_not_dec"
],
"C32_powers": [
"classic",
"functional_extensionality_dep",
"sig_forall_dec",
"sig_not_dec"
],
"C32_products": [
"classic",
"functional_extensionality_dep",
"sig_forall_dec",
"sig_not_dec"
],
"C32_sums": [
"classic",
"functional_extensionality_dep",
"sig_forall_dec",
"sig_not_dec"
],
"C33_order": [
"classic",
"functional_extensionality_dep",
"sig_forall_dec",
"sig_not_dec"
],
"C33_order_iff": [
"classic",
"functional_extensionality_dep",
"sig_forall_dec",
"sig_not_dec"
],
"C34_complementary": [],
"C34_eq_elements": [
"classic",
"functional_extensionality_dep",
"sig_forall_dec",
"sig_not_dec"
],
"C34_eq_iff": [
"classic",
"functional_extensionality_dep",
"sig_forall_dec",
"sig_not_dec"
],
"C34_equivalence": [
"classic",
"functional_extensionality_dep",
"sig_forall_dec",
"sig_not_dec"
],
"C34_incompatible": [
"classic",
"functional_extensionality_dep",
"sig_forall_dec",
"sig_not_dec"
],
"C34_never_raises": [
"classic",
"functional_extensionality_dep",
"sig_forall_dec",
"sig_not_dec"
],
"C35_plain_comparison_refuted": [
"classic",
"functional_extensionality_dep",
"sig_forall_dec",
"sig_not_dec"
],
"C35_plain_ignores_units": [],
"C36_empty_dimensionality_refuted": [],
"C36_plain_data": [],
"C36_quantity_data": [],
"C37_factor_dropped": [],
"C37_unit_strings_refuted": [
"classic",
"functional_extensionality_dep",
"sig_forall_dec",
"sig_not_dec"
],
"C38_angle": [
"classic",
"functional_extensionality_dep",
"sig_forall_dec",
"sig_not_dec"
],
"C38_arctan2": [
"classic",
"functional_extensionality_dep",
"sig_forall_dec",
"sig_not_dec"
],
"C38_products": [
"classic",
"functional_extensionality_dep",
"sig_forall_dec",
"sig_not_dec"
],
"C38_products_defined": [],
"C38_radians_degrees": [
"classic",
"functional_extensionality_dep",
"sig_forall_dec",
"sig_not_dec"
],
"C38_remainders": [
"classic",
"functional_extensionality_dep",
"sig_forall_dec",
"sig_not_dec"
],
"C38_rounding_refuted": [
"classic",
"functional_extensionality_dep",
"sig_forall_dec",
"sig_not_dec"
],
"C38_rounding_values": [
"classic",
"functional_extensionality_dep",
"sig_forall_dec",
"sig_not_dec"
],
"C38_unary": [
"classic",
"functional_extensionality_dep",
"sig_forall_dec",
"sig_not_dec"
],
"C38_unary_unit_independent": [
"classic",
"functional_extensionality_dep",
"sig_forall_dec",
"sig_not_dec"
],
"C38_uniform": [
"classic",
"functional_extensionality_dep",
"sig_forall_dec",
"sig_not_dec"
],
"C38_uniform_plain": [
"classic",
"functional_extensionality_dep",
"sig_forall_dec",
"sig_not_dec"
],
"C39_plain_operand": [],
"C39_two_quantities": [],
"C40_arctrig": [],
"C40_log_exp": [],
"C40_trig": [
"classic",
"functional_extensionality_dep",
"sig_forall_dec",
"sig_not_dec"
],
"C41_first_checked": [],
"C41_second_unchecked_refuted": [
"classic",
"functional_extensionality_dep",
"sig_forall_dec",
"sig_not_dec"
],
"C42_defined": [
"classic",
"functional_extensionality_dep",
"sig_forall_dec",
"sig_not_dec"
],
"C42_unit_independent": [
"classic",
"functional_extensionality_dep",
"sig_forall_dec",
"sig_not_dec"
],
"C42_value": [
"classic",
"functional_extensionality_dep",
"sig_forall_dec",
"sig_not_dec"
],
"C43_accepts_iff": [
"classic",
"functional_extensionality_dep",
"sig_forall_dec",
"sig_not_dec"
],
"C43_hypot": [
"classic",
"functional_extensionality_dep",
"sig_forall_dec",
"sig_not_dec"
],
"C43_identical_units": [
"classic",
"functional_extensionality_dep",
"sig_forall_dec",
"sig_not_dec"
],
"C43_refuted": [
"classic",
"functional_extensionality_dep",
"sig_forall_dec",
"sig_not_dec"
],
"C44_cumsum": [
"classic",
"functional_extensionality_dep",
"sig_forall_dec",
"sig_not_dec"
],
"C44_cumsum_defined": [
"classic",
"functional_extensionality_dep",
"sig_forall_dec",
"sig_not_dec"
],
"C44_defined": [
"classic",
"functional_extensionality_dep",
"sig_forall_dec",
"sig_not_dec"
],
"C44_defined_nonempty": [
"classic",
"functional_extensionality_dep",
"sig_forall_dec",
"sig_not_dec"
],
"C44_reductions": [
"classic",
"functional_extensionality_dep",
"sig_forall_dec",
"sig_not_dec"
],
"C44_rescale": [
"classic",
"functional_extensionality_dep",
"sig_forall_dec",
"sig_not_dec"
],
"C44_shape": [
"classic",
"functional_extensionality_dep",
"sig_forall_dec",
"sig_not_dec"
],
"C44_unit_independent": [
"classic",
"functional_extensionality_dep",
"sig_forall_dec",
"sig_not_dec"
],
"C45_cumprod": [
"classic",
"functional_extensionality_dep",
"sig_forall_dec",
"sig_not_dec"
],
"C45_prod": [
"classic",
"functional_extensionality_dep",
"sig_forall_dec",
"sig_not_dec"
],
"C45_prod_defined": [
"classic",
"functional_extensionality_dep",
"sig_forall_dec",
"sig_not_dec"
],
"C45_var": [
"classic",
"functional_extensionality_dep",
"sig_forall_dec",
"sig_not_dec"
],
"C46_clip": [
"classic",
"functional_extensionality_dep",
"sig_forall_dec",
"sig_not_dec"
],
"C46_clip_defined": [
"classic",
"functional_extensionality_dep",
"sig_forall_dec",
"sig_not_dec"
],
"C46_clip_plain_refused": [],
"C46_clip_scalar": [
"classic",
"functional_extensionality_dep",
"sig_forall_dec",
"sig_not_dec"
],
"C47_getitem": [],
"C47_getitem_basic": [
"classic",
"functional_extensionality_dep",
"sig_forall_dec",
"sig_not_dec"
],
"C47_mask": [],
"C47_put": [
"classic",
"functional_extensionality_dep",
"sig_forall_dec",
"sig_not_dec"
],
"C47_read_back": [
"classic",
"functional_extensionality_dep",
"sig_forall_dec",
"sig_not_dec"
],
"C47_setitem": [
"classic",
"functional_extensionality_dep",
"sig_forall_dec",
"sig_not_dec"
],
"C47_setitem_basic": [
"classic",
"functional_extensionality_dep",
"sig_forall_dec",
"sig_not_dec"
],
"C47_setitem_defined": [
"classic",
"functional_extensionality_dep",
"sig_forall_dec",
"sig_not_dec"
],
"C48_tolist": [],
"C49_searchsorted": [
"classic",
"functional_extensionality_dep",
"sig_forall_dec",
"sig_not_dec"
],
"C49_searchsorted_defined": [
"classic",
"functional_extensionality_dep",
"sig_forall_dec",
"sig_not_dec"
],
"C50_trapz_points": [
"classic",
"functional_extensionality_dep",
"sig_forall_dec",
"sig_not_dec"
],
"C50_trapz_same_shape": [
"classic",
"functional_extensionality_dep",
"sig_forall_dec",
"sig_not_dec"
],
"C50_trapz_spacing": [
"classic",
"functional_extensionality_dep",
"sig_forall_dec",
"sig_not_dec"
],
"C51_fill_refuted": [],
"C51_history": [],
"C51_views": [],
"C51_views_protected": [],
"C52_errors": [
"classic",
"functional_extensionality_dep",
"sig_forall_dec",
"sig_not_dec"
],
"C52_set_units": [
"classic",
"functional_extensionality_dep",
"sig_forall_dec",
"sig_not_dec"
],
"C52_when": [
"classic",
"functional_extensionality_dep",
"sig_forall_dec",
"sig_not_dec"
],
"C53_corrupts_refuted": [
"classic",
"functional_extensionality_dep",
"sig_forall_dec",
"sig_not_dec"
],
"C53_others": [
"classic",
"functional_extensionality_dep",
"sig_forall_dec",
"sig_not_dec"
],
"C54_refusals": [],
"C54_units_immutable": [],
"C55_effects_confined": [],
"C55_history": [],
"C55_pure": [],
"C55_results_fresh": [],
"C56_copy_history": [],
"C56_copy_independent": [],
"C56_deepcopy_shares_refuted": [],
"C57_inplace": [],
"C57_numpy2_refuted": [
"classic",
"functional_extensionality_dep",
"sig_forall_dec",
"sig_not_dec"
],
"C58_created": [],
"C58_lookup": [],
"C58_names_keep_their_value": [],
"C58_register": [],
"C59_arrays_are_ambiguous": [],
"C59_clashes_refused": [
"classic",
"functional_extensionality_dep",
"sig_forall_dec",
"sig_not_dec"
],
"C59_constants": [],
"C59_redefinition_refuted": [],
"C59_same_name_accepted": [
"classic",
"functional_extensionality_dep",
"sig_forall_dec",
"sig_not_dec"
],
"C60_atomic_refuted": [],
"C60_failed_creation": [],
"C60_name_clash": [],
"C61_builtins_refuted": [],
"C61_everything_else_refused": [],
"C61_exponents_without_units": [],
"C61_only_arithmetic": [],
"C61_only_its_names": [],
"C61_reserved_words": [],
"C61_unknown_names": [],
"C61_unknown_names_inside": [],
"C62_compound_unit": [
"classic",
"functional_extensionality_dep",
"sig_forall_dec",
"sig_not_dec"
],
"C62_created_units": [],
"C62_dimensionless": [],
"C62_text_means_the_product": [],
"C63_equal_print_same_refuted": [],
"C63_injective_refuted": [],
"C63_same_text_iff_equal": [],
"C64_attributes": [],
"C64_compound_alone": [],
"C64_compound_refuted": [],
"C64_fractions_refuted": [],
"C64_html": [],
"C64_latex": [],
"C64_plain": [],
"C64_sides": [],
"C64_symbols": [],
"C64_unicode": [],
"C64_unicode_decimals": [],
"C65_add": [
"classic",
"functional_extensionality_dep",
"sig_forall_dec",
"sig_not_dec"
],
"C65_add_defined": [
"classic",
"functional_extensionality_dep",
"sig_forall_dec",
"sig_not_dec"
],
"C65_div": [
"classic",
"functional_extensionality_dep",
"sig_forall_dec",
"sig_not_dec"
],
"C65_inverse": [
"classic",
"functional_extensionality_dep",
"sig_forall_dec",
"sig_not_dec"
],
"C65_mul": [
"classic",
"functional_extensionality_dep",
"sig_forall_dec",
"sig_not_dec"
],
"C65_mul_defined": [
"classic",
"functional_extensionality_dep",
"sig_forall_dec",
"sig_not_dec"
],
"C65_neg": [
"classic",
"functional_extensionality_dep",
"sig_forall_dec",
"sig_not_dec"
],
"C65_pow": [
"classic",
"functional_extensionality_dep",
"sig_forall_dec",
"sig_not_dec"
],
"C65_pow_defined": [
"classic",
"functional_extensionality_dep",
"sig_forall_dec",
"sig_not_dec"
],
"C65_rescale": [
"classic",
"functional_extensionality_dep",
"sig_forall_dec",
"sig_not_dec"
],
"C65_rescale_defined": [
"classic",
"functional_extensionality_dep",
"sig_forall_dec",
"sig_not_dec"
],
"C65_scale": [
"classic",
"functional_extensionality_dep",
"sig_forall_dec",
"sig_not_dec"
],
"C65_scale_defined": [
"classic",
"functional_extensionality_dep",
"sig_forall_dec",
"sig_not_dec"
],
"C65_simplified": [
"classic",
"functional_extensionality_dep",
"sig_forall_dec",
"sig_not_dec"
],
"C65_sqrt": [
"classic",
"functional_extensionality_dep",
"sig_forall_dec",
"sig_not_dec"
],
"C65_sub": [
"classic",
"functional_extensionality_dep",
"sig_forall_dec",
"sig_not_dec"
],
"C65_unscale": [
"classic",
"functional_extensionality_dep",
"sig_forall_dec",
"sig_not_dec"
],
"C66_factors": [
"classic",
"functional_extensionality_dep",
"sig_forall_dec",
"sig_not_dec"
],
"C66_kept": [
"classic",
"functional_extensionality_dep",
"sig_forall_dec",
"sig_not_dec"
],
"C66_powers": [
"classic",
"functional_extensionality_dep",
"sig_forall_dec",
"sig_not_dec"
],
"C66_products": [
"classic",
"functional_extensionality_dep",
"sig_forall_dec",
"sig_not_dec"
],
"C66_refuted": [
"classic",
"functional_extensionality_dep",
"sig_forall_dec",
"sig_not_dec"
],
"C66_sums": [
"classic",
"functional_extensionality_dep",
"sig_forall_dec",
"sig_not_dec"
],
"C67_refuted": [
"sig_forall_dec"
],
"C67_shape_and_units": [
"classic",
"functional_extensionality_dep",
"sig_forall_dec",
"sig_not_dec"
],
"C68_reflected_sub": [
"classic",
"functional_extensionality_dep",
"sig_forall_dec",
"sig_not_dec"
],
"C68_reflected_sub_defined": [
"classic",
"functional_extensionality_dep",
"sig_forall_dec",
"sig_not_dec"
],
"C68_refuted": [
"classic",
"functional_extensionality_dep",
"sig_forall_dec",
"sig_not_dec"
],
"C69_defined": [
"classic",
"functional_extensionality_dep",
"sig_forall_dec",
"sig_not_dec"
],
"C69_mean": [
"classic",
"functional_extensionality_dep",
"sig_forall_dec",
"sig_not_dec"
],
"C69_sum": [
"classic",
"functional_extensionality_dep",
"sig_forall_dec",
"sig_not_dec"
],
"C70_compound_refuted": [],
"C70_half_made_refuted": [],
"C70_name_taken": [],
"C70_other_definition_refuted": [],
"C70_quantity": [
"classic",
"functional_extensionality_dep",
"sig_forall_dec",
"sig_not_dec"
],
"C70_same_process": [
"classic",
"functional_extensionality_dep",
"sig_forall_dec",
"sig_not_dec"
],
"C70_uncertain": [
"classic",
"functional_extensionality_dep",
"sig_forall_dec",
"sig_not_dec"
],
"C70_unit": [
"classic",
"functional_extensionality_dep",
"sig_forall_dec",
"sig_not_dec"
],
"C71_equal_arguments_refuted": [],
"C71_first_result": [],
"C71_once": [],
"C71_owned": [],
"C71_transparent": [],
"C72_default_handler_refuted": [
"classic",
"functional_extensionality_dep",
"sig_forall_dec",
"sig_not_dec"
],
"C72_defined": [
"classic",
"functional_extensionality_dep",
"sig_forall_dec",
"sig_not_dec"
],
"C72_keywords_error": [
"classic",
"functional_extensionality_dep",
"sig_forall_dec",
"sig_not_dec"
],
"C72_keywords_refuted": [
"classic",
"functional_extensionality_dep",
"sig_forall_dec",
"sig_not_dec"
],
"C72_same_outcome": [
"classic",
"functional_extensionality_dep",
"sig_forall_dec",
"sig_not_dec"
],
"C72_units_do_not_matter": [
"classic",
"functional_extensionality_dep",
"sig_forall_dec",
"sig_not_dec"
],
"C72_what_happens": [
"classic",
"functional_extensionality_dep",
"sig_forall_dec",
"sig_not_dec"
],
"C73_defaults": [
"classic",
"functional_extensionality_dep",
"sig_forall_dec",
"sig_not_dec"
],
"C73_defaults_wf": [
"classic",
"functional_extensionality_dep",
"sig_forall_dec",
"sig_not_dec"
],
"C73_exception_ends_import": [],
"C73_import": [
"classic",
"functional_extensionality_dep",
"sig_forall_dec",
"sig_not_dec"
],
"C73_labels_read_back": [
"classic",
"functional_extensionality_dep",
"sig_forall_dec",
"sig_not_dec"
],
"C73_names": [
"classic",
"functional_extensionality_dep",
"sig_forall_dec",
"sig_not_dec"
],
"C73_nothing_else": [
"classic",
"functional_extensionality_dep",
"sig_forall_dec",
"sig_not_dec"
],
"C73_simplifiable": [
"classic",
"functional_extensionality_dep",
"sig_forall_dec",
"sig_not_dec"
],
"C73_simplified_total": [
"classic",
"functional_extensionality_dep",
"sig_forall_dec",
"sig_not_dec"
],
"C73_statampere_refuted": [
"classic",
"functional_extensionality_dep",
"sig_forall_dec",
"sig_not_dec"
],
"C73_std_defaults": [
"classic",
"functional_extensionality_dep",
"sig_forall_dec",
"sig_not_dec"
],
"C73_symbols_refuted": [
"classic",
"functional_extensionality_dep",
"sig_forall_dec",
"sig_not_dec"
],
"C73_unambiguous": [
"classic",
"functional_extensionality_dep",
"sig_forall_dec",
"sig_not_dec"
],
"C74_argmax": [
"classic",
"functional_extensionality_dep",
"sig_forall_dec",
"sig_not_dec"
],
"C74_argmin": [
"classic",
"functional_extensionality_dep",
"sig_forall_dec",
"sig_not_dec"
],
"C74_nonzero": [
"classic",
"functional_extensionality_dep",
"sig_forall_dec",
"sig_not_dec"
],
"C74_unit_independent": [
"classic",
"functional_extensionality_dep",
"sig_forall_dec",
"sig_not_dec"
],
"C75_nanmax_ignores_axis": [
"classic",
"functional_extensionality_dep",
"sig_forall_dec",
"sig_not_dec"
],
"C75_nanmax_refuted": [],
"C76_diff": [
"classic",
"functional_extensionality_dep",
"sig_forall_dec",
"sig_not_dec"
],
"C76_diff_bad_axis": [],
"C77_ediff1d": [
"classic",
"functional_extensionality_dep",
"sig_forall_dec",
"sig_not_dec"
],
"C77_padding": [],
"C77_padding_refuted": [
"classic",
"functional_extensionality_dep",
"sig_forall_dec",
"sig_not_dec"
],
"C77_padding_units_ignored": [],
"C78_gradient_linear_exact": [
"classic",
"functional_extensionality_dep",
"sig_forall_dec",
"sig_not_dec"
],
"C78_gradient_refuted": [],
"C78_gradient_uniform": [
"classic",
"functional_extensionality_dep",
"sig_forall_dec",
"sig_not_dec"
],
"C79_cross": [
"classic",
"functional_extensionality_dep",
"sig_forall_dec",
"sig_not_dec"
],
"C80_default_loses_units": [
"classic",
"functional_extensionality_dep",
"sig_forall_dec",
"sig_not_dec"
],
"C80_unwrap": [
"classic",
"functional_extensionality_dep",
"sig_forall_dec",
"sig_not_dec"
],
"C80_unwrap_refuted": [
"classic",
"functional_extensionality_dep",
"sig_forall_dec",
"sig_not_dec"
],
"C81_errors_change_nothing": [],
"C81_reachable": [],
"C82_views_share": [],
"C83_items_keep_the_type": [],
"C83_no_float_into_int": [],
"C83_setitem": [],
"C83_truncates": [
"classic",
"functional_extensionality_dep",
"sig_forall_dec",
"sig_not_dec"
],
"C84_quantity_of_quantity": [],
"C85_caret": [],
"C85_empty": [],
"C85_middle_dot": [],
"C86_argmax": [
"classic",
"functional_extensionality_dep",
"sig_forall_dec",
"sig_not_dec"
],
"C86_axis_refuted": [
"classic",
"functional_extensionality_dep",
"sig_forall_dec",
"sig_not_dec"
],
"C86_defined": [
"classic",
"functional_extensionality_dep",
"sig_forall_dec",
"sig_not_dec"
],
"C86_max_min": [
"classic",
"functional_extensionality_dep",
"sig_forall_dec",
"sig_not_dec"
],
"C87_in_place": [
"classic",
"functional_extensionality_dep",
"sig_forall_dec",
"sig_not_dec"
],
"C87_not_commutative": [
"classic",
"functional_extensionality_dep",
"sig_forall_dec",
"sig_not_dec"
],
"C87_rejected": [
"classic",
"functional_extensionality_dep",
"sig_forall_dec",
"sig_not_dec"
],
"C87_ufunc": [
"classic",
"functional_extensionality_dep",
"sig_forall_dec",
"sig_not_dec"
],
"C87_unit_on_the_left": [
"classic",
"functional_extensionality_dep",
"sig_forall_dec",
"sig_not_dec"
],
"C88_copy_dimensionless_refuted": [],
"C88_copy_unit": [
"classic",
"functional_extensionality_dep",
"sig_forall_dec",
"sig_not_dec"
],
"C88_deepcopy": [],
"C88_deepcopy_uncertain_refuted": [],
"C88_deepcopy_unit": [],
"C89_pond_refuted": [
"classic",
"functional_extensionality_dep",
"sig_forall_dec",
"sig_not_dec"
],
"C89_rescale": [
"classic",
"functional_extensionality_dep",
"sig_forall_dec",
"sig_not_dec"
],
"C89_standard_sizes": [
"classic",
"functional_extensionality_dep",
"sig_forall_dec",
"sig_not_dec"
],
"C90_accuracy": [
"classic",
"functional_extensionality_dep",
"sig_forall_dec",
"sig_not_dec"
],
"C90_definitions": [
"classic",
"functional_extensionality_dep",
"sig_forall_dec",
"sig_not_dec"
],
"C91_round_trip": [
"classic",
"functional_extensionality_dep",
"sig_forall_dec",
"sig_not_dec"
],
"C92_order": [
"classic",
"functional_extensionality_dep",
"sig_forall_dec",
"sig_not_dec"
],
"C93_import": [
"classic",
"functional_extensionality_dep",
"sig_forall_dec",
"sig_not_dec"
],
"C93_units": [
"classic",
"functional_extensionality_dep",
"sig_forall_dec",
"sig_not_dec"
],
"C94_addition": [
"classic",
"functional_extensionality_dep",
"sig_forall_dec",
"sig_not_dec"
],
"C94_products": [
"classic",
"functional_extensionality_dep",
"sig_forall_dec",
"sig_not_dec"
],
"C94_signs": [
"classic",
"functional_extensionality_dep",
"sig_forall_dec",
"sig_not_dec"
],
"C95_comparisons": [
"classic",
"functional_extensionality_dep",
"sig_forall_dec",
"sig_not_dec"
],
"C96_library": [
"classic",
"functional_extensionality_dep",
"sig_forall_dec",
"sig_not_dec"
],
"C96_simplified": [
"classic",
"functional_extensionality_dep",
"sig_forall_dec",
"sig_not_dec"
],
"C97_builtin_round": [],
"C97_idempotent": [
"classic",
"functional_extensionality_dep",
"sig_forall_dec",
"sig_not_dec"
],
"C97_round": [
"classic",
"functional_extensionality_dep",
"sig_forall_dec",
"sig_not_dec"
],
"C97_round_unique": [
"functional_extensionality_dep",
"sig_forall_dec"
],
"C97_unit_independent_refuted": [
"classic",
"functional_extensionality_dep",
"sig_forall_dec",
"sig_not_dec"
],
"C98_argsort": [
"classic",
"functional_extensionality_dep",
"sig_forall_dec",
"sig_not_dec"
],
"C98_defined": [],
"C98_unit_independent": [
"classic",
"functional_extensionality_dep",
"sig_forall_dec",
"sig_not_dec"
],
"C99_squeeze": [],
"C99_squeeze_axis": [],
"C99_trace": [
"classic",
"functional_extensionality_dep",
"sig_forall_dec",
"sig_not_dec"
],
"C99_trace_defined": [
"classic",
"functional_extensionality_dep",
"sig_forall_dec",
"sig_not_dec"
]
}