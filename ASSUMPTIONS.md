# Print Assumptions of the theorems in MANIFEST.json, C01 to C133

Written by tools/gen_assumptions.py at an earlier commit. Theorems added since are not listed: run the script after a build
for the full list, or read the output of Print Assumptions in the build of the Props files.

## Group 0: no axioms (closed under the global context) (250 theorems)

Theorems: C01_int_ctor_exact, C01_int_ctor_wraps, C02_int_cast_floor, C02_int_roundtrip, C03_float_cast_refuted, C03_float_cast_truncates, C03_float_cast_exact_iff_integer, C04_float_ctor_trunc, C04_float_ctor_exact, C05_float_ctor_rounding_refuted, C05_float_ctor_rounding_negative_partial, C06_widening_refuted, C06_widening_exact_partial, C06_widening_ub_iff, C07_narrowing_truncates, C07_narrowing_rounds, C08_narrow_undoes_widen, C09_add, C09_sub, C09_neg, C10_mixed, C10_mixed_narrow_refuted, C11_mul_floor, C12_div_trunc, C12_div_ub_iff_zero, C13_mul_rounding_refuted, C13_div_rounding_refuted, C13_mul_rounding_is_doubled, C13_div_rounding_is_doubled, C14_mul_int, C14_div_int, C14_div_int_unsigned_refuted, C15_rem_law, C15_rem_ub_iff, C16_divide, C16_divide_int, C16_divide_by_object, C16_divide_by_int_object, C17_incdec, C17_inc_no_integer_bits_refuted, C18_compound, C19_add_laws, C19_mul_comm_zero, C19_one_laws, C19_distributive, C19_mul_assoc, C20_cmp, C20_order, C20_add_monotone, C20_hash_respects_eq, C21_nearly, C21_epsilon, C21_nearly_laws, C21_unsigned_refuted, C21_overflow_refuted, C22_parts_partial, C22_integral_negative_is_ceil, C22_parts_refuted, C22_integral_part_ub_refuted, C22_fractional_part, C23_signbit, C23_raw_integral_part, C24_limits, C24_is_signed_refuted, C24_epsilon_refuted, C24_round_style_refuted, C26_trunc, C27_floor_bottom_refuted, C27_floor, C28_ceil_negative_refuted, C28_ceil_negative, C28_ceil_nonnegative, C29_round, C30_modf_bottom_refuted, C30_modf, C31_fmod_refuted, C31_fmod_nonnegative, C32_abs, C32_minmax, C33_sqrt32, C34_sqrt_width_refuted, C34_sqrt_int32, C35_sqrt64_refuted, C35_sqrt64_undefined_from_limit, C35_sqrt64, C36_sqrt_negative, C36_sqrt32_negative_defined, C36_sqrt32_negative_refuted, C37_cbrt_negative_refuted, C37_cbrt64_negative_refuted, C37_cbrt_large_refuted, C38_pow_terminates, C38_pow_terminates_any_sign, C38_pow_zero_one, C38_pow_exact, C39_pow_negative_refuted, C39_pow_negative_256_refuted, C39_pow_negative_integer_base, C42_exp_zero, C43_exp_min_refuted, C43_exp_defined32, C43_exp_defined_nonneg, C44_pow_negative_refuted, C44_pow_base_zero, C45_sin_min_refuted, C46_sin_odd_refuted, C46_sin_odd32, C46_sin_odd64, C47_sin_min_refuted, C49_tan_wrap_refuted, C49_tan_min_refuted, C51_atan_refuted, C51_atan_undefined_refuted, C52_asin_min_refuted, C52_constants, C55_hypot_symmetric, C55_hypot_sign, C55_hypot32, C55_truncated_sum, C56_print_decimal, C57_print_bases, C57_no_integer_bit_refuted, C58_print_injective, C59_unsigned_refuted, C59_unsigned_other, C60_parse_accuracy, C60_min_refuted, C61_parse_short, C62_false_keeps_target, C62_f32_false_keeps_target, C62_bad_integer_part, C62_bad_fraction, C63_accepted_shape, C63_malformed_refuted, C64_out_of_range_rejected, C64_out_of_range_refuted, C65_parse_defined, C65_parse_ub_refuted, C66_print_parse, C66_min_refuted, C67_f32_agrees, C67_from_cstring_agrees, C67_literal_agrees, C68_stream_wrong_refuted, C68_stream_accuracy, C69_sequence_refuted, C69_garbage_stores_zero, C70_stream_consumes, C71_consumes_to_terminator, C71_failure, C71_view_refuted, C72_format_int, C72_format_int_refuted, C73_format_dec, C73_format_dec_refuted, C73_precision_zero_refuted, C74_format_debug, C75_format_width, C76_parse, C76_parse_refuted, C77_empty_spec, C77_empty_field, C77_empty_spec_refuted, C78_unknown_type, C79_draw_undefined_refuted, C79_not_portable_refuted, C79_draw_defined, C80_discard, C81_equality, C82_reseed, C82_reseed_refuted, C83_in_range, C84_param_ignored, C84_param_refuted, C85_default_fixed32, C85_default_fixed64_refuted, C85_narrow_refuted, C88_multiply, C88_vs_scalar, C88_avx512_small, C88_avx512_refuted, C89_two_lanes_refuted, C90_add_defined, C90_add_value, C90_of_value, C90_carry_refuted, C90_overflow_refuted, C90_negative_refuted, C91_bbp_values, C92_eval_value, C93_extrema, C93_attained_refuted, C94_negative_int, C94_negative_dec, C95_format_near_min_ub, C96_zero_pad_before_sign, C96_zero_pad_refuted, C97_width_overflow_ub, C97_precision_overflow_ub, C98_colon_fill_lost, C99_brace_swallowed, C100_one_cycle, C101_period, C102_draw_bound, C102_full_range_refuted, C103_adapter, C103_never_negative, C103_never_negative64, C104_text_identifies, C105_round_trip, C106_saturates, C106_negative_refuted, C106_positive_refuted, C107_integer_part, C110_eval_value_negative, C111_terminates, C111_never_returns, C114_cbrt32, C114_cbrt64, C116_sum_exact, C116_sum_order, C117_dot_accuracy, C118_horner_accuracy, C119_pow_unit, C119_pow_ge1, C124_mul_monotone, C124_div_monotone, C124_div_antitone, C125_div_then_mul, C125_mul_then_div, C126_zero_product, C126_zero_quotient, C127_sqrt_monotone, C127_sqrt_perfect, C127_square_of_root, C127_root_of_square, C128_hypot_monotone, C128_hypot_bounds, C130_expansion_unique, C130_format_equals_stream, C130_negative_fraction_refuted, C131_int_div, C131_int_div_ub_iff, C131_int_rem, C131_int_rem_ub_iff, C132_compound_objects, C132_compound_int_objects, C132_incdec_objects, C133_chained_increment_refuted, C133_chained_increment

## Group 1: 1 entries (3 theorems)

Axioms and primitives: `ClassicalDedekindReals.sig_forall_dec`

Theorems: C122_log2_pow2, C122_log2_double, C123_log_monotone

## Group 2: 2 entries (8 theorems)

Axioms and primitives: `ClassicalDedekindReals.sig_forall_dec`, `FunctionalExtensionality.functional_extensionality_dep`

Theorems: C46_sin_odd64_refuted, C46_sin_even_tiny32, C46_sin_even_tiny64, C52_asin_domain, C52_asin_defined32, C53_asin_near_one_refuted, C89_avx512_refuted, C109_zero_refuted

## Group 3: 4 entries (2 theorems)

Axioms and primitives: `ClassicalDedekindReals.sig_forall_dec`, `ClassicalDedekindReals.sig_not_dec`, `Classical_Prop.classic`, `FunctionalExtensionality.functional_extensionality_dep`

Theorems: C40_log2_domain, C44_pow_negative

## Group 4: 55 entries (52 theorems)

Axioms and primitives: `ClassicalDedekindReals.sig_forall_dec`, `ClassicalDedekindReals.sig_not_dec`, `Classical_Prop.classic`, `FunctionalExtensionality.functional_extensionality_dep`, `PrimInt63.add`, `PrimInt63.addc`, `PrimInt63.addcarryc`, `PrimInt63.addmuldiv`, `PrimInt63.compare`, `PrimInt63.div`, `PrimInt63.diveucl`, `PrimInt63.diveucl_21`, `PrimInt63.eqb`, `PrimInt63.head0`, `PrimInt63.int`, `PrimInt63.land`, `PrimInt63.leb`, `PrimInt63.lor`, `PrimInt63.lsl`, `PrimInt63.lsr`, `PrimInt63.ltb`, `PrimInt63.lxor`, `PrimInt63.mod`, `PrimInt63.mul`, `PrimInt63.mulc`, `PrimInt63.sub`, `PrimInt63.subc`, `PrimInt63.subcarryc`, `PrimInt63.tail0`, `Uint63.add_spec`, `Uint63.addc_def_spec`, `Uint63.addcarryc_def_spec`, `Uint63.addmuldiv_def_spec`, `Uint63.compare_def_spec`, `Uint63.div_spec`, `Uint63.diveucl_21_spec`, `Uint63.diveucl_def_spec`, `Uint63.eqb_correct`, `Uint63.eqb_refl`, `Uint63.head0_spec`, `Uint63.land_spec`, `Uint63.leb_spec`, `Uint63.lor_spec`, `Uint63.lsl_spec`, `Uint63.lsr_spec`, `Uint63.ltb_spec`, `Uint63.lxor_spec`, `Uint63.mod_spec`, `Uint63.mul_spec`, `Uint63.mulc_spec`, `Uint63.of_to_Z`, `Uint63.sub_spec`, `Uint63.subc_def_spec`, `Uint63.subcarryc_def_spec`, `Uint63.tail0_spec`

Theorems: C25_constants32, C25_constants64, C40_log2, C41_log32, C41_log64, C41_log10_32, C41_log10_64, C41_log_domain, C42_exp_refuted, C42_exp_bound32, C42_exp_bound64, C42_exp_integer32, C44_pow_integral_exponent, C44_pow_zero_exponent, C45_sin32, C45_sin64, C47_range32, C47_range64, C48_cos32, C48_cos64, C49_tan32, C49_tan64, C50_atan32, C50_atan64, C50_atan_odd, C51_atan_near_one_refuted, C53_asin_refuted, C54_degrees32, C54_degrees64, C54_radians32, C54_radians64, C86_sine32, C86_sine64, C87_negative32, C87_negative64, C87_odd_refuted, C89_reduce, C89_range_refuted, C91_pi_refuted, C108_cosine32, C108_cosine64, C112_angles, C113_lut_sine_zero, C113_lut_sine_refuted, C115_asin32, C115_asin64, C115_acos32, C115_acos64, C120_pythagoras32, C120_pythagoras64, C121_tan32, C121_tan64

## Group 5: 93 entries (3 theorems)

Axioms and primitives: `ClassicalDedekindReals.sig_forall_dec`, `ClassicalDedekindReals.sig_not_dec`, `Classical_Prop.classic`, `FloatAxioms.Prim2SF_SF2Prim`, `FloatAxioms.Prim2SF_valid`, `FloatAxioms.SF2Prim_Prim2SF`, `FloatAxioms.abs_spec`, `FloatAxioms.add_spec`, `FloatAxioms.classify_spec`, `FloatAxioms.compare_spec`, `FloatAxioms.div_spec`, `FloatAxioms.eqb_spec`, `FloatAxioms.frshiftexp_spec`, `FloatAxioms.ldshiftexp_spec`, `FloatAxioms.ltb_spec`, `FloatAxioms.mul_spec`, `FloatAxioms.next_down_spec`, `FloatAxioms.next_up_spec`, `FloatAxioms.normfr_mantissa_spec`, `FloatAxioms.of_uint63_spec`, `FloatAxioms.opp_spec`, `FloatAxioms.sqrt_spec`, `FloatAxioms.sub_spec`, `FunctionalExtensionality.functional_extensionality_dep`, `PrimFloat.abs`, `PrimFloat.add`, `PrimFloat.classify`, `PrimFloat.compare`, `PrimFloat.div`, `PrimFloat.eqb`, `PrimFloat.float`, `PrimFloat.frshiftexp`, `PrimFloat.ldshiftexp`, `PrimFloat.ltb`, `PrimFloat.mul`, `PrimFloat.next_down`, `PrimFloat.next_up`, `PrimFloat.normfr_mantissa`, `PrimFloat.of_uint63`, `PrimFloat.opp`, `PrimFloat.sqrt`, `PrimFloat.sub`, `PrimInt63.add`, `PrimInt63.addc`, `PrimInt63.addcarryc`, `PrimInt63.addmuldiv`, `PrimInt63.compare`, `PrimInt63.div`, `PrimInt63.diveucl`, `PrimInt63.diveucl_21`, `PrimInt63.eqb`, `PrimInt63.head0`, `PrimInt63.int`, `PrimInt63.land`, `PrimInt63.leb`, `PrimInt63.lor`, `PrimInt63.lsl`, `PrimInt63.lsr`, `PrimInt63.ltb`, `PrimInt63.lxor`, `PrimInt63.mod`, `PrimInt63.mul`, `PrimInt63.mulc`, `PrimInt63.sub`, `PrimInt63.subc`, `PrimInt63.subcarryc`, `PrimInt63.tail0`, `Uint63.add_spec`, `Uint63.addc_def_spec`, `Uint63.addcarryc_def_spec`, `Uint63.addmuldiv_def_spec`, `Uint63.compare_def_spec`, `Uint63.div_spec`, `Uint63.diveucl_21_spec`, `Uint63.diveucl_def_spec`, `Uint63.eqb_correct`, `Uint63.eqb_refl`, `Uint63.head0_spec`, `Uint63.land_spec`, `Uint63.leb_spec`, `Uint63.lor_spec`, `Uint63.lsl_spec`, `Uint63.lsr_spec`, `Uint63.ltb_spec`, `Uint63.lxor_spec`, `Uint63.mod_spec`, `Uint63.mul_spec`, `Uint63.mulc_spec`, `Uint63.of_to_Z`, `Uint63.sub_spec`, `Uint63.subc_def_spec`, `Uint63.subcarryc_def_spec`, `Uint63.tail0_spec`

Theorems: C129_radians_of_degrees32, C129_degrees_of_radians32, C129_radians_of_degrees64
