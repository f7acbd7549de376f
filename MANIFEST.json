{"claims":[
{"property": "C01", "status": "proved", "theorems": ["C01_int_ctor_exact", "C01_int_ctor_wraps"], "note": ""},
{"property": "C02", "status": "proved", "theorems": ["C02_int_cast_floor", "C02_int_roundtrip"], "note": ""},
{"property": "C03", "status": "partial", "theorems": ["C03_float_cast_refuted", "C03_float_cast_truncates", "C03_float_cast_exact_iff_integer"], "note": "REFUTED as stated (see the _refuted theorem). The floating cast divides in the store type first, so the fraction is lost; proved instead: it truncates toward zero and is exact iff the value is an integer."},
{"property": "C04", "status": "proved", "theorems": ["C04_float_ctor_trunc", "C04_float_ctor_exact", "C04_fp_ctor_trunc"], "note": ""},
{"property": "C05", "status": "partial", "theorems": ["C05_float_ctor_rounding_refuted", "C05_fp_special", "C05_fp_large_cases", "C05_fp_border", "C05_fp_large", "C05_fp_negative_refuted", "C05_fp_negative", "C05_fp_halves", "C05_fp_never_nearest"], "note": "REFUTED as stated (see the _refuted theorem). Non-negative arguments are halved (`*0.5` for `+0.5`), so every result for an argument above one ulp is wrong (C05_fp_never_nearest, C05_fp_halves). For negative arguments the rounding of `val * 2^f - 0.5` in the floating type breaks the claim too (C05_fp_negative_refuted: the double just below half an ulp gives -1 ulp, and a float -(2^23+1) ulp gives -(2^23+2)); proved for all other negative arguments below 2^(p-1) ulp; from there on the arguments are integers, and exactly the odd ones below 2^p ulp are missed (C05_fp_large)."},
{"property": "C06", "status": "partial", "theorems": ["C06_widening_refuted", "C06_widening_exact", "C06_widening_ub_iff", "C06_shift_undefined", "C06_shift_sign", "C06_unsigned"], "note": "REFUTED as stated (see the _refuted theorem). The product is computed in the promoted SOURCE type: exactness proved when it fits there, undefined behaviour exactly otherwise (signed sources); it wraps silently for unsigned sources, and shifts by the width of that type or more are always undefined."},
{"property": "C07", "status": "proved", "theorems": ["C07_narrowing_truncates", "C07_narrowing_rounds"], "note": ""},
{"property": "C08", "status": "proved", "theorems": ["C08_narrow_undoes_widen"], "note": ""},
{"property": "C09", "status": "proved", "theorems": ["C09_add", "C09_sub", "C09_neg"], "note": ""},
{"property": "C10", "status": "partial", "theorems": ["C10_mixed", "C10_mixed_narrow_refuted"], "note": "REFUTED as stated (see the _refuted theorem). Proved for every store of >= 32 bits and every representable integer; fails for 8/16-bit stores and unrepresentable integers (signed overflow in int)."},
{"property": "C11", "status": "proved", "theorems": ["C11_mul_floor"], "note": ""},
{"property": "C12", "status": "proved", "theorems": ["C12_div_trunc", "C12_div_ub_iff_zero"], "note": ""},
{"property": "C13", "status": "partial", "theorems": ["C13_mul_rounding_refuted", "C13_div_rounding_refuted", "C13_mul_rounding_is_doubled", "C13_div_rounding_is_doubled"], "note": "REFUTED as stated (see the _refuted theorem). The rounding branches double the product/quotient (1*1 = 2); proved instead: product and quotient are within one ulp of twice the exact ones."},
{"property": "C14", "status": "partial", "theorems": ["C14_mul_int", "C14_div_int", "C14_div_int_unsigned_refuted"], "note": "REFUTED as stated (see the _refuted theorem). Multiplication proved in full; division proved whenever the usual arithmetic conversions leave a signed type (or both operands are non-negative), refuted for wide unsigned divisors."},
{"property": "C15", "status": "proved", "theorems": ["C15_rem_law", "C15_rem_ub_iff"], "note": ""},
{"property": "C16", "status": "proved", "theorems": ["C16_divide", "C16_divide_int", "C16_divide_by_object", "C16_divide_by_int_object"], "note": ""},
{"property": "C17", "status": "partial", "theorems": ["C17_incdec", "C17_inc_no_integer_bits_refuted"], "note": "REFUTED as stated (see the _refuted theorem). Proved for every instantiation with at least one integer bit; refuted for signed 32/64-bit stores with fraction = width-1."},
{"property": "C18", "status": "proved", "theorems": ["C18_compound"], "note": ""},
{"property": "C19", "status": "proved", "theorems": ["C19_add_laws", "C19_mul_comm_zero", "C19_one_laws", "C19_distributive", "C19_mul_assoc"], "note": ""},
{"property": "C20", "status": "proved", "theorems": ["C20_cmp", "C20_order", "C20_add_monotone", "C20_hash_respects_eq"], "note": ""},
{"property": "C21", "status": "partial", "theorems": ["C21_nearly", "C21_epsilon", "C21_nearly_laws", "C21_unsigned_refuted", "C21_overflow_refuted"], "note": "REFUTED as stated (see the _refuted theorem). Proved for signed comparison types when the difference does not overflow; refuted for unsigned 32/64-bit stores (nearly_eq(x,x) is false) and for overflowing differences."},
{"property": "C22", "status": "partial", "theorems": ["C22_parts_nonnegative", "C22_integral_negative_is_ceil", "C22_parts_refuted", "C22_integral_part_ub_refuted", "C22_fractional_part"], "note": "REFUTED as stated (see the _refuted theorem). Proved for non-negative values; fractional_part is x - trunc(x) for every value; for negative values integral_part is the ceiling of the magnitude (-1.5 -> 2) and is undefined near the minimum."},
{"property": "C23", "status": "proved", "theorems": ["C23_signbit", "C23_raw_integral_part"], "note": ""},
{"property": "C24", "status": "partial", "theorems": ["C24_limits", "C24_is_signed_refuted", "C24_epsilon_refuted", "C24_round_style_refuted", "C24_epsilon_value", "C24_epsilon_right_only", "C24_is_signed_right_only", "C24_round_style_signed_refuted", "C24_round_style_unsigned", "C24_digits", "C24_digits_refuted", "C24_math_limits"], "note": "REFUTED as stated (see the _refuted theorem). Bounds proved; is_signed is always true, epsilon is 5 ulp for fixed32, round_style does not match operator*; digits, digits10 and radix are fixed-point objects and hold the right number only when the type has enough integer bits (C24_digits, C24_digits_refuted). For every type: epsilon() is 5/65536 cut off to the type, right only with 14 fraction bits (13 with rounding); is_signed is right exactly for signed types; round_style is wrong for every signed type."},
{"property": "C25", "status": "proved", "theorems": ["C25_constants32", "C25_constants64", "C25_egamma", "C25_egamma_exists"], "note": ""},
{"property": "C26", "status": "proved", "theorems": ["C26_trunc"], "note": ""},
{"property": "C27", "status": "partial", "theorems": ["C27_floor_bottom_refuted", "C27_floor"], "note": "REFUTED as stated (see the _refuted theorem). Proved for every non-negative value and every value at least MIN + 2^f - 1; below that the code subtracts before dividing and overflows (undefined, though the floor is representable)."},
{"property": "C28", "status": "partial", "theorems": ["C28_ceil_negative_refuted", "C28_ceil_negative", "C28_ceil_nonnegative"], "note": "REFUTED as stated (see the _refuted theorem). Proved for non-negative values; every negative value comes out exactly 1 - 2^-f too large (also proved)."},
{"property": "C29", "status": "proved", "theorems": ["C29_round"], "note": ""},
{"property": "C30", "status": "partial", "theorems": ["C30_modf_bottom_refuted", "C30_modf"], "note": "REFUTED as stated (see the _refuted theorem). Proved with the same limits as floor (C27)."},
{"property": "C31", "status": "partial", "theorems": ["C31_fmod_refuted", "C31_fmod_nonnegative", "C31_fmod_any_sign"], "note": "REFUTED as stated (see the _refuted theorem). Negative dividends can give negative results (refuted as stated). Proved: for a >= 0, b > 0 with representable quotient 0 <= r < b and a = k*b + r; for operands of any sign a = k*b + r exactly, with r/b below 1 and above minus one ulp (not negative when a/b >= 0)."},
{"property": "C32", "status": "proved", "theorems": ["C32_abs", "C32_minmax"], "note": ""},
{"property": "C33", "status": "proved", "theorems": ["C33_sqrt32"], "note": ""},
{"property": "C34", "status": "partial", "theorems": ["C34_sqrt_width_refuted", "C34_sqrt_int32"], "note": "REFUTED as stated (see the _refuted theorem). The 32-bit branch never scales back from 16 fraction bits; proved instead what it computes for every width."},
{"property": "C35", "status": "partial", "theorems": ["C35_sqrt64_refuted", "C35_sqrt64_undefined_from_limit", "C35_sqrt64"], "note": "REFUTED as stated (see the _refuted theorem). Proved for every x below 1963257856 (raw 8432131806905434112); proved undefined for every x at or above it."},
{"property": "C36", "status": "partial", "theorems": ["C36_sqrt_negative", "C36_sqrt32_negative_positive", "C36_sqrt32_negative_refuted"], "note": "REFUTED as stated (see the _refuted theorem). Proved for every store type other than int32_t; for fixed32 the result is never -1: every negative argument gives a value between 255 and 384."},
{"property": "C37", "status": "partial", "theorems": ["C37_cbrt_negative_refuted", "C37_cbrt64_negative_refuted", "C37_cbrt_large_refuted"], "note": "REFUTED as stated (see the _refuted theorem). Defined and accurate for 0 <= x < 94 (fixed32) and 0 <= x <= 3868 (fixed64), see C114; cbrt(-2) divides by zero, cbrt(94) overflows."},
{"property": "C38", "status": "proved", "theorems": ["C38_pow_terminates", "C38_pow_terminates_any_sign", "C38_pow_zero_one", "C38_pow_exact"], "note": ""},
{"property": "C39", "status": "partial", "theorems": ["C39_pow_negative_refuted", "C39_pow_negative_256_refuted", "C39_pow_negative_integer_base"], "note": "REFUTED as stated (see the _refuted theorem). Proved for integer bases with representable power (result = truncated 1/B^n); squares that vanish or wrap to zero divide by zero."},
{"property": "C40", "status": "proved", "theorems": ["C40_log2", "C40_log2_domain"], "note": ""},
{"property": "C41", "status": "proved", "theorems": ["C41_log32", "C41_log64", "C41_log10_32", "C41_log10_64", "C41_log_domain"], "note": ""},
{"property": "C42", "status": "partial", "theorems": ["C42_exp_refuted", "C42_exp_zero", "C42_exp_bound32", "C42_exp_bound64", "C42_exp_integer32"], "note": "REFUTED as stated (see the _refuted theorem). The fifth coefficient encodes 0.50004 instead of 1.00008, so exp(0.5) = 1.397 (true value 1.649). Proved instead: exp(0)=1, positivity, and the exact size of the deviation (0 to -18.5% for x >= 0, 0 to +22.6% for x < 0), accurate at integers."},
{"property": "C43", "status": "partial", "theorems": ["C43_exp_min_refuted", "C43_exp_defined32", "C43_exp_defined_nonneg"], "note": "REFUTED as stated (see the _refuted theorem). Undefined at the least value only, proved for fixed32 at every other value; fixed64 proved for x >= 0 and wherever the result is representable."},
{"property": "C44", "status": "partial", "theorems": ["C44_pow_negative_refuted", "C44_pow_negative", "C44_pow_base_zero", "C44_pow_integral_exponent", "C44_pow_zero_exponent"], "note": "REFUTED as stated (see the _refuted theorem). Zero and positive bases proved; a negative base always ends the program (an exception thrown inside noexcept)."},
{"property": "C45", "status": "partial", "theorems": ["C45_sin_min_refuted", "C45_sin32", "C45_sin64"], "note": "REFUTED as stated (see the _refuted theorem). Proved for every value except the least one of each type, where abs overflows (undefined)."},
{"property": "C46", "status": "partial", "theorems": ["C46_sin_odd_refuted", "C46_sin_odd64_refuted", "C46_sin_odd32", "C46_sin_odd64", "C46_sin_even_tiny32", "C46_sin_even_tiny64"], "note": "REFUTED as stated (see the _refuted theorem). Arguments in (-1.5e-4, 0) return the wrong sign (sin(-x) = sin(x), proved for all of them); exactly odd for every other value."},
{"property": "C47", "status": "partial", "theorems": ["C47_sin_min_refuted", "C47_range32", "C47_range64"], "note": "REFUTED as stated (see the _refuted theorem). Range proved for cos on every value and for sin on every value except the least one (undefined)."},
{"property": "C48", "status": "proved", "theorems": ["C48_cos32", "C48_cos64"], "note": ""},
{"property": "C49", "status": "partial", "theorems": ["C49_tan_wrap_refuted", "C49_tan_min_refuted", "C49_tan32", "C49_tan64"], "note": "REFUTED as stated (see the _refuted theorem). Proved whenever sin/cos fits the type (always when |cos| > 2 ulp); with cos = 2 ulp the quotient can wrap to the opposite sign; the least value is undefined."},
{"property": "C50", "status": "proved", "theorems": ["C50_atan32", "C50_atan64", "C50_atan_odd"], "note": ""},
{"property": "C51", "status": "partial", "theorems": ["C51_atan_defined64", "C51_atan_refuted", "C51_atan_near_one_refuted", "C51_atan_undefined_refuted"], "note": "REFUTED as stated (see the _refuted theorem). The polynomial is only valid on [-1,1] (C50); outside it is wrong or undefined. Defined for |x| <= 23 in fixed64."},
{"property": "C52", "status": "partial", "theorems": ["C52_asin_defined64", "C52_asin_min_refuted", "C52_asin_domain", "C52_asin_defined32", "C52_constants"], "note": "REFUTED as stated (see the _refuted theorem). Domain errors proved for every value except the least one; asin and acos defined on the whole of [-1, 1] for both types (next to 1 and -1 the fixed64 polynomial wraps: those 2^22 arguments are computed inside the proof, Asin64Full.v); constants proved for both."},
{"property": "C53", "status": "partial", "theorems": ["C53_asin_refuted", "C53_asin_near_one_refuted"], "note": "REFUTED as stated (see the _refuted theorem). asin evaluates atan outside [-1,1] for |x| > 0.7071; accurate for |x| <= 0.7 (C115)."},
{"property": "C54", "status": "proved", "theorems": ["C54_degrees32", "C54_degrees64", "C54_radians32", "C54_radians64"], "note": ""},
{"property": "C55", "status": "proved", "theorems": ["C55_hypot_symmetric", "C55_hypot_sign", "C55_hypot32", "C55_truncated_sum", "C55_hypot3_32", "C55_hypot3_sum", "C55_hypot3_zero"], "note": ""},
{"property": "C56", "status": "proved", "theorems": ["C56_print_decimal"], "note": ""},
{"property": "C57", "status": "partial", "theorems": ["C57_print_bases", "C57_no_integer_bit_refuted"], "note": "REFUTED as stated (see the _refuted theorem). Proved for every signed instantiation with at least one integer bit; refuted (undefined behaviour) for fraction = width-1."},
{"property": "C58", "status": "proved", "theorems": ["C58_print_injective"], "note": ""},
{"property": "C59", "status": "partial", "theorems": ["C59_unsigned_refuted", "C59_unsigned_other"], "note": "REFUTED as stated (see the _refuted theorem). The value 2^(w-1) prints with a minus sign and a wrong integer part; exact for every other value."},
{"property": "C60", "status": "partial", "theorems": ["C60_parse_accuracy", "C60_min_refuted"], "note": "REFUTED as stated (see the _refuted theorem). Proved for every in-range decimal whose number of leading fraction zeros keeps the divisor in the intermediate type; the literal of the least value is rejected."},
{"property": "C61", "status": "proved", "theorems": ["C61_parse_short"], "note": ""},
{"property": "C62", "status": "proved", "theorems": ["C62_false_keeps_target", "C62_f32_false_keeps_target", "C62_bad_integer_part", "C62_bad_fraction"], "note": ""},
{"property": "C63", "status": "partial", "theorems": ["C63_accepted_shape", "C63_malformed_refuted"], "note": "REFUTED as stated (see the _refuted theorem). Shape of every accepted string proved; empty strings and text after the digit cut-off are accepted."},
{"property": "C64", "status": "partial", "theorems": ["C64_out_of_range_rejected", "C64_out_of_range_refuted"], "note": "REFUTED as stated (see the _refuted theorem). Proved while the integer part fits the intermediate type; larger literals wrap and are accepted; negative literals of unsigned types are accepted."},
{"property": "C65", "status": "partial", "theorems": ["C65_parse_defined", "C65_parse_ub_refuted"], "note": "REFUTED as stated (see the _refuted theorem). Defined for every string with 10^length*2^f in the intermediate type; longer strings can be undefined."},
{"property": "C66", "status": "partial", "theorems": ["C66_print_parse", "C66_min_refuted"], "note": "REFUTED as stated (see the _refuted theorem). Proved for every value except the least one, which prints but cannot be parsed."},
{"property": "C67", "status": "proved", "theorems": ["C67_f32_agrees", "C67_from_cstring_agrees", "C67_literal_agrees"], "note": ""},
{"property": "C68", "status": "partial", "theorems": ["C68_stream_wrong_refuted", "C68_stream_accuracy"], "note": "REFUTED as stated (see the _refuted theorem). operator>> keeps intermediates in the store type; accuracy proved when the fraction digits fit there, refuted otherwise (0.50000)."},
{"property": "C69", "status": "partial", "theorems": ["C69_sequence_refuted", "C69_garbage_stores_zero"], "note": "REFUTED as stated (see the _refuted theorem). White space is not skipped, malformed input is not reported, reading an integer up to end of file sets failbit."},
{"property": "C70", "status": "proved", "theorems": ["C70_stream_consumes"], "note": ""},
{"property": "C71", "status": "partial", "theorems": ["C71_consumes_to_terminator", "C71_failure", "C71_view_refuted"], "note": "REFUTED as stated (see the _refuted theorem). Proved for text followed by a terminator that does not occur in it; string_view overload reads past the view and compares characters instead of pointers."},
{"property": "C72", "status": "partial", "theorems": ["C72_format_int", "C72_format_int_refuted"], "note": "REFUTED as stated (see the _refuted theorem). Proved for non-negative values and negative integers; negative non-integers print the magnitude rounded up (C94), values next to the minimum are undefined (C95)."},
{"property": "C73", "status": "partial", "theorems": ["C73_format_dec", "C73_format_dec_refuted", "C73_precision_zero_refuted"], "note": "REFUTED as stated (see the _refuted theorem). Proved for non-negative values and negative integers; negative non-integers print |x|+1 (C94); precision 0 leaves a trailing point."},
{"property": "C74", "status": "proved", "theorems": ["C74_format_debug"], "note": ""},
{"property": "C75", "status": "proved", "theorems": ["C75_format_width"], "note": ""},
{"property": "C76", "status": "partial", "theorems": ["C76_parse", "C76_parse_refuted"], "note": "REFUTED as stated (see the _refuted theorem). Proved for every specification except fill ':' (C98) and the empty one before <, >, ^ (C99)."},
{"property": "C77", "status": "partial", "theorems": ["C77_empty_spec", "C77_empty_field", "C77_empty_spec_refuted"], "note": "REFUTED as stated (see the _refuted theorem). Proved for every continuation not starting with <, > or ^ (C99)."},
{"property": "C78", "status": "proved", "theorems": ["C78_unknown_type"], "note": ""},
{"property": "C79", "status": "partial", "theorems": ["C79_draw_undefined_refuted", "C79_not_portable_refuted", "C79_draw_defined"], "note": "REFUTED as stated (see the _refuted theorem). x >>= 8 ^ x shifts by 32 or more for all but a few values: every single draw is undefined. Proved instead: defined and in range on any platform that gives oversized shifts some meaning."},
{"property": "C80", "status": "proved", "theorems": ["C80_discard"], "note": "Under the language rule no draw is defined (C79); the theorem holds for every platform behaviour of oversized shifts."},
{"property": "C81", "status": "proved", "theorems": ["C81_equality"], "note": ""},
{"property": "C82", "status": "partial", "theorems": ["C82_reseed", "C82_reseed_refuted", "C82_seed_sequence"], "note": "REFUTED as stated (see the _refuted theorem). seed(s) leaves m_state; it restarts the sequence only after a multiple of 2^width draws (proved)."},
{"property": "C83", "status": "proved", "theorems": ["C83_in_range"], "note": ""},
{"property": "C84", "status": "partial", "theorems": ["C84_param_ignored", "C84_param_refuted"], "note": "REFUTED as stated (see the _refuted theorem). The parameter is ignored (proved)."},
{"property": "C85", "status": "partial", "theorems": ["C85_default_fixed32", "C85_default_fixed64_refuted", "C85_narrow_refuted"], "note": "REFUTED as stated (see the _refuted theorem). Valid for fixed32; for fixed64 over int the bounds truncate to (0,-1), violating the precondition."},
{"property": "C86", "status": "proved", "theorems": ["C86_sine32", "C86_sine64"], "note": "Bounds: 77 ulp + x/7 ulp (fixed32), 81 ulp + x/6 ulp (fixed64); the x term is the error of the raw 2*pi."},
{"property": "C87", "status": "partial", "theorems": ["C87_negative32", "C87_negative64", "C87_odd_refuted"], "note": "REFUTED as stated: the sign bit is cleared instead of negating, so cordic_sine(-1) is off by more than 0.5; the exact relation cordic_sine(m) = -cordic_sine(m + 2^(bits-1)) is proved for every negative m."},
{"property": "C88", "status": "partial", "theorems": ["C88_multiply", "C88_vs_scalar", "C88_avx512_small", "C88_avx512_refuted"], "note": "REFUTED as stated: the AVX-512 variant shifts the truncated 64-bit product, so 1.0*1.0 = 0 (C88_avx512_refuted); the portable variant is proved for all lanes."},
{"property": "C89", "status": "partial", "theorems": ["C89_two_lanes_value", "C89_reduce", "C89_range_refuted", "C89_avx512_refuted", "C89_two_lanes_refuted"], "note": "REFUTED as stated: results may exceed 2*pi for large angles, the AVX-512 variant does not reduce, and simd_reduce_angle_2 swaps its lanes and leaves whole numbers unreduced; congruence, sign, order and the true bound are proved for the four-lane version."},
{"property": "C90", "status": "partial", "theorems": ["C90_add_defined", "C90_add_value", "C90_of_value", "C90_carry_refuted", "C90_overflow_refuted", "C90_negative_refuted"], "note": "REFUTED as stated: the carry is lost, int64_t overflow in either word is undefined, and negative integers become v + 2^64; the exact behaviour is proved."},
{"property": "C91", "status": "partial", "theorems": ["C91_bbp_values", "C91_pi_refuted"], "note": "REFUTED as stated: for every N the result (when defined) is more than 0.008 away from pi, because each term is divided by 16^(4k) instead of 16^k; for N > 2^28 the loop bound 4*k overflows int. Exact values for every N are proved."},
{"property": "C92", "status": "proved", "theorems": ["C92_eval_value"], "note": ""},
{"property": "C93", "status": "partial", "theorems": ["C93_extrema", "C93_attained_refuted"], "note": "REFUTED as stated when no error exceeds the initial 0 (or none is below 255): the reported input is then initializer(0), which need not be on the grid. In every other case the reported extrema are attained; bounds hold for all grid points."},
{"property": "C94", "status": "proved", "theorems": ["C94_negative_int", "C94_negative_dec"], "note": ""},
{"property": "C95", "status": "proved", "theorems": ["C95_format_near_min_ub"], "note": ""},
{"property": "C96", "status": "partial", "theorems": ["C96_zero_pad_before_sign", "C96_zero_pad_refuted"], "note": "REFUTED as stated (see the _refuted theorem). Proved instead: the zeros follow the alignment and go before the sign."},
{"property": "C97", "status": "proved", "theorems": ["C97_width_overflow_ub", "C97_precision_overflow_ub"], "note": ""},
{"property": "C98", "status": "proved", "theorems": ["C98_colon_fill_lost"], "note": ""},
{"property": "C99", "status": "proved", "theorems": ["C99_brace_swallowed"], "note": ""},
{"property": "C100", "status": "proved", "theorems": ["C100_one_cycle"], "note": ""},
{"property": "C101", "status": "proved", "theorems": ["C101_period"], "note": ""},
{"property": "C102", "status": "partial", "theorems": ["C102_draw_bound", "C102_full_range_refuted", "C102_adapter_min_refuted"], "note": "REFUTED as stated (see the _refuted theorem). Draws are below 2^31 (pcg2014) and 2^56 (pcg2014_64); the minimum advertised by the fixed-point adapter is never drawn (C102_adapter_min_refuted)."},
{"property": "C103", "status": "proved", "theorems": ["C103_adapter", "C103_never_negative", "C103_never_negative64", "C103_fresh"], "note": ""},
{"property": "C104", "status": "proved", "theorems": ["C104_text_identifies"], "note": ""},
{"property": "C105", "status": "proved", "theorems": ["C105_float_undefined", "C105_round_trip", "C105_float", "C105_parts"], "note": ""},
{"property": "C106", "status": "partial", "theorems": ["C106_saturates", "C106_negative_refuted", "C106_positive_refuted"], "note": "REFUTED as stated: in-range negative values and [2^63, 2^64) are converted wrongly; saturation proved elsewhere."},
{"property": "C107", "status": "proved", "theorems": ["C107_integer_part"], "note": ""},
{"property": "C108", "status": "proved", "theorems": ["C108_cosine32", "C108_cosine64"], "note": ""},
{"property": "C109", "status": "partial", "theorems": ["C109_zero_refuted"], "note": "REFUTED: -8 ulp for fixed32 and -3 ulp for fixed64."},
{"property": "C110", "status": "proved", "theorems": ["C110_eval_value_negative"], "note": ""},
{"property": "C111", "status": "proved", "theorems": ["C111_terminates", "C111_never_returns"], "note": ""},
{"property": "C112", "status": "proved", "theorems": ["C112_angles"], "note": ""},
{"property": "C113", "status": "partial", "theorems": ["C113_lut_sine_zero", "C113_lut_sine_refuted"], "note": "REFUTED as stated: the conversion to double drops the fraction of the angle, so the table holds sin(0), sin(1), sin(2), sin(3) and the result is 0 for every 0 <= x < 1 - pi/N."},
{"property": "C114", "status": "proved", "theorems": ["C114_cbrt32", "C114_cbrt64"], "note": ""},
{"property": "C115", "status": "proved", "theorems": ["C115_asin32", "C115_asin64", "C115_acos32", "C115_acos64"], "note": ""},
{"property": "C116", "status": "proved", "theorems": ["C116_sum_exact", "C116_sum_order"], "note": ""},
{"property": "C117", "status": "proved", "theorems": ["C117_dot_accuracy"], "note": ""},
{"property": "C118", "status": "proved", "theorems": ["C118_horner_accuracy"], "note": ""},
{"property": "C119", "status": "proved", "theorems": ["C119_pow_unit", "C119_pow_ge1"], "note": ""},
{"property": "C120", "status": "proved", "theorems": ["C120_pythagoras32", "C120_pythagoras64"], "note": ""},
{"property": "C121", "status": "proved", "theorems": ["C121_tan32", "C121_tan64"], "note": ""},
{"property": "C122", "status": "proved", "theorems": ["C122_log2_pow2", "C122_log2_double"], "note": ""},
{"property": "C123", "status": "proved", "theorems": ["C123_log_monotone"], "note": ""},
{"property": "C124", "status": "proved", "theorems": ["C124_mul_monotone", "C124_div_monotone", "C124_div_antitone"], "note": ""},
{"property": "C125", "status": "proved", "theorems": ["C125_div_then_mul", "C125_mul_then_div"], "note": ""},
{"property": "C126", "status": "proved", "theorems": ["C126_zero_product", "C126_zero_quotient"], "note": ""},
{"property": "C127", "status": "proved", "theorems": ["C127_sqrt_monotone", "C127_sqrt_perfect", "C127_square_of_root", "C127_root_of_square"], "note": ""},
{"property": "C128", "status": "proved", "theorems": ["C128_hypot_monotone", "C128_hypot_bounds"], "note": ""},
{"property": "C129", "status": "proved", "theorems": ["C129_radians_of_degrees32", "C129_degrees_of_radians32", "C129_radians_of_degrees64"], "note": ""},
{"property": "C130", "status": "partial", "theorems": ["C130_expansion_unique", "C130_format_equals_stream", "C130_negative_fraction_refuted"], "note": "REFUTED as stated (see the _refuted theorem). Proved for non-negative values and for negative integers away from the minimum; a negative value with a fraction is printed wrongly by format (C73), so the two texts differ there."},
{"property": "C131", "status": "proved", "theorems": ["C131_int_div", "C131_int_div_ub_iff", "C131_int_rem", "C131_int_rem_ub_iff"], "note": ""},
{"property": "C132", "status": "proved", "theorems": ["C132_compound_objects", "C132_compound_int_objects", "C132_incdec_objects"], "note": ""},
{"property": "C133", "status": "partial", "theorems": ["C133_chained_increment_refuted", "C133_chained_increment"], "note": "REFUTED as stated (see the _refuted theorem). Prefix ++ and -- return a copy, so the outer ++ increments a temporary and x grows by one only (proved for every value); += returns a reference and chains."},
{"property": "C134", "status": "partial", "theorems": ["C134_decimal_integer", "C134_other_spellings_refuted", "C134_octal_is_decimal", "C134_octal_refuted", "C134_exponent_unread", "C134_exponent_refuted", "C134_f32_integer", "C134_f32_float"], "note": "REFUTED as stated (see the _refuted theorem). Only plain decimal spellings are read. Hexadecimal, binary, separated and (up to nine fraction digits) exponent spellings leave the result unspecified because the parse failure is ignored; octal literals are read as decimal; an exponent after a cut-off fraction is silently dropped. The fixed32 literals use the cooked operators and are right."},
{"property": "C135", "status": "proved", "theorems": ["C135_half_turn", "C135_bounded"], "note": ""},
{"property": "C136", "status": "partial", "theorems": ["C136_negative_constant", "C136_negative_refuted", "C136_odd_refuted"], "note": "REFUTED as stated: integral_part gives the magnitude of a negative number, so a negative angle is moved further from zero and the last two table entries are extrapolated; every negative angle down to -2^21 gives std::sin(3), about 0.1411."},
{"property": "C137", "status": "proved", "theorems": ["C137_ctor_defined_iff"], "note": ""},
{"property": "C138", "status": "proved", "theorems": ["C138_cast_nearest", "C138_ties", "C138_roundtrip"], "note": ""},
{"property": "C139", "status": "partial", "theorems": ["C139_class_refuted", "C139_class_truncates"], "note": "REFUTED as stated (see the _refuted theorem). The branch converts the argument to the store type before scaling, so the fraction is lost (1.5 becomes 1); proved that this always happens. MSVC with fixed64."},
{"property": "C140", "status": "proved", "theorems": ["C140_rebuild"], "note": ""},
{"property": "C141", "status": "partial", "theorems": ["C141_wide_ascii", "C141_wide_foreign_refuted", "C141_narrow_foreign_refuted", "C141_wide_latin1"], "note": "REFUTED as stated (see the _refuted theorem). Proved for ASCII text in every stream state. isdigit() is called with the character as it is: undefined for every character above U+00FF in a wide stream and for every byte 128..254 in a narrow one."},
{"property": "C142", "status": "partial", "theorems": ["C142_one_file", "C142_own_key", "C142_says_one", "C142_exact", "C142_get_refuted"], "note": "REFUTED as stated (see the _refuted theorem). The values of all files go into one map, so a later file replaces an earlier file's value for the same key and a key missing in a file is answered from another one. Proved: the exact answer in general (C142_exact), and the claim whenever no other file asked for has the key."},
{"property": "C143", "status": "partial", "theorems": ["C143_repeat", "C143_repeat_refuted"], "note": "REFUTED as stated (see the _refuted theorem). When the file cannot be opened the first answer is \"0\" and the second comes from the other files. Proved for names asked for before and files that can be opened."},
{"property": "C144", "status": "partial", "theorems": ["C144_ask", "C144_leaf1", "C144_other", "C144_once", "C144_intel_refuted", "C144_usable_refuted"], "note": "REFUTED as stated (see the _refuted theorem). The highest leaf is not checked, so an Intel processor without leaf 7 answers with another leaf's bits; and the operating system's support (OSXSAVE, XCR0) is not checked. Proved for processors with leaf 7 or with zeros beyond the highest leaf, and for SSE2, SSE4.2, AVX with leaf 1."},
{"property": "C145", "status": "partial", "theorems": ["C145_no_false_positive", "C145_first_alone", "C145_early_refuted", "C145_lost_refuted"], "note": "REFUTED as stated (see the _refuted theorem). features_detected is set before the flags and nothing is synchronised: a second thread can be told no, and two simultaneous detections can lose a flag for ever. Proved: a yes is always right, and everything is right once one query has finished before the others start. Interleaving semantics; in C++ the race is undefined behaviour anyway."},
{"property": "C146", "status": "partial", "theorems": ["C146_text", "C146_numbers", "C146_fraction_refuted", "C146_literal"], "note": "REFUTED as stated (see the _refuted theorem). The printed text always says from_fixed_num_value<61>, whatever the template argument: for every other number of fraction bits up to 60 each definition is wrong by more than 0.1. Proved for every f: the digits are right for f bits; for f = 61 they are those of numbers.hpp."},
{"property": "C147", "status": "partial", "theorems": ["C147_report", "C147_blind", "C147_report_refuted"], "note": "REFUTED as stated (see the _refuted theorem). The cast of the result to double drops the fraction (see C03), so the errors reported are those of the integer parts: two functions with values inside (-1,1) always get the same report, and sin(0.5) is reported with an error of 0.479. Statistics in exact arithmetic instead of double."},
{"property": "C148", "status": "proved", "theorems": ["C148_pi", "C148_found", "C148_dead"], "note": "Real arithmetic instead of double for value - fraction*pi."},
{"property": "C149", "status": "proved", "theorems": ["C149_tile", "C149_stuck"], "note": "The addition is a parameter; for size 0 the loop never ends (C149_stuck)."},
{"property": "C150", "status": "proved", "theorems": ["C150_points"], "note": "Exact arithmetic instead of double. std::unique is given a relation that is not an equivalence, for which the standard promises nothing; modelled as the implementations behave."},
{"property": "C151", "status": "partial", "theorems": ["C151_sin_tiny_refuted", "C151_sin_across_refuted", "C151_sin32", "C151_sin64", "C151_cos32", "C151_cos64", "C151_tan32", "C151_tan64"], "note": "REFUTED as stated (see the _refuted theorem). Exact for sin away from the arguments below 1e-4 (returned unchanged before the reduction) when both arguments have the same sign; for cos and tan the sign of the shifted argument counts."},
{"property": "C152", "status": "partial", "theorems": ["C152_cos_refuted", "C152_cos32", "C152_cos64"], "note": "REFUTED as stated (see the _refuted theorem). cos shifts positive and negative arguments by different quarter turns: the two values differ by at most 42 ulp (fixed32) or 6.3e-4 (fixed64)."},
{"property": "C153", "status": "partial", "theorems": ["C153_tan_refuted", "C153_tan_tiny_refuted", "C153_tan32", "C153_tan64"], "note": "REFUTED as stated (see the _refuted theorem). tan is odd exactly where cos(-x) = cos(x) (C152) and |x| is at least 1e-4; below that it is even (C153_tan_tiny_refuted)."},
{"property": "C154", "status": "partial", "theorems": ["C154_asin_odd64", "C154_acos64", "C154_minus_one_refuted", "C154_asin_odd32", "C154_acos32"], "note": "REFUTED as stated (see the _refuted theorem). acos(-1) is one ulp too large; otherwise exact everywhere for both types."},
{"property": "C155", "status": "partial", "theorems": ["C155_zero_refuted", "C155_mono32", "C155_mono64"], "note": "REFUTED as stated (see the _refuted theorem). Only across zero: the values one raw unit below, at and above zero are 65537, 65536, 65535. Elsewhere proved."},
{"property": "C156", "status": "proved", "theorems": ["C156_recip32", "C156_recip64"], "note": ""},
{"property": "C157", "status": "partial", "theorems": ["C157_pow_refuted", "C157_pow_ge1_32", "C157_pow_ge1_64", "C157_pow_le1_32", "C157_pow_le1_64"], "note": "REFUTED as stated (see the _refuted theorem). The error of exp (C42) carries over: up to 18.5% low for bases above 1, 22.7% high for bases below 1, bounds proved for all arguments."},
{"property": "C158", "status": "partial", "theorems": ["C158_log_exp_refuted", "C158_log_exp32", "C158_log_exp64", "C158_exp_log32", "C158_exp_log64"], "note": "REFUTED as stated (see the _refuted theorem). log(exp(x)) is up to 0.204 low; exp(log(x)) up to 18.5% low for x >= 1 and 22.7% high for x <= 1."},
{"property": "C159", "status": "proved", "theorems": ["C159_draw_value"], "note": ""},
{"property": "C160", "status": "proved", "theorems": ["C160_constants", "C160_pi_e", "C160_egamma", "C160_phi_limit"], "note": "The bound on the fraction bits is sharp for phi (C160_phi_limit): the literals of numbers.hpp are doubles."},
{"property": "C161", "status": "partial", "theorems": ["C161_zero_shift_refuted"], "note": "REFUTED as stated (see the _refuted theorem). Refuted for machines where an over-long shift gives 0 (vector shifts, 32-bit ARM): both predefined engines then draw only zeros. The shift itself is undefined behaviour in C++ (C79)."},
{"property": "C162", "status": "partial", "theorems": ["C162_add_loop", "C162_sub_loop", "C162_add_benchmarks_refuted", "C162_mul_loop", "C162_div_loop", "C162_mul_div_benchmarks", "C162_divide_file", "C162_divide_no_file_refuted"], "note": "REFUTED as stated (see the _refuted theorem). The additions and subtractions reach signed overflow: fixed32 in iteration 29, fixed64 after 433834849 (add) and 433835311 (minus) iterations. Multiplication and division never do, except that a missing input file makes the division divide by zero."},
{"property": "C163", "status": "partial", "theorems": ["C163_div_loop_zero", "C163_div_benchmarks_refuted"], "note": "REFUTED as stated (see the _refuted theorem). The dividend is 0 from iteration 3 (fixed32) or 20 (fixed64) on, so nearly all iterations time 0 / y. Proved for every divisor of at least 2: 0 after as many iterations as the type has bits."},
{"property": "C164", "status": "proved", "theorems": ["C164_statistics", "C164_overflow", "C164_runs"], "note": "Exact arithmetic in place of double."},
{"property": "C165", "status": "partial", "theorems": ["C165_average", "C165_bounds", "C165_average_refuted"], "note": "REFUTED as stated (see the _refuted theorem). Only when no reference value is zero: such a sample is counted in the divisor, as if its relative error were the average so far. The benchmark adds the sample 0.0 (reference sin 0 = 0) to every range that contains it."},
{"property": "C166", "status": "partial", "theorems": ["C166_loop", "C166_overflow", "C166_no_samples", "C166_blind", "C166_error_refuted", "C166_samples", "C166_range"], "note": "REFUTED as stated (see the _refuted theorem). The samples are taken as stated and the counters overflow at 2^31 iterations, but the cast (double)result truncates (C03): values between -1 and 1 are recorded as 0."},
{"property": "C167", "status": "partial", "theorems": ["C167_sin_refuted", "C167_sin64_refuted", "C167_cos_refuted", "C167_atan_refuted", "C167_atan", "C167_sin", "C167_asin_acos32", "C167_atan_near", "C167_sin_near32", "C167_sin_near64", "C167_cos_near32", "C167_cos_near64"], "note": "REFUTED as stated (see the _refuted theorem). Neighbouring arguments can give results one unit in the wrong order, and fixed32 sin falls where it switches to the polynomial. Proved: sin in order on [0.00015, 2/3] and atan on [-9/16, 9/16] for both types, asin and acos of fixed32 on [-0.49, 0.49]; on the whole intervals atan in order up to 16 ulp, sin and cos up to 33 and 37 ulp (fixed32) or 7.45e-6 (fixed64)."},
{"property": "C168", "status": "proved", "theorems": ["C168_base", "C168_exponent"], "note": ""},
{"property": "C169", "status": "partial", "theorems": ["C169_sqrt64_refuted", "C169_cbrt32_refuted", "C169_cbrt64_refuted", "C169_hypot64_refuted", "C169_sqrt64", "C169_sqrt64_fall", "C169_cbrt64"], "note": "REFUTED as stated (see the _refuted theorem). Where the number of Newton steps changes the fixed64 root falls (by 0.0013 between raw 2097151 and 2097152), and with it hypot; cbrt falls in both types. Proved: arguments at least 5/65536 apart keep their order under sqrt, which never falls by more than 0.0088; arguments up to 3868 and at least 1310736 ulp apart keep their order under cbrt.  For fixed32 sqrt and hypot the order is C127 and C128."},
{"property": "C170", "status": "partial", "theorems": ["C170_hypot64_refuted", "C170_hypot64_undefined", "C170_hypot64", "C170_hypot3_64", "C170_hypot64_order"], "note": "REFUTED as stated (see the _refuted theorem). The squares leave the range long before the length does: hypot(60000, 0) is -1, and every sum of squares between 1963258676 and 2^31 is undefined behaviour inside sqrt.  Proved below that: r^2 within 5/65536 and two (three) ulp of the sum of squares."},
{"property": "C171", "status": "partial", "theorems": ["C171_ceil_order_refuted", "C171_ceil_twice_refuted", "C171_floor_twice_refuted", "C171_mirror_refuted", "C171_trunc_order", "C171_floor_order", "C171_ceil_order", "C171_ceil_order_negative", "C171_round_order", "C171_trunc_twice", "C171_floor_twice", "C171_ceil_twice", "C171_round_twice", "C171_trunc_odd", "C171_round_odd", "C171_mirror"], "note": "REFUTED as stated (see the _refuted theorem). ceil adds 1 - ulp to the ceiling of a negative value (C28): ceil(-0.5) = 0.99998 > ceil(0), ceil(ceil(-1.5)) differs from ceil(-1.5) and floor(1) is not -ceil(-1); floor of a result of floor is undefined at the smallest value (C27). Proved: everything for trunc and round, order and repetition of floor where it is defined twice, everything for ceil of non-negative values, order of ceil among negative values."},
{"property": "C172", "status": "proved", "theorems": ["C172_log2_product", "C172_log2_quotient", "C172_log_product32", "C172_log_product64", "C172_log_quotient32", "C172_log_quotient64", "C172_log10_product", "C172_log10_quotient"], "note": ""},
{"property": "C173", "status": "partial", "theorems": ["C173_sin_asin_refuted", "C173_asin_sin_refuted", "C173_acos_cos_refuted", "C173_tan_atan_refuted", "C173_atan_tan_refuted", "C173_sin_asin32", "C173_sin_asin64", "C173_asin_sin32", "C173_asin_sin64", "C173_cos_acos32", "C173_cos_acos64", "C173_acos_cos32", "C173_acos_cos64", "C173_tan_atan32", "C173_tan_atan64", "C173_atan_tan32", "C173_atan_tan64"], "note": "REFUTED as stated (see the _refuted theorem). asin, acos (beyond 0.7) and atan (beyond 1) leave the functions they approximate (C51, C53), so sin(asin 0.92) is -0.28 and tan(atan 2) is -10.4. Proved: |x| <= 0.7 (sin o asin, cos o acos), |x| <= 0.77 (asin o sin), 0.81 <= x <= 2.33 (acos o cos), |x| <= 1 (tan o atan; fixed64 |x| >= 4.3e-4), |x| <= 0.78 (atan o tan; fixed64 not in (-1.5e-4, 0), where sin has the wrong sign)."},
{"property": "C174", "status": "proved", "theorems": ["C174_sum32", "C174_sum64"], "note": ""},
{"property": "C175", "status": "partial", "theorems": ["C175_negative_refuted", "C175_sine32", "C175_cosine32", "C175_sine64", "C175_cosine64"], "note": "REFUTED as stated (see the _refuted theorem). For negative angles CORDIC reduces the wrong number (C87): at -1 the two differ by 0.59. Proved for all non-negative angles."},
{"property": "C176", "status": "proved", "theorems": ["C176_order", "C176_same", "C176_from_cstring_order", "C176_literal_order"], "note": ""},
{"property": "C177", "status": "partial", "theorems": ["C177_radians_odd_refuted", "C177_degrees32_order", "C177_degrees64_order", "C177_degrees32_odd", "C177_degrees64_odd", "C177_radians_order", "C177_radians_odd"], "note": "REFUTED as stated (see the _refuted theorem). radians rounds its product down, so radians(-x) can be one unit below -radians(x) (at x = 1). Proved: order of both, degrees odd, radians odd up to that unit; degrees for |result| <= 32760 (fixed32) and 2147483647 (fixed64)."},
{"property": "C178", "status": "partial", "theorems": ["C178_wide_refuted", "C178_small_refuted", "C178_unsigned_refuted", "C178_log2", "C178_log", "C178_log10", "C178_domain"], "note": "REFUTED as stated (see the _refuted theorem). log2 shifts 1u by f - 1, which has no value for f > 32, so all three are undefined for every type with more than 32 fraction bits; with a 32-bit store and 28 fraction bits a small argument overflows; an unsigned type wraps below 1. Proved for signed types with a 32-bit store and at most 26 fraction bits or a 64-bit store and at most 32 (log and log10: without rounding)."},
{"property": "C179", "status": "partial", "theorems": ["C179_sin_refuted", "C179_unsigned_cos_refuted", "C179_sin", "C179_cos", "C179_tan"], "note": "REFUTED as stated (see the _refuted theorem). pi * pi overflows next to 28 or more fraction bits of a 32-bit store (60 or more of a 64-bit store): sin 1 is 1.107. For an unsigned type cos of a positive argument wraps: cos 1 is 65535.1. Proved for signed types without rounding, 3 to 27 fraction bits in 32 or 3 to 59 in 64. Just below zero sin has the wrong sign (C46), hence the wider bound there."},
{"property": "C180", "status": "proved", "theorems": ["C180_atan"], "note": "Outside [-1, 1] the polynomial of atan is not an approximation at all (see the atan claims of the predefined types)."},
{"property": "C181", "status": "partial", "theorems": ["C181_exp_half_refuted", "C181_exp_nonneg", "C181_exp_neg"], "note": "REFUTED as stated (see the _refuted theorem). The wrong fifth coefficient (C42) makes e^(1/2) at least 0.25 too small in every one of these instantiations. Proved instead: never above e^x for x >= 0 and at least 0.816 of it less a few units; for x < 0 between e^x less one unit and 1.25 e^x when (12 + 1.4 |x|) units are at most 0.016."},
{"property": "C182", "status": "partial", "theorems": ["C182_wide_refuted", "C182_radians", "C182_degrees"], "note": "REFUTED as stated (see the _refuted theorem). With 24 or more fraction bits in 32 (56 or more in 64) the constant 180 does not fit and wraps: radians(1) is -0.041. Proved for 3 to 23 (3 to 55) fraction bits; one and two fraction bits are not covered."},
{"property": "C183", "status": "partial", "theorems": ["C183_even_refuted", "C183_sqrt"], "note": "REFUTED as stated (see the _refuted theorem). With an even number of fraction bits the largest value overflows in the first residual (undefined behaviour); proved below half of the range for every number of fraction bits and on the whole positive range for odd ones. The 32-bit store takes another branch (C33, C34)."},
{"property": "C184", "status": "partial", "theorems": ["C184_width_refuted", "C184_asin", "C184_acos"], "note": "REFUTED as stated (see the _refuted theorem). A 32-bit store with other than 16 fraction bits gets a wrong root (C34), so asin(1/2) is 221.6 with 20 fraction bits. Proved for 64-bit stores with 13 to 59 fraction bits; 32-bit stores with 16 are C115."},
{"property": "C185", "status": "proved", "theorems": ["C185_radians_order", "C185_radians_odd", "C185_degrees_order", "C185_degrees_odd", "C185_there_and_back"], "note": "Where 180 does not fit the conversion has the wrong sign (C182)."},
{"property": "C186", "status": "proved", "theorems": ["C186_sin_odd", "C186_sin_period", "C186_pythagoras", "C186_atan_odd", "C186_asin_odd"], "note": "Below 0.000151 in absolute value sin takes a shortcut that is not odd (C46), so these arguments are left out. For fixed32 and fixed64 see C46 and C120. asin is limited to |x| <= 0.7 as in C184."},
{"property": "C187", "status": "proved", "theorems": ["C187_log2_order", "C187_log_order", "C187_log10_order", "C187_log2_double", "C187_log2_power"], "note": "With more fraction bits log2 is undefined (C178)."},
{"property": "C188", "status": "proved", "theorems": ["C188_log2_product", "C188_log_product", "C188_log2_quotient", "C188_log_quotient"], "note": "With more fraction bits log2 is undefined (C178). log10 is not repeated here; fixed32 and fixed64 are C172."},
{"property": "C189", "status": "proved", "theorems": ["C189_order", "C189_reciprocal"], "note": "Across zero exp may step down (C155). The condition on the unit leaves out types with fewer than about ten fraction bits."},
{"property": "C190", "status": "proved", "theorems": ["C190_cos_even", "C190_sum"], "note": "The error of one function is 3.1e-4 plus (17 + |x|/6) units; evenness of cos holds within two of them, not bit for bit."},
{"property": "C191", "status": "proved", "theorems": ["C191_sin_asin", "C191_asin_sin", "C191_cos_acos", "C191_acos_cos"], "note": "Outside these intervals the square root in asin loses the accuracy (C184); 32-bit types other than fixed32 take a square root that is wrong for them (C184_width_refuted)."},
{"property": "C192", "status": "proved", "theorems": ["C192_tan", "C192_tan_atan", "C192_atan_tan"], "note": "The fixed part is 1e-5 for x >= 0 and 4.3e-4 otherwise: a tiny negative argument comes back from sin with the wrong sign (C46)."},
{"property": "C193", "status": "proved", "theorems": ["C193_log_exp", "C193_exp_log"], "note": "The gap is the error of the quintic in exp (C42, C158): for x just below an integer log(exp x) really is 0.203 too small."},
{"property": "C194", "status": "proved", "theorems": ["C194_square_of_root", "C194_root_of_square"], "note": "Above half of the range an even number of fraction bits makes the root of the largest value undefined (C183_even_refuted)."},
{"property": "C195", "status": "proved", "theorems": ["C195_cos_period", "C195_tan_period"], "note": "Between the bounds the shifted argument of cos changes sign, and the remainder of a negative argument is another one."}
]}
