# appended to gen_properties.py (same helper p); ids continue from C94
FM = "include/eirin/io/format.hpp"
p("Formatting a negative non-integer", "for x < 0 the formatted magnitude is the integer part rounded up (radix types) and |x| + 1 truncated (g, f) - the observable consequence of integral_part returning ceil|x|.",
  "every negative value that is not next to the minimum, every format state", "no test formats a negative non-integer", [FM+": format_to", "include/eirin/fixed.hpp: integral_part"])
p("Formatting near the minimum is undefined", "for signed store types of at least 32 bits every format type except '?' overflows in integral_part for x < min + 1.",
  "every value in [min, min+1), every format state", "undefined behaviour is not observable by a test", [FM+": format_to", "include/eirin/fixed.hpp: integral_part"])
p("Zero padding of decimals goes between sign and digits", "{:0w} of a negative decimal puts the zeros after the sign, as the standard formatters do.",
  "every value, width and alignment", "widths and values unbounded", [FM+": output_aligned"])
p("Width and precision overflow", "a width or precision above INT_MAX in a format specification overflows int while parsing.",
  "every digit string denoting a number above 2147483647", "unbounded digit strings; undefined behaviour is not observable", [FM+": parse"])
p("Fill ':' is lost", "a specification with fill character ':' is parsed as if no fill were given.",
  "every specification with fill ':'", "specifications x continuations are unbounded", [FM+": parse"])
p("A brace before an alignment character is swallowed", "when the text after an empty replacement field starts with '<', '>' or '^', the closing brace is taken as the fill character and the specification continues in the text.",
  "every continuation", "unbounded continuations", [FM+": parse"])
RN = "include/eirin/random.hpp"
p("All seeds run through one cycle", "for an odd multiplier every seed gives the same cyclic sequence: the sequence of seed s2 is the sequence of seed s1 after discarding some k draws.",
  "every pair of seeds, every engine with an odd multiplier, every platform behaviour of oversized shifts", "pairs of 64-bit seeds and unbounded sequences", [RN+": generate", RN+": discard"])
p("The state repeats after 2^width draws", "after 2^width draws the engine is back in the state it started from.",
  "every engine, seed and state", "2^32 or 2^64 draws", [RN+": generate"])
p("Draws cover the advertised range", "every value in [min(), max()] can be drawn, as a uniform random bit generator must be able to.",
  "every state", "a test cannot show that a value never occurs", [RN+": generate", RN+": max"])
p("The fixed-point engine adapter returns the engine's bits", "a draw of fixed_random_engine_adapter is the engine's draw converted to the store type; with pcg2014 and pcg2014_64 it is never negative.",
  "every engine, state and fixed-point type", "all states", [RN+": fixed_random_engine_adapter::operator()"])
p("The streamed form identifies the engine", "two engines with the same operator<< text compare equal.",
  "all pairs of engines", "all pairs", [RN+": operator<<"])
XI = "include/eirin/ext/builtin_ints.hpp"
p("ext::int128 round trip", "converting any int64_t to ext::int128 and back gives the same value.",
  "every int64_t", "2^64 values", [XI+": int128(T)", XI+": operator int64_t"])
p("ext::int128 to int64_t saturates", "conversion to int64_t clamps the 128-bit value to the int64_t range.",
  "every 128-bit value", "2^128 values", [XI+": operator int64_t"])
p("SIMD integer part truncates", "_mm256_fpint_epi64 removes the fraction toward zero in every lane, including the minimum.",
  "every lane value", "2^64 values", ["include/eirin/ext/simd_math.hpp: _mm256_fpint_epi64"])
CO = "include/eirin/ext/cordic.hpp"
p("CORDIC cosine is accurate for non-negative angles", "the cosine branch of detail::cordic is within a stated bound of cos(x) for every x >= 0.",
  "every non-negative fixed32/fixed64 value", "2^31 / 2^63 inputs; the branch has no public function and no test", [CO+": cordic"])
p("CORDIC sine of zero is zero", "cordic_sine(0) = 0.", "both fixed-point types", "the tests compare with a tolerance", [CO+": cordic"])
UT = "include/eirin/detail/util.hpp"
p("eval_value of a negative constant", "for v < 0 eval_value(v, f) is trunc(v)*2^f: the fraction is dropped.",
  "every negative double in range and every fraction", "2^62 inputs; only positive constants are ever printed", [UT+": eval_value"])
p("measure_esp terminates exactly for a positive step and an end it can step past", "with step > 0, stop + step representable and all errors representable the measurement returns; with step <= 0 or stop = max it never returns normally.",
  "every function pair and grid", "non-termination and overflow cannot be observed by a finite test", ["include/eirin/detail/perf.hpp: measure_esp"])
p("angels_lut holds the multiples of pi/N", "entry i of angels_lut<N>() is at most i*pi/N and misses it by less than (i+1) ulp.",
  "every N below 2^31 and every index", "the table size is a template parameter", [UT+": angels_lut"])
p("Table sine is accurate", "lut_calc_sin<512>(x) is within 0.01 of sin(x).",
  "every fixed64 value and every conforming std::sin", "2^64 inputs; the function is never called by the tests", [UT+": lut_calc_sin", UT+": __sin"])
p("cbrt of moderate non-negative values is accurate", "for 0 <= x < 94 fixed32 cbrt is defined and either r^3 is within 15 ulp of x or r is within one ulp of the real cube root; for 0 <= x <= 3868 fixed64 cbrt is defined and r^3 is within 655376 ulp (0.00016) of x.",
  "every fixed32 value in [0,94) and every fixed64 value in [0,3868]", "6 million / 2^44 inputs, and the iteration may run to its limit without meeting the stopping test", ["include/eirin/math.hpp: cbrt"])
p("asin and acos are accurate up to 0.7", "for |x| <= 0.7 asin(x) and acos(x) are defined and within 5e-4 (asin, fixed32), 3.5e-4 (asin, fixed64), 5.2e-4 (acos, fixed32), 3.6e-4 (acos, fixed64) of the true value.",
  "every fixed32 and fixed64 value of [-0.7, 0.7]", "6e9 fixed64 inputs; the test uses a handful", ["include/eirin/math.hpp: asin", "include/eirin/math.hpp: acos"])
FX = "include/eirin/fixed.hpp"
p("Sums are exact and do not depend on the order", "accumulating any list with operator+= gives the exact rational sum whenever every partial sum is representable, and two orders of the same list that are both defined give the same value.",
  "every store type, fraction, list and start value", "the claim is by induction on a list of any length", [FX+": operator+="])
p("Dot products lose at most one ulp per product", "accumulating the products of any list of pairs gives a value not above the exact dot product and below it by at most one ulp per pair, whenever the magnitudes sum within range.",
  "every non-rounding store type, fraction and list of pairs", "lists of any length", [FX+": operator*", FX+": operator+="])
p("Horner's rule loses at most one ulp per step on [-1,1]", "evaluating a polynomial of degree n by Horner's rule at |x| <= 1 is within n ulp of the exact value, whenever the magnitudes of the coefficients sum within range.",
  "every non-rounding store type, fraction, degree, coefficient list and |x| <= 1", "degrees and coefficients are unbounded", [FX+": operator*", FX+": operator+"])
p("Integer powers are accurate", "pow(b, n) is within n ulp of b^n for |b| <= 1 and n >= 0, and for b >= 1 with b^n in range is not above b^n and below it by at most n*b^(n-1) ulp.",
  "every non-rounding store type and fraction, every base and exponent of any integer type", "a test samples a few bases and exponents", ["include/eirin/math.hpp: pow(fixed_num, Integer)"])
MA = "include/eirin/math.hpp"
p("sin^2 + cos^2 is 1", "computing sin(x)*sin(x) + cos(x)*cos(x) with the operators is defined and within (56 + 0.42|x|) ulp of 1 for fixed32, and within 9.1e-4 + 0.022|x| ulp for fixed64.",
  "every fixed32 and fixed64 value except the least", "2^32 / 2^64 inputs", [MA+": sin", MA+": cos"])
p("tan is accurate away from its poles", "where |cos x| is at least (144 + 1.12|x|) ulp (fixed32) or 1.6e-4 + 0.06|x| ulp (fixed64, x not in (-1.5e-4,0)), tan(x) is defined, does not overflow and is within (30 + 0.23|x|)/cos^2 x + 1 ulp (fixed32) or (6.1e-6 + 0.0121|x| ulp)/cos^2 x (fixed64) of the true tangent.",
  "every value except the least, meeting the stated distance from the poles", "2^32 / 2^64 inputs", [MA+": tan"])
p("log2 is exact at powers of two and respects doubling", "log2(2^k) = k exactly for every representable 2^k, and log2(2x) = log2(x) + 1 exactly whenever 2x is representable.",
  "every positive fixed32 and fixed64 value", "2^31 / 2^63 inputs", [MA+": log2"])
p("Logarithms are monotone", "for 0 < x <= y, log2(x) <= log2(y), log(x) <= log(y) and log10(x) <= log10(y).",
  "all pairs of positive fixed32 or fixed64 values", "2^62 / 2^126 pairs", [MA+": log2", MA+": log", MA+": log10"])
p("Multiplication and division respect the order", "for x <= y and z >= 0, x*z <= y*z; for z <= 0 the reverse; x/z <= y/z for z > 0 and the reverse for z < 0; for 0 <= x and 0 < y <= z, 0 <= x/z <= x/y, whenever the exact results are in range.",
  "every non-rounding store type and fraction, every triple of values with in-range results", "triples of values of every width", [FX+": operator*", FX+": operator/"])
p("Dividing and multiplying by the same number recovers the value", "(x/y)*y is within (|y|+1) ulp of x, and (x*y)/y within (1/|y|+1) ulp of x, whenever the intermediate results are in range.",
  "every non-rounding store type and fraction, every pair with in-range results", "pairs of values of every width", [FX+": operator*", FX+": operator/"])
p("When a product or quotient vanishes", "x*y is zero exactly when 0 <= xy < 1 ulp and negative exactly when xy < 0; x/y is zero exactly when |x/y| < 1 ulp.",
  "every non-rounding store type and fraction, every pair with an in-range result", "pairs of values of every width", [FX+": operator*", FX+": operator/"])
p("Square roots invert squares", "for fixed32: sqrt is monotone; sqrt(r*r) = r when r*r is exact; sqrt(x)*sqrt(x) is at most x and below it by at most 2 sqrt(x) ulp + 1 ulp + 1 ulp^2; sqrt(x*x) is at most |x| and its successor's square exceeds x^2 - 1 ulp.",
  "every non-negative fixed32 value (and every value whose square is in range)", "2^31 inputs, 2^62 pairs", [MA+": sqrt", FX+": operator*"])
p("hypot is monotone and obeys the triangle inequality", "for fixed32: hypot does not decrease when a leg grows in magnitude; its square is at most x^2+y^2, that of its successor exceeds x^2+y^2-2 ulp, and it is at most |x|+|y|.",
  "all fixed32 pairs with x^2+y^2 in range", "2^64 pairs", [MA+": hypot"])
p("Angle conversions invert each other", "radians(degrees(x)) is within 8.15 ulp + 4.21e-6|x| of x (fixed32; 8.01e-11|x| for fixed64), degrees(radians(x)) within 466.5 ulp + 4.21e-6|x|.",
  "every value whose conversion is in range", "2^32 / 2^64 inputs", [MA+": degrees", MA+": radians"])
p("std::format at full precision prints what operator<< prints", "with type g, no width and a precision of at least the number of fraction bits, format gives the same text as the stream inserter in decimal.",
  "every value of every signed store type with room for decimal digits", "the two printers share no code; 2^32 / 2^64 inputs", ["include/eirin/io/format.hpp: format_to", FX+": operator<<"])
p("An integer divided by, or reduced modulo, a fixed-point value", "n/x is the exact quotient truncated toward zero (modulo the store width), undefined exactly when x is zero; n%x is exact: n = k*x + n%x for an integer k, |n%x| < |x|, with the sign of n.",
  "every store type and fraction, every value x and every representable integer n of any integral type", "pairs of values of every width; the operators with the integer on the left are not tested", [FX+": free operator/(integral, fixed_num)", FX+": free operator%(integral, fixed_num)"])
p("Compound assignments are alias-safe and touch only their object", "after a op= b the object a holds a op b computed from the values before, also when a and b are the same object, and no other object changed; if the operation is undefined or throws nothing was written; ++ and -- likewise.",
  "every store type, every memory and every pair of references", "aliased calls and the state after a failure are not tested", [FX+": operator+=", FX+": operator-=", FX+": operator*=", FX+": operator/=", FX+": operator%=", FX+": operator++", FX+": operator--"])
p("Prefix increments chain", "++(++x) leaves x two larger, as (x += 1) += 1 does.",
  "every store type and every value with x+2 representable", "the tests only increment once per expression", [FX+": operator++", FX+": operator+=(std::integral)"])
p("A numeric fixed64 literal means its C++ value", "42_f64, 0x1F_f64, 0b101_f64, 017_f64, 1'000_f64 and 1.5e3_f64 have the value of the same literal without the suffix.",
  "every spelling of an integer literal up to 38 characters; decimal floating literals with an exponent", "there are unboundedly many spellings; the tests only use plain decimals", [FX+": literals::operator\"\"_f64", FX+": literals::operator\"\"_f32", FX+": detail::parse"])
p("Table sine changes sign after half a turn", "lut_calc_sin<N>(x + pi) = -lut_calc_sin<N>(x) exactly, pi being the stored constant; the result exists and is at most 1.01 in magnitude.",
  "every fixed64 angle x >= 0 with x + pi representable, every table size from 5 to 4096, every conforming std::sin", "2^63 inputs; the function is never called by the tests", ["include/eirin/detail/util.hpp: lut_calc_sin"])
p("Table sine is odd", "lut_calc_sin<512>(-x) = -lut_calc_sin<512>(x), and is within 0.01 of sin(-x).",
  "every fixed64 angle x > 0", "2^63 inputs; the function is never called by the tests", ["include/eirin/detail/util.hpp: lut_calc_sin", FX+": integral_part"])

p("Construction from a floating value is defined exactly for finite values that fit", "with rounding=false, fixed(v) is defined exactly when v is finite and strictly between (smallest value - 1 ulp) and (largest value + 1 ulp); for every other argument, NaN and the infinities included, the behaviour is undefined.", "every precision of the floating type, every configuration with rounding=false, every finite value; NaN", "doubles are too many, and an out-of-range conversion returns some value on the tested machine", [FX+": fixed_num(T) for floating T"])
p("The cast to a floating type rounds once", "static_cast<T>(x) is a number of T closest to the integer it converts (the truncated value of x), exactly that integer when T has enough bits, and whole values survive the round trip through T.", "every raw value, every configuration, every precision", "ties and the 24- and 53-bit limits are a thin set among 2^64 values", [FX+": operator T for floating T"])
p("Construction from a floating value does not depend on the intermediate type", "with a class as intermediate type (std::_Signed128 of MSVC) fixed(v) is the value it is with a built-in intermediate type: v*2^f truncated toward zero.", "every finite argument whose truncated value is representable", "the branch is compiled on one platform only", [FX+": fixed_num(T) for floating T, is_class_v branch", "include/eirin/detail/int128.hpp: int128_t"])

p("A distribution rebuilt from its parameters is the same distribution", "constructing a distribution from the parameters of another one (by constructor or by param()) gives an equal distribution that draws the same values from the same generator.", "every store type, bounds, sampling function and generator state", "quantifies over generators", ["include/eirin/detail/distribution.hpp: param_type constructors", "include/eirin/detail/distribution.hpp: param"])
p("A wide stream is read like a narrow one", "operator>> on std::wistream gives the value, the consumed characters and the state bits it gives for the same text on std::istream, and a character that is not part of the number ends it.", "every text, every state of the stream, every store type", "the tests read narrow ASCII streams only", [FX+": operator>>(basic_istream<CharT>)"])

p("get_input returns the value the named file gives the key", "after any earlier requests get_input(input, key) is the text after '=' in the last line of that file that starts with key=, and \"0\" if it has no such line or cannot be opened.", "every file system, every history of requests, every key", "the benchmark asks for a handful of keys with distinct names", ["benchmark/bench.cpp: get_input"])
p("Asking get_input again gives the same answer", "two requests for the same file and key in a row give the same answer, whatever happened before and whatever happens to the file in between.", "every file system, every history of requests, every key", "needs a history of requests over several files", ["benchmark/bench.cpp: get_input"])
p("Feature queries report the processor's features", "platform_support::supports_* answers yes exactly when the processor has the feature, however many queries were made before.", "every processor (contents of the CPUID leaves), every sequence of queries", "a test machine has one processor", ["include/eirin/ext/simd_math.hpp: platform_support"])
p("Feature queries may first be made by several threads at once", "the answers are right when several threads make their first query at the same time.", "any number of threads, every interleaving of the accesses, every processor", "the window is a few instructions wide", ["include/eirin/ext/simd_math.hpp: platform_support::detect_features"])

BA = "benchmark/bench_accuracy.cpp"
p("print_constants prints right definitions", "print_constants<f>() prints, for each of the eleven constants, a function definition whose value is the constant to f fraction bits and the precision of double.", "every number of fraction bits from 0 to 61, long double with 53, 64 or 113 bits", "the output is text that is pasted by hand; only one instance was ever used", ["include/eirin/detail/util.hpp: print_constants", "include/eirin/numbers.hpp"])
p("The accuracy tester reports the errors of the function under test", "the maximum and average absolute and relative errors reported for a sub-interval are those of the values of the function at the test points against the reference values.", "every function under test, every non-empty list of test points and reference values", "the program is itself the test; its reports are read, not checked", [BA+": SinAccuracyTester::test_subinterval", FX+": operator T for floating T"])
p("Labels of bounds are reduced multiples of pi", "a bound within 1e-10 of n*pi/d, 1 <= n,d <= 6, is labelled with that fraction in lowest terms, and no other bound is labelled with a fraction; the loop over multiples of 2 pi never finds anything.", "every real value", "a continuum of values", [BA+": generate_label"])
p("The sub-intervals tile the whole range", "for a positive size the loop ends, and the sub-intervals follow one another without a gap from the start to within 1e-10 of the end.", "every start, end and positive size, every rounding of the addition that makes at least half the step", "loops of any length", [BA+": SinAccuracyTester::run_tests"])
p("Every sub-interval is tested at its key points", "the test points are the random points followed by points at least 1e-10 apart, inside the sub-interval up to 1e-10, and within 1e-10 of both ends, the quarter points and each special angle of the sub-interval.", "every sub-interval, every list of random points and of special angles", "lists of any length; merging neighbours is not transitive", [BA+": generate_test_points"])

p("sin, cos and tan repeat after a full turn", "sin(x + k*2pi) = sin(x), cos(x + k*2pi) = cos(x) and tan(x + k*2pi) = tan(x), 2pi being the stored constant.", "every argument and every whole number k of turns with x + k*2pi representable", "pairs of arguments; the tests stay within one turn", [MA+": sin", MA+": cos", MA+": tan"])
p("cos is even", "cos(-x) = cos(x).", "every fixed32 and fixed64 value but the smallest", "2^32 / 2^64 inputs; the two signs take different branches", [MA+": cos"])
p("tan is odd", "tan(-x) = -tan(x).", "every fixed32 and fixed64 value but the smallest", "2^32 / 2^64 inputs; the two signs take different branches", [MA+": tan"])
p("asin is odd and acos its complement", "asin(-x) = -asin(x) and acos(x) = pi/2 - asin(x), acos(-x) = pi/2 + asin(x), exactly, pi/2 being the stored constant.", "every fixed32 and fixed64 argument in [-1, 1]", "2^17 / 2^33 inputs", [MA+": asin", MA+": acos"])
p("exp never decreases", "x <= y implies exp(x) <= exp(y).", "all pairs of values with exp|x| and exp|y| in range", "2^64 pairs", [MA+": exp"])
p("exp(-x) is the reciprocal of exp(x)", "exp(-x) is 1/exp(x), for the value exp(x) computed, cut off to a multiple of the ulp.", "every fixed32 and fixed64 value x > 0 with exp(x) in range", "every input", [MA+": exp"])
p("pow with a fixed-point exponent approximates the real power", "pow(b, e) is close to b^e.", "every base b > 0 with 1/b representable and exponent e >= 0 with b^e representable", "2^64 / 2^128 pairs", [MA+": pow(fixed_num, fixed_num)", MA+": exp", MA+": log"])
p("exp and log undo each other", "log(exp(x)) is close to x and exp(log(x)) is close to x.", "every x >= 0 with exp(x) in range; every x > 0 with 1/x in range", "2^32 / 2^64 inputs", [MA+": exp", MA+": log"])
p("A draw is a fixed mix of the state", "Engine draw number k is one fixed output function (shift, add, xor, multiply) of state * multiplier + seed, and the state advances by one.", "every engine parameter set with at least 32 bits and every state, on a machine that takes shift counts modulo the width", "2^64 / 2^128 states", [RN+": permuted_congruential_engine::generate, mix_first, _xor, mix_second"])
p("The mathematical constants of every type", "pi, e, logarithms, square roots, phi and Euler's constant are the real number cut off (or, with rounding, rounded) to the type's last bit.", "every fixed_num instantiation with at most 48 fraction bits (59 for pi and e, 32 for Euler's constant) that has room for the number", "one constant set per instantiation; only two are predefined", ["include/eirin/fixed.hpp: fixed_num::pi, e, pi_2, pi_4, double_pi", "include/eirin/numbers.hpp"])
p("Draws vary on every machine", "The numbers drawn by the predefined engines vary, whatever the machine makes of a shift by the width or more.", "every state, every machine", "tests run on one machine", [RN+": permuted_congruential_engine::mix_first, mix_second"])

BM = "benchmark/benchmark.cpp"; BP = "benchmark/bench_perf.cpp"
p("The arithmetic benchmarks have defined behaviour", "the benchmark loops fp1 += fp2, fp1 -= fp2, fp1 *= fp2 and fp1 /= fp2 have defined behaviour for any number of iterations.", "every number of iterations; for the loop itself every operand and every configuration", "the benchmark library picks the number of iterations; an overflow goes unnoticed", [BM+": f32_divide, f32_multiple, f32_add, f32_minus, f64_divide, f64_multiple, f64_add, f64_minus", FX+": operator+=, -=, *=, /="])
p("The division benchmark keeps dividing a nonzero number", "in every iteration of the division benchmarks the dividend is different from 0.", "every number of iterations; for the loop itself every operand and every configuration", "a benchmark reports a time, not a value", [BM+": f32_divide, f64_divide", FX+": operator/="])
p("The running statistics are the maximum and the mean", "AccuracyStats holds the number of samples, the largest and the mean absolute error and the largest relative error of all samples given to update, over all runs, as long as there are fewer than 2^31; the next update is undefined.", "every sequence of computed and reference values (in exact arithmetic)", "sequences of any length", [BP+": AccuracyStats::update"])
p("The average relative error is the mean of the relative errors", "avg_rel_error is the mean of the relative errors of the samples whose reference value is not zero.", "every sequence of computed and reference values (in exact arithmetic)", "sequences of any length; the printed figure is plausible", [BP+": AccuracyStats::update"])
p("The accuracy loop measures the function under test", "each iteration takes the next sample, cyclically and without leaving the vector, and gives update the value of the function there and the reference value.", "every function under test, every non-empty list of samples, every number of iterations", "the program is itself the test; its output is read, not checked", [BP+": BM_SinWithAccuracy", FX+": operator T for floating T"])

p("sin, cos, atan, asin and acos keep the order of their arguments", "sin never decreases on [0, pi/2], cos never increases on [0, pi], atan and asin never decrease and acos never increases on [-1, 1].", "every pair of fixed32 or fixed64 arguments", "2^34 to 2^68 pairs; a decrease by one unit is invisible in the printed value", [MA+": sin", MA+": cos", MA+": atan", MA+": asin", MA+": acos"])
p("Integer powers keep the order of bases and exponents", "for 0 <= a <= b, pow(a, n) <= pow(b, n); for n <= k, pow(b, n) <= pow(b, k) when b >= 1 and pow(b, k) <= pow(b, n) when 0 <= b <= 1.", "every fixed_num instantiation without rounding, every integer exponent type, all values whose largest power is in range", "every pair of bases and exponents; each bit pattern of the exponent rounds in other places", [MA+": pow(fixed_num, integral)"])
p("sqrt, cbrt and hypot of fixed64 keep the order of their arguments", "x <= y implies sqrt(x) <= sqrt(y) and cbrt(x) <= cbrt(y), and hypot does not decrease when a leg grows.", "every pair of arguments with a defined result", "2^128 pairs; neighbours differ where the number of Newton steps changes", [MA+": sqrt", MA+": cbrt", MA+": hypot"])
p("hypot of fixed64 is the length of the vector", "hypot(x, y) and hypot(x, y, z) are defined and approximate the root of the sum of squares whenever that root is representable.", "every pair and triple of fixed64 values", "2^128 / 2^192 inputs", [MA+": hypot"])

p("floor, ceil, trunc and round fit together", "each keeps the order of its arguments, each applied twice is the same as once, trunc and round are odd, and floor(-x) = -ceil(x).", "every fixed_num instantiation, every value whose result C26-C29 find representable", "pairs of inputs over every instantiation", [MA+": floor", MA+": ceil", MA+": trunc", MA+": round"])
p("Logarithms turn products into sums", "log(x*y) = log x + log y and log(x/y) = log x - log y for log, log2 and log10, up to the errors of three logarithms and of the product or quotient.", "every pair of positive fixed32 or fixed64 values whose product (quotient) is representable and not zero", "2^64 / 2^128 pairs", [MA+": log2", MA+": log", MA+": log10", FX+": operator*=, /="])
p("The inverse trigonometric functions undo sin, cos and tan", "sin(asin x), cos(acos x) and tan(atan x) are close to x, and asin(sin x), acos(cos x) and atan(tan x) are close to x on the principal interval.", "every fixed32 and fixed64 value in the domain", "2^17 to 2^33 inputs; the errors of two functions meet", [MA+": sin", MA+": cos", MA+": tan", MA+": asin", MA+": acos", MA+": atan"])
p("sin and cos of a sum", "sin(a + b) is sin a cos b + cos a sin b and cos(a + b) is cos a cos b - sin a sin b, all computed in fixed point, up to the errors of the five functions.", "every pair of fixed32 or fixed64 values with a representable sum, the smallest value excepted", "2^64 / 2^128 pairs", [MA+": sin", MA+": cos", FX+": operator*=, +=, -="])
p("The CORDIC functions agree with sin and cos", "cordic sine and cosine differ from sin and cos by no more than the errors of both.", "every fixed32 and fixed64 angle", "2^32 / 2^64 angles", ["include/eirin/ext/cordic.hpp", MA+": sin", MA+": cos"])

p("Reading decimal text keeps the order of numbers", "A smaller numeral never gives a larger value, and two spellings of the same number (1.5, 01.5, 1.50) give the same value, although digits beyond the precision are dropped at a point that depends on the digits before them.", "every fixed_num instantiation with at most 62 fraction bits, every pair of decimal numerals in range with any number of digits; detail::parse, fixed_from_cstring and the literals", "pairs of texts of any length", [FX+": detail::parse", FX+": fixed_from_cstring", FX+": literals::operator\"\"_f32", FX+": literals::operator\"\"_f64"])
p("degrees and radians keep the order and the sign", "x <= y implies degrees(x) <= degrees(y) and radians(x) <= radians(y); degrees(-x) = -degrees(x) and radians(-x) = -radians(x).", "every pair of fixed32 or fixed64 values with degrees in range", "2^64 / 2^128 pairs", [MA+": degrees", MA+": radians"])
p("The logarithms of every instantiation", "log2, log and log10 have defined behaviour for every positive argument and are good to a few ulps.", "every fixed_num instantiation, every positive value", "the tests use the two predefined types only", [MA+": log2", MA+": log", MA+": log10"])
p("sin, cos and tan of every instantiation", "sin and cos have defined behaviour, stay within a few units of [-1, 1] and approximate the real functions; tan is their quotient.", "every fixed_num instantiation, every value but the smallest", "the tests use the two predefined types only", [MA+": sin", MA+": cos", MA+": tan"])
p("atan of every instantiation on [-1, 1]", "atan of a value of magnitude at most 1 has defined behaviour, stays within [-1, 1], is odd and non-negative for non-negative arguments, and is within 2.7e-4 plus ten units of the real arctangent.", "every signed instantiation without rounding with 3 to 27 fraction bits in a 32-bit store or 3 to 59 in a 64-bit store, every value in [-1, 1]", "the tests use the two predefined types only", [MA+": atan"])
p("exp of every instantiation", "exp has defined behaviour wherever e^|x| is representable and is within a few units of e^x.", "every signed instantiation without rounding with 3 to 27 fraction bits in a 32-bit store or 3 to 59 in a 64-bit store, every x with e^|x| representable", "the tests use the two predefined types only", [MA+": exp", MA+": detail::exp_expand"])
p("degrees and radians of every instantiation", "degrees and radians have defined behaviour and agree with x * 180 / pi and x * pi / 180 up to rounding wherever the result fits.", "every signed instantiation without rounding whose store is 32 or 64 bits, every value whose result fits", "the tests use the two predefined types only", [MA+": degrees", MA+": radians"])
p("the square root of every 64-bit instantiation", "sqrt has defined behaviour on every positive value and its square differs from the value by at most the stop criterion plus rounding.", "every signed instantiation without rounding whose store is 64 bits, with 3 to 59 fraction bits; every positive value", "the tests take the root of a few small values of the two predefined types", [MA+": sqrt", FX+": get_sqrt_init_value", FX+": find_msb"])
p("asin and acos of every instantiation", "asin and acos agree with the real functions on [-0.7, 0.7] up to a fixed error plus rounding.", "every signed instantiation without rounding, every value of absolute value at most 0.7", "the tests use the two predefined types only", [MA+": asin", MA+": acos"])
p("degrees and radians keep the order and invert each other in every instantiation", "radians and degrees are monotone, degrees is odd, radians is odd up to one unit, and radians(degrees(x)) is x up to a few units.", "every signed instantiation without rounding that holds 180 (3 to 23 fraction bits in 32, 3 to 55 in 64), every value whose result fits", "the tests convert single values of the two predefined types", [MA+": degrees", MA+": radians"])
p("sin, atan and asin are odd, sin is periodic and sin^2 + cos^2 is 1 in every instantiation", "sin(-x) = -sin(x) and sin(x + k T) = sin(x) bit for bit for |x| >= 0.000151, T the stored 2 pi and both arguments on one side of zero; atan and asin are odd; the squares of sin and cos add up to 1 within the errors of both.", "every signed instantiation without rounding with 3 to 27 fraction bits in a 32-bit store or 3 to 59 in a 64-bit store (asin: 13 to 59 in 64), every value but the smallest, every number of turns", "pairs of inputs over every instantiation", [MA+": sin", MA+": cos", MA+": atan", MA+": asin"])
p("The logarithms keep the order of their arguments in every instantiation", "x <= y implies log2(x) <= log2(y), log(x) <= log(y) and log10(x) <= log10(y); log2(2x) = log2(x) + 1 and log2(2^k) = k exactly.", "every signed instantiation with at most 26 fraction bits in a 32-bit store or 32 in a 64-bit store, every pair of positive values", "pairs of inputs over every instantiation; a decrease by one unit is invisible in the printed value", [MA+": log2", MA+": log", MA+": log10"])
p("Logarithms turn products into sums in every instantiation", "log2(x*y) = log2 x + log2 y, log2(x/y) = log2 x - log2 y and the same for log, up to the errors of three logarithms and of the product or quotient.", "every signed instantiation without rounding with at most 26 fraction bits in a 32-bit store or 32 in a 64-bit store, every pair of positive values whose product (quotient) is in range and not zero", "pairs of inputs over every instantiation", [MA+": log2", MA+": log", FX+": operator*=, /="])
p("exp keeps the order on each side of zero and exp(-x) is the reciprocal of exp(x) in every instantiation", "x <= y implies exp(x) <= exp(y) when both are positive or both negative, and exp(-x) is the largest value whose product with exp(x) is at most 1.", "every signed instantiation without rounding with 3 to 27 fraction bits in a 32-bit store or 3 to 59 in a 64-bit store, all x with e^|x| representable and (12 + 1.4 |x|) units at most 0.016", "pairs of inputs over every instantiation", [MA+": exp", MA+": detail::exp_expand"])
p("cos is even and sin and cos satisfy the addition formulas in every instantiation", "cos(-x) is cos(x), and sin(x + y) = sin x cos y + cos x sin y and cos(x + y) = cos x cos y - sin x sin y, up to the errors of the functions involved.", "every signed instantiation without rounding with 3 to 27 fraction bits in a 32-bit store or 3 to 59 in a 64-bit store, all values but the smallest whose sum is representable", "pairs of inputs over every instantiation", [MA+": sin", MA+": cos"])
p("asin and acos undo sin and cos in every 64-bit instantiation", "sin(asin x), asin(sin x), cos(acos x) and acos(cos x) are x up to the sum of both errors.", "every signed 64-bit instantiation without rounding with 13 to 59 fraction bits; |x| <= 0.7, |x| <= 0.77 and 0.81 <= x <= 2.33 respectively", "the tests use the two predefined types only and no compositions", [MA+": asin", MA+": acos", MA+": sin", MA+": cos"])
p("tan of every instantiation is accurate, and atan undoes it", "wherever |cos x| >= 0.1 tan has defined behaviour and its error is a fixed part plus (42 + |x|/2) units, over cos^2 x; tan(atan x) and atan(tan x) are x up to both errors.", "every signed instantiation without rounding with 3 to 27 fraction bits in a 32-bit store or 3 to 59 in a 64-bit store, every value but the smallest with |cos x| >= 0.1 and (17 + |x|/6) units at most 0.0249; the compositions with 14 or more fraction bits", "the tests use the two predefined types only and no compositions", [MA+": tan", MA+": atan"])
p("log undoes exp and exp undoes log in every instantiation that has both", "log(exp x) is at most (6.3 + x) units above x and at most 0.2232 plus as many units below it; exp(log b) is b up to the 20% of exp and the error of the logarithm, on one side without the 20%.", "every signed instantiation without rounding with 3 to 26 fraction bits in a 32-bit store or 3 to 32 in a 64-bit store; x >= 0 with e^x representable, b > 0 with b and 1/b representable, the rounding of exp at most 0.016", "the tests use the two predefined types only and no compositions", [MA+": exp", MA+": log", MA+": detail::exp_expand"])
p("The square of a root and the root of a square in every 64-bit instantiation", "sqrt(x)*sqrt(x) is x and the square of sqrt(x*x) is x*x, up to the stop criterion of the iteration and rounding.", "every signed 64-bit instantiation without rounding with 3 to 59 fraction bits; every positive x below half of the range, every x whose square is at least one unit and below half of the range", "the tests take the root of a few small values of the two predefined types", [MA+": sqrt", FX+": operator*="])
p("cos and tan have the period of the stored 2 pi bit for bit in every instantiation", "cos(x + k T) = cos(x) and tan(x + k T) = tan(x) exactly, T the stored 2 pi.", "every signed instantiation without rounding with 3 to 27 fraction bits in a 32-bit store or 3 to 59 in a 64-bit store, every number of turns, both arguments above 4.7126 plus one unit or both below -1.571", "pairs of inputs over every instantiation", [MA+": cos", MA+": tan", MA+": sin"])
