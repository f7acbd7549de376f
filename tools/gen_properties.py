#!/usr/bin/env python3
"""Writes ../properties.jsonl. Append at the end; never renumber."""
import json, os
P = []
def p(title, statement, quantifier, why, anchors):
    P.append(dict(id="C%02d" % (len(P)+1), title=title, statement=statement, quantifier=quantifier,
                  why_tests_cant=why, anchors=anchors))
F = "include/eirin/fixed.hpp"; M = "include/eirin/math.hpp"; FM="include/eirin/io/format.hpp"
PA="include/eirin/io/parse.hpp"; R="include/eirin/random.hpp"; D="include/eirin/detail/distribution.hpp"
CO="include/eirin/ext/cordic.hpp"; S="include/eirin/ext/simd_math.hpp"; B="include/eirin/ext/builtin_ints.hpp"
U="include/eirin/detail/util.hpp"; PF="include/eirin/detail/perf.hpp"; N="include/eirin/numbers.hpp"
anyt = "every fixed-point instantiation (store type, intermediate type, fraction width) the concepts accept and "
big = "the input space is 2^32 / 2^64 values (pairs: the square of that) for each of many instantiations; tests sample a handful of literals"

# A. construction and conversion
p("Construction from an integer is exact",
  "fixed(n) denotes exactly n whenever n is representable in the target type, never has undefined behaviour, and otherwise wraps modulo the store width.",
  anyt+"every integer n of every integral type", big, [F+": fixed_num(T val) [std::integral]"])
p("Conversion to an integer takes the floor",
  "static_cast<Int>(x) is the floor of the value denoted by x whenever the floor is representable in Int; in particular static_cast<Int>(fixed(n)) = n.",
  anyt+"every value x and every integral target type", big, [F+": operator T() [std::integral]"])
p("Conversion to a floating type keeps the value",
  "static_cast<double>(x) denotes x (up to rounding of the floating type), so that the fractional part survives the documented cast (float)\"114.5\"_f32.",
  anyt+"every value x", "the test-suite never compares a fractional value converted to floating point", [F+": operator T() [std::floating_point]"])
p("Construction from a floating value truncates toward zero",
  "with rounding=false, fixed(v) is the value v*2^f truncated toward zero (so within one ulp of v and exact when v is representable); the conversion is undefined exactly when the truncated result is outside the store type.",
  anyt+"every finite float/double/long double v", "the floating input space is infinite for practical purposes", [F+": fixed_num(T val) [std::floating_point]"])
p("Construction from a floating value with rounding=true rounds to nearest",
  "with rounding=true, fixed(v) is within half an ulp of v for every in-range v.",
  anyt+"every finite v", "no test instantiates rounding=true", [F+": fixed_num(T val) [std::floating_point]"])
p("Widening conversion between fixed types is exact",
  "converting to a type with at least as many fraction bits yields the same denoted value whenever that value is representable in the target type (documented: fixed64 fp2(fp1) for fixed32 fp1).",
  "every pair of fixed-point instantiations with target fraction >= source fraction, every source value", big, [F+": fixed_num(fixed_num<T,I,f,r>)", F+": from_fixed_num_value (_fraction <= fraction)"])
p("Narrowing conversion between fixed types truncates (or rounds)",
  "converting to a type with fewer fraction bits truncates toward zero when rounding=false and rounds to nearest, ties away from zero, when rounding=true, provided the result fits; it never has undefined behaviour.",
  "every pair of instantiations with target fraction < source fraction, every source value", big, [F+": from_fixed_num_value (_fraction > fraction)"])
p("Narrowing undoes widening",
  "whenever a widening conversion is defined and fits, narrowing the result back gives the original value.",
  "every pair of instantiations, every source value", big, [F+": from_fixed_num_value"])
# B. arithmetic
p("Addition and subtraction are exact or overflow visibly",
  "x+y, x-y, -x denote the exact sum, difference, negation whenever it is representable; when it is not the behaviour is undefined for signed 32/64-bit stores and wraps for unsigned and for 8/16-bit stores.",
  anyt+"all pairs of values", big, [F+": operator+", F+": operator-"])
p("Mixed integer addition and subtraction agree with conversion",
  "x+n, n+x, x-n, n-x equal x+fixed(n), fixed(n)+x, x-fixed(n), fixed(n)-x.",
  anyt+"every value x and every integer n of every integral type", big, [F+": operator+=(std::integral)", F+": free operator+/-"])
p("Multiplication rounds toward minus infinity",
  "with rounding=false x*y is the floor (in ulps) of the exact product whenever that floor is representable, wraps modulo the store width otherwise, and never has undefined behaviour.",
  anyt+"all pairs of values", "2^64 pairs for fixed32, 2^128 for fixed64", [F+": operator*", F+": operator*="])
p("Division truncates toward zero",
  "with rounding=false x/y is the exact quotient truncated toward zero (in ulps) whenever it is representable, wraps otherwise, and is undefined exactly when y is zero.",
  anyt+"all pairs of values", "2^64 pairs for fixed32, 2^128 for fixed64", [F+": operator/", F+": operator/="])
p("Multiplication and division with rounding=true round to nearest",
  "with rounding=true x*y and x/y are within half an ulp of the exact result.",
  anyt+"all pairs of values", "no test instantiates rounding=true", [F+": operator*", F+": operator/"])
p("Multiplication and division by an integer",
  "x*n denotes the exact product and x/n the exact quotient truncated toward zero, whenever representable (n nonzero).",
  anyt+"every value x and every integer n of every integral type, signed or unsigned", big, [F+": operator*=(std::integral)", F+": operator/=(std::integral)"])
p("Remainder law",
  "x % y is exact: x = k*y + (x%y) for an integer k, |x%y| < |y|, and x%y is zero or has the sign of x; undefined exactly when y is zero or the store-level quotient overflows.",
  anyt+"all pairs of values", "2^64 pairs for fixed32", [F+": operator%", F+": operator%="])
p("divide / divide_by throw exactly on zero",
  "divide and divide_by throw divide_by_zero if and only if the divisor is zero and otherwise give exactly the result of the / operator; on a throw the object is unchanged.",
  anyt+"all pairs of values / integers", "a missed zero test only shows up on one divisor value per overload", [F+": divide", F+": divide_by"])
p("Increment and decrement step by exactly one",
  "++x and x++ add exactly 1, --x and x-- subtract exactly 1 when representable; the prefix forms return the new and the postfix forms the old value.",
  anyt+"every value", big, [F+": operator++", F+": operator--"])
p("Compound assignment equals the binary operator",
  "after x op= y the object holds exactly x op y, including the undefined cases, for +,-,*,/,%.",
  anyt+"all pairs of values, both rounding modes", big, [F+": operator+= -= *= /= %="])
p("Ring-like laws",
  "+ is commutative and associative where defined with inverse and identity; * is commutative, has identity 1 and zero 0; (x*y)*z vs x*(y*z) and distributivity hold up to the stated number of ulps; x/1 = x and x/x = 1.",
  anyt+"all triples of values", "triples of 32-bit values cannot be enumerated", [F+": operator+ - * /"])
p("Ordering is the numeric ordering",
  "==, <=>, <, <= ... decide exactly the order of the denoted values: a total order compatible with addition; equal values have equal hashes.",
  anyt+"all pairs/triples of values", big, [F+": operator<=>", F+": operator==", F+": fixed_hash"])
p("Near-comparison is a consistent tolerance test",
  "nearly_eq holds iff |x-y| <= epsilon; nearly_ne is its negation; exactly one of nearly_lt, nearly_eq, nearly_gt holds; nearly_gt_eq/nearly_lt_eq are the negations of the strict ones; nearly_eq is reflexive and symmetric.",
  anyt+"all pairs of values", big, [F+": nearly_eq ... nearly_lt_eq", F+": nearly_compare_epsilon"])
p("Integral and fractional part recompose the value",
  "integral_part() is the magnitude truncated toward zero and together with fractional_part() and signbit() it determines the value: |x| = integral_part + |fractional_part|.",
  anyt+"every value", "the tests only use integers and one half", [F+": integral_part", F+": fractional_part", F+": signbit"])
p("signbit and raw_integral_part",
  "signbit(x) is true exactly for negative values (never for unsigned types); raw_integral_part() is floor(x) with the sign bit of the representation cleared.",
  anyt+"every value", big, [F+": signbit", F+": raw_integral_part", F+": signbit_mask"])
p("numeric_limits bound the type",
  "numeric_limits<fixed>::min()/lowest()/max() (and min_value/max_value) are attained and bound every value; is_signed tells whether negative values exist; epsilon() is the gap between 1 and the next value; digits, digits10 and radix are the number of value bits of the store type, its decimal digits and 2.",
  anyt+"every value", "a bound is a universally quantified statement", [F+": numeric_limits", M+": max_value", M+": min_value"])
p("Mathematical constants are correctly truncated",
  "each constant (pi, e, ln2, ln10, log2e, log10e, 1/pi, 1/sqrt(pi), sqrt2, sqrt3, 1/sqrt3, phi, pi/2, pi/4, 2pi) in fixed32 and fixed64 is within one ulp below the real number it names.",
  "every named constant, both predefined types (a real-number statement)", "a test can only compare with another finite approximation", [N+": pi_v ... phi_v", F+": pi, e, pi_2, pi_4, double_pi"])
# C. rounding
p("trunc", "trunc(x) is the integer nearest to x whose magnitude does not exceed |x| (toward zero), always defined.",
  anyt+"every value", big, [M+": trunc"])
p("floor", "floor(x) is the greatest integer not above x whenever that is representable.",
  anyt+"every value", big, [M+": floor"])
p("ceil", "ceil(x) is the least integer not below x whenever that is representable.",
  anyt+"every value", "no test calls ceil", [M+": ceil"])
p("round", "round(x) is the nearest integer, ties away from zero, whenever that is representable.",
  anyt+"every value", big, [M+": round"])
p("modf splits a value", "modf(x, i) stores floor(x) in i and returns x - floor(x), which lies in [0,1), so that i + result = x.",
  anyt+"every value with representable floor", big, [M+": modf"])
p("fmod is a remainder", "fmod(a,b) differs from a by an integer multiple of b and lies in [0,b) for b > 0.",
  anyt+"all pairs of values", "2^64 pairs", [M+": fmod"])
p("abs, min, max", "abs(x) is the magnitude (undefined only for the one value whose magnitude is not representable); min/max return the smaller/larger argument.",
  anyt+"all (pairs of) values", big, [M+": abs", M+": min", M+": max"])
# D. roots, powers, logs
p("fixed32 sqrt is correctly truncated", "for every non-negative fixed32 x, sqrt(x) is the largest fixed32 value whose square does not exceed x.",
  "all 2^31 non-negative fixed32 values", "2^31 inputs and a two-branch bit algorithm with a data-dependent switch", [M+": sqrt (int32_t branch)"])
p("sqrt works for every 32-bit fraction width", "for every fixed_num over int32_t with any fraction width, sqrt(x)^2 is close to x.",
  "every fraction width 1..30 over int32_t, every non-negative value", "the tests only use 16 fraction bits", [M+": sqrt (int32_t branch)"])
p("fixed64 sqrt is accurate", "for every positive fixed64 x the Newton iteration never divides by zero or overflows and the result r satisfies a stated bound on |r - sqrt(x)|.",
  "all 2^63 non-negative fixed64 values", "2^63 inputs", [M+": sqrt (generic branch)", F+": sqrt_init_table", F+": find_msb"])
p("sqrt of a negative value is defined", "sqrt of a negative value never has undefined behaviour and returns -1.",
  "every negative value of fixed32 and fixed64", "2^31 / 2^63 inputs", [M+": sqrt"])
p("cbrt never divides by zero and is accurate", "cbrt(x) is defined for every x and, when the iteration stops early, |r^3 - x| is below the stated tolerance.",
  "every value of fixed32 and fixed64", "the failing inputs are sparse", [M+": cbrt"])
p("Integer powers", "pow(b,0)=1, pow(b,1)=b, pow(b,n) is exact whenever all intermediate squares of an integer base are representable; the loop terminates for every exponent.",
  anyt+"every base and every exponent of every integral type", "exponent and base ranges cannot be enumerated", [M+": pow(fixed, integral)"])
p("Negative integer powers are defined", "pow(b,-n) never divides by zero for b != 0.",
  anyt+"every nonzero base and every negative exponent", "depends on underflow of the repeated square", [M+": pow(fixed, integral)"])
p("log2 is accurate", "log2(x) is defined for every x > 0 and is within a stated number of ulps below the real logarithm; it throws domain_error exactly when x <= 0.",
  "every positive fixed32/fixed64 value (a real-number statement)", "2^31 / 2^63 inputs against a transcendental function", [M+": log2"])
p("log and log10 are accurate", "log(x) and log10(x) are within a stated error of the real logarithms for every x > 0; they throw domain_error exactly when x <= 0.",
  "every positive fixed32/fixed64 value", "2^31 / 2^63 inputs", [M+": log", M+": log10"])
p("exp is accurate", "exp(x) is within a stated error of the real exponential on the range where the result is representable; exp(0)=1; it is positive.",
  "every fixed32/fixed64 value in range", "2^32 / 2^64 inputs", [M+": exp", M+": detail::exp_expand"])
p("exp never divides by zero", "exp(x) is declared noexcept and is defined for every x.",
  "every fixed32/fixed64 value", "2^32 / 2^64 inputs", [M+": exp"])
p("pow with a fixed exponent", "pow(b,0)=1 for every b, pow(0,e)=0 for e != 0; for negative b with a fractional exponent the failure is reported.",
  "all pairs of values", "2^64 pairs", [M+": pow(fixed, fixed)"])
# E. trigonometry
p("sin is accurate", "|sin(x) - real sin| is within a stated bound for every x (the bound may grow with the number of periods).",
  "every fixed32/fixed64 value", "2^32 / 2^64 inputs against a transcendental function", [M+": sin"])
p("sin is odd", "sin(-x) = -sin(x) up to the accuracy bound, also for tiny arguments.",
  "every fixed32/fixed64 value", "the violating inputs are a handful next to zero", [M+": sin"])
p("sin and cos stay in [-1,1]", "|sin(x)| and |cos(x)| never exceed 1 by more than a stated number of ulps, and evaluation is always defined.",
  "every fixed32/fixed64 value", "2^32 / 2^64 inputs", [M+": sin", M+": cos"])
p("cos is accurate", "|cos(x) - real cos| is within a stated bound; evaluation never overflows.",
  "every fixed32/fixed64 value", "2^32 / 2^64 inputs", [M+": cos"])
p("tan reports its poles", "tan(x) throws domain_error exactly when the computed cosine is within one ulp of zero and otherwise is sin/cos.",
  "every fixed32/fixed64 value", "2^32 / 2^64 inputs", [M+": tan"])
p("atan is accurate on [-1,1] and odd", "for |x| <= 1 atan(x) is within a stated bound of the real arctangent, and atan(-x) = -atan(x).",
  "every fixed32/fixed64 value in [-1,1]", "2^17 / 2^33 inputs", [M+": atan"])
p("atan is accurate everywhere", "atan(x) is within 0.001 of the real arctangent for every x.",
  "every fixed32/fixed64 value", "tests only use |x| <= 1", [M+": atan"])
p("asin/acos report their domain", "asin(x) and acos(x) throw domain_error exactly when |x| > 1, and never divide by zero on [-1,1]; asin(1), asin(-1), acos(1), acos(-1), acos(0) have the exact constant values.",
  "every fixed32/fixed64 value", "2^32 / 2^64 inputs", [M+": asin", M+": acos"])
p("asin is accurate on [-1,1]", "asin(x) is within 0.001 of the real arcsine for every |x| <= 1.",
  "every fixed32/fixed64 value in [-1,1]", "tests only use 0 and 0.5", [M+": asin"])
p("degrees/radians", "radians(d) and degrees(r) are within a stated number of ulps of the exact conversion whenever no intermediate result leaves the range.",
  "every fixed32/fixed64 value in range", "2^32 / 2^64 inputs", [M+": degrees", M+": radians"])
p("hypot", "hypot(x,y) is the square root of the sum of squares: for fixed32 it is the exact truncated root of the (truncated) sum whenever the sum fits; it is symmetric and ignores signs up to the truncation of the squares; hypot(x,y,z) likewise.",
  "all pairs of fixed32 values with representable sum of squares", "2^64 pairs", [M+": hypot"])
# F. text output
p("Stream output is exact in decimal", "os << x writes exactly the decimal expansion of the denoted value (no rounding), without superfluous zeros, for every value.",
  "every signed instantiation with 10*2^f representable, every value", big, [F+": copy_as_chars_to", F+": operator<<"])
p("Stream output is exact in bases 2, 8 and 16", "with oct/hex/no base flag set, os << x writes exactly the base-b expansion of the value.",
  "every signed instantiation, every value, every base", big, [F+": copy_as_chars_to"])
p("Stream output is injective", "two different values never print the same text.",
  "all pairs of values", "pairs of 2^32 / 2^64 values", [F+": copy_as_chars_to"])
p("Stream output of unsigned types", "for unsigned store types os << x never writes a minus sign and writes the exact value.",
  "every unsigned instantiation, every value", "a single value out of 2^32 is wrong", [F+": copy_as_chars_to"])
# G. text input
p("String literals and from_cstring are accurate", "for a well-formed decimal literal whose value is in range, the parsed value is never above in magnitude and at most 11 ulps below the denoted decimal.",
  "every decimal string with bounded digit counts, every instantiation", "the set of strings is infinite", [F+": detail::parse", F+": fixed_from_cstring", F+": f32_from_cstring"])
p("Short decimal literals are truncated exactly", "if the fraction has few enough digits to be read completely, the parsed value is the exact decimal truncated toward zero; integers parse exactly.",
  "every decimal string with bounded digit counts", "the set of strings is infinite", [F+": detail::parse"])
p("Malformed input is rejected and leaves the target unchanged", "detail::parse / f32_from_cstring return false on any string whose integer part contains a non-digit, and whenever they return false the target keeps its old value.",
  "every string", "the set of strings is infinite", [F+": detail::parse", F+": f32_from_cstring"])
p("Every malformed string is rejected", "a string that is not [-]digits[.digits] is never accepted.",
  "every string", "the set of strings is infinite", [F+": detail::parse", F+": f32_from_cstring", F+": fixed_from_cstring"])
p("Out-of-range literals are rejected", "a decimal whose value is not representable is rejected.",
  "every decimal string", "the wrap only happens at very large inputs", [F+": detail::parse (check overflow)"])
p("Parsing never has undefined behaviour", "parsing any string is defined.",
  "every string", "the set of strings is infinite", [F+": detail::parse", F+": operator>>", PA+": parse"])
p("Every printable value can be parsed back", "parsing the text that os << x writes succeeds and returns x up to 11 ulps (exactly for integers).",
  "every value", big, [F+": copy_as_chars_to", F+": detail::parse"])
p("The string parsers agree", "f32_from_cstring, fixed_from_cstring and the string literal give the same result on every well-formed string.",
  "every string", "the set of strings is infinite", [F+": detail::parse", F+": fixed_from_cstring", F+": f32_from_cstring"])
p("Stream input is accurate", "is >> x reads a decimal and stores it to within 11 ulps, exactly like the string parsers.",
  "every stream content", "the set of inputs is infinite; the failing ones need a digit pattern", [F+": operator>>"])
p("Stream input reads a sequence", "is >> x >> y on two numbers separated by white space stores both; on malformed input the stream reports failure.",
  "every stream content", "state of the stream across calls", [F+": operator>>"])
p("Stream input consumes exactly the number", "is >> x consumes the longest prefix of the form [-]digits[.digits] (up to the digit cut-off) and leaves the rest.",
  "every stream content", "the set of inputs is infinite", [F+": operator>>"])
p("io::parse stops at the terminator and reports failure through the returned pointer", "io::parse consumes up to the terminator character; on a non-digit it returns the start pointer and leaves the target unchanged.",
  "every string", "the set of strings is infinite", [PA+": parse"])
# H. std::format
p("std::format of the integer types d/x/X/o/b/B prints the truncated integer", "with a radix type the output is the sign followed by the integer part (toward zero) in that base.",
  "every value, every radix type", big, [FM+": format_to", FM+": int_to_string"])
p("std::format of g/f prints the truncated decimal", "without radix type the output is the decimal expansion of x truncated to the requested precision (default 6).",
  "every value, every precision", "the tests use no negative fraction", [FM+": format_to"])
p("std::format debug output shows the raw value", "{:?} writes the signed raw value in hexadecimal, exactly, for every value including the minimum.",
  "every value", big, [FM+": format_debug_to"])
p("std::format honours the width", "the output has exactly max(width, natural length) characters and contains the natural text, with the fill on the side selected by the alignment (the character '0' with zero padding); with zero padding of the radix types the zeros are inserted between the prefix and the digits.",
  "every value and format state", "product of all states and values", [FM+": output_aligned"])
p("Format specifications are parsed as documented", "parsing the canonical rendering of a specification gives back that specification and stops at the closing brace.",
  "every fill, alignment, sign, #, 0, width, precision, type combination", "product of all fields", [FM+": formatter::parse"])
p("An empty specification is empty", "for the replacement field {} the default specification is used and nothing after the closing brace is consumed.",
  "every continuation of the format string", "depends on the character after the brace", [FM+": formatter::parse"])
p("Unknown format types are rejected", "a specification ending in an unknown type character raises format_error.",
  "every character", "256 characters times all prefixes", [FM+": formatter::parse"])
# I. random
p("The random engine is portable", "drawing from pcg2014/pcg2014_64 is defined and gives the same sequence on every platform.",
  "every seed and state", "undefined shifts give different values on different machines; a test on one machine cannot see it", [R+": permuted_congruential_engine::generate"])
p("discard(n) equals n draws", "discard(n) leaves the engine in the same state as n draws.",
  "every seed, state and n", "unbounded n", [R+": discard", R+": operator()"])
p("Engine equality predicts the future", "engines compare equal iff seed and state agree, and equal engines produce the same draws forever.",
  "all pairs of engines and draw counts", "unbounded histories", [R+": operator=="])
p("Reseeding restarts the sequence", "seed(s) puts the engine in the same state as a newly constructed engine with seed s.",
  "every history of draws before the reseed", "depends on the whole history", [R+": seed"])
p("Distribution results stay in range", "a draw from the distribution adapter lies in [a,b] when the underlying integer type can hold the raw values (narrower underlying types: C85).",
  "every a <= b, every generator, every history of param() calls", "unbounded histories and generators", [D+": operator()", D+": param"])
p("A one-off parameter is honoured", "dist(g, p) draws from [p.a, p.b].",
  "every parameter and generator", "the tests never pass a parameter", [D+": operator()(g, param)"])
p("The default distribution is usable with the documented underlying distribution", "fixed_int_distribution_adapter<fixed64, std::uniform_int_distribution<>> has a valid underlying range.",
  "the default-constructed adapter", "the violated precondition is undefined behaviour, invisible to an assertion-free test", [D+": fixed_int_distribution_adapter()"])
# J. extensions
p("CORDIC sine is accurate for non-negative angles", "|cordic_sine(x) - sin(x)| is within a stated bound for every x >= 0.",
  "every non-negative fixed32/fixed64 value", "2^31 / 2^63 inputs", [CO+": cordic", CO+": cordic_optimize_angel"])
p("CORDIC sine is odd", "cordic_sine(-x) = -cordic_sine(x).",
  "every value", "no test uses a negative angle", [CO+": cordic_optimize_angel"])
p("The SIMD multiply agrees with the scalar one", "the lane-wise multiply computes the sign-symmetric truncation of the exact product for every in-range pair; the AVX-512 variant gives the same result.",
  "all pairs of 64-bit lanes", "2^128 pairs and two build configurations", [S+": avx_mm256_mullo_epi64"])
p("SIMD angle reduction", "simd_reduce_angle returns for every lane an angle congruent to the input modulo 2*pi (up to the stated error) and smaller than 2*pi in magnitude, lane order preserved; simd_reduce_angle_2 does the same for two lanes.",
  "all lane values in range", "2^64 values per lane", [S+": simd_reduce_angle", S+": simd_reduce_angle_2"])
p("ext::int128 addition", "ext::int128 addition is addition modulo 2^128 and conversion from a negative integer keeps its value.",
  "all values", "2^256 pairs", [B+": int128::operator+", B+": int128(T)"])
p("BBP computation of pi converges", "bbp_calc_pi<int64_t,61,N>() approaches pi*2^61 as N grows.",
  "every N", "the limit is a statement about all N", [U+": bbp_calc_pi"])
p("eval_value computes the truncated representation", "eval_value(v, f) is v*2^f truncated, for every non-negative dyadic v in range.",
  "every double v >= 0 and every fraction", "2^62 inputs", [U+": eval_value"])
p("measure_esp reports true extrema", "measure_esp returns the largest and smallest observed error over the visited grid, attained at the reported inputs.",
  "every function pair, start, end, step", "arbitrary functions and grids", [PF+": measure_esp"])

# appended as the model grew
exec(open(os.path.join(os.path.dirname(__file__), "more_properties.py")).read()) if os.path.exists(os.path.join(os.path.dirname(__file__), "more_properties.py")) else None

with open(os.path.join(os.path.dirname(os.path.abspath(__file__)), "..", "properties.jsonl"), "w") as f:
    for x in P: f.write(json.dumps(x)+"\n")
print(len(P))
