{"id": "C01", "title": "Construction from an integer is exact", "statement": "fixed(n) denotes exactly n whenever n is representable in the target type, never has undefined behaviour, and otherwise wraps modulo the store width.", "quantifier": "every fixed-point instantiation (store type, intermediate type, fraction width) the concepts accept and every integer n of every integral type", "why_tests_cant": "the input space is 2^32 / 2^64 values (pairs: the square of that) for each of many instantiations; tests sample a handful of literals", "anchors": ["include/eirin/fixed.hpp: fixed_num(T val) [std::integral]"]}
{"id": "C02", "title": "Conversion to an integer takes the floor", "statement": "static_cast<Int>(x) is the floor of the value denoted by x whenever the floor is representable in Int; in particular static_cast<Int>(fixed(n)) = n.", "quantifier": "every fixed-point instantiation (store type, intermediate type, fraction width) the concepts accept and every value x and every integral target type", "why_tests_cant": "the input space is 2^32 / 2^64 values (pairs: the square of that) for each of many instantiations; tests sample a handful of literals", "anchors": ["include/eirin/fixed.hpp: operator T() [std::integral]"]}
{"id": "C03", "title": "Conversion to a floating type keeps the value", "statement": "static_cast<double>(x) denotes x (up to rounding of the floating type), so that the fractional part survives the documented cast (float)\"114.5\"_f32.", "quantifier": "every fixed-point instantiation (store type, intermediate type, fraction width) the concepts accept and every value x", "why_tests_cant": "the test-suite never compares a fractional value converted to floating point", "anchors": ["include/eirin/fixed.hpp: operator T() [std::floating_point]"]}
{"id": "C04", "title": "Construction from a floating value truncates toward zero", "statement": "with rounding=false, fixed(v) is the value v*2^f truncated toward zero (so within one ulp of v and exact when v is representable); the conversion is undefined exactly when the truncated result is outside the store type.", "quantifier": "every fixed-point instantiation (store type, intermediate type, fraction width) the concepts accept and every finite float/double/long double v", "why_tests_cant": "the floating input space is infinite for practical purposes", "anchors": ["include/eirin/fixed.hpp: fixed_num(T val) [std::floating_point]"]}
{"id": "C05", "title": "Construction from a floating value with rounding=true rounds to nearest", "statement": "with rounding=true, fixed(v) is within half an ulp of v for every in-range v.", "quantifier": "every fixed-point instantiation (store type, intermediate type, fraction width) the concepts accept and every finite v", "why_tests_cant": "no test instantiates rounding=true", "anchors": ["include/eirin/fixed.hpp: fixed_num(T val) [std::floating_point]"]}
{"id": "C06", "title": "Widening conversion between fixed types is exact", "statement": "converting to a type with at least as many fraction bits yields the same denoted value whenever that value is representable in the target type (documented: fixed64 fp2(fp1) for fixed32 fp1).", "quantifier": "every pair of fixed-point instantiations with target fraction >= source fraction, every source value", "why_tests_cant": "the input space is 2^32 / 2^64 values (pairs: the square of that) for each of many instantiations; tests sample a handful of literals", "anchors": ["include/eirin/fixed.hpp: fixed_num(fixed_num<T,I,f,r>)", "include/eirin/fixed.hpp: from_fixed_num_value (_fraction <= fraction)"]}
{"id": "C07", "title": "Narrowing conversion between fixed types truncates (or rounds)", "statement": "converting to a type with fewer fraction bits truncates toward zero when rounding=false and rounds to nearest, ties away from zero, when rounding=true, provided the result fits; it never has undefined behaviour.", "quantifier": "every pair of instantiations with target fraction < source fraction, every source value", "why_tests_cant": "the input space is 2^32 / 2^64 values (pairs: the square of that) for each of many instantiations; tests sample a handful of literals", "anchors": ["include/eirin/fixed.hpp: from_fixed_num_value (_fraction > fraction)"]}
{"id": "C08", "title": "Narrowing undoes widening", "statement": "whenever a widening conversion is defined and fits, narrowing the result back gives the original value.", "quantifier": "every pair of instantiations, every source value", "why_tests_cant": "the input space is 2^32 / 2^64 values (pairs: the square of that) for each of many instantiations; tests sample a handful of literals", "anchors": ["include/eirin/fixed.hpp: from_fixed_num_value"]}
{"id": "C09", "title": "Addition and subtraction are exact or overflow visibly", "statement": "x+y, x-y, -x denote the exact sum, difference, negation whenever it is representable; when it is not the behaviour is undefined for signed 32/64-bit stores and wraps for unsigned and for 8/16-bit stores.", "quantifier": "every fixed-point instantiation (store type, intermediate type, fraction width) the concepts accept and all pairs of values", "why_tests_cant": "the input space is 2^32 / 2^64 values (pairs: the square of that) for each of many instantiations; tests sample a handful of literals", "anchors": ["include/eirin/fixed.hpp: operator+", "include/eirin/fixed.hpp: operator-"]}
{"id": "C10", "title": "Mixed integer addition and subtraction agree with conversion", "statement": "x+n, n+x, x-n, n-x equal x+fixed(n), fixed(n)+x, x-fixed(n), fixed(n)-x.", "quantifier": "every fixed-point instantiation (store type, intermediate type, fraction width) the concepts accept and every value x and every integer n of every integral type", "why_tests_cant": "the input space is 2^32 / 2^64 values (pairs: the square of that) for each of many instantiations; tests sample a handful of literals", "anchors": ["include/eirin/fixed.hpp: operator+=(std::integral)", "include/eirin/fixed.hpp: free operator+/-"]}
{"id": "C11", "title": "Multiplication rounds toward minus infinity", "statement": "with rounding=false x*y is the floor (in ulps) of the exact product whenever that floor is representable, wraps modulo the store width otherwise, and never has undefined behaviour.", "quantifier": "every fixed-point instantiation (store type, intermediate type, fraction width) the concepts accept and all pairs of values", "why_tests_cant": "2^64 pairs for fixed32, 2^128 for fixed64", "anchors": ["include/eirin/fixed.hpp: operator*", "include/eirin/fixed.hpp: operator*="]}
{"id": "C12", "title": "Division truncates toward zero", "statement": "with rounding=false x/y is the exact quotient truncated toward zero (in ulps) whenever it is representable, wraps otherwise, and is undefined exactly when y is zero.", "quantifier": "every fixed-point instantiation (store type, intermediate type, fraction width) the concepts accept and all pairs of values", "why_tests_cant": "2^64 pairs for fixed32, 2^128 for fixed64", "anchors": ["include/eirin/fixed.hpp: operator/", "include/eirin/fixed.hpp: operator/="]}
{"id": "C13", "title": "Multiplication and division with rounding=true round to nearest", "statement": "with rounding=true x*y and x/y are within half an ulp of the exact result.", "quantifier": "every fixed-point instantiation (store type, intermediate type, fraction width) the concepts accept and all pairs of values", "why_tests_cant": "no test instantiates rounding=true", "anchors": ["include/eirin/fixed.hpp: operator*", "include/eirin/fixed.hpp: operator/"]}
{"id": "C14", "title": "Multiplication and division by an integer", "statement": "x*n denotes the exact product and x/n the exact quotient truncated toward zero, whenever representable (n nonzero).", "quantifier": "every fixed-point instantiation (store type, intermediate type, fraction width) the concepts accept and every value x and every integer n of every integral type, signed or unsigned", "why_tests_cant": "the input space is 2^32 / 2^64 values (pairs: the square of that) for each of many instantiations; tests sample a handful of literals", "anchors": ["include/eirin/fixed.hpp: operator*=(std::integral)", "include/eirin/fixed.hpp: operator/=(std::integral)"]}
{"id": "C15", "title": "Remainder law", "statement": "x % y is exact: x = k*y + (x%y) for an integer k, |x%y| < |y|, and x%y is zero or has the sign of x; undefined exactly when y is zero or the store-level quotient overflows.", "quantifier": "every fixed-point instantiation (store type, intermediate type, fraction width) the concepts accept and all pairs of values", "why_tests_cant": "2^64 pairs for fixed32", "anchors": ["include/eirin/fixed.hpp: operator%", "include/eirin/fixed.hpp: operator%="]}
{"id": "C16", "title": "divide / divide_by throw exactly on zero", "statement": "divide and divide_by throw divide_by_zero if and only if the divisor is zero and otherwise give exactly the result of the / operator; on a throw the object is unchanged.", "quantifier": "every fixed-point instantiation (store type, intermediate type, fraction width) the concepts accept and all pairs of values / integers", "why_tests_cant": "a missed zero test only shows up on one divisor value per overload", "anchors": ["include/eirin/fixed.hpp: divide", "include/eirin/fixed.hpp: divide_by"]}
{"id": "C17", "title": "Increment and decrement step by exactly one", "statement": "++x and x++ add exactly 1, --x and x-- subtract exactly 1 when representable; the prefix forms return the new and the postfix forms the old value.", "quantifier": "every fixed-point instantiation (store type, intermediate type, fraction width) the concepts accept and every value", "why_tests_cant": "the input space is 2^32 / 2^64 values (pairs: the square of that) for each of many instantiations; tests sample a handful of literals", "anchors": ["include/eirin/fixed.hpp: operator++", "include/eirin/fixed.hpp: operator--"]}
{"id": "C18", "title": "Compound assignment equals the binary operator", "statement": "after x op= y the object holds exactly x op y, including the undefined cases, for +,-,*,/,%.", "quantifier": "every fixed-point instantiation (store type, intermediate type, fraction width) the concepts accept and all pairs of values, both rounding modes", "why_tests_cant": "the input space is 2^32 / 2^64 values (pairs: the square of that) for each of many instantiations; tests sample a handful of literals", "anchors": ["include/eirin/fixed.hpp: operator+= -= *= /= %="]}
{"id": "C19", "title": "Ring-like laws", "statement": "+ is commutative and associative where defined with inverse and identity; * is commutative, has identity 1 and zero 0; (x*y)*z vs x*(y*z) and distributivity hold up to the stated number of ulps; x/1 = x and x/x = 1.", "quantifier": "every fixed-point instantiation (store type, intermediate type, fraction width) the concepts accept and all triples of values", "why_tests_cant": "triples of 32-bit values cannot be enumerated", "anchors": ["include/eirin/fixed.hpp: operator+ - * /"]}
{"id": "C20", "title": "Ordering is the numeric ordering", "statement": "==, <=>, <, <= ... decide exactly the order of the denoted values: a total order compatible with addition; equal values have equal hashes.", "quantifier": "every fixed-point instantiation (store type, intermediate type, fraction width) the concepts accept and all pairs/triples of values", "why_tests_cant": "the input space is 2^32 / 2^64 values (pairs: the square of that) for each of many instantiations; tests sample a handful of literals", "anchors": ["include/eirin/fixed.hpp: operator<=>", "include/eirin/fixed.hpp: operator==", "include/eirin/fixed.hpp: fixed_hash"]}
{"id": "C21", "title": "Near-comparison is a consistent tolerance test", "statement": "nearly_eq holds iff |x-y| <= epsilon; nearly_ne is its negation; exactly one of nearly_lt, nearly_eq, nearly_gt holds; nearly_gt_eq/nearly_lt_eq are the negations of the strict ones; nearly_eq is reflexive and symmetric.", "quantifier": "every fixed-point instantiation (store type, intermediate type, fraction width) the concepts accept and all pairs of values", "why_tests_cant": "the input space is 2^32 / 2^64 values (pairs: the square of that) for each of many instantiations; tests sample a handful of literals", "anchors": ["include/eirin/fixed.hpp: nearly_eq ... nearly_lt_eq", "include/eirin/fixed.hpp: nearly_compare_epsilon"]}
{"id": "C22", "title": "Integral and fractional part recompose the value", "statement": "integral_part() is the magnitude truncated toward zero and together with fractional_part() and signbit() it determines the value: |x| = integral_part + |fractional_part|.", "quantifier": "every fixed-point instantiation (store type, intermediate type, fraction width) the concepts accept and every value", "why_tests_cant": "the tests only use integers and one half", "anchors": ["include/eirin/fixed.hpp: integral_part", "include/eirin/fixed.hpp: fractional_part", "include/eirin/fixed.hpp: signbit"]}
{"id": "C23", "title": "signbit and raw_integral_part", "statement": "signbit(x) is true exactly for negative values (never for unsigned types); raw_integral_part() is floor(x) with the sign bit of the representation cleared.", "quantifier": "every fixed-point instantiation (store type, intermediate type, fraction width) the concepts accept and every value", "why_tests_cant": "the input space is 2^32 / 2^64 values (pairs: the square of that) for each of many instantiations; tests sample a handful of literals", "anchors": ["include/eirin/fixed.hpp: signbit", "include/eirin/fixed.hpp: raw_integral_part", "include/eirin/fixed.hpp: signbit_mask"]}
{"id": "C24", "title": "numeric_limits bound the type", "statement": "numeric_limits<fixed>::min()/lowest()/max() (and min_value/max_value) are attained and bound every value; is_signed tells whether negative values exist; epsilon() is the gap between 1 and the next value; digits, digits10 and radix are the number of value bits of the store type, its decimal digits and 2.", "quantifier": "every fixed-point instantiation (store type, intermediate type, fraction width) the concepts accept and every value", "why_tests_cant": "a bound is a universally quantified statement", "anchors": ["include/eirin/fixed.hpp: numeric_limits", "include/eirin/math.hpp: max_value", "include/eirin/math.hpp: min_value"]}
{"id": "C25", "title": "Mathematical constants are correctly truncated", "statement": "each constant (pi, e, ln2, ln10, log2e, log10e, 1/pi, 1/sqrt(pi), sqrt2, sqrt3, 1/sqrt3, phi, pi/2, pi/4, 2pi) in fixed32 and fixed64 is within one ulp below the real number it names.", "quantifier": "every named constant, both predefined types (a real-number statement)", "why_tests_cant": "a test can only compare with another finite approximation", "anchors": ["include/eirin/numbers.hpp: pi_v ... phi_v", "include/eirin/fixed.hpp: pi, e, pi_2, pi_4, double_pi"]}
{"id": "C26", "title": "trunc", "statement": "trunc(x) is the integer nearest to x whose magnitude does not exceed |x| (toward zero), always defined.", "quantifier": "every fixed-point instantiation (store type, intermediate type, fraction width) the concepts accept and every value", "why_tests_cant": "the input space is 2^32 / 2^64 values (pairs: the square of that) for each of many instantiations; tests sample a handful of literals", "anchors": ["include/eirin/math.hpp: trunc"]}
{"id": "C27", "title": "floor", "statement": "floor(x) is the greatest integer not above x whenever that is representable.", "quantifier": "every fixed-point instantiation (store type, intermediate type, fraction width) the concepts accept and every value", "why_tests_cant": "the input space is 2^32 / 2^64 values (pairs: the square of that) for each of many instantiations; tests sample a handful of literals", "anchors": ["include/eirin/math.hpp: floor"]}
{"id": "C28", "title": "ceil", "statement": "ceil(x) is the least integer not below x whenever that is representable.", "quantifier": "every fixed-point instantiation (store type, intermediate type, fraction width) the concepts accept and every value", "why_tests_cant": "no test calls ceil", "anchors": ["include/eirin/math.hpp: ceil"]}
{"id": "C29", "title": "round", "statement": "round(x) is the nearest integer, ties away from zero, whenever that is representable.", "quantifier": "every fixed-point instantiation (store type, intermediate type, fraction width) the concepts accept and every value", "why_tests_cant": "the input space is 2^32 / 2^64 values (pairs: the square of that) for each of many instantiations; tests sample a handful of literals", "anchors": ["include/eirin/math.hpp: round"]}
{"id": "C30", "title": "modf splits a value", "statement": "modf(x, i) stores floor(x) in i and returns x - floor(x), which lies in [0,1), so that i + result = x.", "quantifier": "every fixed-point instantiation (store type, intermediate type, fraction width) the concepts accept and every value with representable floor", "why_tests_cant": "the input space is 2^32 / 2^64 values (pairs: the square of that) for each of many instantiations; tests sample a handful of literals", "anchors": ["include/eirin/math.hpp: modf"]}
{"id": "C31", "title": "fmod is a remainder", "statement": "fmod(a,b) differs from a by an integer multiple of b and lies in [0,b) for b > 0.", "quantifier": "every fixed-point instantiation (store type, intermediate type, fraction width) the concepts accept and all pairs of values", "why_tests_cant": "2^64 pairs", "anchors": ["include/eirin/math.hpp: fmod"]}
{"id": "C32", "title": "abs, min, max", "statement": "abs(x) is the magnitude (undefined only for the one value whose magnitude is not representable); min/max return the smaller/larger argument.", "quantifier": "every fixed-point instantiation (store type, intermediate type, fraction width) the concepts accept and all (pairs of) values", "why_tests_cant": "the input space is 2^32 / 2^64 values (pairs: the square of that) for each of many instantiations; tests sample a handful of literals", "anchors": ["include/eirin/math.hpp: abs", "include/eirin/math.hpp: min", "include/eirin/math.hpp: max"]}
{"id": "C33", "title": "fixed32 sqrt is correctly truncated", "statement": "for every non-negative fixed32 x, sqrt(x) is the largest fixed32 value whose square does not exceed x.", "quantifier": "all 2^31 non-negative fixed32 values", "why_tests_cant": "2^31 inputs and a two-branch bit algorithm with a data-dependent switch", "anchors": ["include/eirin/math.hpp: sqrt (int32_t branch)"]}
{"id": "C34", "title": "sqrt works for every 32-bit fraction width", "statement": "for every fixed_num over int32_t with any fraction width, sqrt(x)^2 is close to x.", "quantifier": "every fraction width 1..30 over int32_t, every non-negative value", "why_tests_cant": "the tests only use 16 fraction bits", "anchors": ["include/eirin/math.hpp: sqrt (int32_t branch)"]}
{"id": "C35", "title": "fixed64 sqrt is accurate", "statement": "for every positive fixed64 x the Newton iteration never divides by zero or overflows and the result r satisfies a stated bound on |r - sqrt(x)|.", "quantifier": "all 2^63 non-negative fixed64 values", "why_tests_cant": "2^63 inputs", "anchors": ["include/eirin/math.hpp: sqrt (generic branch)", "include/eirin/fixed.hpp: sqrt_init_table", "include/eirin/fixed.hpp: find_msb"]}
{"id": "C36", "title": "sqrt of a negative value is defined", "statement": "sqrt of a negative value never has undefined behaviour and returns -1.", "quantifier": "every negative value of fixed32 and fixed64", "why_tests_cant": "2^31 / 2^63 inputs", "anchors": ["include/eirin/math.hpp: sqrt"]}
{"id": "C37", "title": "cbrt never divides by zero and is accurate", "statement": "cbrt(x) is defined for every x and, when the iteration stops early, |r^3 - x| is below the stated tolerance.", "quantifier": "every value of fixed32 and fixed64", "why_tests_cant": "the failing inputs are sparse", "anchors": ["include/eirin/math.hpp: cbrt"]}
{"id": "C38", "title": "Integer powers", "statement": "pow(b,0)=1, pow(b,1)=b, pow(b,n) is exact whenever all intermediate squares of an integer base are representable; the loop terminates for every exponent.", "quantifier": "every fixed-point instantiation (store type, intermediate type, fraction width) the concepts accept and every base and every exponent of every integral type", "why_tests_cant": "exponent and base ranges cannot be enumerated", "anchors": ["include/eirin/math.hpp: pow(fixed, integral)"]}
{"id": "C39", "title": "Negative integer powers are defined", "statement": "pow(b,-n) never divides by zero for b != 0.", "quantifier": "every fixed-point instantiation (store type, intermediate type, fraction width) the concepts accept and every nonzero base and every negative exponent", "why_tests_cant": "depends on underflow of the repeated square", "anchors": ["include/eirin/math.hpp: pow(fixed, integral)"]}
{"id": "C40", "title": "log2 is accurate", "statement": "log2(x) is defined for every x > 0 and is within a stated number of ulps below the real logarithm; it throws domain_error exactly when x <= 0.", "quantifier": "every positive fixed32/fixed64 value (a real-number statement)", "why_tests_cant": "2^31 / 2^63 inputs against a transcendental function", "anchors": ["include/eirin/math.hpp: log2"]}
{"id": "C41", "title": "log and log10 are accurate", "statement": "log(x) and log10(x) are within a stated error of the real logarithms for every x > 0; they throw domain_error exactly when x <= 0.", "quantifier": "every positive fixed32/fixed64 value", "why_tests_cant": "2^31 / 2^63 inputs", "anchors": ["include/eirin/math.hpp: log", "include/eirin/math.hpp: log10"]}
{"id": "C42", "title": "exp is accurate", "statement": "exp(x) is within a stated error of the real exponential on the range where the result is representable; exp(0)=1; it is positive.", "quantifier": "every fixed32/fixed64 value in range", "why_tests_cant": "2^32 / 2^64 inputs", "anchors": ["include/eirin/math.hpp: exp", "include/eirin/math.hpp: detail::exp_expand"]}
{"id": "C43", "title": "exp never divides by zero", "statement": "exp(x) is declared noexcept and is defined for every x.", "quantifier": "every fixed32/fixed64 value", "why_tests_cant": "2^32 / 2^64 inputs", "anchors": ["include/eirin/math.hpp: exp"]}
{"id": "C44", "title": "pow with a fixed exponent", "statement": "pow(b,0)=1 for every b, pow(0,e)=0 for e != 0; for negative b with a fractional exponent the failure is reported.", "quantifier": "all pairs of values", "why_tests_cant": "2^64 pairs", "anchors": ["include/eirin/math.hpp: pow(fixed, fixed)"]}
{"id": "C45", "title": "sin is accurate", "statement": "|sin(x) - real sin| is within a stated bound for every x (the bound may grow with the number of periods).", "quantifier": "every fixed32/fixed64 value", "why_tests_cant": "2^32 / 2^64 inputs against a transcendental function", "anchors": ["include/eirin/math.hpp: sin"]}
{"id": "C46", "title": "sin is odd", "statement": "sin(-x) = -sin(x) up to the accuracy bound, also for tiny arguments.", "quantifier": "every fixed32/fixed64 value", "why_tests_cant": "the violating inputs are a handful next to zero", "anchors": ["include/eirin/math.hpp: sin"]}
{"id": "C47", "title": "sin and cos stay in [-1,1]", "statement": "|sin(x)| and |cos(x)| never exceed 1 by more than a stated number of ulps, and evaluation is always defined.", "quantifier": "every fixed32/fixed64 value", "why_tests_cant": "2^32 / 2^64 inputs", "anchors": ["include/eirin/math.hpp: sin", "include/eirin/math.hpp: cos"]}
{"id": "C48", "title": "cos is accurate", "statement": "|cos(x) - real cos| is within a stated bound; evaluation never overflows.", "quantifier": "every fixed32/fixed64 value", "why_tests_cant": "2^32 / 2^64 inputs", "anchors": ["include/eirin/math.hpp: cos"]}
{"id": "C49", "title": "tan reports its poles", "statement": "tan(x) throws domain_error exactly when the computed cosine is within one ulp of zero and otherwise is sin/cos.", "quantifier": "every fixed32/fixed64 value", "why_tests_cant": "2^32 / 2^64 inputs", "anchors": ["include/eirin/math.hpp: tan"]}
{"id": "C50", "title": "atan is accurate on [-1,1] and odd", "statement": "for |x| <= 1 atan(x) is within a stated bound of the real arctangent, and atan(-x) = -atan(x).", "quantifier": "every fixed32/fixed64 value in [-1,1]", "why_tests_cant": "2^17 / 2^33 inputs", "anchors": ["include/eirin/math.hpp: atan"]}
{"id": "C51", "title": "atan is accurate everywhere", "statement": "atan(x) is within 0.001 of the real arctangent for every x.", "quantifier": "every fixed32/fixed64 value", "why_tests_cant": "tests only use |x| <= 1", "anchors": ["include/eirin/math.hpp: atan"]}
{"id": "C52", "title": "asin/acos report their domain", "statement": "asin(x) and acos(x) throw domain_error exactly when |x| > 1, and never divide by zero on [-1,1]; asin(1), asin(-1), acos(1), acos(-1), acos(0) have the exact constant values.", "quantifier": "every fixed32/fixed64 value", "why_tests_cant": "2^32 / 2^64 inputs", "anchors": ["include/eirin/math.hpp: asin", "include/eirin/math.hpp: acos"]}
{"id": "C53", "title": "asin is accurate on [-1,1]", "statement": "asin(x) is within 0.001 of the real arcsine for every |x| <= 1.", "quantifier": "every fixed32/fixed64 value in [-1,1]", "why_tests_cant": "tests only use 0 and 0.5", "anchors": ["include/eirin/math.hpp: asin"]}
{"id": "C54", "title": "degrees/radians", "statement": "radians(d) and degrees(r) are within a stated number of ulps of the exact conversion whenever no intermediate result leaves the range.", "quantifier": "every fixed32/fixed64 value in range", "why_tests_cant": "2^32 / 2^64 inputs", "anchors": ["include/eirin/math.hpp: degrees", "include/eirin/math.hpp: radians"]}
{"id": "C55", "title": "hypot", "statement": "hypot(x,y) is the square root of the sum of squares: for fixed32 it is the exact truncated root of the (truncated) sum whenever the sum fits; it is symmetric and ignores signs up to the truncation of the squares; hypot(x,y,z) likewise.", "quantifier": "all pairs of fixed32 values with representable sum of squares", "why_tests_cant": "2^64 pairs", "anchors": ["include/eirin/math.hpp: hypot"]}
{"id": "C56", "title": "Stream output is exact in decimal", "statement": "os << x writes exactly the decimal expansion of the denoted value (no rounding), without superfluous zeros, for every value.", "quantifier": "every signed instantiation with 10*2^f representable, every value", "why_tests_cant": "the input space is 2^32 / 2^64 values (pairs: the square of that) for each of many instantiations; tests sample a handful of literals", "anchors": ["include/eirin/fixed.hpp: copy_as_chars_to", "include/eirin/fixed.hpp: operator<<"]}
{"id": "C57", "title": "Stream output is exact in bases 2, 8 and 16", "statement": "with oct/hex/no base flag set, os << x writes exactly the base-b expansion of the value.", "quantifier": "every signed instantiation, every value, every base", "why_tests_cant": "the input space is 2^32 / 2^64 values (pairs: the square of that) for each of many instantiations; tests sample a handful of literals", "anchors": ["include/eirin/fixed.hpp: copy_as_chars_to"]}
{"id": "C58", "title": "Stream output is injective", "statement": "two different values never print the same text.", "quantifier": "all pairs of values", "why_tests_cant": "pairs of 2^32 / 2^64 values", "anchors": ["include/eirin/fixed.hpp: copy_as_chars_to"]}
{"id": "C59", "title": "Stream output of unsigned types", "statement": "for unsigned store types os << x never writes a minus sign and writes the exact value.", "quantifier": "every unsigned instantiation, every value", "why_tests_cant": "a single value out of 2^32 is wrong", "anchors": ["include/eirin/fixed.hpp: copy_as_chars_to"]}
{"id": "C60", "title": "String literals and from_cstring are accurate", "statement": "for a well-formed decimal literal whose value is in range, the parsed value is never above in magnitude and at most 11 ulps below the denoted decimal.", "quantifier": "every decimal string with bounded digit counts, every instantiation", "why_tests_cant": "the set of strings is infinite", "anchors": ["include/eirin/fixed.hpp: detail::parse", "include/eirin/fixed.hpp: fixed_from_cstring", "include/eirin/fixed.hpp: f32_from_cstring"]}
{"id": "C61", "title": "Short decimal literals are truncated exactly", "statement": "if the fraction has few enough digits to be read completely, the parsed value is the exact decimal truncated toward zero; integers parse exactly.", "quantifier": "every decimal string with bounded digit counts", "why_tests_cant": "the set of strings is infinite", "anchors": ["include/eirin/fixed.hpp: detail::parse"]}
{"id": "C62", "title": "Malformed input is rejected and leaves the target unchanged", "statement": "detail::parse / f32_from_cstring return false on any string whose integer part contains a non-digit, and whenever they return false the target keeps its old value.", "quantifier": "every string", "why_tests_cant": "the set of strings is infinite", "anchors": ["include/eirin/fixed.hpp: detail::parse", "include/eirin/fixed.hpp: f32_from_cstring"]}
{"id": "C63", "title": "Every malformed string is rejected", "statement": "a string that is not [-]digits[.digits] is never accepted.", "quantifier": "every string", "why_tests_cant": "the set of strings is infinite", "anchors": ["include/eirin/fixed.hpp: detail::parse", "include/eirin/fixed.hpp: f32_from_cstring", "include/eirin/fixed.hpp: fixed_from_cstring"]}
{"id": "C64", "title": "Out-of-range literals are rejected", "statement": "a decimal whose value is not representable is rejected.", "quantifier": "every decimal string", "why_tests_cant": "the wrap only happens at very large inputs", "anchors": ["include/eirin/fixed.hpp: detail::parse (check overflow)"]}
{"id": "C65", "title": "Parsing never has undefined behaviour", "statement": "parsing any string is defined.", "quantifier": "every string", "why_tests_cant": "the set of strings is infinite", "anchors": ["include/eirin/fixed.hpp: detail::parse", "include/eirin/fixed.hpp: operator>>", "include/eirin/io/parse.hpp: parse"]}
{"id": "C66", "title": "Every printable value can be parsed back", "statement": "parsing the text that os << x writes succeeds and returns x up to 11 ulps (exactly for integers).", "quantifier": "every value", "why_tests_cant": "the input space is 2^32 / 2^64 values (pairs: the square of that) for each of many instantiations; tests sample a handful of literals", "anchors": ["include/eirin/fixed.hpp: copy_as_chars_to", "include/eirin/fixed.hpp: detail::parse"]}
{"id": "C67", "title": "The string parsers agree", "statement": "f32_from_cstring, fixed_from_cstring and the string literal give the same result on every well-formed string.", "quantifier": "every string", "why_tests_cant": "the set of strings is infinite", "anchors": ["include/eirin/fixed.hpp: detail::parse", "include/eirin/fixed.hpp: fixed_from_cstring", "include/eirin/fixed.hpp: f32_from_cstring"]}
{"id": "C68", "title": "Stream input is accurate", "statement": "is >> x reads a decimal and stores it to within 11 ulps, exactly like the string parsers.", "quantifier": "every stream content", "why_tests_cant": "the set of inputs is infinite; the failing ones need a digit pattern", "anchors": ["include/eirin/fixed.hpp: operator>>"]}
{"id": "C69", "title": "Stream input reads a sequence", "statement": "is >> x >> y on two numbers separated by white space stores both; on malformed input the stream reports failure.", "quantifier": "every stream content", "why_tests_cant": "state of the stream across calls", "anchors": ["include/eirin/fixed.hpp: operator>>"]}
{"id": "C70", "title": "Stream input consumes exactly the number", "statement": "is >> x consumes the longest prefix of the form [-]digits[.digits] (up to the digit cut-off) and leaves the rest.", "quantifier": "every stream content", "why_tests_cant": "the set of inputs is infinite", "anchors": ["include/eirin/fixed.hpp: operator>>"]}
{"id": "C71", "title": "io::parse stops at the terminator and reports failure through the returned pointer", "statement": "io::parse consumes up to the terminator character; on a non-digit it returns the start pointer and leaves the target unchanged.", "quantifier": "every string", "why_tests_cant": "the set of strings is infinite", "anchors": ["include/eirin/io/parse.hpp: parse"]}
{"id": "C72", "title": "std::format of the integer types d/x/X/o/b/B prints the truncated integer", "statement": "with a radix type the output is the sign followed by the integer part (toward zero) in that base.", "quantifier": "every value, every radix type", "why_tests_cant": "the input space is 2^32 / 2^64 values (pairs: the square of that) for each of many instantiations; tests sample a handful of literals", "anchors": ["include/eirin/io/format.hpp: format_to", "include/eirin/io/format.hpp: int_to_string"]}
{"id": "C73", "title": "std::format of g/f prints the truncated decimal", "statement": "without radix type the output is the decimal expansion of x truncated to the requested precision (default 6).", "quantifier": "every value, every precision", "why_tests_cant": "the tests use no negative fraction", "anchors": ["include/eirin/io/format.hpp: format_to"]}
{"id": "C74", "title": "std::format debug output shows the raw value", "statement": "{:?} writes the signed raw value in hexadecimal, exactly, for every value including the minimum.", "quantifier": "every value", "why_tests_cant": "the input space is 2^32 / 2^64 values (pairs: the square of that) for each of many instantiations; tests sample a handful of literals", "anchors": ["include/eirin/io/format.hpp: format_debug_to"]}
{"id": "C75", "title": "std::format honours the width", "statement": "the output has exactly max(width, natural length) characters and contains the natural text, with the fill on the side selected by the alignment (the character '0' with zero padding); with zero padding of the radix types the zeros are inserted between the prefix and the digits.", "quantifier": "every value and format state", "why_tests_cant": "product of all states and values", "anchors": ["include/eirin/io/format.hpp: output_aligned"]}
{"id": "C76", "title": "Format specifications are parsed as documented", "statement": "parsing the canonical rendering of a specification gives back that specification and stops at the closing brace.", "quantifier": "every fill, alignment, sign, #, 0, width, precision, type combination", "why_tests_cant": "product of all fields", "anchors": ["include/eirin/io/format.hpp: formatter::parse"]}
{"id": "C77", "title": "An empty specification is empty", "statement": "for the replacement field {} the default specification is used and nothing after the closing brace is consumed.", "quantifier": "every continuation of the format string", "why_tests_cant": "depends on the character after the brace", "anchors": ["include/eirin/io/format.hpp: formatter::parse"]}
{"id": "C78", "title": "Unknown format types are rejected", "statement": "a specification ending in an unknown type character raises format_error.", "quantifier": "every character", "why_tests_cant": "256 characters times all prefixes", "anchors": ["include/eirin/io/format.hpp: formatter::parse"]}
{"id": "C79", "title": "The random engine is portable", "statement": "drawing from pcg2014/pcg2014_64 is defined and gives the same sequence on every platform.", "quantifier": "every seed and state", "why_tests_cant": "undefined shifts give different values on different machines; a test on one machine cannot see it", "anchors": ["include/eirin/random.hpp: permuted_congruential_engine::generate"]}
{"id": "C80", "title": "discard(n) equals n draws", "statement": "discard(n) leaves the engine in the same state as n draws.", "quantifier": "every seed, state and n", "why_tests_cant": "unbounded n", "anchors": ["include/eirin/random.hpp: discard", "include/eirin/random.hpp: operator()"]}
{"id": "C81", "title": "Engine equality predicts the future", "statement": "engines compare equal iff seed and state agree, and equal engines produce the same draws forever.", "quantifier": "all pairs of engines and draw counts", "why_tests_cant": "unbounded histories", "anchors": ["include/eirin/random.hpp: operator=="]}
{"id": "C82", "title": "Reseeding restarts the sequence", "statement": "seed(s) puts the engine in the same state as a newly constructed engine with seed s.", "quantifier": "every history of draws before the reseed", "why_tests_cant": "depends on the whole history", "anchors": ["include/eirin/random.hpp: seed"]}
{"id": "C83", "title": "Distribution results stay in range", "statement": "a draw from the distribution adapter lies in [a,b] when the underlying integer type can hold the raw values (narrower underlying types: C85).", "quantifier": "every a <= b, every generator, every history of param() calls", "why_tests_cant": "unbounded histories and generators", "anchors": ["include/eirin/detail/distribution.hpp: operator()", "include/eirin/detail/distribution.hpp: param"]}
{"id": "C84", "title": "A one-off parameter is honoured", "statement": "dist(g, p) draws from [p.a, p.b].", "quantifier": "every parameter and generator", "why_tests_cant": "the tests never pass a parameter", "anchors": ["include/eirin/detail/distribution.hpp: operator()(g, param)"]}
{"id": "C85", "title": "The default distribution is usable with the documented underlying distribution", "statement": "fixed_int_distribution_adapter<fixed64, std::uniform_int_distribution<>> has a valid underlying range.", "quantifier": "the default-constructed adapter", "why_tests_cant": "the violated precondition is undefined behaviour, invisible to an assertion-free test", "anchors": ["include/eirin/detail/distribution.hpp: fixed_int_distribution_adapter()"]}
{"id": "C86", "title": "CORDIC sine is accurate for non-negative angles", "statement": "|cordic_sine(x) - sin(x)| is within a stated bound for every x >= 0.", "quantifier": "every non-negative fixed32/fixed64 value", "why_tests_cant": "2^31 / 2^63 inputs", "anchors": ["include/eirin/ext/cordic.hpp: cordic", "include/eirin/ext/cordic.hpp: cordic_optimize_angel"]}
{"id": "C87", "title": "CORDIC sine is odd", "statement": "cordic_sine(-x) = -cordic_sine(x).", "quantifier": "every value", "why_tests_cant": "no test uses a negative angle", "anchors": ["include/eirin/ext/cordic.hpp: cordic_optimize_angel"]}
{"id": "C88", "title": "The SIMD multiply agrees with the scalar one", "statement": "the lane-wise multiply computes the sign-symmetric truncation of the exact product for every in-range pair; the AVX-512 variant gives the same result.", "quantifier": "all pairs of 64-bit lanes", "why_tests_cant": "2^128 pairs and two build configurations", "anchors": ["include/eirin/ext/simd_math.hpp: avx_mm256_mullo_epi64"]}
{"id": "C89", "title": "SIMD angle reduction", "statement": "simd_reduce_angle returns for every lane an angle congruent to the input modulo 2*pi (up to the stated error) and smaller than 2*pi in magnitude, lane order preserved; simd_reduce_angle_2 does the same for two lanes.", "quantifier": "all lane values in range", "why_tests_cant": "2^64 values per lane", "anchors": ["include/eirin/ext/simd_math.hpp: simd_reduce_angle", "include/eirin/ext/simd_math.hpp: simd_reduce_angle_2"]}
{"id": "C90", "title": "ext::int128 addition", "statement": "ext::int128 addition is addition modulo 2^128 and conversion from a negative integer keeps its value.", "quantifier": "all values", "why_tests_cant": "2^256 pairs", "anchors": ["include/eirin/ext/builtin_ints.hpp: int128::operator+", "include/eirin/ext/builtin_ints.hpp: int128(T)"]}
{"id": "C91", "title": "BBP computation of pi converges", "statement": "bbp_calc_pi<int64_t,61,N>() approaches pi*2^61 as N grows.", "quantifier": "every N", "why_tests_cant": "the limit is a statement about all N", "anchors": ["include/eirin/detail/util.hpp: bbp_calc_pi"]}
{"id": "C92", "title": "eval_value computes the truncated representation", "statement": "eval_value(v, f) is v*2^f truncated, for every non-negative dyadic v in range.", "quantifier": "every double v >= 0 and every fraction", "why_tests_cant": "2^62 inputs", "anchors": ["include/eirin/detail/util.hpp: eval_value"]}
{"id": "C93", "title": "measure_esp reports true extrema", "statement": "measure_esp returns the largest and smallest observed error over the visited grid, attained at the reported inputs.", "quantifier": "every function pair, start, end, step", "why_tests_cant": "arbitrary functions and grids", "anchors": ["include/eirin/detail/perf.hpp: measure_esp"]}
{"id": "C94", "title": "Formatting a negative non-integer", "statement": "for x < 0 the formatted magnitude is the integer part rounded up (radix types) and |x| + 1 truncated (g, f) - the observable consequence of integral_part returning ceil|x|.", "quantifier": "every negative value that is not next to the minimum, every format state", "why_tests_cant": "no test formats a negative non-integer", "anchors": ["include/eirin/io/format.hpp: format_to", "include/eirin/fixed.hpp: integral_part"]}
{"id": "C95", "title": "Formatting near the minimum is undefined", "statement": "for signed store types of at least 32 bits every format type except '?' overflows in integral_part for x < min + 1.", "quantifier": "every value in [min, min+1), every format state", "why_tests_cant": "undefined behaviour is not observable by a test", "anchors": ["include/eirin/io/format.hpp: format_to", "include/eirin/fixed.hpp: integral_part"]}
{"id": "C96", "title": "Zero padding of decimals goes between sign and digits", "statement": "{:0w} of a negative decimal puts the zeros after the sign, as the standard formatters do.", "quantifier": "every value, width and alignment", "why_tests_cant": "widths and values unbounded", "anchors": ["include/eirin/io/format.hpp: output_aligned"]}
{"id": "C97", "title": "Width and precision overflow", "statement": "a width or precision above INT_MAX in a format specification overflows int while parsing.", "quantifier": "every digit string denoting a number above 2147483647", "why_tests_cant": "unbounded digit strings; undefined behaviour is not observable", "anchors": ["include/eirin/io/format.hpp: parse"]}
{"id": "C98", "title": "Fill ':' is lost", "statement": "a specification with fill character ':' is parsed as if no fill were given.", "quantifier": "every specification with fill ':'", "why_tests_cant": "specifications x continuations are unbounded", "anchors": ["include/eirin/io/format.hpp: parse"]}
{"id": "C99", "title": "A brace before an alignment character is swallowed", "statement": "when the text after an empty replacement field starts with '<', '>' or '^', the closing brace is taken as the fill character and the specification continues in the text.", "quantifier": "every continuation", "why_tests_cant": "unbounded continuations", "anchors": ["include/eirin/io/format.hpp: parse"]}
{"id": "C100", "title": "All seeds run through one cycle", "statement": "for an odd multiplier every seed gives the same cyclic sequence: the sequence of seed s2 is the sequence of seed s1 after discarding some k draws.", "quantifier": "every pair of seeds, every engine with an odd multiplier, every platform behaviour of oversized shifts", "why_tests_cant": "pairs of 64-bit seeds and unbounded sequences", "anchors": ["include/eirin/random.hpp: generate", "include/eirin/random.hpp: discard"]}
{"id": "C101", "title": "The state repeats after 2^width draws", "statement": "after 2^width draws the engine is back in the state it started from.", "quantifier": "every engine, seed and state", "why_tests_cant": "2^32 or 2^64 draws", "anchors": ["include/eirin/random.hpp: generate"]}
{"id": "C102", "title": "Draws cover the advertised range", "statement": "every value in [min(), max()] can be drawn, as a uniform random bit generator must be able to.", "quantifier": "every state", "why_tests_cant": "a test cannot show that a value never occurs", "anchors": ["include/eirin/random.hpp: generate", "include/eirin/random.hpp: max"]}
{"id": "C103", "title": "The fixed-point engine adapter returns the engine's bits", "statement": "a draw of fixed_random_engine_adapter is the engine's draw converted to the store type; with pcg2014 and pcg2014_64 it is never negative.", "quantifier": "every engine, state and fixed-point type", "why_tests_cant": "all states", "anchors": ["include/eirin/random.hpp: fixed_random_engine_adapter::operator()"]}
{"id": "C104", "title": "The streamed form identifies the engine", "statement": "two engines with the same operator<< text compare equal.", "quantifier": "all pairs of engines", "why_tests_cant": "all pairs", "anchors": ["include/eirin/random.hpp: operator<<"]}
{"id": "C105", "title": "ext::int128 round trip", "statement": "converting any int64_t to ext::int128 and back gives the same value.", "quantifier": "every int64_t", "why_tests_cant": "2^64 values", "anchors": ["include/eirin/ext/builtin_ints.hpp: int128(T)", "include/eirin/ext/builtin_ints.hpp: operator int64_t"]}
{"id": "C106", "title": "ext::int128 to int64_t saturates", "statement": "conversion to int64_t clamps the 128-bit value to the int64_t range.", "quantifier": "every 128-bit value", "why_tests_cant": "2^128 values", "anchors": ["include/eirin/ext/builtin_ints.hpp: operator int64_t"]}
{"id": "C107", "title": "SIMD integer part truncates", "statement": "_mm256_fpint_epi64 removes the fraction toward zero in every lane, including the minimum.", "quantifier": "every lane value", "why_tests_cant": "2^64 values", "anchors": ["include/eirin/ext/simd_math.hpp: _mm256_fpint_epi64"]}
{"id": "C108", "title": "CORDIC cosine is accurate for non-negative angles", "statement": "the cosine branch of detail::cordic is within a stated bound of cos(x) for every x >= 0.", "quantifier": "every non-negative fixed32/fixed64 value", "why_tests_cant": "2^31 / 2^63 inputs; the branch has no public function and no test", "anchors": ["include/eirin/ext/cordic.hpp: cordic"]}
{"id": "C109", "title": "CORDIC sine of zero is zero", "statement": "cordic_sine(0) = 0.", "quantifier": "both fixed-point types", "why_tests_cant": "the tests compare with a tolerance", "anchors": ["include/eirin/ext/cordic.hpp: cordic"]}
{"id": "C110", "title": "eval_value of a negative constant", "statement": "for v < 0 eval_value(v, f) is trunc(v)*2^f: the fraction is dropped.", "quantifier": "every negative double in range and every fraction", "why_tests_cant": "2^62 inputs; only positive constants are ever printed", "anchors": ["include/eirin/detail/util.hpp: eval_value"]}
{"id": "C111", "title": "measure_esp terminates exactly for a positive step and an end it can step past", "statement": "with step > 0, stop + step representable and all errors representable the measurement returns; with step <= 0 or stop = max it never returns normally.", "quantifier": "every function pair and grid", "why_tests_cant": "non-termination and overflow cannot be observed by a finite test", "anchors": ["include/eirin/detail/perf.hpp: measure_esp"]}
{"id": "C112", "title": "angels_lut holds the multiples of pi/N", "statement": "entry i of angels_lut<N>() is at most i*pi/N and misses it by less than (i+1) ulp.", "quantifier": "every N below 2^31 and every index", "why_tests_cant": "the table size is a template parameter", "anchors": ["include/eirin/detail/util.hpp: angels_lut"]}
{"id": "C113", "title": "Table sine is accurate", "statement": "lut_calc_sin<512>(x) is within 0.01 of sin(x).", "quantifier": "every fixed64 value and every conforming std::sin", "why_tests_cant": "2^64 inputs; the function is never called by the tests", "anchors": ["include/eirin/detail/util.hpp: lut_calc_sin", "include/eirin/detail/util.hpp: __sin"]}
{"id": "C114", "title": "cbrt of moderate non-negative values is accurate", "statement": "for 0 <= x < 94 fixed32 cbrt is defined and either r^3 is within 15 ulp of x or r is within one ulp of the real cube root; for 0 <= x <= 3868 fixed64 cbrt is defined and r^3 is within 655376 ulp (0.00016) of x.", "quantifier": "every fixed32 value in [0,94) and every fixed64 value in [0,3868]", "why_tests_cant": "6 million / 2^44 inputs, and the iteration may run to its limit without meeting the stopping test", "anchors": ["include/eirin/math.hpp: cbrt"]}
{"id": "C115", "title": "asin and acos are accurate up to 0.7", "statement": "for |x| <= 0.7 asin(x) and acos(x) are defined and within 5e-4 (asin, fixed32), 3.5e-4 (asin, fixed64), 5.2e-4 (acos, fixed32), 3.6e-4 (acos, fixed64) of the true value.", "quantifier": "every fixed32 and fixed64 value of [-0.7, 0.7]", "why_tests_cant": "6e9 fixed64 inputs; the test uses a handful", "anchors": ["include/eirin/math.hpp: asin", "include/eirin/math.hpp: acos"]}
{"id": "C116", "title": "Sums are exact and do not depend on the order", "statement": "accumulating any list with operator+= gives the exact rational sum whenever every partial sum is representable, and two orders of the same list that are both defined give the same value.", "quantifier": "every store type, fraction, list and start value", "why_tests_cant": "the claim is by induction on a list of any length", "anchors": ["include/eirin/fixed.hpp: operator+="]}
{"id": "C117", "title": "Dot products lose at most one ulp per product", "statement": "accumulating the products of any list of pairs gives a value not above the exact dot product and below it by at most one ulp per pair, whenever the magnitudes sum within range.", "quantifier": "every non-rounding store type, fraction and list of pairs", "why_tests_cant": "lists of any length", "anchors": ["include/eirin/fixed.hpp: operator*", "include/eirin/fixed.hpp: operator+="]}
{"id": "C118", "title": "Horner's rule loses at most one ulp per step on [-1,1]", "statement": "evaluating a polynomial of degree n by Horner's rule at |x| <= 1 is within n ulp of the exact value, whenever the magnitudes of the coefficients sum within range.", "quantifier": "every non-rounding store type, fraction, degree, coefficient list and |x| <= 1", "why_tests_cant": "degrees and coefficients are unbounded", "anchors": ["include/eirin/fixed.hpp: operator*", "include/eirin/fixed.hpp: operator+"]}
{"id": "C119", "title": "Integer powers are accurate", "statement": "pow(b, n) is within n ulp of b^n for |b| <= 1 and n >= 0, and for b >= 1 with b^n in range is not above b^n and below it by at most n*b^(n-1) ulp.", "quantifier": "every non-rounding store type and fraction, every base and exponent of any integer type", "why_tests_cant": "a test samples a few bases and exponents", "anchors": ["include/eirin/math.hpp: pow(fixed_num, Integer)"]}
{"id": "C120", "title": "sin^2 + cos^2 is 1", "statement": "computing sin(x)*sin(x) + cos(x)*cos(x) with the operators is defined and within (56 + 0.42|x|) ulp of 1 for fixed32, and within 9.1e-4 + 0.022|x| ulp for fixed64.", "quantifier": "every fixed32 and fixed64 value except the least", "why_tests_cant": "2^32 / 2^64 inputs", "anchors": ["include/eirin/math.hpp: sin", "include/eirin/math.hpp: cos"]}
{"id": "C121", "title": "tan is accurate away from its poles", "statement": "where |cos x| is at least (144 + 1.12|x|) ulp (fixed32) or 1.6e-4 + 0.06|x| ulp (fixed64, x not in (-1.5e-4,0)), tan(x) is defined, does not overflow and is within (30 + 0.23|x|)/cos^2 x + 1 ulp (fixed32) or (6.1e-6 + 0.0121|x| ulp)/cos^2 x (fixed64) of the true tangent.", "quantifier": "every value except the least, meeting the stated distance from the poles", "why_tests_cant": "2^32 / 2^64 inputs", "anchors": ["include/eirin/math.hpp: tan"]}
{"id": "C122", "title": "log2 is exact at powers of two and respects doubling", "statement": "log2(2^k) = k exactly for every representable 2^k, and log2(2x) = log2(x) + 1 exactly whenever 2x is representable.", "quantifier": "every positive fixed32 and fixed64 value", "why_tests_cant": "2^31 / 2^63 inputs", "anchors": ["include/eirin/math.hpp: log2"]}
{"id": "C123", "title": "Logarithms are monotone", "statement": "for 0 < x <= y, log2(x) <= log2(y), log(x) <= log(y) and log10(x) <= log10(y).", "quantifier": "all pairs of positive fixed32 or fixed64 values", "why_tests_cant": "2^62 / 2^126 pairs", "anchors": ["include/eirin/math.hpp: log2", "include/eirin/math.hpp: log", "include/eirin/math.hpp: log10"]}
{"id": "C124", "title": "Multiplication and division respect the order", "statement": "for x <= y and z >= 0, x*z <= y*z; for z <= 0 the reverse; x/z <= y/z for z > 0 and the reverse for z < 0; for 0 <= x and 0 < y <= z, 0 <= x/z <= x/y, whenever the exact results are in range.", "quantifier": "every non-rounding store type and fraction, every triple of values with in-range results", "why_tests_cant": "triples of values of every width", "anchors": ["include/eirin/fixed.hpp: operator*", "include/eirin/fixed.hpp: operator/"]}
{"id": "C125", "title": "Dividing and multiplying by the same number recovers the value", "statement": "(x/y)*y is within (|y|+1) ulp of x, and (x*y)/y within (1/|y|+1) ulp of x, whenever the intermediate results are in range.", "quantifier": "every non-rounding store type and fraction, every pair with in-range results", "why_tests_cant": "pairs of values of every width", "anchors": ["include/eirin/fixed.hpp: operator*", "include/eirin/fixed.hpp: operator/"]}
{"id": "C126", "title": "When a product or quotient vanishes", "statement": "x*y is zero exactly when 0 <= xy < 1 ulp and negative exactly when xy < 0; x/y is zero exactly when |x/y| < 1 ulp.", "quantifier": "every non-rounding store type and fraction, every pair with an in-range result", "why_tests_cant": "pairs of values of every width", "anchors": ["include/eirin/fixed.hpp: operator*", "include/eirin/fixed.hpp: operator/"]}
{"id": "C127", "title": "Square roots invert squares", "statement": "for fixed32: sqrt is monotone; sqrt(r*r) = r when r*r is exact; sqrt(x)*sqrt(x) is at most x and below it by at most 2 sqrt(x) ulp + 1 ulp + 1 ulp^2; sqrt(x*x) is at most |x| and its successor's square exceeds x^2 - 1 ulp.", "quantifier": "every non-negative fixed32 value (and every value whose square is in range)", "why_tests_cant": "2^31 inputs, 2^62 pairs", "anchors": ["include/eirin/math.hpp: sqrt", "include/eirin/fixed.hpp: operator*"]}
{"id": "C128", "title": "hypot is monotone and obeys the triangle inequality", "statement": "for fixed32: hypot does not decrease when a leg grows in magnitude; its square is at most x^2+y^2, that of its successor exceeds x^2+y^2-2 ulp, and it is at most |x|+|y|.", "quantifier": "all fixed32 pairs with x^2+y^2 in range", "why_tests_cant": "2^64 pairs", "anchors": ["include/eirin/math.hpp: hypot"]}
{"id": "C129", "title": "Angle conversions invert each other", "statement": "radians(degrees(x)) is within 8.15 ulp + 4.21e-6|x| of x (fixed32; 8.01e-11|x| for fixed64), degrees(radians(x)) within 466.5 ulp + 4.21e-6|x|.", "quantifier": "every value whose conversion is in range", "why_tests_cant": "2^32 / 2^64 inputs", "anchors": ["include/eirin/math.hpp: degrees", "include/eirin/math.hpp: radians"]}
{"id": "C130", "title": "std::format at full precision prints what operator<< prints", "statement": "with type g, no width and a precision of at least the number of fraction bits, format gives the same text as the stream inserter in decimal.", "quantifier": "every value of every signed store type with room for decimal digits", "why_tests_cant": "the two printers share no code; 2^32 / 2^64 inputs", "anchors": ["include/eirin/io/format.hpp: format_to", "include/eirin/fixed.hpp: operator<<"]}
{"id": "C131", "title": "An integer divided by, or reduced modulo, a fixed-point value", "statement": "n/x is the exact quotient truncated toward zero (modulo the store width), undefined exactly when x is zero; n%x is exact: n = k*x + n%x for an integer k, |n%x| < |x|, with the sign of n.", "quantifier": "every store type and fraction, every value x and every representable integer n of any integral type", "why_tests_cant": "pairs of values of every width; the operators with the integer on the left are not tested", "anchors": ["include/eirin/fixed.hpp: free operator/(integral, fixed_num)", "include/eirin/fixed.hpp: free operator%(integral, fixed_num)"]}
{"id": "C132", "title": "Compound assignments are alias-safe and touch only their object", "statement": "after a op= b the object a holds a op b computed from the values before, also when a and b are the same object, and no other object changed; if the operation is undefined or throws nothing was written; ++ and -- likewise.", "quantifier": "every store type, every memory and every pair of references", "why_tests_cant": "aliased calls and the state after a failure are not tested", "anchors": ["include/eirin/fixed.hpp: operator+=", "include/eirin/fixed.hpp: operator-=", "include/eirin/fixed.hpp: operator*=", "include/eirin/fixed.hpp: operator/=", "include/eirin/fixed.hpp: operator%=", "include/eirin/fixed.hpp: operator++", "include/eirin/fixed.hpp: operator--"]}
{"id": "C133", "title": "Prefix increments chain", "statement": "++(++x) leaves x two larger, as (x += 1) += 1 does.", "quantifier": "every store type and every value with x+2 representable", "why_tests_cant": "the tests only increment once per expression", "anchors": ["include/eirin/fixed.hpp: operator++", "include/eirin/fixed.hpp: operator+=(std::integral)"]}
{"id": "C134", "title": "A numeric fixed64 literal means its C++ value", "statement": "42_f64, 0x1F_f64, 0b101_f64, 017_f64, 1'000_f64 and 1.5e3_f64 have the value of the same literal without the suffix.", "quantifier": "every spelling of an integer literal up to 38 characters; decimal floating literals with an exponent", "why_tests_cant": "there are unboundedly many spellings; the tests only use plain decimals", "anchors": ["include/eirin/fixed.hpp: literals::operator\"\"_f64", "include/eirin/fixed.hpp: literals::operator\"\"_f32", "include/eirin/fixed.hpp: detail::parse"]}
{"id": "C135", "title": "Table sine changes sign after half a turn", "statement": "lut_calc_sin<N>(x + pi) = -lut_calc_sin<N>(x) exactly, pi being the stored constant; the result exists and is at most 1.01 in magnitude.", "quantifier": "every fixed64 angle x >= 0 with x + pi representable, every table size from 5 to 4096, every conforming std::sin", "why_tests_cant": "2^63 inputs; the function is never called by the tests", "anchors": ["include/eirin/detail/util.hpp: lut_calc_sin"]}
{"id": "C136", "title": "Table sine is odd", "statement": "lut_calc_sin<512>(-x) = -lut_calc_sin<512>(x), and is within 0.01 of sin(-x).", "quantifier": "every fixed64 angle x > 0", "why_tests_cant": "2^63 inputs; the function is never called by the tests", "anchors": ["include/eirin/detail/util.hpp: lut_calc_sin", "include/eirin/fixed.hpp: integral_part"]}
{"id": "C137", "title": "Construction from a floating value is defined exactly for finite values that fit", "statement": "with rounding=false, fixed(v) is defined exactly when v is finite and strictly between (smallest value - 1 ulp) and (largest value + 1 ulp); for every other argument, NaN and the infinities included, the behaviour is undefined.", "quantifier": "every precision of the floating type, every configuration with rounding=false, every finite value; NaN", "why_tests_cant": "doubles are too many, and an out-of-range conversion returns some value on the tested machine", "anchors": ["include/eirin/fixed.hpp: fixed_num(T) for floating T"]}
{"id": "C138", "title": "The cast to a floating type rounds once", "statement": "static_cast<T>(x) is a number of T closest to the integer it converts (the truncated value of x), exactly that integer when T has enough bits, and whole values survive the round trip through T.", "quantifier": "every raw value, every configuration, every precision", "why_tests_cant": "ties and the 24- and 53-bit limits are a thin set among 2^64 values", "anchors": ["include/eirin/fixed.hpp: operator T for floating T"]}
{"id": "C139", "title": "Construction from a floating value does not depend on the intermediate type", "statement": "with a class as intermediate type (std::_Signed128 of MSVC) fixed(v) is the value it is with a built-in intermediate type: v*2^f truncated toward zero.", "quantifier": "every finite argument whose truncated value is representable", "why_tests_cant": "the branch is compiled on one platform only", "anchors": ["include/eirin/fixed.hpp: fixed_num(T) for floating T, is_class_v branch", "include/eirin/detail/int128.hpp: int128_t"]}
{"id": "C140", "title": "A distribution rebuilt from its parameters is the same distribution", "statement": "constructing a distribution from the parameters of another one (by constructor or by param()) gives an equal distribution that draws the same values from the same generator.", "quantifier": "every store type, bounds, sampling function and generator state", "why_tests_cant": "quantifies over generators", "anchors": ["include/eirin/detail/distribution.hpp: param_type constructors", "include/eirin/detail/distribution.hpp: param"]}
{"id": "C141", "title": "A wide stream is read like a narrow one", "statement": "operator>> on std::wistream gives the value, the consumed characters and the state bits it gives for the same text on std::istream, and a character that is not part of the number ends it.", "quantifier": "every text, every state of the stream, every store type", "why_tests_cant": "the tests read narrow ASCII streams only", "anchors": ["include/eirin/fixed.hpp: operator>>(basic_istream<CharT>)"]}
{"id": "C142", "title": "get_input returns the value the named file gives the key", "statement": "after any earlier requests get_input(input, key) is the text after '=' in the last line of that file that starts with key=, and \"0\" if it has no such line or cannot be opened.", "quantifier": "every file system, every history of requests, every key", "why_tests_cant": "the benchmark asks for a handful of keys with distinct names", "anchors": ["benchmark/bench.cpp: get_input"]}
{"id": "C143", "title": "Asking get_input again gives the same answer", "statement": "two requests for the same file and key in a row give the same answer, whatever happened before and whatever happens to the file in between.", "quantifier": "every file system, every history of requests, every key", "why_tests_cant": "needs a history of requests over several files", "anchors": ["benchmark/bench.cpp: get_input"]}
{"id": "C144", "title": "Feature queries report the processor's features", "statement": "platform_support::supports_* answers yes exactly when the processor has the feature, however many queries were made before.", "quantifier": "every processor (contents of the CPUID leaves), every sequence of queries", "why_tests_cant": "a test machine has one processor", "anchors": ["include/eirin/ext/simd_math.hpp: platform_support"]}
{"id": "C145", "title": "Feature queries may first be made by several threads at once", "statement": "the answers are right when several threads make their first query at the same time.", "quantifier": "any number of threads, every interleaving of the accesses, every processor", "why_tests_cant": "the window is a few instructions wide", "anchors": ["include/eirin/ext/simd_math.hpp: platform_support::detect_features"]}
{"id": "C146", "title": "print_constants prints right definitions", "statement": "print_constants<f>() prints, for each of the eleven constants, a function definition whose value is the constant to f fraction bits and the precision of double.", "quantifier": "every number of fraction bits from 0 to 61, long double with 53, 64 or 113 bits", "why_tests_cant": "the output is text that is pasted by hand; only one instance was ever used", "anchors": ["include/eirin/detail/util.hpp: print_constants", "include/eirin/numbers.hpp"]}
{"id": "C147", "title": "The accuracy tester reports the errors of the function under test", "statement": "the maximum and average absolute and relative errors reported for a sub-interval are those of the values of the function at the test points against the reference values.", "quantifier": "every function under test, every non-empty list of test points and reference values", "why_tests_cant": "the program is itself the test; its reports are read, not checked", "anchors": ["benchmark/bench_accuracy.cpp: SinAccuracyTester::test_subinterval", "include/eirin/fixed.hpp: operator T for floating T"]}
{"id": "C148", "title": "Labels of bounds are reduced multiples of pi", "statement": "a bound within 1e-10 of n*pi/d, 1 <= n,d <= 6, is labelled with that fraction in lowest terms, and no other bound is labelled with a fraction; the loop over multiples of 2 pi never finds anything.", "quantifier": "every real value", "why_tests_cant": "a continuum of values", "anchors": ["benchmark/bench_accuracy.cpp: generate_label"]}
{"id": "C149", "title": "The sub-intervals tile the whole range", "statement": "for a positive size the loop ends, and the sub-intervals follow one another without a gap from the start to within 1e-10 of the end.", "quantifier": "every start, end and positive size, every rounding of the addition that makes at least half the step", "why_tests_cant": "loops of any length", "anchors": ["benchmark/bench_accuracy.cpp: SinAccuracyTester::run_tests"]}
{"id": "C150", "title": "Every sub-interval is tested at its key points", "statement": "the test points are the random points followed by points at least 1e-10 apart, inside the sub-interval up to 1e-10, and within 1e-10 of both ends, the quarter points and each special angle of the sub-interval.", "quantifier": "every sub-interval, every list of random points and of special angles", "why_tests_cant": "lists of any length; merging neighbours is not transitive", "anchors": ["benchmark/bench_accuracy.cpp: generate_test_points"]}
{"id": "C151", "title": "sin, cos and tan repeat after a full turn", "statement": "sin(x + k*2pi) = sin(x), cos(x + k*2pi) = cos(x) and tan(x + k*2pi) = tan(x), 2pi being the stored constant.", "quantifier": "every argument and every whole number k of turns with x + k*2pi representable", "why_tests_cant": "pairs of arguments; the tests stay within one turn", "anchors": ["include/eirin/math.hpp: sin", "include/eirin/math.hpp: cos", "include/eirin/math.hpp: tan"]}
{"id": "C152", "title": "cos is even", "statement": "cos(-x) = cos(x).", "quantifier": "every fixed32 and fixed64 value but the smallest", "why_tests_cant": "2^32 / 2^64 inputs; the two signs take different branches", "anchors": ["include/eirin/math.hpp: cos"]}
{"id": "C153", "title": "tan is odd", "statement": "tan(-x) = -tan(x).", "quantifier": "every fixed32 and fixed64 value but the smallest", "why_tests_cant": "2^32 / 2^64 inputs; the two signs take different branches", "anchors": ["include/eirin/math.hpp: tan"]}
{"id": "C154", "title": "asin is odd and acos its complement", "statement": "asin(-x) = -asin(x) and acos(x) = pi/2 - asin(x), acos(-x) = pi/2 + asin(x), exactly, pi/2 being the stored constant.", "quantifier": "every fixed32 and fixed64 argument in [-1, 1]", "why_tests_cant": "2^17 / 2^33 inputs", "anchors": ["include/eirin/math.hpp: asin", "include/eirin/math.hpp: acos"]}
{"id": "C155", "title": "exp never decreases", "statement": "x <= y implies exp(x) <= exp(y).", "quantifier": "all pairs of values with exp|x| and exp|y| in range", "why_tests_cant": "2^64 pairs", "anchors": ["include/eirin/math.hpp: exp"]}
{"id": "C156", "title": "exp(-x) is the reciprocal of exp(x)", "statement": "exp(-x) is 1/exp(x), for the value exp(x) computed, cut off to a multiple of the ulp.", "quantifier": "every fixed32 and fixed64 value x > 0 with exp(x) in range", "why_tests_cant": "every input", "anchors": ["include/eirin/math.hpp: exp"]}
{"id": "C157", "title": "pow with a fixed-point exponent approximates the real power", "statement": "pow(b, e) is close to b^e.", "quantifier": "every base b > 0 with 1/b representable and exponent e >= 0 with b^e representable", "why_tests_cant": "2^64 / 2^128 pairs", "anchors": ["include/eirin/math.hpp: pow(fixed_num, fixed_num)", "include/eirin/math.hpp: exp", "include/eirin/math.hpp: log"]}
{"id": "C158", "title": "exp and log undo each other", "statement": "log(exp(x)) is close to x and exp(log(x)) is close to x.", "quantifier": "every x >= 0 with exp(x) in range; every x > 0 with 1/x in range", "why_tests_cant": "2^32 / 2^64 inputs", "anchors": ["include/eirin/math.hpp: exp", "include/eirin/math.hpp: log"]}
{"id": "C159", "title": "A draw is a fixed mix of the state", "statement": "Engine draw number k is one fixed output function (shift, add, xor, multiply) of state * multiplier + seed, and the state advances by one.", "quantifier": "every engine parameter set with at least 32 bits and every state, on a machine that takes shift counts modulo the width", "why_tests_cant": "2^64 / 2^128 states", "anchors": ["include/eirin/random.hpp: permuted_congruential_engine::generate, mix_first, _xor, mix_second"]}
{"id": "C160", "title": "The mathematical constants of every type", "statement": "pi, e, logarithms, square roots, phi and Euler's constant are the real number cut off (or, with rounding, rounded) to the type's last bit.", "quantifier": "every fixed_num instantiation with at most 48 fraction bits (59 for pi and e, 32 for Euler's constant) that has room for the number", "why_tests_cant": "one constant set per instantiation; only two are predefined", "anchors": ["include/eirin/fixed.hpp: fixed_num::pi, e, pi_2, pi_4, double_pi", "include/eirin/numbers.hpp"]}
{"id": "C161", "title": "Draws vary on every machine", "statement": "The numbers drawn by the predefined engines vary, whatever the machine makes of a shift by the width or more.", "quantifier": "every state, every machine", "why_tests_cant": "tests run on one machine", "anchors": ["include/eirin/random.hpp: permuted_congruential_engine::mix_first, mix_second"]}
{"id": "C162", "title": "The arithmetic benchmarks have defined behaviour", "statement": "the benchmark loops fp1 += fp2, fp1 -= fp2, fp1 *= fp2 and fp1 /= fp2 have defined behaviour for any number of iterations.", "quantifier": "every number of iterations; for the loop itself every operand and every configuration", "why_tests_cant": "the benchmark library picks the number of iterations; an overflow goes unnoticed", "anchors": ["benchmark/benchmark.cpp: f32_divide, f32_multiple, f32_add, f32_minus, f64_divide, f64_multiple, f64_add, f64_minus", "include/eirin/fixed.hpp: operator+=, -=, *=, /="]}
{"id": "C163", "title": "The division benchmark keeps dividing a nonzero number", "statement": "in every iteration of the division benchmarks the dividend is different from 0.", "quantifier": "every number of iterations; for the loop itself every operand and every configuration", "why_tests_cant": "a benchmark reports a time, not a value", "anchors": ["benchmark/benchmark.cpp: f32_divide, f64_divide", "include/eirin/fixed.hpp: operator/="]}
{"id": "C164", "title": "The running statistics are the maximum and the mean", "statement": "AccuracyStats holds the number of samples, the largest and the mean absolute error and the largest relative error of all samples given to update, over all runs, as long as there are fewer than 2^31; the next update is undefined.", "quantifier": "every sequence of computed and reference values (in exact arithmetic)", "why_tests_cant": "sequences of any length", "anchors": ["benchmark/bench_perf.cpp: AccuracyStats::update"]}
{"id": "C165", "title": "The average relative error is the mean of the relative errors", "statement": "avg_rel_error is the mean of the relative errors of the samples whose reference value is not zero.", "quantifier": "every sequence of computed and reference values (in exact arithmetic)", "why_tests_cant": "sequences of any length; the printed figure is plausible", "anchors": ["benchmark/bench_perf.cpp: AccuracyStats::update"]}
{"id": "C166", "title": "The accuracy loop measures the function under test", "statement": "each iteration takes the next sample, cyclically and without leaving the vector, and gives update the value of the function there and the reference value.", "quantifier": "every function under test, every non-empty list of samples, every number of iterations", "why_tests_cant": "the program is itself the test; its output is read, not checked", "anchors": ["benchmark/bench_perf.cpp: BM_SinWithAccuracy", "include/eirin/fixed.hpp: operator T for floating T"]}
{"id": "C167", "title": "sin, cos, atan, asin and acos keep the order of their arguments", "statement": "sin never decreases on [0, pi/2], cos never increases on [0, pi], atan and asin never decrease and acos never increases on [-1, 1].", "quantifier": "every pair of fixed32 or fixed64 arguments", "why_tests_cant": "2^34 to 2^68 pairs; a decrease by one unit is invisible in the printed value", "anchors": ["include/eirin/math.hpp: sin", "include/eirin/math.hpp: cos", "include/eirin/math.hpp: atan", "include/eirin/math.hpp: asin", "include/eirin/math.hpp: acos"]}
{"id": "C168", "title": "Integer powers keep the order of bases and exponents", "statement": "for 0 <= a <= b, pow(a, n) <= pow(b, n); for n <= k, pow(b, n) <= pow(b, k) when b >= 1 and pow(b, k) <= pow(b, n) when 0 <= b <= 1.", "quantifier": "every fixed_num instantiation without rounding, every integer exponent type, all values whose largest power is in range", "why_tests_cant": "every pair of bases and exponents; each bit pattern of the exponent rounds in other places", "anchors": ["include/eirin/math.hpp: pow(fixed_num, integral)"]}
{"id": "C169", "title": "sqrt, cbrt and hypot of fixed64 keep the order of their arguments", "statement": "x <= y implies sqrt(x) <= sqrt(y) and cbrt(x) <= cbrt(y), and hypot does not decrease when a leg grows.", "quantifier": "every pair of arguments with a defined result", "why_tests_cant": "2^128 pairs; neighbours differ where the number of Newton steps changes", "anchors": ["include/eirin/math.hpp: sqrt", "include/eirin/math.hpp: cbrt", "include/eirin/math.hpp: hypot"]}
{"id": "C170", "title": "hypot of fixed64 is the length of the vector", "statement": "hypot(x, y) and hypot(x, y, z) are defined and approximate the root of the sum of squares whenever that root is representable.", "quantifier": "every pair and triple of fixed64 values", "why_tests_cant": "2^128 / 2^192 inputs", "anchors": ["include/eirin/math.hpp: hypot"]}
{"id": "C171", "title": "floor, ceil, trunc and round fit together", "statement": "each keeps the order of its arguments, each applied twice is the same as once, trunc and round are odd, and floor(-x) = -ceil(x).", "quantifier": "every fixed_num instantiation, every value whose result C26-C29 find representable", "why_tests_cant": "pairs of inputs over every instantiation", "anchors": ["include/eirin/math.hpp: floor", "include/eirin/math.hpp: ceil", "include/eirin/math.hpp: trunc", "include/eirin/math.hpp: round"]}
{"id": "C172", "title": "Logarithms turn products into sums", "statement": "log(x*y) = log x + log y and log(x/y) = log x - log y for log, log2 and log10, up to the errors of three logarithms and of the product or quotient.", "quantifier": "every pair of positive fixed32 or fixed64 values whose product (quotient) is representable and not zero", "why_tests_cant": "2^64 / 2^128 pairs", "anchors": ["include/eirin/math.hpp: log2", "include/eirin/math.hpp: log", "include/eirin/math.hpp: log10", "include/eirin/fixed.hpp: operator*=, /="]}
{"id": "C173", "title": "The inverse trigonometric functions undo sin, cos and tan", "statement": "sin(asin x), cos(acos x) and tan(atan x) are close to x, and asin(sin x), acos(cos x) and atan(tan x) are close to x on the principal interval.", "quantifier": "every fixed32 and fixed64 value in the domain", "why_tests_cant": "2^17 to 2^33 inputs; the errors of two functions meet", "anchors": ["include/eirin/math.hpp: sin", "include/eirin/math.hpp: cos", "include/eirin/math.hpp: tan", "include/eirin/math.hpp: asin", "include/eirin/math.hpp: acos", "include/eirin/math.hpp: atan"]}
{"id": "C174", "title": "sin and cos of a sum", "statement": "sin(a + b) is sin a cos b + cos a sin b and cos(a + b) is cos a cos b - sin a sin b, all computed in fixed point, up to the errors of the five functions.", "quantifier": "every pair of fixed32 or fixed64 values with a representable sum, the smallest value excepted", "why_tests_cant": "2^64 / 2^128 pairs", "anchors": ["include/eirin/math.hpp: sin", "include/eirin/math.hpp: cos", "include/eirin/fixed.hpp: operator*=, +=, -="]}
{"id": "C175", "title": "The CORDIC functions agree with sin and cos", "statement": "cordic sine and cosine differ from sin and cos by no more than the errors of both.", "quantifier": "every fixed32 and fixed64 angle", "why_tests_cant": "2^32 / 2^64 angles", "anchors": ["include/eirin/ext/cordic.hpp", "include/eirin/math.hpp: sin", "include/eirin/math.hpp: cos"]}
{"id": "C176", "title": "Reading decimal text keeps the order of numbers", "statement": "A smaller numeral never gives a larger value, and two spellings of the same number (1.5, 01.5, 1.50) give the same value, although digits beyond the precision are dropped at a point that depends on the digits before them.", "quantifier": "every fixed_num instantiation with at most 62 fraction bits, every pair of decimal numerals in range with any number of digits; detail::parse, fixed_from_cstring and the literals", "why_tests_cant": "pairs of texts of any length", "anchors": ["include/eirin/fixed.hpp: detail::parse", "include/eirin/fixed.hpp: fixed_from_cstring", "include/eirin/fixed.hpp: literals::operator\"\"_f32", "include/eirin/fixed.hpp: literals::operator\"\"_f64"]}
{"id": "C177", "title": "degrees and radians keep the order and the sign", "statement": "x <= y implies degrees(x) <= degrees(y) and radians(x) <= radians(y); degrees(-x) = -degrees(x) and radians(-x) = -radians(x).", "quantifier": "every pair of fixed32 or fixed64 values with degrees in range", "why_tests_cant": "2^64 / 2^128 pairs", "anchors": ["include/eirin/math.hpp: degrees", "include/eirin/math.hpp: radians"]}
{"id": "C178", "title": "The logarithms of every instantiation", "statement": "log2, log and log10 have defined behaviour for every positive argument and are good to a few ulps.", "quantifier": "every fixed_num instantiation, every positive value", "why_tests_cant": "the tests use the two predefined types only", "anchors": ["include/eirin/math.hpp: log2", "include/eirin/math.hpp: log", "include/eirin/math.hpp: log10"]}
{"id": "C179", "title": "sin, cos and tan of every instantiation", "statement": "sin and cos have defined behaviour, stay within a few units of [-1, 1] and approximate the real functions; tan is their quotient.", "quantifier": "every fixed_num instantiation, every value but the smallest", "why_tests_cant": "the tests use the two predefined types only", "anchors": ["include/eirin/math.hpp: sin", "include/eirin/math.hpp: cos", "include/eirin/math.hpp: tan"]}
{"id": "C180", "title": "atan of every instantiation on [-1, 1]", "statement": "atan of a value of magnitude at most 1 has defined behaviour, stays within [-1, 1], is odd and non-negative for non-negative arguments, and is within 2.7e-4 plus ten units of the real arctangent.", "quantifier": "every signed instantiation without rounding with 3 to 27 fraction bits in a 32-bit store or 3 to 59 in a 64-bit store, every value in [-1, 1]", "why_tests_cant": "the tests use the two predefined types only", "anchors": ["include/eirin/math.hpp: atan"]}
{"id": "C181", "title": "exp of every instantiation", "statement": "exp has defined behaviour wherever e^|x| is representable and is within a few units of e^x.", "quantifier": "every signed instantiation without rounding with 3 to 27 fraction bits in a 32-bit store or 3 to 59 in a 64-bit store, every x with e^|x| representable", "why_tests_cant": "the tests use the two predefined types only", "anchors": ["include/eirin/math.hpp: exp", "include/eirin/math.hpp: detail::exp_expand"]}
{"id": "C182", "title": "degrees and radians of every instantiation", "statement": "degrees and radians have defined behaviour and agree with x * 180 / pi and x * pi / 180 up to rounding wherever the result fits.", "quantifier": "every signed instantiation without rounding whose store is 32 or 64 bits, every value whose result fits", "why_tests_cant": "the tests use the two predefined types only", "anchors": ["include/eirin/math.hpp: degrees", "include/eirin/math.hpp: radians"]}
{"id": "C183", "title": "the square root of every 64-bit instantiation", "statement": "sqrt has defined behaviour on every positive value and its square differs from the value by at most the stop criterion plus rounding.", "quantifier": "every signed instantiation without rounding whose store is 64 bits, with 3 to 59 fraction bits; every positive value", "why_tests_cant": "the tests take the root of a few small values of the two predefined types", "anchors": ["include/eirin/math.hpp: sqrt", "include/eirin/fixed.hpp: get_sqrt_init_value", "include/eirin/fixed.hpp: find_msb"]}
{"id": "C184", "title": "asin and acos of every instantiation", "statement": "asin and acos agree with the real functions on [-0.7, 0.7] up to a fixed error plus rounding.", "quantifier": "every signed instantiation without rounding, every value of absolute value at most 0.7", "why_tests_cant": "the tests use the two predefined types only", "anchors": ["include/eirin/math.hpp: asin", "include/eirin/math.hpp: acos"]}
{"id": "C185", "title": "degrees and radians keep the order and invert each other in every instantiation", "statement": "radians and degrees are monotone, degrees is odd, radians is odd up to one unit, and radians(degrees(x)) is x up to a few units.", "quantifier": "every signed instantiation without rounding that holds 180 (3 to 23 fraction bits in 32, 3 to 55 in 64), every value whose result fits", "why_tests_cant": "the tests convert single values of the two predefined types", "anchors": ["include/eirin/math.hpp: degrees", "include/eirin/math.hpp: radians"]}
{"id": "C186", "title": "sin, atan and asin are odd, sin is periodic and sin^2 + cos^2 is 1 in every instantiation", "statement": "sin(-x) = -sin(x) and sin(x + k T) = sin(x) bit for bit for |x| >= 0.000151, T the stored 2 pi and both arguments on one side of zero; atan and asin are odd; the squares of sin and cos add up to 1 within the errors of both.", "quantifier": "every signed instantiation without rounding with 3 to 27 fraction bits in a 32-bit store or 3 to 59 in a 64-bit store (asin: 13 to 59 in 64), every value but the smallest, every number of turns", "why_tests_cant": "pairs of inputs over every instantiation", "anchors": ["include/eirin/math.hpp: sin", "include/eirin/math.hpp: cos", "include/eirin/math.hpp: atan", "include/eirin/math.hpp: asin"]}
{"id": "C187", "title": "The logarithms keep the order of their arguments in every instantiation", "statement": "x <= y implies log2(x) <= log2(y), log(x) <= log(y) and log10(x) <= log10(y); log2(2x) = log2(x) + 1 and log2(2^k) = k exactly.", "quantifier": "every signed instantiation with at most 26 fraction bits in a 32-bit store or 32 in a 64-bit store, every pair of positive values", "why_tests_cant": "pairs of inputs over every instantiation; a decrease by one unit is invisible in the printed value", "anchors": ["include/eirin/math.hpp: log2", "include/eirin/math.hpp: log", "include/eirin/math.hpp: log10"]}
{"id": "C188", "title": "Logarithms turn products into sums in every instantiation", "statement": "log2(x*y) = log2 x + log2 y, log2(x/y) = log2 x - log2 y and the same for log, up to the errors of three logarithms and of the product or quotient.", "quantifier": "every signed instantiation without rounding with at most 26 fraction bits in a 32-bit store or 32 in a 64-bit store, every pair of positive values whose product (quotient) is in range and not zero", "why_tests_cant": "pairs of inputs over every instantiation", "anchors": ["include/eirin/math.hpp: log2", "include/eirin/math.hpp: log", "include/eirin/fixed.hpp: operator*=, /="]}
{"id": "C189", "title": "exp keeps the order on each side of zero and exp(-x) is the reciprocal of exp(x) in every instantiation", "statement": "x <= y implies exp(x) <= exp(y) when both are positive or both negative, and exp(-x) is the largest value whose product with exp(x) is at most 1.", "quantifier": "every signed instantiation without rounding with 3 to 27 fraction bits in a 32-bit store or 3 to 59 in a 64-bit store, all x with e^|x| representable and (12 + 1.4 |x|) units at most 0.016", "why_tests_cant": "pairs of inputs over every instantiation", "anchors": ["include/eirin/math.hpp: exp", "include/eirin/math.hpp: detail::exp_expand"]}
{"id": "C190", "title": "cos is even and sin and cos satisfy the addition formulas in every instantiation", "statement": "cos(-x) is cos(x), and sin(x + y) = sin x cos y + cos x sin y and cos(x + y) = cos x cos y - sin x sin y, up to the errors of the functions involved.", "quantifier": "every signed instantiation without rounding with 3 to 27 fraction bits in a 32-bit store or 3 to 59 in a 64-bit store, all values but the smallest whose sum is representable", "why_tests_cant": "pairs of inputs over every instantiation", "anchors": ["include/eirin/math.hpp: sin", "include/eirin/math.hpp: cos"]}
{"id": "C191", "title": "asin and acos undo sin and cos in every 64-bit instantiation", "statement": "sin(asin x), asin(sin x), cos(acos x) and acos(cos x) are x up to the sum of both errors.", "quantifier": "every signed 64-bit instantiation without rounding with 13 to 59 fraction bits; |x| <= 0.7, |x| <= 0.77 and 0.81 <= x <= 2.33 respectively", "why_tests_cant": "the tests use the two predefined types only and no compositions", "anchors": ["include/eirin/math.hpp: asin", "include/eirin/math.hpp: acos", "include/eirin/math.hpp: sin", "include/eirin/math.hpp: cos"]}
{"id": "C192", "title": "tan of every instantiation is accurate, and atan undoes it", "statement": "wherever |cos x| >= 0.1 tan has defined behaviour and its error is a fixed part plus (42 + |x|/2) units, over cos^2 x; tan(atan x) and atan(tan x) are x up to both errors.", "quantifier": "every signed instantiation without rounding with 3 to 27 fraction bits in a 32-bit store or 3 to 59 in a 64-bit store, every value but the smallest with |cos x| >= 0.1 and (17 + |x|/6) units at most 0.0249; the compositions with 14 or more fraction bits", "why_tests_cant": "the tests use the two predefined types only and no compositions", "anchors": ["include/eirin/math.hpp: tan", "include/eirin/math.hpp: atan"]}
{"id": "C193", "title": "log undoes exp and exp undoes log in every instantiation that has both", "statement": "log(exp x) is at most (6.3 + x) units above x and at most 0.2232 plus as many units below it; exp(log b) is b up to the 20% of exp and the error of the logarithm, on one side without the 20%.", "quantifier": "every signed instantiation without rounding with 3 to 26 fraction bits in a 32-bit store or 3 to 32 in a 64-bit store; x >= 0 with e^x representable, b > 0 with b and 1/b representable, the rounding of exp at most 0.016", "why_tests_cant": "the tests use the two predefined types only and no compositions", "anchors": ["include/eirin/math.hpp: exp", "include/eirin/math.hpp: log", "include/eirin/math.hpp: detail::exp_expand"]}
{"id": "C194", "title": "The square of a root and the root of a square in every 64-bit instantiation", "statement": "sqrt(x)*sqrt(x) is x and the square of sqrt(x*x) is x*x, up to the stop criterion of the iteration and rounding.", "quantifier": "every signed 64-bit instantiation without rounding with 3 to 59 fraction bits; every positive x below half of the range, every x whose square is at least one unit and below half of the range", "why_tests_cant": "the tests take the root of a few small values of the two predefined types", "anchors": ["include/eirin/math.hpp: sqrt", "include/eirin/fixed.hpp: operator*="]}
{"id": "C195", "title": "cos and tan have the period of the stored 2 pi bit for bit in every instantiation", "statement": "cos(x + k T) = cos(x) and tan(x + k T) = tan(x) exactly, T the stored 2 pi.", "quantifier": "every signed instantiation without rounding with 3 to 27 fraction bits in a 32-bit store or 3 to 59 in a 64-bit store, every number of turns, both arguments above 4.7126 plus one unit or both below -1.571", "why_tests_cant": "pairs of inputs over every instantiation", "anchors": ["include/eirin/math.hpp: cos", "include/eirin/math.hpp: tan", "include/eirin/math.hpp: sin"]}
