{
 "C03": {
  "note": "The floating cast divides in the store type first, so the fraction is lost; proved instead: it truncates toward zero and is exact iff the value is an integer."
 },
 "C05": {
  "note": "Non-negative arguments are halved (`*0.5` for `+0.5`), so every result for an argument above one ulp is wrong (C05_fp_never_nearest, C05_fp_halves). For negative arguments the rounding of `val * 2^f - 0.5` in the floating type breaks the claim too (C05_fp_negative_refuted: the double just below half an ulp gives -1 ulp, and a float -(2^23+1) ulp gives -(2^23+2)); proved for all other negative arguments below 2^(p-1) ulp; from there on the arguments are integers, and exactly the odd ones below 2^p ulp are missed (C05_fp_large)."
 },
 "C06": {
  "note": "The product is computed in the promoted SOURCE type: exactness proved when it fits there, undefined behaviour exactly otherwise (signed sources); it wraps silently for unsigned sources, and shifts by the width of that type or more are always undefined."
 },
 "C10": {
  "note": "Proved for every store of >= 32 bits and every representable integer; fails for 8/16-bit stores and unrepresentable integers (signed overflow in int)."
 },
 "C102": {
  "note": "Draws are below 2^31 (pcg2014) and 2^56 (pcg2014_64); the minimum advertised by the fixed-point adapter is never drawn (C102_adapter_min_refuted)."
 },
 "C106": {
  "note": "REFUTED as stated: in-range negative values and [2^63, 2^64) are converted wrongly; saturation proved elsewhere."
 },
 "C109": {
  "note": "REFUTED: -8 ulp for fixed32 and -3 ulp for fixed64."
 },
 "C113": {
  "note": "REFUTED as stated: the conversion to double drops the fraction of the angle, so the table holds sin(0), sin(1), sin(2), sin(3) and the result is 0 for every 0 <= x < 1 - pi/N."
 },
 "C13": {
  "note": "The rounding branches double the product/quotient (1*1 = 2); proved instead: product and quotient are within one ulp of twice the exact ones."
 },
 "C14": {
  "note": "Multiplication proved in full; division proved whenever the usual arithmetic conversions leave a signed type (or both operands are non-negative), refuted for wide unsigned divisors."
 },
 "C17": {
  "note": "Proved for every instantiation with at least one integer bit; refuted for signed 32/64-bit stores with fraction = width-1."
 },
 "C21": {
  "note": "Proved for signed comparison types when the difference does not overflow; refuted for unsigned 32/64-bit stores (nearly_eq(x,x) is false) and for overflowing differences."
 },
 "C22": {
  "note": "Proved for non-negative values; fractional_part is x - trunc(x) for every value; for negative values integral_part is the ceiling of the magnitude (-1.5 -> 2) and is undefined near the minimum."
 },
 "C24": {
  "note": "Bounds proved; is_signed is always true, epsilon is 5 ulp for fixed32, round_style does not match operator*; digits, digits10 and radix are fixed-point objects and hold the right number only when the type has enough integer bits (C24_digits, C24_digits_refuted). For every type: epsilon() is 5/65536 cut off to the type, right only with 14 fraction bits (13 with rounding); is_signed is right exactly for signed types; round_style is wrong for every signed type."
 },
 "C27": {
  "note": "Proved for every non-negative value and every value at least MIN + 2^f - 1; below that the code subtracts before dividing and overflows (undefined, though the floor is representable)."
 },
 "C28": {
  "note": "Proved for non-negative values; every negative value comes out exactly 1 - 2^-f too large (also proved)."
 },
 "C30": {
  "note": "Proved with the same limits as floor (C27)."
 },
 "C31": {
  "note": "Negative dividends can give negative results (refuted as stated). Proved: for a >= 0, b > 0 with representable quotient 0 <= r < b and a = k*b + r; for operands of any sign a = k*b + r exactly, with r/b below 1 and above minus one ulp (not negative when a/b >= 0)."
 },
 "C34": {
  "note": "The 32-bit branch never scales back from 16 fraction bits; proved instead what it computes for every width."
 },
 "C35": {
  "note": "Proved for every x below 1963257856 (raw 8432131806905434112); proved undefined for every x at or above it."
 },
 "C36": {
  "note": "Proved for every store type other than int32_t; for fixed32 the result is never -1: every negative argument gives a value between 255 and 384."
 },
 "C39": {
  "note": "Proved for integer bases with representable power (result = truncated 1/B^n); squares that vanish or wrap to zero divide by zero."
 },
 "C42": {
  "note": "The fifth coefficient encodes 0.50004 instead of 1.00008, so exp(0.5) = 1.397 (true value 1.649). Proved instead: exp(0)=1, positivity, and the exact size of the deviation (0 to -18.5% for x >= 0, 0 to +22.6% for x < 0), accurate at integers."
 },
 "C43": {
  "note": "Undefined at the least value only, proved for fixed32 at every other value; fixed64 proved for x >= 0 and wherever the result is representable."
 },
 "C44": {
  "note": "Zero and positive bases proved; a negative base always ends the program (an exception thrown inside noexcept)."
 },
 "C45": {
  "note": "Proved for every value except the least one of each type, where abs overflows (undefined)."
 },
 "C46": {
  "note": "Arguments in (-1.5e-4, 0) return the wrong sign (sin(-x) = sin(x), proved for all of them); exactly odd for every other value."
 },
 "C47": {
  "note": "Range proved for cos on every value and for sin on every value except the least one (undefined)."
 },
 "C49": {
  "note": "Proved whenever sin/cos fits the type (always when |cos| > 2 ulp); with cos = 2 ulp the quotient can wrap to the opposite sign; the least value is undefined."
 },
 "C51": {
  "note": "The polynomial is only valid on [-1,1] (C50); outside it is wrong or undefined. Defined for |x| <= 23 in fixed64."
 },
 "C52": {
  "note": "Domain errors proved for every value except the least one; asin and acos defined on the whole of [-1, 1] for both types (next to 1 and -1 the fixed64 polynomial wraps: those 2^22 arguments are computed inside the proof, Asin64Full.v); constants proved for both."
 },
 "C53": {
  "note": "asin evaluates atan outside [-1,1] for |x| > 0.7071; accurate for |x| <= 0.7 (C115)."
 },
 "C57": {
  "note": "Proved for every signed instantiation with at least one integer bit; refuted (undefined behaviour) for fraction = width-1."
 },
 "C59": {
  "note": "The value 2^(w-1) prints with a minus sign and a wrong integer part; exact for every other value."
 },
 "C60": {
  "note": "Proved for every in-range decimal whose number of leading fraction zeros keeps the divisor in the intermediate type; the literal of the least value is rejected."
 },
 "C63": {
  "note": "Shape of every accepted string proved; empty strings and text after the digit cut-off are accepted."
 },
 "C64": {
  "note": "Proved while the integer part fits the intermediate type; larger literals wrap and are accepted; negative literals of unsigned types are accepted."
 },
 "C65": {
  "note": "Defined for every string with 10^length*2^f in the intermediate type; longer strings can be undefined."
 },
 "C66": {
  "note": "Proved for every value except the least one, which prints but cannot be parsed."
 },
 "C68": {
  "note": "operator>> keeps intermediates in the store type; accuracy proved when the fraction digits fit there, refuted otherwise (0.50000)."
 },
 "C69": {
  "note": "White space is not skipped, malformed input is not reported, reading an integer up to end of file sets failbit."
 },
 "C71": {
  "note": "Proved for text followed by a terminator that does not occur in it; string_view overload reads past the view and compares characters instead of pointers."
 },
 "C72": {
  "note": "Proved for non-negative values and negative integers; negative non-integers print the magnitude rounded up (C94), values next to the minimum are undefined (C95)."
 },
 "C73": {
  "note": "Proved for non-negative values and negative integers; negative non-integers print |x|+1 (C94); precision 0 leaves a trailing point."
 },
 "C76": {
  "note": "Proved for every specification except fill ':' (C98) and the empty one before <, >, ^ (C99)."
 },
 "C77": {
  "note": "Proved for every continuation not starting with <, > or ^ (C99)."
 },
 "C79": {
  "note": "x >>= 8 ^ x shifts by 32 or more for all but a few values: every single draw is undefined. Proved instead: defined and in range on any platform that gives oversized shifts some meaning."
 },
 "C80": {
  "note": "Under the language rule no draw is defined (C79); the theorem holds for every platform behaviour of oversized shifts."
 },
 "C82": {
  "note": "seed(s) leaves m_state; it restarts the sequence only after a multiple of 2^width draws (proved)."
 },
 "C84": {
  "note": "The parameter is ignored (proved)."
 },
 "C85": {
  "note": "Valid for fixed32; for fixed64 over int the bounds truncate to (0,-1), violating the precondition."
 },
 "C86": {
  "note": "Bounds: 77 ulp + x/7 ulp (fixed32), 81 ulp + x/6 ulp (fixed64); the x term is the error of the raw 2*pi."
 },
 "C87": {
  "note": "REFUTED as stated: the sign bit is cleared instead of negating, so cordic_sine(-1) is off by more than 0.5; the exact relation cordic_sine(m) = -cordic_sine(m + 2^(bits-1)) is proved for every negative m."
 },
 "C88": {
  "note": "REFUTED as stated: the AVX-512 variant shifts the truncated 64-bit product, so 1.0*1.0 = 0 (C88_avx512_refuted); the portable variant is proved for all lanes."
 },
 "C89": {
  "note": "REFUTED as stated: results may exceed 2*pi for large angles, the AVX-512 variant does not reduce, and simd_reduce_angle_2 swaps its lanes and leaves whole numbers unreduced; congruence, sign, order and the true bound are proved for the four-lane version."
 },
 "C90": {
  "note": "REFUTED as stated: the carry is lost, int64_t overflow in either word is undefined, and negative integers become v + 2^64; the exact behaviour is proved."
 },
 "C91": {
  "note": "REFUTED as stated: for every N the result (when defined) is more than 0.008 away from pi, because each term is divided by 16^(4k) instead of 16^k; for N > 2^28 the loop bound 4*k overflows int. Exact values for every N are proved."
 },
 "C93": {
  "note": "REFUTED as stated when no error exceeds the initial 0 (or none is below 255): the reported input is then initializer(0), which need not be on the grid. In every other case the reported extrema are attained; bounds hold for all grid points."
 },
 "C96": {
  "note": "Proved instead: the zeros follow the alignment and go before the sign."
 },
 "C37": {
  "note": "Defined and accurate for 0 <= x < 94 (fixed32) and 0 <= x <= 3868 (fixed64), see C114; cbrt(-2) divides by zero, cbrt(94) overflows."
 },
 "C130": {
  "note": "Proved for non-negative values and for negative integers away from the minimum; a negative value with a fraction is printed wrongly by format (C73), so the two texts differ there."
 },
 "C133": {
  "note": "Prefix ++ and -- return a copy, so the outer ++ increments a temporary and x grows by one only (proved for every value); += returns a reference and chains."
 },
 "C134": {
  "note": "Only plain decimal spellings are read. Hexadecimal, binary, separated and (up to nine fraction digits) exponent spellings leave the result unspecified because the parse failure is ignored; octal literals are read as decimal; an exponent after a cut-off fraction is silently dropped. The fixed32 literals use the cooked operators and are right."
 },
 "C136": {
  "note": "REFUTED as stated: integral_part gives the magnitude of a negative number, so a negative angle is moved further from zero and the last two table entries are extrapolated; every negative angle down to -2^21 gives std::sin(3), about 0.1411."
 },
 "C139": {
  "note": "The branch converts the argument to the store type before scaling, so the fraction is lost (1.5 becomes 1); proved that this always happens. MSVC with fixed64."
 },
 "C141": {
  "note": "Proved for ASCII text in every stream state. isdigit() is called with the character as it is: undefined for every character above U+00FF in a wide stream and for every byte 128..254 in a narrow one."
 },
 "C142": {
  "note": "The values of all files go into one map, so a later file replaces an earlier file's value for the same key and a key missing in a file is answered from another one. Proved: the exact answer in general (C142_exact), and the claim whenever no other file asked for has the key."
 },
 "C143": {
  "note": "When the file cannot be opened the first answer is \"0\" and the second comes from the other files. Proved for names asked for before and files that can be opened."
 },
 "C144": {
  "note": "The highest leaf is not checked, so an Intel processor without leaf 7 answers with another leaf's bits; and the operating system's support (OSXSAVE, XCR0) is not checked. Proved for processors with leaf 7 or with zeros beyond the highest leaf, and for SSE2, SSE4.2, AVX with leaf 1."
 },
 "C145": {
  "note": "features_detected is set before the flags and nothing is synchronised: a second thread can be told no, and two simultaneous detections can lose a flag for ever. Proved: a yes is always right, and everything is right once one query has finished before the others start. Interleaving semantics; in C++ the race is undefined behaviour anyway."
 },
 "C146": {
  "note": "The printed text always says from_fixed_num_value<61>, whatever the template argument: for every other number of fraction bits up to 60 each definition is wrong by more than 0.1. Proved for every f: the digits are right for f bits; for f = 61 they are those of numbers.hpp."
 },
 "C147": {
  "note": "The cast of the result to double drops the fraction (see C03), so the errors reported are those of the integer parts: two functions with values inside (-1,1) always get the same report, and sin(0.5) is reported with an error of 0.479. Statistics in exact arithmetic instead of double."
 },
 "C148": {
  "note": "Real arithmetic instead of double for value - fraction*pi."
 },
 "C149": {
  "note": "The addition is a parameter; for size 0 the loop never ends (C149_stuck)."
 },
 "C150": {
  "note": "Exact arithmetic instead of double. std::unique is given a relation that is not an equivalence, for which the standard promises nothing; modelled as the implementations behave."
 },
 "C151": {
  "note": "Exact for sin away from the arguments below 1e-4 (returned unchanged before the reduction) when both arguments have the same sign; for cos and tan the sign of the shifted argument counts."
 },
 "C152": {
  "note": "cos shifts positive and negative arguments by different quarter turns: the two values differ by at most 42 ulp (fixed32) or 6.3e-4 (fixed64)."
 },
 "C153": {
  "note": "tan is odd exactly where cos(-x) = cos(x) (C152) and |x| is at least 1e-4; below that it is even (C153_tan_tiny_refuted)."
 },
 "C154": {
  "note": "acos(-1) is one ulp too large; otherwise exact everywhere for both types."
 },
 "C155": {
  "note": "Only across zero: the values one raw unit below, at and above zero are 65537, 65536, 65535. Elsewhere proved."
 },
 "C157": {
  "note": "The error of exp (C42) carries over: up to 18.5% low for bases above 1, 22.7% high for bases below 1, bounds proved for all arguments."
 },
 "C158": {
  "note": "log(exp(x)) is up to 0.204 low; exp(log(x)) up to 18.5% low for x >= 1 and 22.7% high for x <= 1."
 },
 "C160": {
  "note": "The bound on the fraction bits is sharp for phi (C160_phi_limit): the literals of numbers.hpp are doubles."
 },
 "C161": {
  "note": "Refuted for machines where an over-long shift gives 0 (vector shifts, 32-bit ARM): both predefined engines then draw only zeros. The shift itself is undefined behaviour in C++ (C79)."
 },
 "C162": {
  "note": "The additions and subtractions reach signed overflow: fixed32 in iteration 29, fixed64 after 433834849 (add) and 433835311 (minus) iterations. Multiplication and division never do, except that a missing input file makes the division divide by zero."
 },
 "C163": {
  "note": "The dividend is 0 from iteration 3 (fixed32) or 20 (fixed64) on, so nearly all iterations time 0 / y. Proved for every divisor of at least 2: 0 after as many iterations as the type has bits."
 },
 "C164": {
  "note": "Exact arithmetic in place of double."
 },
 "C165": {
  "note": "Only when no reference value is zero: such a sample is counted in the divisor, as if its relative error were the average so far. The benchmark adds the sample 0.0 (reference sin 0 = 0) to every range that contains it."
 },
 "C166": {
  "note": "The samples are taken as stated and the counters overflow at 2^31 iterations, but the cast (double)result truncates (C03): values between -1 and 1 are recorded as 0."
 },
 "C167": {
  "note": "Neighbouring arguments can give results one unit in the wrong order, and fixed32 sin falls where it switches to the polynomial. Proved: sin in order on [0.00015, 2/3] and atan on [-9/16, 9/16] for both types, asin and acos of fixed32 on [-0.49, 0.49]; on the whole intervals atan in order up to 16 ulp, sin and cos up to 33 and 37 ulp (fixed32) or 7.45e-6 (fixed64)."
 },
 "C169": {
  "note": "Where the number of Newton steps changes the fixed64 root falls (by 0.0013 between raw 2097151 and 2097152), and with it hypot; cbrt falls in both types. Proved: arguments at least 5/65536 apart keep their order under sqrt, which never falls by more than 0.0088; arguments up to 3868 and at least 1310736 ulp apart keep their order under cbrt.  For fixed32 sqrt and hypot the order is C127 and C128."
 },
 "C170": {
  "note": "The squares leave the range long before the length does: hypot(60000, 0) is -1, and every sum of squares between 1963258676 and 2^31 is undefined behaviour inside sqrt.  Proved below that: r^2 within 5/65536 and two (three) ulp of the sum of squares."
 },
 "C171": {
  "note": "ceil adds 1 - ulp to the ceiling of a negative value (C28): ceil(-0.5) = 0.99998 > ceil(0), ceil(ceil(-1.5)) differs from ceil(-1.5) and floor(1) is not -ceil(-1); floor of a result of floor is undefined at the smallest value (C27). Proved: everything for trunc and round, order and repetition of floor where it is defined twice, everything for ceil of non-negative values, order of ceil among negative values."
 },
 "C173": {
  "note": "asin, acos (beyond 0.7) and atan (beyond 1) leave the functions they approximate (C51, C53), so sin(asin 0.92) is -0.28 and tan(atan 2) is -10.4. Proved: |x| <= 0.7 (sin o asin, cos o acos), |x| <= 0.77 (asin o sin), 0.81 <= x <= 2.33 (acos o cos), |x| <= 1 (tan o atan; fixed64 |x| >= 4.3e-4), |x| <= 0.78 (atan o tan; fixed64 not in (-1.5e-4, 0), where sin has the wrong sign)."
 },
 "C175": {
  "note": "For negative angles CORDIC reduces the wrong number (C87): at -1 the two differ by 0.59. Proved for all non-negative angles."
 },
 "C177": {
  "note": "radians rounds its product down, so radians(-x) can be one unit below -radians(x) (at x = 1). Proved: order of both, degrees odd, radians odd up to that unit; degrees for |result| <= 32760 (fixed32) and 2147483647 (fixed64)."
 },
 "C178": {
  "note": "log2 shifts 1u by f - 1, which has no value for f > 32, so all three are undefined for every type with more than 32 fraction bits; with a 32-bit store and 28 fraction bits a small argument overflows; an unsigned type wraps below 1. Proved for signed types with a 32-bit store and at most 26 fraction bits or a 64-bit store and at most 32 (log and log10: without rounding)."
 },
 "C179": {
  "note": "pi * pi overflows next to 28 or more fraction bits of a 32-bit store (60 or more of a 64-bit store): sin 1 is 1.107. For an unsigned type cos of a positive argument wraps: cos 1 is 65535.1. Proved for signed types without rounding, 3 to 27 fraction bits in 32 or 3 to 59 in 64. Just below zero sin has the wrong sign (C46), hence the wider bound there."
 },
 "C180": {
  "note": "Outside [-1, 1] the polynomial of atan is not an approximation at all (see the atan claims of the predefined types)."
 },
 "C181": {
  "note": "The wrong fifth coefficient (C42) makes e^(1/2) at least 0.25 too small in every one of these instantiations. Proved instead: never above e^x for x >= 0 and at least 0.816 of it less a few units; for x < 0 between e^x less one unit and 1.25 e^x when (12 + 1.4 |x|) units are at most 0.016."
 },
 "C182": {
  "note": "With 24 or more fraction bits in 32 (56 or more in 64) the constant 180 does not fit and wraps: radians(1) is -0.041. Proved for 3 to 23 (3 to 55) fraction bits; one and two fraction bits are not covered."
 },
 "C183": {
  "note": "With an even number of fraction bits the largest value overflows in the first residual (undefined behaviour); proved below half of the range for every number of fraction bits and on the whole positive range for odd ones. The 32-bit store takes another branch (C33, C34)."
 },
 "C184": {
  "note": "A 32-bit store with other than 16 fraction bits gets a wrong root (C34), so asin(1/2) is 221.6 with 20 fraction bits. Proved for 64-bit stores with 13 to 59 fraction bits; 32-bit stores with 16 are C115."
 },
 "C185": {
  "note": "Where 180 does not fit the conversion has the wrong sign (C182)."
 },
 "C186": {
  "note": "Below 0.000151 in absolute value sin takes a shortcut that is not odd (C46), so these arguments are left out. For fixed32 and fixed64 see C46 and C120. asin is limited to |x| <= 0.7 as in C184."
 },
 "C187": {
  "note": "With more fraction bits log2 is undefined (C178)."
 },
 "C188": {
  "note": "With more fraction bits log2 is undefined (C178). log10 is not repeated here; fixed32 and fixed64 are C172."
 },
 "C189": {
  "note": "Across zero exp may step down (C155). The condition on the unit leaves out types with fewer than about ten fraction bits."
 },
 "C190": {
  "note": "The error of one function is 3.1e-4 plus (17 + |x|/6) units; evenness of cos holds within two of them, not bit for bit."
 },
 "C191": {
  "note": "Outside these intervals the square root in asin loses the accuracy (C184); 32-bit types other than fixed32 take a square root that is wrong for them (C184_width_refuted)."
 },
 "C192": {
  "note": "The fixed part is 1e-5 for x >= 0 and 4.3e-4 otherwise: a tiny negative argument comes back from sin with the wrong sign (C46)."
 },
 "C193": {
  "note": "The gap is the error of the quintic in exp (C42, C158): for x just below an integer log(exp x) really is 0.203 too small."
 },
 "C194": {
  "note": "Above half of the range an even number of fraction bits makes the root of the largest value undefined (C183_even_refuted)."
 },
 "C195": {
  "note": "Between the bounds the shifted argument of cos changes sign, and the remainder of a negative argument is another one."
 }
}
