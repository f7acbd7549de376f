# EirinFixed: machine-checked model — design

## 1. What is modelled

Source: `/repo/include/eirin` (header-only C++20 fixed-point library). Every Coq definition that
models code carries a comment with file and line range. Model files contain no proofs.

### Integer semantics (`Base.v`)
* An integral type is a record `ity = {bits; sgn}`; a value is a `Z` in range.
* C++20 rules, LP64: 8/16-bit operands are promoted to 32-bit `int`; usual arithmetic conversions;
  signed `+ - *` overflow, `/ 0`, `MIN / -1`, shift count negative or >= width are **undefined
  behaviour**; unsigned arithmetic wraps; narrowing conversions and signed `<<` are modular; `>>` of a
  negative value is arithmetic; `/` and `%` truncate toward zero.
* `res A = Ok a | UB | Throw e | OutOfFuel`. Undefined behaviour, a thrown exception and exhausted fuel are distinct
  outcomes; "defined" always means `= Ok _`, so no theorem gets its truth from a totalised function.
* `__int128` is a 128-bit signed type with the same rules.

### Fixed-point type
`cfg = {ct; ci; cf; cr}` = store type, intermediate type, fraction bits, `enable_rounding`. The well-formedness
predicate is the code's `requires` clauses. A fixed-point object is its raw `Z` in the range of `ct`.

### Floating point
Floating values occur only as constructor arguments and cast results. A finite floating value is a
dyadic rational; scaling by 2^f is exact there; a conversion to integer out of range is UB. `Fixed.v` has the conversions
with exact arithmetic; `Float.v` adds rounding to p significant bits, NaN, infinities and the branch for an intermediate
type that is a class.

### Text
Characters are integers (`list Z`), C strings are a list with an explicit length; reading outside is UB.
Streams are `{rest; eofbit; failbit}` records.

## 2. Specification side (`Spec.v`)
Independent of the model: `qval f m : Q` (denoted value `m / 2^f`), floor/trunc/nearest relations on
Q, decimal/base-b expansions as rational sums over digit lists, real functions from the standard
library for transcendental claims. The theorems connect raw results to these.

## 3. Proof layers
1. `Base` + `Fixed` (fixed.hpp operators) + arithmetic properties: `lia`/`nia`/`Z` lemmas, axiom-free.
2. Text (print, parse, streams): induction over digit lists.
3. Integer maths (`sqrt`, `pow`, rounding): loop invariants.
4. `std::format`: grammar round trip, width.
5. Random, distributions, CORDIC, SIMD, int128, util, perf.
6. Real analysis: constants, sin, cos, atan, exp, log — Coq's Reals plus the installed coq-interval tactic;
   the theorems then depend on the standard library's real-number axioms only.

If the English claim is false of the faithful model, a theorem `..._refuted` gives a concrete
counterexample (closed computation) and a positive theorem covers the largest domain on which the claim does hold.

## 4. Per property plan

| id | what is modelled / how it is proved |
|----|----|
| C01-C02 | int constructor and int cast as shift in promoted type; floor/shift lemmas |
| C03 | float cast; expected refutation (integer division at fixed.hpp:298) |
| C04-C05 | float constructor on dyadics; C05 expected refutation (`*0.5` for `+0.5`) |
| C06-C08 | fixed->fixed conversion computed in the source type; C06 expected refutation plus exact domain |
| C09-C10, C17-C18 | direct from operator definitions in the promoted type |
| C11-C15 | product/quotient in the intermediate type; floor / truncation theorems; C13 expected refutation; C14 refutation for unsigned operands |
| C16 | `divide` returns `Throw` |
| C19 | consequences of C09-C12 in Q |
| C20 | order embedding into Q |
| C21 | tolerance test; refutation for unsigned types and overflowed differences |
| C22 | expected refutation for negatives; positive theorem for non-negatives |
| C23-C24 | mask arithmetic; bounds; `is_signed` and `epsilon` refuted |
| C25 | Interval proofs on reals |
| C26-C32 | per function, C28 expected refutation for negatives, C31 for negatives |
| C33 | loop invariant `b*v = 2^30*V - R^2` |
| C34, C36 | refutations, plus generalisation of C33 invariant |
| C35 | Newton step contraction over integers |
| C37-C39, C43-C44 | loop invariants; refutations by witness |
| C40-C42 | real analysis |
| C45-C53 | polynomial evaluation with truncation error budget + Interval; refutations by witness |
| C54-C55 | consequences of C11/C12/C33 |
| C56-C59 | digit-list induction |
| C60-C71 | parser loop invariants over strings |
| C72-C78 | formatter model |
| C79-C85 | state machines |
| C86-C87, C108-C109 | CORDIC: exact integer iteration, error budget in R (rotation invariant + angle table), Interval for the constants |
| C88-C90, C105-C107 | SIMD lanes as integers, ext::int128 as a pair of words |
| C91-C93, C110-C113, C135-C136 | util.hpp and perf.hpp; BBP by closed forms, loops by induction |
| C94-C99 | exact behaviour behind the formatter refutations |
| C100-C104 | engine sequence structure |
| C114-C115 | Newton iteration budget; range reduction of asin/acos through the atan polynomial |
| C120-C123 | sin and cos error budgets combined in R; log2 as exponent plus digits of repeated squaring (integers only) |
| C116-C119 | induction over client loops (`Client.v`, not repository code) and over the squaring loop of pow |
| C124-C130 | consequences of the exact characterisations: monotone floor and truncation, cancellation, uniqueness of canonical expansions |
| C131-C133 | operators with the integer on the left from C12/C15; commands on a memory of objects (`Mem.v`): aliasing, frame, state after an exception; prefix ++ returning a copy |
| C141 | `Wide.v`: operator>> with the character type as a parameter; equal to the char model on ASCII by induction over the loops |
| C142, C143 | `Bench.v`: get_input over its two caches; invariant: the map is what loading all files in order of first request gives |
| C144, C145 | `Cpu.v`: the two static members, one step per access; inductive invariants over all interleavings (`safe`, `settled`), the first thread alone by its program counter |
| C146 | `Print.v`: the printf of print_constants; per constant a bound on the scaled long double, the digits by the hexadecimal printer's correctness |
| C147-C150 | `Accuracy.v`: bench_accuracy.cpp; induction on the list of points, on the fuel of the interval loop, and on the sorted list |
| C137-C139 | `Float.v`: one rounding to p bits, case split on the intermediate type |
| C140, C159, C161 | bijections on the engine state; distribution parameters by cases; the platform's shift as a parameter |
| C151-C154, C186 | range reduction of sin in closed form (quotient and remainder by the stored 2 pi), then symmetry of the polynomial |
| C155-C158, C172, C173, C174 | exact step lemmas and error budgets combined in R |
| C160 | each constant bracketed in R with Interval for every number of fraction bits |
| C162-C166 | benchmark loops by induction on the number of iterations; statistics over lists of samples in exact arithmetic |
| C167-C171, C177, C185 | monotone composition of floors, truncations and quotients; polynomial monotone by interval pieces |
| C175 | triangle inequality on C86/C87 and C45/C48 |
| C176 | value of a numeral as a floor of an exact quotient, from the loop invariants of C60-C71 |
| C189 | exp as power times polynomial, both monotone; 18% slack at the integers |
| C190 | the addition formulas of the reals and the error of each function |
| C191 | the errors of C179 and C184 composed through the Lipschitz bounds of sin, cos and asin |
| C192 | quotient of two approximations with the divisor bounded away from 0; Lipschitz bounds of tan and atan |
| C193 | C178 and C181 composed; ln 0.8 and monotony of exp and ln |
| C194 | C183 and the rounding of one product |
| C195 | the argument passed to sin keeps its side of zero; C186 |
| C187, C188 | digits of log2 as a function of the normalised argument; triangle inequality on C178 |
| C178-C184 | the fraction bits as a variable: constants within one unit of the reals (`SinGen.v`, `SinGen2.v`), the error budget as a multiple of the unit |
| C134 | `Literal.v`: overload choice for numeric literals; `SpecLiteral.v` spells the C++ grammar of literals; the failed parse returns the unspecified initial value |

## 5. Trusted base
* Coq's kernel (8.16.1), including its virtual machine (`vm_compute` appears in proofs of closed computations and inside
  the `interval` tactic).
* The axioms printed by `Print Assumptions`. 560 of the 615 property theorems have that command in their `Props*.v`
  file, so the build prints their lists (the others are among C151-C154, C171-C175 and C177-C179). `ASSUMPTIONS.md` (written by `tools/gen_assumptions.py` after a build) collects the lists; the copy
  in the repository stops at C133 and leaves out theorems added later, run the script for all of them. In short:
  * all integer, rational and text theorems are closed under the global context (no axioms);
  * theorems that mention real numbers use the standard library's axioms of the reals:
    `ClassicalDedekindReals.sig_forall_dec`, `ClassicalDedekindReals.sig_not_dec`,
    `FunctionalExtensionality.functional_extensionality_dep`, and, through the trigonometric part of the library,
    `Classical_Prop.classic`;
  * theorems whose proof uses the `interval` tactic, and the theorems of `PropsAsin.v`, also list Coq's primitive 63-bit integers
    (`PrimInt63.*`) and the standard library's specification axioms for them (`Uint63.*_spec`).
* No axiom comes from another library and none is ours. `coqchk` prints a longer list than `Print Assumptions`, because it
  reports every axiom in every loaded file: loading coq-interval also loads the standard library's
  `Coq.Floats.FloatAxioms`, the opaque constants of module `Rdefinitions`, and constants sealed by modules in mathcomp's
  ssreflect. No theorem here depends on them, as `Print Assumptions` shows.
* The reading of the C++ source. It was transcribed by hand, function by function; each definition cites its lines.
  `RepoTests.v` evaluates on the model every deterministic expectation of the repository's own tests
  (`/repo/test/main.cpp`, `/repo/test/test_io.cpp`); all of them hold, which is evidence of fidelity and not a proof.
  `DocTests.v` does the same for the code samples of the README and docs; four of them do something else than documented
  (marked CONTRADICTION there).
* The reading of the C++20 rules in `Base.v`, for an LP64 target with GNU `__int128` (the MSVC branch of
  `detail/int128.hpp` is not modelled).

## 6. What is and is not modelled

| file | modelled | not modelled |
|----|----|----|
| fixed.hpp | everything with run-time behaviour: constructors, conversions, operators, comparisons, inspection, printing, all three readers, stream operators, literals, hash, numeric_limits, find_msb, int_sqrt_impl | concepts that only restrict overloads (except as `wf`), defaulted copy operations, the compile-time `index_sequence` helpers; a `fixed % integral` expression does not compile |
| math.hpp | every function | nothing with run-time behaviour |
| numbers.hpp | every constant | - |
| io/parse.hpp | parse of a C string and of a view | - |
| io/format.hpp | specification parser and formatter for `char` | locale (the model works on character codes, so it describes the `wchar_t` formatter as well: the template treats both alike) |
| random.hpp, detail/distribution.hpp | the engine, its stream format, adapters, distribution wrappers | the standard library's distributions and seed sequences (parameters of the model) |
| ext/builtin_ints.hpp | all operations | - |
| ext/cordic.hpp | tables, iteration, sine, cosine | - |
| ext/simd_math.hpp | feature detection (28-109) for one thread and for interleaved threads, lane arithmetic of every function (113-234) | the C++ memory model (a data race is interleaved, not undefined); the CPUID instruction and the intrinsics are their documented semantics |
| detail/util.hpp | eval_value, bbp_calc_pi (int64_t; other types do not compile), all lookup tables, print_constants (as text; long double by its precision) | std::sin (a parameter) |
| detail/perf.hpp | measure_esp | - |
| benchmark/bench.cpp | get_input with its caches | the identity functions; std::ifstream is the file's content or a failure to open |
| benchmark/benchmark.cpp | the loops that change their operand (add, minus, multiple, divide; fixed32 and fixed64), with and without an input file | the loops that only call a function (its properties are those of the function), the float and double baselines; registration and timing |
| benchmark/bench_perf.cpp | AccuracyStats::update, the samples and the loop of BM_SinWithAccuracy | std::sin and the random points (parameters); timing and printing; double arithmetic is exact |
| benchmark/bench_accuracy.cpp | test_subinterval, run_tests' loop, generate_test_points, format_as_pi | std::sin, the random points and std::to_string (parameters), CSV and console output; double arithmetic is exact |
| detail/int128.hpp, error.hpp, macro.hpp, eirin.hpp | aliases and exception types as outcomes of `res` | configuration macros; `EIRIN_NO_EXCEPTIONS` (throw becomes terminate; GCC and Clang never define it, since `-fno-exceptions` leaves `__EXCEPTIONS`, which the header tests for a value other than 1, undefined) |

Simplifications:
* Floating-point values are dyadic rationals with p significant bits and no limit on the exponent, infinities and NaN
  (`Float.v` says why the exponent does not matter here).
* `iter--` before the beginning of a buffer and similar pointer arithmetic is an explicit outcome only where the code
  dereferences the result.
* Memory exhaustion, string length limits and stream exceptions masks are not modelled.
* An oversized shift in random.hpp is undefined; to say anything about the rest of the engine the model takes the
  platform's behaviour as a parameter (`platform` in `Random.v`; `strict` is the language rule).
* Loops without a static bound run on fuel; running out is the outcome `OutOfFuel`, never a normal result.

## 7. Disagreements between claims and code

Each line is a property that is false of the code as written, with the theorem that shows it and what holds instead.
(Written by `tools/gen_design.py` from the manifest.)

<!-- disagreements -->
* **C03** Conversion to a floating type keeps the value (`C03_float_cast_refuted`). The floating cast divides in the store type first, so the fraction is lost; proved instead: it truncates toward zero and is exact iff the value is an integer.
* **C05** Construction from a floating value with rounding=true rounds to nearest (`C05_float_ctor_rounding_refuted`, `C05_fp_negative_refuted`). Non-negative arguments are halved (`*0.5` for `+0.5`), so every result for an argument above one ulp is wrong (C05_fp_never_nearest, C05_fp_halves). For negative arguments the rounding of `val * 2^f - 0.5` in the floating type breaks the claim too (C05_fp_negative_refuted: the double just below half an ulp gives -1 ulp, and a float -(2^23+1) ulp gives -(2^23+2)); proved for all other negative arguments below 2^(p-1) ulp; from there on the arguments are integers, and exactly the odd ones below 2^p ulp are missed (C05_fp_large).
* **C06** Widening conversion between fixed types is exact (`C06_widening_refuted`). The product is computed in the promoted SOURCE type: exactness proved when it fits there, undefined behaviour exactly otherwise (signed sources); it wraps silently for unsigned sources, and shifts by the width of that type or more are always undefined.
* **C10** Mixed integer addition and subtraction agree with conversion (`C10_mixed_narrow_refuted`). Proved for every store of >= 32 bits and every representable integer; fails for 8/16-bit stores and unrepresentable integers (signed overflow in int).
* **C13** Multiplication and division with rounding=true round to nearest (`C13_mul_rounding_refuted`, `C13_div_rounding_refuted`). The rounding branches double the product/quotient (1*1 = 2); proved instead: product and quotient are within one ulp of twice the exact ones.
* **C14** Multiplication and division by an integer (`C14_div_int_unsigned_refuted`). Multiplication proved in full; division proved whenever the usual arithmetic conversions leave a signed type (or both operands are non-negative), refuted for wide unsigned divisors.
* **C17** Increment and decrement step by exactly one (`C17_inc_no_integer_bits_refuted`). Proved for every instantiation with at least one integer bit; refuted for signed 32/64-bit stores with fraction = width-1.
* **C21** Near-comparison is a consistent tolerance test (`C21_unsigned_refuted`, `C21_overflow_refuted`). Proved for signed comparison types when the difference does not overflow; refuted for unsigned 32/64-bit stores (nearly_eq(x,x) is false) and for overflowing differences.
* **C22** Integral and fractional part recompose the value (`C22_parts_refuted`, `C22_integral_part_ub_refuted`). Proved for non-negative values; fractional_part is x - trunc(x) for every value; for negative values integral_part is the ceiling of the magnitude (-1.5 -> 2) and is undefined near the minimum.
* **C24** numeric_limits bound the type (`C24_is_signed_refuted`, `C24_epsilon_refuted`, `C24_round_style_refuted`, `C24_round_style_signed_refuted`, `C24_digits_refuted`). Bounds proved; is_signed is always true, epsilon is 5 ulp for fixed32, round_style does not match operator*; digits, digits10 and radix are fixed-point objects and hold the right number only when the type has enough integer bits (C24_digits, C24_digits_refuted). For every type: epsilon() is 5/65536 cut off to the type, right only with 14 fraction bits (13 with rounding); is_signed is right exactly for signed types; round_style is wrong for every signed type.
* **C27** floor (`C27_floor_bottom_refuted`). Proved for every non-negative value and every value at least MIN + 2^f - 1; below that the code subtracts before dividing and overflows (undefined, though the floor is representable).
* **C28** ceil (`C28_ceil_negative_refuted`). Proved for non-negative values; every negative value comes out exactly 1 - 2^-f too large (also proved).
* **C30** modf splits a value (`C30_modf_bottom_refuted`). Proved with the same limits as floor (C27).
* **C31** fmod is a remainder (`C31_fmod_refuted`). Negative dividends can give negative results (refuted as stated). Proved: for a >= 0, b > 0 with representable quotient 0 <= r < b and a = k*b + r; for operands of any sign a = k*b + r exactly, with r/b below 1 and above minus one ulp (not negative when a/b >= 0).
* **C34** sqrt works for every 32-bit fraction width (`C34_sqrt_width_refuted`). The 32-bit branch never scales back from 16 fraction bits; proved instead what it computes for every width.
* **C35** fixed64 sqrt is accurate (`C35_sqrt64_refuted`). Proved for every x below 1963257856 (raw 8432131806905434112); proved undefined for every x at or above it.
* **C36** sqrt of a negative value is defined (`C36_sqrt32_negative_refuted`). Proved for every store type other than int32_t; for fixed32 the result is never -1: every negative argument gives a value between 255 and 384.
* **C37** cbrt never divides by zero and is accurate (`C37_cbrt_negative_refuted`, `C37_cbrt64_negative_refuted`, `C37_cbrt_large_refuted`). Defined and accurate for 0 <= x < 94 (fixed32) and 0 <= x <= 3868 (fixed64), see C114; cbrt(-2) divides by zero, cbrt(94) overflows.
* **C39** Negative integer powers are defined (`C39_pow_negative_refuted`, `C39_pow_negative_256_refuted`). Proved for integer bases with representable power (result = truncated 1/B^n); squares that vanish or wrap to zero divide by zero.
* **C42** exp is accurate (`C42_exp_refuted`). The fifth coefficient encodes 0.50004 instead of 1.00008, so exp(0.5) = 1.397 (true value 1.649). Proved instead: exp(0)=1, positivity, and the exact size of the deviation (0 to -18.5% for x >= 0, 0 to +22.6% for x < 0), accurate at integers.
* **C43** exp never divides by zero (`C43_exp_min_refuted`). Undefined at the least value only, proved for fixed32 at every other value; fixed64 proved for x >= 0 and wherever the result is representable.
* **C44** pow with a fixed exponent (`C44_pow_negative_refuted`). Zero and positive bases proved; a negative base always ends the program (an exception thrown inside noexcept).
* **C45** sin is accurate (`C45_sin_min_refuted`). Proved for every value except the least one of each type, where abs overflows (undefined).
* **C46** sin is odd (`C46_sin_odd_refuted`, `C46_sin_odd64_refuted`). Arguments in (-1.5e-4, 0) return the wrong sign (sin(-x) = sin(x), proved for all of them); exactly odd for every other value.
* **C47** sin and cos stay in [-1,1] (`C47_sin_min_refuted`). Range proved for cos on every value and for sin on every value except the least one (undefined).
* **C49** tan reports its poles (`C49_tan_wrap_refuted`, `C49_tan_min_refuted`). Proved whenever sin/cos fits the type (always when |cos| > 2 ulp); with cos = 2 ulp the quotient can wrap to the opposite sign; the least value is undefined.
* **C51** atan is accurate everywhere (`C51_atan_refuted`, `C51_atan_near_one_refuted`, `C51_atan_undefined_refuted`). The polynomial is only valid on [-1,1] (C50); outside it is wrong or undefined. Defined for |x| <= 23 in fixed64.
* **C52** asin/acos report their domain (`C52_asin_min_refuted`). Domain errors proved for every value except the least one; asin and acos defined on the whole of [-1, 1] for both types (next to 1 and -1 the fixed64 polynomial wraps: those 2^22 arguments are computed inside the proof, Asin64Full.v); constants proved for both.
* **C53** asin is accurate on [-1,1] (`C53_asin_refuted`, `C53_asin_near_one_refuted`). asin evaluates atan outside [-1,1] for |x| > 0.7071; accurate for |x| <= 0.7 (C115).
* **C57** Stream output is exact in bases 2, 8 and 16 (`C57_no_integer_bit_refuted`). Proved for every signed instantiation with at least one integer bit; refuted (undefined behaviour) for fraction = width-1.
* **C59** Stream output of unsigned types (`C59_unsigned_refuted`). The value 2^(w-1) prints with a minus sign and a wrong integer part; exact for every other value.
* **C60** String literals and from_cstring are accurate (`C60_min_refuted`). Proved for every in-range decimal whose number of leading fraction zeros keeps the divisor in the intermediate type; the literal of the least value is rejected.
* **C63** Every malformed string is rejected (`C63_malformed_refuted`). Shape of every accepted string proved; empty strings and text after the digit cut-off are accepted.
* **C64** Out-of-range literals are rejected (`C64_out_of_range_refuted`). Proved while the integer part fits the intermediate type; larger literals wrap and are accepted; negative literals of unsigned types are accepted.
* **C65** Parsing never has undefined behaviour (`C65_parse_ub_refuted`). Defined for every string with 10^length*2^f in the intermediate type; longer strings can be undefined.
* **C66** Every printable value can be parsed back (`C66_min_refuted`). Proved for every value except the least one, which prints but cannot be parsed.
* **C68** Stream input is accurate (`C68_stream_wrong_refuted`). operator>> keeps intermediates in the store type; accuracy proved when the fraction digits fit there, refuted otherwise (0.50000).
* **C69** Stream input reads a sequence (`C69_sequence_refuted`). White space is not skipped, malformed input is not reported, reading an integer up to end of file sets failbit.
* **C71** io::parse stops at the terminator and reports failure through the returned pointer (`C71_view_refuted`). Proved for text followed by a terminator that does not occur in it; string_view overload reads past the view and compares characters instead of pointers.
* **C72** std::format of the integer types d/x/X/o/b/B prints the truncated integer (`C72_format_int_refuted`). Proved for non-negative values and negative integers; negative non-integers print the magnitude rounded up (C94), values next to the minimum are undefined (C95).
* **C73** std::format of g/f prints the truncated decimal (`C73_format_dec_refuted`, `C73_precision_zero_refuted`). Proved for non-negative values and negative integers; negative non-integers print |x|+1 (C94); precision 0 leaves a trailing point.
* **C76** Format specifications are parsed as documented (`C76_parse_refuted`). Proved for every specification except fill ':' (C98) and the empty one before <, >, ^ (C99).
* **C77** An empty specification is empty (`C77_empty_spec_refuted`). Proved for every continuation not starting with <, > or ^ (C99).
* **C79** The random engine is portable (`C79_draw_undefined_refuted`, `C79_not_portable_refuted`). x >>= 8 ^ x shifts by 32 or more for all but a few values: every single draw is undefined. Proved instead: defined and in range on any platform that gives oversized shifts some meaning.
* **C82** Reseeding restarts the sequence (`C82_reseed_refuted`). seed(s) leaves m_state; it restarts the sequence only after a multiple of 2^width draws (proved).
* **C84** A one-off parameter is honoured (`C84_param_refuted`). The parameter is ignored (proved).
* **C85** The default distribution is usable with the documented underlying distribution (`C85_default_fixed64_refuted`, `C85_narrow_refuted`). Valid for fixed32; for fixed64 over int the bounds truncate to (0,-1), violating the precondition.
* **C87** CORDIC sine is odd (`C87_odd_refuted`). the sign bit is cleared instead of negating, so cordic_sine(-1) is off by more than 0.5; the exact relation cordic_sine(m) = -cordic_sine(m + 2^(bits-1)) is proved for every negative m.
* **C88** The SIMD multiply agrees with the scalar one (`C88_avx512_refuted`). the AVX-512 variant shifts the truncated 64-bit product, so 1.0*1.0 = 0 (C88_avx512_refuted); the portable variant is proved for all lanes.
* **C89** SIMD angle reduction (`C89_range_refuted`, `C89_avx512_refuted`, `C89_two_lanes_refuted`). results may exceed 2*pi for large angles, the AVX-512 variant does not reduce, and simd_reduce_angle_2 swaps its lanes and leaves whole numbers unreduced; congruence, sign, order and the true bound are proved for the four-lane version.
* **C90** ext::int128 addition (`C90_carry_refuted`, `C90_overflow_refuted`, `C90_negative_refuted`). the carry is lost, int64_t overflow in either word is undefined, and negative integers become v + 2^64; the exact behaviour is proved.
* **C91** BBP computation of pi converges (`C91_pi_refuted`). for every N the result (when defined) is more than 0.008 away from pi, because each term is divided by 16^(4k) instead of 16^k; for N > 2^28 the loop bound 4*k overflows int. Exact values for every N are proved.
* **C93** measure_esp reports true extrema (`C93_attained_refuted`). when no error exceeds the initial 0 (or none is below 255): the reported input is then initializer(0), which need not be on the grid. In every other case the reported extrema are attained; bounds hold for all grid points.
* **C96** Zero padding of decimals goes between sign and digits (`C96_zero_pad_refuted`). Proved instead: the zeros follow the alignment and go before the sign.
* **C102** Draws cover the advertised range (`C102_full_range_refuted`, `C102_adapter_min_refuted`). Draws are below 2^31 (pcg2014) and 2^56 (pcg2014_64); the minimum advertised by the fixed-point adapter is never drawn (C102_adapter_min_refuted).
* **C106** ext::int128 to int64_t saturates (`C106_negative_refuted`, `C106_positive_refuted`). in-range negative values and [2^63, 2^64) are converted wrongly; saturation proved elsewhere.
* **C109** CORDIC sine of zero is zero (`C109_zero_refuted`). -8 ulp for fixed32 and -3 ulp for fixed64.
* **C113** Table sine is accurate (`C113_lut_sine_refuted`). the conversion to double drops the fraction of the angle, so the table holds sin(0), sin(1), sin(2), sin(3) and the result is 0 for every 0 <= x < 1 - pi/N.
* **C130** std::format at full precision prints what operator<< prints (`C130_negative_fraction_refuted`). Proved for non-negative values and for negative integers away from the minimum; a negative value with a fraction is printed wrongly by format (C73), so the two texts differ there.
* **C133** Prefix increments chain (`C133_chained_increment_refuted`). Prefix ++ and -- return a copy, so the outer ++ increments a temporary and x grows by one only (proved for every value); += returns a reference and chains.
* **C134** A numeric fixed64 literal means its C++ value (`C134_other_spellings_refuted`, `C134_octal_refuted`, `C134_exponent_refuted`). Only plain decimal spellings are read. Hexadecimal, binary, separated and (up to nine fraction digits) exponent spellings leave the result unspecified because the parse failure is ignored; octal literals are read as decimal; an exponent after a cut-off fraction is silently dropped. The fixed32 literals use the cooked operators and are right.
* **C136** Table sine is odd (`C136_negative_refuted`, `C136_odd_refuted`). integral_part gives the magnitude of a negative number, so a negative angle is moved further from zero and the last two table entries are extrapolated; every negative angle down to -2^21 gives std::sin(3), about 0.1411.
* **C139** Construction from a floating value does not depend on the intermediate type (`C139_class_refuted`). The branch converts the argument to the store type before scaling, so the fraction is lost (1.5 becomes 1); proved that this always happens. MSVC with fixed64.
* **C141** A wide stream is read like a narrow one (`C141_wide_foreign_refuted`, `C141_narrow_foreign_refuted`). Proved for ASCII text in every stream state. isdigit() is called with the character as it is: undefined for every character above U+00FF in a wide stream and for every byte 128..254 in a narrow one.
* **C142** get_input returns the value the named file gives the key (`C142_get_refuted`). The values of all files go into one map, so a later file replaces an earlier file's value for the same key and a key missing in a file is answered from another one. Proved: the exact answer in general (C142_exact), and the claim whenever no other file asked for has the key.
* **C143** Asking get_input again gives the same answer (`C143_repeat_refuted`). When the file cannot be opened the first answer is "0" and the second comes from the other files. Proved for names asked for before and files that can be opened.
* **C144** Feature queries report the processor's features (`C144_intel_refuted`, `C144_usable_refuted`). The highest leaf is not checked, so an Intel processor without leaf 7 answers with another leaf's bits; and the operating system's support (OSXSAVE, XCR0) is not checked. Proved for processors with leaf 7 or with zeros beyond the highest leaf, and for SSE2, SSE4.2, AVX with leaf 1.
* **C145** Feature queries may first be made by several threads at once (`C145_early_refuted`, `C145_lost_refuted`). features_detected is set before the flags and nothing is synchronised: a second thread can be told no, and two simultaneous detections can lose a flag for ever. Proved: a yes is always right, and everything is right once one query has finished before the others start. Interleaving semantics; in C++ the race is undefined behaviour anyway.
* **C146** print_constants prints right definitions (`C146_fraction_refuted`). The printed text always says from_fixed_num_value<61>, whatever the template argument: for every other number of fraction bits up to 60 each definition is wrong by more than 0.1. Proved for every f: the digits are right for f bits; for f = 61 they are those of numbers.hpp.
* **C147** The accuracy tester reports the errors of the function under test (`C147_report_refuted`). The cast of the result to double drops the fraction (see C03), so the errors reported are those of the integer parts: two functions with values inside (-1,1) always get the same report, and sin(0.5) is reported with an error of 0.479. Statistics in exact arithmetic instead of double.
* **C151** sin, cos and tan repeat after a full turn (`C151_sin_tiny_refuted`, `C151_sin_across_refuted`). Exact for sin away from the arguments below 1e-4 (returned unchanged before the reduction) when both arguments have the same sign; for cos and tan the sign of the shifted argument counts.
* **C152** cos is even (`C152_cos_refuted`). cos shifts positive and negative arguments by different quarter turns: the two values differ by at most 42 ulp (fixed32) or 6.3e-4 (fixed64).
* **C153** tan is odd (`C153_tan_refuted`, `C153_tan_tiny_refuted`). tan is odd exactly where cos(-x) = cos(x) (C152) and |x| is at least 1e-4; below that it is even (C153_tan_tiny_refuted).
* **C154** asin is odd and acos its complement (`C154_minus_one_refuted`). acos(-1) is one ulp too large; otherwise exact everywhere for both types.
* **C155** exp never decreases (`C155_zero_refuted`). Only across zero: the values one raw unit below, at and above zero are 65537, 65536, 65535. Elsewhere proved.
* **C157** pow with a fixed-point exponent approximates the real power (`C157_pow_refuted`). The error of exp (C42) carries over: up to 18.5% low for bases above 1, 22.7% high for bases below 1, bounds proved for all arguments.
* **C158** exp and log undo each other (`C158_log_exp_refuted`). log(exp(x)) is up to 0.204 low; exp(log(x)) up to 18.5% low for x >= 1 and 22.7% high for x <= 1.
* **C161** Draws vary on every machine (`C161_zero_shift_refuted`). Refuted for machines where an over-long shift gives 0 (vector shifts, 32-bit ARM): both predefined engines then draw only zeros. The shift itself is undefined behaviour in C++ (C79).
* **C162** The arithmetic benchmarks have defined behaviour (`C162_add_benchmarks_refuted`, `C162_divide_no_file_refuted`). The additions and subtractions reach signed overflow: fixed32 in iteration 29, fixed64 after 433834849 (add) and 433835311 (minus) iterations. Multiplication and division never do, except that a missing input file makes the division divide by zero.
* **C163** The division benchmark keeps dividing a nonzero number (`C163_div_benchmarks_refuted`). The dividend is 0 from iteration 3 (fixed32) or 20 (fixed64) on, so nearly all iterations time 0 / y. Proved for every divisor of at least 2: 0 after as many iterations as the type has bits.
* **C165** The average relative error is the mean of the relative errors (`C165_average_refuted`). Only when no reference value is zero: such a sample is counted in the divisor, as if its relative error were the average so far. The benchmark adds the sample 0.0 (reference sin 0 = 0) to every range that contains it.
* **C166** The accuracy loop measures the function under test (`C166_error_refuted`). The samples are taken as stated and the counters overflow at 2^31 iterations, but the cast (double)result truncates (C03): values between -1 and 1 are recorded as 0.
* **C167** sin, cos, atan, asin and acos keep the order of their arguments (`C167_sin_refuted`, `C167_sin64_refuted`, `C167_cos_refuted`, `C167_atan_refuted`). Neighbouring arguments can give results one unit in the wrong order, and fixed32 sin falls where it switches to the polynomial. Proved: sin in order on [0.00015, 2/3] and atan on [-9/16, 9/16] for both types, asin and acos of fixed32 on [-0.49, 0.49]; on the whole intervals atan in order up to 16 ulp, sin and cos up to 33 and 37 ulp (fixed32) or 7.45e-6 (fixed64).
* **C169** sqrt, cbrt and hypot of fixed64 keep the order of their arguments (`C169_sqrt64_refuted`, `C169_cbrt32_refuted`, `C169_cbrt64_refuted`, `C169_hypot64_refuted`). Where the number of Newton steps changes the fixed64 root falls (by 0.0013 between raw 2097151 and 2097152), and with it hypot; cbrt falls in both types. Proved: arguments at least 5/65536 apart keep their order under sqrt, which never falls by more than 0.0088; arguments up to 3868 and at least 1310736 ulp apart keep their order under cbrt.  For fixed32 sqrt and hypot the order is C127 and C128.
* **C170** hypot of fixed64 is the length of the vector (`C170_hypot64_refuted`). The squares leave the range long before the length does: hypot(60000, 0) is -1, and every sum of squares between 1963258676 and 2^31 is undefined behaviour inside sqrt.  Proved below that: r^2 within 5/65536 and two (three) ulp of the sum of squares.
* **C171** floor, ceil, trunc and round fit together (`C171_ceil_order_refuted`, `C171_ceil_twice_refuted`, `C171_floor_twice_refuted`, `C171_mirror_refuted`). ceil adds 1 - ulp to the ceiling of a negative value (C28): ceil(-0.5) = 0.99998 > ceil(0), ceil(ceil(-1.5)) differs from ceil(-1.5) and floor(1) is not -ceil(-1); floor of a result of floor is undefined at the smallest value (C27). Proved: everything for trunc and round, order and repetition of floor where it is defined twice, everything for ceil of non-negative values, order of ceil among negative values.
* **C173** The inverse trigonometric functions undo sin, cos and tan (`C173_sin_asin_refuted`, `C173_asin_sin_refuted`, `C173_acos_cos_refuted`, `C173_tan_atan_refuted`, `C173_atan_tan_refuted`). asin, acos (beyond 0.7) and atan (beyond 1) leave the functions they approximate (C51, C53), so sin(asin 0.92) is -0.28 and tan(atan 2) is -10.4. Proved: |x| <= 0.7 (sin o asin, cos o acos), |x| <= 0.77 (asin o sin), 0.81 <= x <= 2.33 (acos o cos), |x| <= 1 (tan o atan; fixed64 |x| >= 4.3e-4), |x| <= 0.78 (atan o tan; fixed64 not in (-1.5e-4, 0), where sin has the wrong sign).
* **C175** The CORDIC functions agree with sin and cos (`C175_negative_refuted`). For negative angles CORDIC reduces the wrong number (C87): at -1 the two differ by 0.59. Proved for all non-negative angles.
* **C177** degrees and radians keep the order and the sign (`C177_radians_odd_refuted`). radians rounds its product down, so radians(-x) can be one unit below -radians(x) (at x = 1). Proved: order of both, degrees odd, radians odd up to that unit; degrees for |result| <= 32760 (fixed32) and 2147483647 (fixed64).
* **C178** The logarithms of every instantiation (`C178_wide_refuted`, `C178_small_refuted`, `C178_unsigned_refuted`). log2 shifts 1u by f - 1, which has no value for f > 32, so all three are undefined for every type with more than 32 fraction bits; with a 32-bit store and 28 fraction bits a small argument overflows; an unsigned type wraps below 1. Proved for signed types with a 32-bit store and at most 26 fraction bits or a 64-bit store and at most 32 (log and log10: without rounding).
* **C179** sin, cos and tan of every instantiation (`C179_sin_refuted`, `C179_unsigned_cos_refuted`). pi * pi overflows next to 28 or more fraction bits of a 32-bit store (60 or more of a 64-bit store): sin 1 is 1.107. For an unsigned type cos of a positive argument wraps: cos 1 is 65535.1. Proved for signed types without rounding, 3 to 27 fraction bits in 32 or 3 to 59 in 64. Just below zero sin has the wrong sign (C46), hence the wider bound there.
* **C181** exp of every instantiation (`C181_exp_half_refuted`). The wrong fifth coefficient (C42) makes e^(1/2) at least 0.25 too small in every one of these instantiations. Proved instead: never above e^x for x >= 0 and at least 0.816 of it less a few units; for x < 0 between e^x less one unit and 1.25 e^x when (12 + 1.4 |x|) units are at most 0.016.
* **C182** degrees and radians of every instantiation (`C182_wide_refuted`). With 24 or more fraction bits in 32 (56 or more in 64) the constant 180 does not fit and wraps: radians(1) is -0.041. Proved for 3 to 23 (3 to 55) fraction bits; one and two fraction bits are not covered.
* **C183** the square root of every 64-bit instantiation (`C183_even_refuted`). With an even number of fraction bits the largest value overflows in the first residual (undefined behaviour); proved below half of the range for every number of fraction bits and on the whole positive range for odd ones. The 32-bit store takes another branch (C33, C34).
* **C184** asin and acos of every instantiation (`C184_width_refuted`). A 32-bit store with other than 16 fraction bits gets a wrong root (C34), so asin(1/2) is 221.6 with 20 fraction bits. Proved for 64-bit stores with 13 to 59 fraction bits; 32-bit stores with 16 are C115.
<!-- end -->

## 8. How the theorems were tested
`seeded/LOG.jsonl` records edits of the model with realistic bugs and the theorems that stopped proving.
