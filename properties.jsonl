{"id": "C01", "title": "floor is the exact floor", "statement": "floor/floorf/floorf16/floorf128 return, for every finite x, the float whose value is the greatest integer not above x, with the sign bit of x kept (so floor(-0.0) is -0.0); infinities and NaNs come back bit-for-bit; the call never panics.", "quantifier": "every bit pattern of every supported format (f16, f32, f64, f128)", "why_tests_cant": "2^64 and 2^128 inputs; the carry from significand into exponent happens on sparse inputs.", "anchors": ["libm/src/math/generic/floor.rs: floor, floor_status", "libm/src/math/floor.rs", "libm/src/math/floorf16.rs"]}
{"id": "C02", "title": "ceil is the exact ceiling", "statement": "ceil in all four formats returns the least integer not below x for every finite x, keeps the sign bit of x (ceil(-0.5) is -0.0), returns infinities and NaNs unchanged, and never panics.", "quantifier": "every bit pattern of every supported format", "why_tests_cant": "Input space cannot be enumerated for f64/f128; wrong masks or carries show only on particular exponents.", "anchors": ["libm/src/math/generic/ceil.rs: ceil, ceil_status"]}
{"id": "C03", "title": "trunc drops the fraction exactly", "statement": "trunc in all four formats returns the integer obtained by rounding x toward zero, keeps the sign bit, returns infinities and NaNs unchanged, and never panics.", "quantifier": "every bit pattern of every supported format", "why_tests_cant": "Input space cannot be enumerated for f64/f128.", "anchors": ["libm/src/math/generic/trunc.rs: trunc, trunc_status"]}
{"id": "C04", "title": "round is nearest integer, ties away from zero", "statement": "round in all four formats returns the integer nearest to x with exact halves going away from zero, keeps the sign bit, returns infinities unchanged and NaN for NaN.", "quantifier": "every bit pattern of every supported format", "why_tests_cant": "The classic bug is x = pred(0.5) or large odd integers; correctness depends on a rounding argument, not on sampled values.", "anchors": ["libm/src/math/generic/round.rs: round"]}
{"id": "C05", "title": "rint and roundeven are nearest integer, ties to even", "statement": "rint and roundeven in all four formats return the integer nearest to x with exact halves going to the even integer, keep the sign bit (also for zero results), return infinities unchanged and NaN for NaN.", "quantifier": "every bit pattern of every supported format", "why_tests_cant": "The add/subtract-2^p trick relies on the rounding of every intermediate sum.", "anchors": ["libm/src/math/generic/rint.rs: rint_round", "libm/src/math/rint.rs", "libm/src/math/roundeven.rs"]}
{"id": "C06", "title": "inexact status of floor/ceil/trunc", "statement": "The status returned by the *_status forms of floor, ceil and trunc is INEXACT exactly when the returned value differs from the argument.", "quantifier": "every bit pattern of every supported format", "why_tests_cant": "A flag error can hide on inputs (powers of two below one) that a random test rarely draws.", "anchors": ["libm/src/math/generic/floor.rs: floor_status", "libm/src/math/generic/ceil.rs: ceil_status", "libm/src/math/generic/trunc.rs: trunc_status", "libm/src/math/support/env.rs: Status"]}
{"id": "C07", "title": "fabs and copysign change only the sign bit", "statement": "fabs(x) equals x with a clear sign bit and copysign(x, y) equals x with the sign bit of y; no other bit, including NaN payload bits, changes.", "quantifier": "all pairs of bit patterns of every supported format, NaNs included", "why_tests_cant": "Pairs of 64- or 128-bit patterns cannot be enumerated and NaN payloads are not visible through float equality.", "anchors": ["libm/src/math/generic/fabs.rs: fabs", "libm/src/math/generic/copysign.rs: copysign"]}
{"id": "C08", "title": "fmin and fmax pick the right operand and ignore one NaN", "statement": "fmin/fmax return the smaller/larger of two numbers, one of the two operands when they compare equal, the non-NaN operand when exactly one is NaN, and NaN only when both are NaN.", "quantifier": "all pairs of bit patterns of every supported format", "why_tests_cant": "Quadratic input space with NaN, infinity, signed-zero and subnormal corner products.", "anchors": ["libm/src/math/generic/fmin.rs: fmin", "libm/src/math/generic/fmax.rs: fmax", "libm/src/math/fmin_fmax.rs"]}
{"id": "C09", "title": "fminimum and fmaximum propagate NaN and order the zeros", "statement": "fminimum/fmaximum return NaN when either operand is NaN; otherwise the smaller/larger operand where -0.0 is below +0.0.", "quantifier": "all pairs of bit patterns of every supported format", "why_tests_cant": "Quadratic input space; signed zero and NaN interactions.", "anchors": ["libm/src/math/generic/fminimum.rs: fminimum", "libm/src/math/generic/fmaximum.rs: fmaximum"]}
{"id": "C10", "title": "fminimum_num and fmaximum_num ignore one NaN and order the zeros", "statement": "fminimum_num/fmaximum_num return the non-NaN operand when exactly one operand is NaN, NaN when both are; otherwise the smaller/larger operand where -0.0 is below +0.0.", "quantifier": "all pairs of bit patterns of every supported format", "why_tests_cant": "The failing combination (negative zero with a positive NaN) is one pair class in a quadratic space.", "anchors": ["libm/src/math/generic/fminimum_num.rs: fminimum_num", "libm/src/math/generic/fmaximum_num.rs: fmaximum_num"]}
{"id": "C11", "title": "fdim is the correctly rounded positive difference", "statement": "fdim(x, y) is NaN if either operand is NaN, +0.0 if x <= y, and otherwise the correctly rounded x - y (overflowing to infinity as IEEE subtraction does).", "quantifier": "all pairs of bit patterns of every supported format", "why_tests_cant": "Quadratic input space.", "anchors": ["libm/src/math/generic/fdim.rs: fdim"]}
{"id": "C12", "title": "fmod is exact", "statement": "fmod(x, y) for finite x and finite nonzero y returns exactly x - n*y with n the quotient x/y truncated to an integer, with the sign bit of x even when the result is zero; it returns x itself when y is infinite, NaN when x is infinite, y is zero or either is NaN; no shift, subtraction or cast in it overflows and its loop terminates.", "quantifier": "all pairs of bit patterns of every supported format", "why_tests_cant": "The loop runs up to tens of thousands of steps with different exponents gaps; exactness for all pairs needs an invariant.", "anchors": ["libm/src/math/generic/fmod.rs: fmod"]}
{"id": "C13", "title": "remainder is the exact IEEE remainder", "statement": "remainder/remainderf(x, y) for finite x and finite nonzero y returns exactly x - n*y where n is the integer nearest to x/y, ties to even, with the sign of x when the result is zero; NaN for infinite x, zero y or NaN operands; x for infinite y.", "quantifier": "all pairs of f32 and of f64 bit patterns", "why_tests_cant": "Halfway and even/odd quotient decisions depend on the whole long division.", "anchors": ["libm/src/math/remainder.rs", "libm/src/math/remquo.rs: remquo", "libm/src/math/remquof.rs: remquof"]}
{"id": "C14", "title": "remquo returns the low quotient bits", "statement": "The integer returned by remquo/remquof has the sign of x/y and is congruent in magnitude modulo 8 (in fact modulo 2^31) to the integer nearest to x/y; computing it never panics on overflow.", "quantifier": "all pairs of f32 and of f64 bit patterns with finite x and finite nonzero y", "why_tests_cant": "The counter wraps only for operand pairs with a huge exponent gap and special quotient bits.", "anchors": ["libm/src/math/remquo.rs: remquo", "libm/src/math/remquof.rs: remquof"]}
{"id": "C15", "title": "scalbn and ldexp are correctly rounded", "statement": "scalbn(x, n) and ldexp(x, n) in all four formats return x*2^n rounded once to nearest even (including subnormal and zero results, and overflow to infinity), for every i32 n; zeros, infinities and NaNs are passed through and no integer operation panics.", "quantifier": "every bit pattern of every supported format and every 32-bit n", "why_tests_cant": "Double rounding in the multi-step scaling shows only for particular subnormal results; n ranges over 2^32 values.", "anchors": ["libm/src/math/generic/scalbn.rs: scalbn", "libm/src/math/scalbn.rs", "libm/src/math/ldexp.rs"]}
{"id": "C16", "title": "frexp splits a number exactly", "statement": "For finite nonzero x, frexp/frexpf return (m, e) with 1/2 <= |m| < 1 and x = m*2^e exactly; for zero they return (x, 0); infinities and NaNs are returned in m.", "quantifier": "every f32 and f64 bit pattern", "why_tests_cant": "Subnormals need the rescaling recursion; not enumerable for f64.", "anchors": ["libm/src/math/frexp.rs: frexp", "libm/src/math/frexpf.rs: frexpf"]}
{"id": "C17", "title": "modf splits integer and fraction exactly", "statement": "modf/modff return (f, i) with i = trunc(x), f + i = x exactly, |f| < 1, and both carrying the sign of x; for infinite x the fraction is a zero with the sign of x; NaN gives NaN parts.", "quantifier": "every f32 and f64 bit pattern", "why_tests_cant": "Not enumerable for f64; sign-of-zero handling in both parts.", "anchors": ["libm/src/math/modf.rs: modf", "libm/src/math/modff.rs: modff"]}
{"id": "C18", "title": "ilogb is the binary exponent", "statement": "For finite nonzero x, ilogb/ilogbf return the integer e with 2^e <= |x| < 2^(e+1), subnormals included; zero and NaN give FP_ILOGB0/FP_ILOGBNAN (i32::MIN here) and infinity gives i32::MAX; the shift loop terminates.", "quantifier": "every f32 and f64 bit pattern", "why_tests_cant": "Subnormal loop depends on the position of the top bit.", "anchors": ["libm/src/math/ilogb.rs: ilogb", "libm/src/math/ilogbf.rs: ilogbf"]}
{"id": "C19", "title": "nextafter steps to the adjacent number", "statement": "nextafter/nextafterf(x, y) return y when x == y, NaN if either is NaN, and otherwise the float adjacent to x in the direction of y: no float lies strictly between x and the result; from zero it is the smallest subnormal with the sign of y; no integer operation overflows.", "quantifier": "all pairs of f32 and of f64 bit patterns", "why_tests_cant": "Adjacency quantifies over all floats in between.", "anchors": ["libm/src/math/nextafter.rs: nextafter", "libm/src/math/nextafterf.rs: nextafterf"]}
{"id": "C20", "title": "sqrt is correctly rounded", "statement": "sqrt in all four formats (software version) returns the square root rounded to nearest even for every nonnegative finite x, keeps -0.0, returns +infinity for +infinity and NaN for negative or NaN arguments; no integer operation panics.", "quantifier": "every bit pattern of every supported format", "why_tests_cant": "The table/Goldschmidt iteration is only right if an error bound holds on each of the table intervals; 2^64 or 2^128 inputs.", "anchors": ["libm/src/math/generic/sqrt.rs: sqrt, sqrt_round, goldschmidt, wmulh, RSQRT_TAB"]}
{"id": "C21", "title": "fma (f64, f128) is rounded once", "statement": "fma and fmaf128 return x*y + z computed exactly and rounded once to nearest even, for all finite operands, and follow IEEE rules for infinities, NaNs and signed zero results; no integer operation panics.", "quantifier": "all triples of f64 bit patterns (and of f128 bit patterns)", "why_tests_cant": "A lost sticky bit changes the result only when the exact sum is within one part in 2^60 of a halfway point.", "anchors": ["libm/src/math/fma.rs: fma_round, norm"]}
{"id": "C22", "title": "fmaf (f32) is rounded once", "statement": "fmaf returns x*y + z computed exactly and rounded once to nearest even for all f32 operands, following IEEE rules for infinities and NaNs.", "quantifier": "all triples of f32 bit patterns", "why_tests_cant": "Double rounding through f64 shows only on rare halfway cases and separately for subnormal results.", "anchors": ["libm/src/math/fma_wide.rs: fma_wide_round"]}
{"id": "C23", "title": "256-bit helper arithmetic is exact", "statement": "widen_mul of two 128-bit integers gives their exact 256-bit product; 256-bit addition, not, right shift, low/high split and widening behave as the corresponding operations on integers modulo 2^256.", "quantifier": "all pairs of 128-bit integers; all pairs of 256-bit integers; all shift amounts the API admits", "why_tests_cant": "2^256 operand pairs; carry propagation across limbs.", "anchors": ["libm/src/math/support/big.rs: u256, i256, HInt, DInt"]}
{"id": "C24", "title": "256-bit constants and ordering agree with the integers", "statement": "The 256-bit helper types compare as the integers they represent, and their MIN/MAX constants are the least and greatest representable integers.", "quantifier": "all pairs of 256-bit helper values", "why_tests_cant": "Field order in a derived comparison is invisible unless high and low limbs disagree.", "anchors": ["libm/src/math/support/big.rs: u256, i256"]}
{"id": "C25", "title": "hex float literals are parsed with correct rounding", "statement": "Parsing a hexadecimal float string yields the correctly rounded value of the written number in each of the four rounding modes, for each format, with status flags telling inexact/overflow/underflow; exactly the malformed strings are rejected.", "quantifier": "all strings of the hexadecimal float grammar, all formats, all rounding modes", "why_tests_cant": "Unbounded strings; sticky bits far to the right and subnormal rounding boundaries.", "anchors": ["libm/src/math/support/hex_float.rs: parse_any, parse_hex, parse_hex_exact, hf32, hf64"]}
{"id": "C26", "title": "hex float parsing never panics", "statement": "Parsing any byte string as a hexadecimal float returns Ok or Err, never an arithmetic overflow or index panic.", "quantifier": "all byte strings (and all format widths accepted by the function's own checks)", "why_tests_cant": "Exponent digits of unbounded length; overflow at a single boundary value.", "anchors": ["libm/src/math/support/hex_float.rs: parse_any, parse_finite, parse_hex"]}
{"id": "C27", "title": "hex float formatting round-trips", "statement": "Formatting a float as a hexadecimal literal and parsing the text back yields the same bit pattern for every non-NaN value (and NaN for NaN).", "quantifier": "every bit pattern of every supported format", "why_tests_cant": "Not enumerable for f64/f128; subnormals use a different normalisation.", "anchors": ["libm/src/math/support/hex_float.rs: fmt_any_hex, parse_any"]}
{"id": "C28", "title": "float decomposition and constants are consistent", "statement": "from_parts(sign, exponent, significand) rebuilds exactly the float whose sign bit, exponent field and significand field are given; ex/frac/exp_unbiased read them back; is_nan, is_infinite, is_sign_negative and eq_repr, and the derived constants (EXP_BIAS, EXP_MAX, EXP_MIN, MAX, MIN, MIN_POSITIVE_NORMAL, EPSILON, INFINITY, NAN, ...) agree with IEEE 754; signum returns plus or minus one with the sign of its argument; normalize() shifts a subnormal significand to a normalized one with the value preserved.", "quantifier": "every bit pattern and every field combination of every supported format", "why_tests_cant": "Not enumerable for f64/f128; the properties relate several accessors for all inputs.", "anchors": ["libm/src/math/support/float_traits.rs: Float, f32_from_bits"]}
{"id": "C29", "title": "hypot special values, symmetry and range safety", "statement": "hypot/hypotf do not depend on argument order or signs, return +infinity if either argument is infinite (even if the other is NaN), NaN if otherwise one is NaN, and |x| when the other argument is zero.", "quantifier": "all pairs of f32 and of f64 bit patterns", "why_tests_cant": "Symmetry must hold for every pair.", "anchors": ["libm/src/math/hypot.rs: hypot", "libm/src/math/hypotf.rs: hypotf"]}
{"id": "C30", "title": "sign symmetry of the elementary functions", "statement": "The odd functions (sin, tan, asin, atan, sinh, tanh, asinh, atanh, erf, cbrt and f32 forms) satisfy f(-x) = -f(x) bit for bit for non-NaN results, and the even ones (cos, cosh, j0) satisfy f(-x) = f(x).", "quantifier": "every non-NaN f32 / f64 argument", "why_tests_cant": "Bitwise symmetry must hold for all 2^64 arguments along every reduction path.", "anchors": ["libm/src/math/cbrt.rs", "libm/src/math/cbrtf.rs", "libm/src/math/atan.rs", "libm/src/math/sinf.rs", "libm/src/math/tanhf.rs"]}
{"id": "C31", "title": "special values of the elementary functions (C Annex F)", "statement": "For exp, exp2, expm1, log, log2, log10, log1p, sin, cos, tan, asin, acos, atan, sinh, cosh, tanh, asinh, acosh, atanh, erf, cbrt: NaN arguments give NaN, infinities and zeros give the Annex F results, arguments outside the domain give NaN.", "quantifier": "every NaN, every out-of-domain argument, zeros and infinities, of f32 and f64", "why_tests_cant": "Out-of-domain and NaN classes contain 2^52 or more patterns.", "anchors": ["libm/src/math/expf.rs", "libm/src/math/logf.rs", "libm/src/math/acosf.rs", "libm/src/math/asinf.rs", "libm/src/math/atanf.rs"]}
{"id": "C32", "title": "pow special cases", "statement": "pow/powf(x, 0) is 1 for every x including NaN, pow(1, y) is 1 for every y including NaN, any other NaN operand gives NaN, a negative finite base with a non-integer exponent gives NaN, and infinities/zeros follow Annex F with odd-integer sign rules.", "quantifier": "all pairs of f32 and of f64 bit patterns in each class", "why_tests_cant": "Pairs of 64-bit patterns; odd-integer detection over all exponents.", "anchors": ["libm/src/math/pow.rs: pow", "libm/src/math/powf.rs: powf"]}
{"id": "C33", "title": "sincos agrees with sin and cos", "statement": "sincos(x)/sincosf(x) return bit for bit the pair (sin(x), cos(x)) / (sinf(x), cosf(x)).", "quantifier": "every f32 / f64 bit pattern", "why_tests_cant": "The functions use separate case splits; agreement must hold for every argument.", "anchors": ["libm/src/math/sincos.rs: sincos", "libm/src/math/sincosf.rs: sincosf", "libm/src/math/sin.rs", "libm/src/math/cos.rs", "libm/src/math/sinf.rs", "libm/src/math/cosf.rs"]}
{"id": "C34", "title": "cbrt and cbrtf", "statement": "cbrt is the correctly rounded cube root in the default rounding mode and cbrtf is within one ulp; both are exact on cubes, odd, and pass zeros, infinities and NaNs.", "quantifier": "every f32 / f64 bit pattern", "why_tests_cant": "Correct rounding for all inputs cannot be sampled.", "anchors": ["libm/src/math/cbrt.rs: cbrt", "libm/src/math/cbrtf.rs: cbrtf"]}
{"id": "C35", "title": "x87 floor and ceil keep the sign of zero", "statement": "The i586 replacements of floor and ceil return the same bits as the generic floor and ceil.", "quantifier": "every f64 bit pattern", "why_tests_cant": "Selected only on one target; sign of zero is invisible to ==.", "anchors": ["libm/src/math/arch/i586.rs: floor, ceil"]}
{"id": "C36", "title": "generic helper dispatches to the right function", "statement": "Every method of Libm<f32> and Libm<f64> returns exactly what the free function of the same mathematical name and type returns.", "quantifier": "every method and every argument", "why_tests_cant": "A copy/paste error in a table row affects one method only.", "anchors": ["libm/src/libm_helper.rs: libm_helper!"]}
{"id": "C37", "title": "exp10 is exact at small integers", "statement": "exp10(n)/exp10f(n) for integers |n| within the table range return the correctly rounded power of ten, and table indexing never goes out of bounds for any argument.", "quantifier": "every f32 / f64 bit pattern", "why_tests_cant": "Bounds must hold for every argument that reaches the table.", "anchors": ["libm/src/math/exp10.rs: exp10", "libm/src/math/exp10f.rs: exp10f"]}
{"id": "C38", "title": "argument reduction never indexes out of bounds", "statement": "The multi-word pi/2 argument reduction used by sin/cos/tan never indexes outside its tables and never overflows its integer state, for every finite argument.", "quantifier": "every finite f32 / f64 argument", "why_tests_cant": "Index expressions depend on the exponent of the argument and on data-dependent recomputation.", "anchors": ["libm/src/math/rem_pio2_large.rs: rem_pio2_large", "libm/src/math/rem_pio2.rs: rem_pio2", "libm/src/math/rem_pio2f.rs"]}
{"id": "C39", "title": "integer support traits", "statement": "For every primitive integer type, cast succeeds exactly when the value fits the target type and cast_lossy keeps it modulo 2^width; widen, zero_widen, widen_mul, zero_widen_mul and widen_hi give the exact double-width results; lo, hi and from_lo_hi split and rebuild a double-width integer; logical_shr is unsigned floor division by a power of two; signed/unsigned conversions keep the bits; abs panics only on MIN.", "quantifier": "every pair of integers of each width from 8 to 128 bits", "why_tests_cant": "Pairs of wide integers are not enumerable.", "anchors": ["libm/src/math/support/int_traits.rs: Int, MinInt, CastFrom"]}
{"id": "C40", "title": "is_subnormal recognises exactly the subnormal numbers", "statement": "Float::is_subnormal(x) is true exactly when x is a nonzero number below the smallest normal number in magnitude.", "quantifier": "all bit patterns of each of the four formats", "why_tests_cant": "the zeros, the only exceptions, are two patterns out of 2^64 or 2^128", "anchors": ["libm/src/math/support/float_traits.rs: is_subnormal"]}
{"id": "C41", "title": "widening traits work at 128 bits", "statement": "The widening traits give the same results at 128-bit halves as at the primitive widths: widen_hi, from_lo_hi and the signed widen_mul return the exact 256-bit value.", "quantifier": "every pair of 128-bit integers", "why_tests_cant": "The helpers are reachable only through generic code instantiated at f128; no test calls them at that width.", "anchors": ["libm/src/math/support/big.rs: impl HInt for u128, impl HInt for i128, Shl for u256", "libm/src/math/support/int_traits.rs: DInt::from_lo_hi"]}
{"id": "C42", "title": "checked integer-to-float cast is exact", "statement": "CastInto::cast from a signed integer type to a float type returns (in debug builds) only when the float has exactly the value of the integer, and panics otherwise.", "quantifier": "every value of every signed integer type and every float format", "why_tests_cant": "The check converts back with saturation, so it passes for inexact conversions only at the extreme values.", "anchors": ["libm/src/math/support/int_traits.rs: cast_into_float"]}
{"id": "C43", "title": "single precision sine, cosine and tangent are faithfully rounded", "statement": "sinf, cosf and tanf return, for every finite argument, one of the two f32 values next to the true sine, cosine or tangent of the argument (the value itself when it is representable): the error is always below one ulp, however large the argument.", "quantifier": "every finite f32 bit pattern", "why_tests_cant": "The true value is a real number; the error must be bounded for all arguments including those of size 2^127 that lie very close to multiples of pi/2, where the reduction cancels almost all digits.", "anchors": ["libm/src/math/sinf.rs: sinf", "libm/src/math/cosf.rs: cosf", "libm/src/math/tanf.rs: tanf", "libm/src/math/k_sinf.rs: k_sinf", "libm/src/math/k_cosf.rs: k_cosf", "libm/src/math/k_tanf.rs: k_tanf", "libm/src/math/rem_pio2f.rs: rem_pio2f", "libm/src/math/rem_pio2_large.rs: rem_pio2_large"]}
{"id": "C44", "title": "single precision argument reduction is accurate", "statement": "rem_pio2f returns for every finite argument of magnitude at least 4 the quadrant (mod 8) and a double within relative error 3/2*2^-26 and absolute error 2^-40 of the true remainder modulo pi/2; the table used for huge arguments holds the base 2^24 digits of 2/pi.", "quantifier": "every finite f32 bit pattern of magnitude at least 4, both pointer widths; every table entry", "why_tests_cant": "The remainder is defined through the real number pi; arguments close to multiples of pi/2 are rare and cannot be enumerated for the real-number comparison.", "anchors": ["libm/src/math/rem_pio2f.rs: rem_pio2f", "libm/src/math/rem_pio2_large.rs: rem_pio2_large, IPIO2, PIO2"]}
{"id": "C45", "title": "double precision sine and cosine are faithfully rounded", "statement": "sin, cos and sincos return, for every finite argument, f64 values next to the true sine and cosine of the argument (the value itself when it is representable): the error is always below one ulp, however large the argument.", "quantifier": "every finite f64 bit pattern", "why_tests_cant": "The true value is a real number; there are 2^64 arguments, and those close to multiples of pi/2 lose more than 1000 bits in the reduction, so the error cannot be bounded by sampling.", "anchors": ["libm/src/math/sin.rs: sin", "libm/src/math/cos.rs: cos", "libm/src/math/sincos.rs: sincos", "libm/src/math/k_sin.rs: k_sin", "libm/src/math/k_cos.rs: k_cos", "libm/src/math/rem_pio2.rs: rem_pio2", "libm/src/math/rem_pio2_large.rs: rem_pio2_large"]}
{"id": "C46", "title": "double precision argument reduction is accurate", "statement": "rem_pio2 returns for every finite argument of magnitude at least 0.7854 the quadrant (mod 8) and two doubles whose sum is within relative error 2^-64 of the true remainder modulo pi/2, the first at most 0.78542 and the second at most 9/4*2^-53 times the first.", "quantifier": "every finite f64 bit pattern of magnitude at least 0.7854, both pointer widths", "why_tests_cant": "The remainder is defined through the real number pi; the worst arguments are found only by a continued fraction argument over all 2^64 patterns.", "anchors": ["libm/src/math/rem_pio2.rs: rem_pio2", "libm/src/math/rem_pio2_large.rs: rem_pio2_large, IPIO2, PIO2"]}
{"id": "C47", "title": "double precision tangent is accurate", "statement": "tan returns, for every finite argument, a finite f64 value within 1.5 ulp of the true tangent of the argument, however large the argument; the result is one of the two doubles next to the true tangent whenever that tangent is at most 1/2 or at least 2 in magnitude. No finite double is a pole of the tangent.", "quantifier": "every finite f64 bit pattern", "why_tests_cant": "The true value is a real number; the tangent is unbounded near the odd multiples of pi/2, whose closest doubles are only found by a continued fraction argument over all 2^64 patterns, and the error of three different kernels has to be bounded for each of them.", "anchors": ["libm/src/math/tan.rs: tan", "libm/src/math/k_tan.rs: k_tan, zero_low_word", "libm/src/math/rem_pio2.rs: rem_pio2", "libm/src/math/rem_pio2_large.rs: rem_pio2_large"]}
{"id": "C48", "title": "Bessel functions of integer order always return", "statement": "jn, yn, jnf and ynf return a value for every i32 order, i32::MIN included, and every argument bit pattern: no arithmetic on the order or on a loop counter overflows, and every loop ends, including the search of jn and jnf for the length of the continued fraction, which has no counter bound of its own.", "quantifier": "every i32 order and every f64/f32 bit pattern", "why_tests_cant": "There are 2^96 (order, argument) pairs for f64; the loop lengths go up to 2^31, and the search loop ends only because of the growth of a three-term recurrence evaluated with rounding errors.", "anchors": ["libm/src/math/jn.rs: jn, yn", "libm/src/math/jnf.rs: jnf, ynf"]}
{"id": "C49", "title": "Bessel functions of integer order satisfy the reflection formulas bit for bit", "statement": "jn(0,x) and jn(1,x) are j0(x) and j1(x), likewise yn with y0 and y1; jn(-n,x) equals jn(n,-x); jn(n,-x) equals (-1)^n jn(n,x) (for the orders 1 and -1: for finite x); yn(-n,x) equals (-1)^n yn(n,x) for every x that is not infinite. Equality is of bit patterns, signs of zeros included, except that NaNs are identified. The same holds for jnf, ynf.", "quantifier": "every i32 order whose negation is an i32 and every f64/f32 bit pattern", "why_tests_cant": "A relation between two runs for all orders and arguments; for j1 of a negative argument it depends on the rounding of two different expressions agreeing for all 2^64 patterns.", "anchors": ["libm/src/math/jn.rs: jn, yn", "libm/src/math/jnf.rs: jnf, ynf", "libm/src/math/j0.rs: j0, y0", "libm/src/math/j1.rs: j1, y1", "libm/src/math/j0f.rs: j0f, y0f", "libm/src/math/j1f.rs: j1f, y1f"]}
{"id": "C50", "title": "special values of the Bessel functions of integer order", "statement": "For every i32 order: jn and yn return a NaN argument unchanged; jn(n, +-0) is 1 for n = 0 and otherwise a zero with the sign of (+-0)^n for n > 0 and of (-+0)^|n| for n < 0; jn(n, +-inf) is a zero; yn(n, x) is NaN for x < 0, -inf included; yn(n, +inf) is +0; yn(n, +-0) is -inf, or +inf for negative odd n. The same holds for jnf, ynf.", "quantifier": "every i32 order and every NaN, zero, infinite or negative f64/f32 bit pattern", "why_tests_cant": "2^32 orders combined with 2^63 negative and 2^53 NaN patterns.", "anchors": ["libm/src/math/jn.rs: jn, yn", "libm/src/math/jnf.rs: jnf, ynf"]}
{"id": "C51", "title": "the elementary functions never panic", "statement": "Every exponential, logarithmic, trigonometric, hyperbolic, error, gamma and Bessel function of one argument (29 for f64, 29 for f32), pow, atan2, hypot, sincos and lgamma_r, in both precisions, return for every bit pattern: no overflow check fires, no table is indexed out of bounds, no shift is too wide, no unreachable branch is reached, and every loop ends.", "quantifier": "every f64/f32 bit pattern, for pow, atan2 and hypot every pair of bit patterns", "why_tests_cant": "There are 2^64 arguments per function and 2^128 pairs for pow; whether the integer arithmetic on exponents and table indices inside pow stays in range depends on rounding errors of a float computation, and sanitizers or debug builds only see the arguments that are tried.", "anchors": ["libm/src/math/pow.rs: pow", "libm/src/math/powf.rs: powf", "libm/src/math/tgamma.rs: tgamma", "libm/src/math/lgamma_r.rs: lgamma_r", "libm/src/math/exp10.rs: exp10", "libm/src/math/cbrt.rs: cbrt"]}
{"id": "C52", "title": "gamma functions: special values, sign of gamma and factorials", "statement": "lgamma_r(x) is (+inf, s) at zeros and negative integers, +0 at 1 and 2, +inf at both infinities, NaN for NaN, and the sign it returns is the sign of gamma(x): +1 for x > 0, and (-1)^floor(x) for every negative x that is not an integer. tgamma(x) is the infinity of the sign of x at the zeros, NaN at negative integers and -inf, +inf at +inf and for every x >= 184, the zero of the right sign for every x <= -184 that is not an integer, exactly (n-1)! correctly rounded for the integers 1 to 23, and the correctly rounded 1/x for 0 < |x| < 2^-54. The same holds for lgammaf_r, lgamma, lgammaf and tgammaf (without the last clause).", "quantifier": "every f64/f32 bit pattern", "why_tests_cant": "The sign for a negative x comes from a reduced argument of sin(pi x) computed in floating point; it has to be right next to each of the 2^52 poles, and sin(pi x) has to be exactly zero at all of them and nowhere else.", "anchors": ["libm/src/math/lgamma_r.rs: lgamma_r, sin_pi", "libm/src/math/lgammaf_r.rs: lgammaf_r, sin_pi", "libm/src/math/tgamma.rs: tgamma, sinpi", "libm/src/math/tgammaf.rs: tgammaf", "libm/src/math/lgamma.rs: lgamma", "libm/src/math/lgammaf.rs: lgammaf"]}
{"id": "C53", "title": "exp and expf are within one machine epsilon and overflow exactly where the exponential does", "statement": "For every finite argument x, exp(x) (expf(x)) is finite and differs from the real number e^x by at most 2^-52 e^x (2^-23 e^x) plus half the smallest positive value of the format whenever e^x < 2^1024 (2^128), and is +infinity for every x with e^x >= 2^1024 (2^128). So no finite result is wrong in more than its last bit or two, gradual underflow is respected, results too small are rounded to zero no earlier than they have to be, and there is neither a premature nor a late overflow.", "quantifier": "every finite f64/f32 bit pattern", "why_tests_cant": "There are 2^64 arguments and the claim compares with a real number; whether the reduced argument is accurate for every multiple of ln 2, and whether the rational approximation and all rounding errors together stay below the bound, cannot be seen from samples.", "anchors": ["libm/src/math/exp.rs: exp", "libm/src/math/expf.rs: expf"]}
{"id": "C54", "title": "log and logf are within one machine epsilon on every positive finite number", "statement": "For every positive finite x, log(x) (logf(x)) is finite and its relative error against the real natural logarithm ln(x) is at most 2^-52 (2^-23). This includes subnormal x and x arbitrarily close to 1, where ln(x) is tiny; in particular the result is zero exactly for x = 1 and has the sign of x - 1.", "quantifier": "every positive finite f64/f32 bit pattern", "why_tests_cant": "The claim compares 2^63 results with real numbers. The bound is relative, so near x = 1 it is far below the size of the intermediate results, and it depends on the polynomial, on the split of ln 2 for every exponent and on all rounding errors at once.", "anchors": ["libm/src/math/log.rs: log", "libm/src/math/logf.rs: logf"]}
{"id": "C55", "title": "log2 and log10 are within one machine epsilon, log2f and log10f within one and a half", "statement": "For every positive finite x, log2(x) and log10(x) are finite and their relative error against the real ln(x)/ln(2) and ln(x)/ln(10) is at most 2^-52; log2f(x) and log10f(x) are finite with relative error at most 1.5 * 2^-23. This includes subnormal x and x next to 1, where the true value is tiny; in particular the result is zero exactly for x = 1.", "quantifier": "every positive finite f64/f32 bit pattern", "why_tests_cant": "2^63 results are compared with real numbers. The functions glue a hi/lo split of the mantissa, a two-word constant 1/ln(2) or 1/ln(10) and a compensated addition of the exponent; each piece is wrong only for some exponents or some mantissas.", "anchors": ["libm/src/math/log2.rs: log2", "libm/src/math/log10.rs: log10", "libm/src/math/log2f.rs: log2f", "libm/src/math/log10f.rs: log10f"]}
{"id": "C56", "title": "exp2 is correctly rounded at integers and log2 is exact at powers of two", "statement": "For every float x that is an integer n, exp2(x) (exp2f(x)) is the correctly rounded 2^n: exact whenever 2^n is representable, including subnormal powers, 0 from -1075 (-150) down and infinity from 1024 (128) up. For every representable power of two, including the subnormal ones, log2 (log2f) returns exactly its exponent. Hence log2(exp2(n)) = n for -1074 <= n <= 1023 (-149 <= n <= 127).", "quantifier": "every f64/f32 with an integer value; every power of two of the format", "why_tests_cant": "Integer-valued floats go up to 2^1024, far beyond those a loop visits, and a table of 512 constants, a rounding trick with a large constant and a two-step scaling have to agree exactly, not to within an error.", "anchors": ["libm/src/math/exp2.rs: exp2", "libm/src/math/exp2f.rs: exp2f", "libm/src/math/log2.rs: log2", "libm/src/math/log2f.rs: log2f"]}
{"id": "C57", "title": "log1p and log1pf are within one machine epsilon on every finite number above -1", "statement": "For every finite x > -1, log1p(x) (log1pf(x)) is finite and its relative error against the real ln(1 + x) is at most 2^-52 (2^-23). This includes tiny and subnormal x, where 1 + x rounds to 1, x next to -1, and x so large that the correction term is dropped; in particular the result is zero only for x = 0 and has the sign of x.", "quantifier": "every finite f64/f32 bit pattern with value above -1", "why_tests_cant": "2^63 results are compared with real numbers. The function rounds 1 + x, takes the logarithm of the rounded number and repairs the lost part with a correction (x - (u - 1)) / u whose form depends on the exponent; the bound has to absorb the rounding of the sum, the correction, the polynomial and the split of ln 2 for every exponent, relative to a result that may be as small as x.", "anchors": ["libm/src/math/log1p.rs: log1p", "libm/src/math/log1pf.rs: log1pf"]}
{"id": "C58", "title": "asinh, acosh and atanh are within three machine epsilons on their whole domains", "statement": "For every finite x, asinh(x) is finite with relative error at most 3 * 2^-52 against the real ln(x + sqrt(x^2 + 1)); for every finite x >= 1 the same holds for acosh(x) against ln(x + sqrt(x^2 - 1)), and for every -1 < x < 1 for atanh(x) against ln((1 + x)/(1 - x))/2. The f32 functions satisfy the same with 2^-23. There is no overflow for huge x although x^2 overflows, no cancellation for x next to 0 or to 1, and acosh(1) is exactly 0.", "quantifier": "every finite f64/f32 bit pattern of the domain", "why_tests_cant": "The functions switch between four formulas at thresholds; each formula is accurate only in its own range, and its error is that of square root, division, sum and logarithm combined, relative to a result that may be arbitrarily small. Sampling cannot exclude a bad range near a threshold or a domain end.", "anchors": ["libm/src/math/asinh.rs: asinh", "libm/src/math/acosh.rs: acosh", "libm/src/math/atanh.rs: atanh", "libm/src/math/asinhf.rs: asinhf", "libm/src/math/acoshf.rs: acoshf", "libm/src/math/atanhf.rs: atanhf"]}
{"id": "C59", "title": "expm1 is within two machine epsilons everywhere and overflows exactly where exp does", "statement": "For every finite f64 x with e^x < 2^1024, expm1(x) is finite with relative error at most 2 * 2^-52 against the real e^x - 1 - relative to the result itself, so also for tiny x where e^x rounds to 1; for every finite x with e^x >= 2^1024 it returns +infinity. The same is asked of expm1f with 2^-23 and 2^128.", "quantifier": "every finite f64/f32 bit pattern", "why_tests_cant": "The relative error of e^x - 1 is that of an argument reduction, a rational kernel and six reconstruction formulas chosen by the exponent, each with cancellation in part of its range. The f32 function violates the statement on some 150 of 2^32 arguments only, between 88.72168 and 88.72284, where it returns infinity for results near 0.999 * 2^128; no sampling test in the repository meets that interval.", "anchors": ["libm/src/math/expm1.rs: expm1", "libm/src/math/expm1f.rs: expm1f"]}
{"id": "C60", "title": "sinh, cosh and tanh are accurate on all finite arguments and overflow exactly where they should", "statement": "For every finite f64 x, tanh(x) has relative error at most 4 * 2^-52 against the real hyperbolic tangent; sinh(x) has relative error at most 4 * 2^-52 whenever |sinh x| < 2^1024 and is the infinity with the sign of x otherwise; cosh(x) has relative error at most 3 * 2^-52 whenever cosh x < 2^1024 and is +infinity otherwise. In particular there is no overflow between ln(2^1024) and ln(2^1025), where e^x overflows and the result does not. The same is asked of the f32 functions with 2^-23 and 2^128.", "quantifier": "every finite f64/f32 bit pattern", "why_tests_cant": "Each function switches between four or five formulas with different error amplification, built on exp or expm1 and followed by two to four rounded operations; large arguments go through a scaled exponential whose overflow point depends on two multiplications. The f32 sine violates the statement on 150 magnitudes out of 2^31 only: between 88.72168 and 88.72283 it returns NaN, because expm1f overflows before the branch for large arguments begins.", "anchors": ["libm/src/math/sinh.rs: sinh", "libm/src/math/cosh.rs: cosh", "libm/src/math/tanh.rs: tanh", "libm/src/math/sinhf.rs: sinhf", "libm/src/math/coshf.rs: coshf", "libm/src/math/tanhf.rs: tanhf", "libm/src/math/k_expo2.rs: k_expo2", "libm/src/math/k_expo2f.rs: k_expo2f", "libm/src/math/expo2.rs: expo2"]}
{"id": "C61", "title": "hypot is accurate on all finite arguments, with no spurious overflow or underflow", "statement": "For all finite f64 x and y, hypot(x, y) returns a value within (9/10) * 2^-52 relative error (plus half the smallest positive number, for subnormal results) of the real number sqrt(x^2 + y^2), or returns +infinity; +infinity is returned only if sqrt(x^2 + y^2) >= (1 - (9/10) * 2^-52) * 2^1024. hypotf does the same with relative error (9/10) * 2^-23 and 2^128. In particular the squares never overflow or underflow on their own.", "quantifier": "every pair of finite f64/f32 bit patterns", "why_tests_cant": "Two arguments give 2^128 (2^64) pairs. The function rescales by 2^700 or 2^-700 (2^90, 2^-90) in three ranges, ignores the smaller argument beyond a given ratio, and computes the squares as a sum of a rounded square and a correction obtained by splitting, where a wrong threshold or term only shows in the last bit or near the ends of the exponent range.", "anchors": ["libm/src/math/hypot.rs: hypot", "libm/src/math/hypot.rs: sq", "libm/src/math/hypotf.rs: hypotf"]}
{"id": "C62", "title": "hypot is never smaller than either of its arguments", "statement": "For all finite x and y, hypot(x, y) (f64) and hypotf(x, y) (f32) return either +infinity or a finite number r with |x| <= r and |y| <= r, without any rounding allowance. Code that divides by the hypotenuse relies on it to get quotients of magnitude at most one.", "quantifier": "every pair of finite f64/f32 bit patterns", "why_tests_cant": "It holds with equality on a large set of pairs (whenever the smaller argument is below about 2^-26, or 2^-12, times the larger), so one rounding in the wrong direction breaks it; it depends on the rounded square root of a rounded square giving the number back, and in f64 on the correction terms of the split square being accurate far beyond one ulp. An error would be confined to a few of the 2^128 pairs.", "anchors": ["libm/src/math/hypot.rs: hypot", "libm/src/math/hypot.rs: sq", "libm/src/math/hypotf.rs: hypotf"]}
