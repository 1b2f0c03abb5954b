{
 "claims": [
  {
   "property": "C01",
   "status": "proved",
   "theorems": [
    "C01_floor_exact"
   ],
   "note": "All formats at once (theorem quantifies over the format record; f16, f32, f64, f128 are instances)."
  },
  {
   "property": "C02",
   "status": "proved",
   "theorems": [
    "C02_ceil_exact"
   ],
   "note": "All formats at once (theorem quantifies over the format record; f16, f32, f64, f128 are instances)."
  },
  {
   "property": "C03",
   "status": "proved",
   "theorems": [
    "C03_trunc_exact"
   ],
   "note": "All formats at once (theorem quantifies over the format record; f16, f32, f64, f128 are instances)."
  },
  {
   "property": "C04",
   "status": "proved",
   "theorems": [
    "C04_round_nearest_away"
   ],
   "note": "All formats at once (theorem quantifies over the format record; f16, f32, f64, f128 are instances)."
  },
  {
   "property": "C05",
   "status": "proved",
   "theorems": [
    "C05_rint_nearest_even"
   ],
   "note": "All formats at once (theorem quantifies over the format record; f16, f32, f64, f128 are instances)."
  },
  {
   "property": "C06",
   "status": "partial",
   "theorems": [
    "C06_status_partial",
    "C06_status_refuted"
   ],
   "note": "The code violates the property: *_status(0.5) reports OK although the result differs. Proved: status right for every argument that is not a power of two below one, always wrong for those."
  },
  {
   "property": "C07",
   "status": "proved",
   "theorems": [
    "C07_fabs_clears_sign",
    "C07_copysign_sets_sign",
    "C07_with_sign_fields"
   ],
   "note": "All formats at once (theorem quantifies over the format record; f16, f32, f64, f128 are instances)."
  },
  {
   "property": "C08",
   "status": "proved",
   "theorems": [
    "C08_fmin",
    "C08_fmax"
   ],
   "note": "All formats at once (theorem quantifies over the format record; f16, f32, f64, f128 are instances)."
  },
  {
   "property": "C09",
   "status": "proved",
   "theorems": [
    "C09_fminimum",
    "C09_fmaximum",
    "C09_below_total"
   ],
   "note": "All formats at once (theorem quantifies over the format record; f16, f32, f64, f128 are instances)."
  },
  {
   "property": "C10",
   "status": "partial",
   "theorems": [
    "C10_fminimum_num",
    "C10_fmaximum_num_partial",
    "C10_fmaximum_num_refuted"
   ],
   "note": "The code violates the property: fmaximum_num(-0.0, +NaN) returns NaN. Proved for fminimum_num in full and for fmaximum_num on all other pairs."
  },
  {
   "property": "C11",
   "status": "proved",
   "theorems": [
    "C11_fdim"
   ],
   "note": "All formats at once (theorem quantifies over the format record; f16, f32, f64, f128 are instances)."
  },
  {
   "property": "C12",
   "status": "proved",
   "theorems": [
    "C12_fmod",
    "C12_fmodf16",
    "C12_fmodf",
    "C12_fmod64",
    "C12_fmodf128"
   ],
   "note": "generic over formats, includes termination and absence of overflow panics"
  },
  {
   "property": "C13",
   "status": "proved",
   "theorems": [
    "C13_remainder",
    "C13_remainderf"
   ],
   "note": "f64 and f32 sources modelled separately"
  },
  {
   "property": "C14",
   "status": "proved",
   "theorems": [
    "C14_remquo",
    "C14_remquof"
   ],
   "note": "low 31 bits of the quotient with its sign, and the unchecked increment never overflows"
  },
  {
   "property": "C15",
   "status": "proved",
   "theorems": [
    "C15_scalbnf16",
    "C15_scalbnf",
    "C15_scalbn",
    "C15_scalbnf128",
    "C15_ldexpf16",
    "C15_ldexpf",
    "C15_ldexp",
    "C15_ldexpf128"
   ],
   "note": "all four formats, every i32 n; debug assertions included"
  },
  {
   "property": "C16",
   "status": "proved",
   "theorems": [
    "C16_frexp",
    "C16_frexpf"
   ],
   "note": "f64 and f32; includes absence of panics and the recursion depth bound"
  },
  {
   "property": "C17",
   "status": "proved",
   "theorems": [
    "C17_modf",
    "C17_modff"
   ],
   "note": "f64 and f32"
  },
  {
   "property": "C18",
   "status": "proved",
   "theorems": [
    "C18_ilogb",
    "C18_ilogbf"
   ],
   "note": "f64 and f32; termination of the shift loop included"
  },
  {
   "property": "C19",
   "status": "proved",
   "theorems": [
    "C19_nextafter",
    "C19_nextafterf"
   ],
   "note": "f64 and f32"
  },
  {
   "property": "C20",
   "status": "proved",
   "theorems": [
    "C20_sqrtf16",
    "C20_sqrtf",
    "C20_sqrt",
    "C20_sqrtf128"
   ],
   "note": "software path of generic/sqrt.rs for all four widths, every bit pattern: no panic, correctly rounded root, zeros and +inf unchanged, NaN otherwise"
  },
  {
   "property": "C21",
   "status": "partial",
   "theorems": [
    "C21_fma_partial",
    "C21_fmaf128_partial",
    "C21_fma_near",
    "C21_fmaf128_near",
    "C21_fma_refuted",
    "C21_fmaf128_refuted"
   ],
   "note": "no panic, IEEE special cases, correct rounding unless fma_lost_bits holds, and an unconditional near-correctness bound; correct rounding without the side condition is refuted by concrete operands for f64 and f128"
  },
  {
   "property": "C22",
   "status": "partial",
   "theorems": [
    "C22_fmaf_partial",
    "C22_fmaf_near",
    "C22_fmaf_refuted"
   ],
   "note": "no panic, IEEE special cases, correct rounding when the sum is at least 2^-126 in magnitude or exact in f64, and an unconditional bound; double rounding in the subnormal range is refuted by concrete operands"
  },
  {
   "property": "C23",
   "status": "proved",
   "theorems": [
    "C23_widen_mul",
    "C23_zero_widen_mul",
    "C23_add",
    "C23_not",
    "C23_not_signed",
    "C23_or",
    "C23_shr",
    "C23_shr_panics",
    "C23_split",
    "C23_split_signed",
    "C23_widen",
    "C23_widen_signed",
    "C23_zero_widen_signed"
   ],
   "note": "u256/i256 as limb pairs; includes absence of overflow panics in the 128-bit partial products"
  },
  {
   "property": "C24",
   "status": "partial",
   "theorems": [
    "C24_i256_max_refuted",
    "C24_u256_order_refuted",
    "C24_i256_order_refuted",
    "C24_constants_partial",
    "C24_order_partial"
   ],
   "note": "refuted: derived ordering compares the low limb first and i256::MAX is negative; the remaining constants and equality are proved"
  },
  {
   "property": "C25",
   "status": "partial",
   "theorems": [
    "C25_parse_partial",
    "C25_f128_refuted",
    "C25_accept",
    "C25_reject",
    "C25_inf",
    "C25_nan",
    "C25_exact_partial",
    "C25_hf_partial"
   ],
   "note": "Proved generically for every format and all four modes for literals shorter than 2^29 bytes with exponent field below 2^32 and magnitude below 2^hex_lim (2^49154 for f128, about 2^(2^31) otherwise). Full statement C25_full refuted for f128: 0x1p49154 parses to the least normal number without a flag."
  },
  {
   "property": "C26",
   "status": "partial",
   "theorems": [
    "C26_parse_partial",
    "C26_refuted"
   ],
   "note": "No panic for texts below 2^27 bytes with exponent field below 2^30 and sig_bits > 0. Full statement C26_full refuted: 0x1p4294967296 and 0x1p2147483647 overflow, and sig_bits = 0 passes the guard and underflows."
  },
  {
   "property": "C27",
   "status": "proved",
   "theorems": [
    "C27_roundtrip",
    "C27_literal"
   ],
   "note": "Generic in the format, all rounding modes, all bit patterns."
  },
  {
   "property": "C28",
   "status": "proved",
   "theorems": [
    "C28_from_parts",
    "C28_mkbits_fields",
    "C28_ex",
    "C28_exp_unbiased",
    "C28_frac",
    "C28_from_parts_back",
    "C28_is_nan",
    "C28_is_infinite",
    "C28_is_sign_negative",
    "C28_eq_repr",
    "C28_constants",
    "C28_one",
    "C28_nan",
    "C28_max_min",
    "C28_min_positive_normal",
    "C28_epsilon",
    "C28_epsilon_gap",
    "C28_normalize",
    "C28_signum"
   ],
   "note": "for every format; is_nan/is_infinite/is_sign_negative are primitive methods of core, modelled on bit patterns"
  },
  {
   "property": "C29",
   "status": "proved",
   "theorems": [
    "C29_hypot",
    "C29_hypotf"
   ],
   "note": "all inputs of both widths; hypotf/hypot as generated from the sources"
  },
  {
   "property": "C30",
   "status": "proved",
   "theorems": [
    "C30_asin",
    "C30_atan",
    "C30_sinh",
    "C30_tanh",
    "C30_asinh",
    "C30_atanh",
    "C30_erf",
    "C30_asinf",
    "C30_atanf",
    "C30_sinhf",
    "C30_tanhf",
    "C30_asinhf",
    "C30_atanhf",
    "C30_erff",
    "C30_cbrtf",
    "C30_cosh",
    "C30_j0",
    "C30_coshf",
    "C30_j0f",
    "C30_sinf",
    "C30_tanf",
    "C30_cosf",
    "C30_cbrt",
    "C30_sin",
    "C30_cos",
    "C30_tan"
   ],
   "note": "Bitwise sign symmetry (including the sign of zero) and totality for every non-NaN argument, for all listed functions, through every branch of the argument reduction."
  },
  {
   "property": "C31",
   "status": "partial",
   "theorems": [
    "C31_exp",
    "C31_expf",
    "C31_exp2",
    "C31_exp2f",
    "C31_expm1",
    "C31_expm1f",
    "C31_log",
    "C31_logf",
    "C31_log2",
    "C31_log2f",
    "C31_log10",
    "C31_log10f",
    "C31_log1p",
    "C31_log1pf",
    "C31_sin",
    "C31_sinf",
    "C31_tan",
    "C31_tanf",
    "C31_cos",
    "C31_cosf",
    "C31_asin",
    "C31_asinf",
    "C31_acos",
    "C31_acosf",
    "C31_sinh",
    "C31_sinhf",
    "C31_asinh",
    "C31_asinhf",
    "C31_cbrt",
    "C31_cbrtf",
    "C31_cosh",
    "C31_coshf",
    "C31_tanh",
    "C31_tanhf",
    "C31_erf",
    "C31_erff",
    "C31_erfc",
    "C31_erfcf",
    "C31_atanh",
    "C31_atanhf",
    "C31_acosh",
    "C31_acoshf",
    "C31_atan",
    "C31_atanf",
    "C31_atan_inf",
    "C31_acosh_refuted",
    "C31_acoshf_refuted",
    "C31_acosh_partial",
    "C31_acoshf_partial"
   ],
   "note": "All Annex F clauses proved for 44 functions, except the domain clause of acosh and acoshf, which the code violates: C31_acosh_refuted (acosh(-6540) is finite) and C31_acoshf_refuted (acoshf(-579.43585) is finite). C31_acosh_partial / C31_acoshf_partial give the arguments below 1 for which NaN is proved: all except (-2^26,-2] resp. (-4096,-2]."
  },
  {
   "property": "C32",
   "status": "proved",
   "theorems": [
    "C32_powf",
    "C32_pow"
   ],
   "note": "All Annex F clauses of pow (record pow_special in SpecPow.v: x^0, 1^y, NaN operands, (-1)^inf, negative base with non-integer exponent, zeros and infinities with the odd-integer sign rule) for every pair of f32 and of f64 patterns. Accuracy on ordinary operands is not claimed."
  },
  {
   "property": "C33",
   "status": "proved",
   "theorems": [
    "C33_sincos",
    "C33_sincosf"
   ],
   "note": "f64 and f32, every bit pattern"
  },
  {
   "property": "C34",
   "status": "partial",
   "theorems": [
    "C34_cbrtf",
    "C34_cbrt_partial",
    "C34_cbrt_exact",
    "C34_cbrtf_exact",
    "C30_cbrt",
    "C34_cbrtf_odd",
    "C31_cbrt",
    "C31_cbrtf"
   ],
   "note": "cbrtf: one of the two floats next to the cube root for every finite argument. cbrt: the same, and the nearest float unless the cube root lies within 2^-47 of the gap from a midpoint; exact on cubes; both odd with the usual special values. Missing: correct rounding of cbrt at the arguments whose cube root is that close to a midpoint (the full statement is C34_cbrt_full)."
  },
  {
   "property": "C35",
   "status": "partial",
   "theorems": [
    "C35_i586_partial",
    "C35_i586_refuted"
   ],
   "note": "The code violates the property: i586 floor(-0.0) and ceil(-0.5) return +0.0. Proved to agree on all other arguments."
  },
  {
   "property": "C36",
   "status": "partial",
   "theorems": [
    "C36_f32",
    "C36_f128",
    "C36_f64_partial",
    "C36_f64_roundeven_refuted",
    "C36_f64_f32_methods_refuted",
    "C36_f16_partial",
    "C36_f16_names_refuted"
   ],
   "note": "All 58 methods of Libm<f32> and all 20 of Libm<f128> call the function of their name and type. For Libm<f64> the code violates the property in five rows: the method is called roundevem, and four f32 functions are methods of Libm<f64> (and missing from Libm<f32>). Libm<f16> misnames three methods. The partial theorems cover every other row."
  },
  {
   "property": "C37",
   "status": "proved",
   "theorems": [
    "C37_exp10_exact",
    "C37_exp10f_exact",
    "C37_exp10f_total",
    "C37_exp10_total",
    "C37_exp10_special",
    "C37_exp10f_special"
   ],
   "note": "Correct rounding at every integer argument of the table range; the table access cannot fail for any argument (exp10f always returns; exp10 returns, or it is pow(10, x) outside the table branch, whose own totality is not part of this claim)."
  },
  {
   "property": "C38",
   "status": "proved",
   "theorems": [
    "C38_rem_pio2",
    "C38_rem_pio2f",
    "C38_rem_pio2_huge_quadrant",
    "C38_rem_pio2_large",
    "C38_sin",
    "C38_cos",
    "C38_tan",
    "C38_sincos",
    "C38_sinf",
    "C38_cosf",
    "C38_tanf",
    "C38_sincosf"
   ],
   "note": "For every bit pattern and both pointer widths the model returns Some, where every array access, integer overflow and loop bound is checked. The bound on the recomputation loop uses continued-fraction lower bounds on the distance of every f64/f32 to multiples of pi/2 (reduction_gap64, reduction_gap32)."
  },
  {
   "property": "C39",
   "status": "proved",
   "theorems": [
    "C39_cast",
    "C39_cast_lossy",
    "C39_widen",
    "C39_zero_widen",
    "C39_widen_mul",
    "C39_zero_widen_mul",
    "C39_widen_hi",
    "C39_lo_hi",
    "C39_logical_shr",
    "C39_sign_conversion",
    "C39_abs"
   ],
   "note": "any width above 1 bit, signed or unsigned"
  },
  {
   "property": "C40",
   "status": "partial",
   "theorems": [
    "C40_is_subnormal_partial",
    "C40_is_subnormal_refuted"
   ],
   "note": "refuted for the zeros; proved: is_subnormal is true exactly when the exponent field is zero"
  },
  {
   "property": "C41",
   "status": "partial",
   "theorems": [
    "C41_widen_hi_refuted",
    "C41_from_lo_hi_refuted",
    "C41_i128_widen_mul_refuted",
    "C41_lo_hi_partial"
   ],
   "note": "refuted: widen_hi, from_lo_hi and i128 widen_mul end in unimplemented!() at 128 bits"
  },
  {
   "property": "C42",
   "status": "partial",
   "theorems": [
    "C42_cast_float_partial",
    "C42_cast_float_refuted"
   ],
   "note": "proved strictly between MIN and MAX of the integer type; refuted at i32::MAX to f32"
  },
  {
   "property": "C43",
   "status": "proved",
   "theorems": [
    "C43_sinf",
    "C43_cosf",
    "C43_tanf"
   ],
   "note": "Faithful rounding of sinf, cosf and tanf for every finite f32 argument, proved by error analysis of all branches including the large argument reduction."
  },
  {
   "property": "C44",
   "status": "proved",
   "theorems": [
    "C44_table",
    "C44_rem_pio2f"
   ],
   "note": "both pointer widths"
  },
  {
   "property": "C45",
   "status": "proved",
   "theorems": [
    "C45_sin",
    "C45_cos",
    "C45_sincos"
   ],
   "note": "Faithful rounding of the f64 sin, cos and sincos for every finite argument, error analysis of every branch, both pointer widths covered by the reduction theorem C46_rem_pio2."
  },
  {
   "property": "C46",
   "status": "proved",
   "theorems": [
    "C46_rem_pio2"
   ],
   "note": "every finite argument of magnitude at least 0.7854, both pointer widths; the callers use the reduction from about 0.7854 on"
  },
  {
   "property": "C47",
   "status": "proved",
   "theorems": [
    "C47_tan",
    "C47_tan_faithful",
    "C47_no_pole"
   ],
   "note": "1.5 ulp for every finite argument, faithful rounding where the tangent is at most 1/2 or at least 2 in magnitude; whether the error stays below one ulp in between is not decided."
  },
  {
   "property": "C48",
   "status": "proved",
   "theorems": [
    "C48_jn",
    "C48_jnf",
    "C48_yn",
    "C48_ynf"
   ],
   "note": "Prop_jn.v"
  },
  {
   "property": "C49",
   "status": "proved",
   "theorems": [
    "C49_jn_low",
    "C49_yn_low",
    "C49_jn_order",
    "C49_jn_parity",
    "C49_j1_inf_boundary",
    "C49_yn_order",
    "C49_jnf_low",
    "C49_ynf_low",
    "C49_jnf_order",
    "C49_jnf_parity",
    "C49_j1f_inf_boundary",
    "C49_ynf_order"
   ],
   "note": "Prop_jn.v; C49_*_inf_boundary show why the orders 1 and -1 are restricted to finite arguments"
  },
  {
   "property": "C50",
   "status": "proved",
   "theorems": [
    "C50_jn_nan",
    "C50_jn_zero",
    "C50_jn_inf",
    "C50_yn_nan",
    "C50_yn_neg",
    "C50_yn_inf",
    "C50_yn_zero",
    "C50_jnf_nan",
    "C50_jnf_zero",
    "C50_jnf_inf",
    "C50_ynf_nan",
    "C50_ynf_neg",
    "C50_ynf_inf",
    "C50_ynf_zero"
   ],
   "note": "Prop_jn.v"
  },
  {
   "property": "C51",
   "status": "proved",
   "theorems": [
    "C51_total_f64",
    "C51_total_f32",
    "C51_total2_f64",
    "C51_total2_f32",
    "C51_total_pair"
   ],
   "note": "Prop_total.v"
  },
  {
   "property": "C52",
   "status": "proved",
   "theorems": [
    "C52_lgamma_r",
    "C52_lgammaf_r",
    "C52_lgamma",
    "C52_lgammaf",
    "C52_tgamma",
    "C52_tgammaf",
    "C52_tgamma_tiny"
   ],
   "note": "Prop_gamma.v"
  },
  {
   "property": "C53",
   "status": "proved",
   "theorems": [
    "C53_exp",
    "C53_expf"
   ],
   "note": "Prop_expacc.v; the Rust comments promise an error below 1 ulp, which is stronger near powers of two than the relative bound proved here"
  },
  {
   "property": "C54",
   "status": "proved",
   "theorems": [
    "C54_log",
    "C54_logf"
   ],
   "note": "Prop_logacc.v; the Rust comments promise an error below 1 ulp, which is stronger near powers of two than the relative bound proved here"
  },
  {
   "property": "C55",
   "status": "proved",
   "theorems": [
    "C55_log2",
    "C55_log10",
    "C55_log2f",
    "C55_log10f"
   ],
   "note": "Prop_log210.v; for log2f and log10f the bound is 1.5 machine epsilons"
  },
  {
   "property": "C56",
   "status": "proved",
   "theorems": [
    "C56_exp2",
    "C56_exp2f",
    "C56_log2",
    "C56_log2f",
    "C56_undo",
    "C56_undof"
   ],
   "note": "Prop_pow2.v"
  },
  {
   "property": "C57",
   "status": "proved",
   "theorems": [
    "C57_log1p",
    "C57_log1pf"
   ],
   "note": "Prop_log1p.v"
  },
  {
   "property": "C58",
   "status": "proved",
   "theorems": [
    "C58_asinh",
    "C58_acosh",
    "C58_atanh",
    "C58_asinhf",
    "C58_acoshf",
    "C58_atanhf"
   ],
   "note": "Prop_hyp.v"
  },
  {
   "property": "C59",
   "status": "partial",
   "theorems": [
    "C59_expm1",
    "C59_expm1f_partial",
    "C59_expm1f_refuted",
    "C59_expm1f_witness_refuted"
   ],
   "note": "Prop_expm1.v. f64 is proved in full. For f32 the code violates the statement: its overflow threshold 88.72168 is below 128 ln 2, so the finite results for arguments between the two become infinity (C59_expm1f_refuted, witness 0x42b17181); C59_expm1f_partial proves the bound for all other arguments"
  },
  {
   "property": "C60",
   "status": "partial",
   "theorems": [
    "C60_sinh",
    "C60_cosh",
    "C60_coshf",
    "C60_tanh",
    "C60_tanhf",
    "C60_sinhf_partial",
    "C60_sinhf_nan_refuted",
    "C60_sinhf_refuted",
    "C60_sinhf_witness_refuted"
   ],
   "note": "Prop_sinh.v. sinh, cosh, tanh, coshf and tanhf are proved in full. sinhf violates the statement: for 90851/1024 < |x| < 11629079/131072 it returns NaN (C60_sinhf_nan_refuted for every such x, witness 0x42b17181); C60_sinhf_partial proves the statement for all other arguments"
  },
  {
   "property": "C61",
   "status": "proved",
   "theorems": [
    "C61_hypot",
    "C61_hypotf",
    "C61_no_overflow"
   ],
   "note": "Prop_hypotacc.v. The f64 bound uses that the high part of the split has 26 bits (Flocq, Pff2Flocq.Veltkamp_Even); C61_no_overflow restates the overflow part"
  },
  {
   "property": "C62",
   "status": "proved",
   "theorems": [
    "C62_hypotf",
    "C62_hypot"
   ],
   "note": "Prop_hypotge.v, for hypot and hypotf; infinite and NaN arguments are covered by C29"
  }
 ]
}