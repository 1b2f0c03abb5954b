# Assumptions of the property theorems

Output of `Print Assumptions` in the `Prop_*.v` files, grouped by the set of axioms printed.  Every axiom is one of
the standard library of Coq 8.16.1.

## `ClassicalDedekindReals.sig_forall_dec`, `ClassicalDedekindReals.sig_not_dec`, `Classical_Prop.classic`, `FunctionalExtensionality.functional_extensionality_dep`

* `Prop_acc`: C43_sinf, C43_cosf, C43_tanf
* `Prop_acc64`: C45_sin, C45_cos, C45_sincos, C46_rem_pio2
* `Prop_cbrt`: C34_cbrtf, C34_cbrt_partial, C34_cbrt_exact, C34_cbrtf_exact, C30_cbrt, C34_cbrtf_odd
* `Prop_decomp`: C16_frexp, C16_frexpf, C17_modf, C17_modff, C19_nextafter, C19_nextafterf, C28_epsilon_gap
* `Prop_exp10`: C37_exp10_exact, C37_exp10f_exact, C37_exp10f_total, C37_exp10_total, C37_exp10_special, C37_exp10f_special
* `Prop_expacc`: C53_exp, C53_expf
* `Prop_expm1`: C59_expm1, C59_expm1f_partial, C59_expm1f_refuted, C59_expm1f_witness_refuted
* `Prop_fma`: C21_fma_partial, C21_fmaf128_partial, C21_fma_near, C21_fmaf128_near, C21_fma_refuted, C21_fmaf128_refuted, C22_fmaf_partial, C22_fmaf_near, C22_fmaf_refuted
* `Prop_gamma`: C52_lgamma_r, C52_lgammaf_r, C52_lgamma, C52_lgammaf, C52_tgamma, C52_tgammaf, C52_tgamma_tiny
* `Prop_hex`: C25_parse_partial, C25_f128_refuted, C25_exact_partial, C25_hf_partial, C27_roundtrip, C27_literal
* `Prop_hyp`: C58_asinh, C58_acosh, C58_atanh, C58_asinhf, C58_acoshf, C58_atanhf
* `Prop_hypot`: C29_hypot, C29_hypotf
* `Prop_hypotacc`: C61_hypot, C61_hypotf
* `Prop_hypotge`: C62_hypotf, C62_hypot
* `Prop_int`: C42_cast_float_partial, C42_cast_float_refuted
* `Prop_jn`: C48_jn, C48_jnf, C48_yn, C48_ynf, C49_jn_low, C49_yn_low, C49_jn_order, C49_jn_parity, C49_j1_inf_boundary, C49_yn_order, C49_jnf_low, C49_ynf_low, C49_jnf_order, C49_jnf_parity, C49_j1f_inf_boundary, C49_ynf_order, C50_jn_nan, C50_jn_zero, C50_jn_inf, C50_yn_nan, C50_yn_neg, C50_yn_inf, C50_yn_zero, C50_jnf_nan, C50_jnf_zero, C50_jnf_inf, C50_ynf_nan, C50_ynf_neg, C50_ynf_inf, C50_ynf_zero
* `Prop_log1p`: C57_log1p, C57_log1pf
* `Prop_log210`: C55_log2, C55_log10, C55_log2f, C55_log10f
* `Prop_logacc`: C54_log, C54_logf
* `Prop_minmax`: C08_fmin, C08_fmax, C09_fminimum, C09_fmaximum, C09_below_total, C10_fminimum_num, C10_fmaximum_num_refuted, C10_fmaximum_num_partial, C11_fdim
* `Prop_pow`: C32_powf, C32_pow
* `Prop_pow2`: C56_exp2, C56_exp2f, C56_log2, C56_log2f, C56_undo, C56_undof
* `Prop_red`: C44_table, C44_rem_pio2f
* `Prop_rem`: C12_fmod, C12_fmodf16, C12_fmodf, C12_fmod64, C12_fmodf128, C13_remainder, C13_remainderf, C14_remquo, C14_remquof
* `Prop_rempio2`: C38_rem_pio2, C38_rem_pio2f, C38_rem_pio2_huge_quadrant, C38_rem_pio2_large, C38_sin, C38_cos, C38_tan, C38_sincos, C38_sinf, C38_cosf, C38_tanf, C38_sincosf
* `Prop_round`: C04_round_nearest_away, C05_rint_nearest_even, C35_i586_refuted, C35_i586_partial
* `Prop_scale`: C15_scalbnf16, C15_scalbnf, C15_scalbn, C15_scalbnf128, C15_ldexpf16, C15_ldexpf, C15_ldexp, C15_ldexpf128
* `Prop_sincos`: C33_sincos, C33_sincosf
* `Prop_sinh`: C60_sinh, C60_cosh, C60_coshf, C60_tanh, C60_tanhf, C60_sinhf_partial, C60_sinhf_nan_refuted, C60_sinhf_refuted, C60_sinhf_witness_refuted
* `Prop_special`: C31_exp, C31_expf, C31_exp2, C31_exp2f, C31_expm1, C31_expm1f, C31_log, C31_logf, C31_log2, C31_log2f, C31_log10, C31_log10f, C31_log1p, C31_log1pf, C31_sin, C31_sinf, C31_tan, C31_tanf, C31_cos, C31_cosf, C31_asin, C31_asinf, C31_acos, C31_acosf, C31_sinh, C31_sinhf, C31_asinh, C31_asinhf, C31_cbrt, C31_cbrtf, C31_cosh, C31_coshf, C31_tanh, C31_tanhf, C31_erf, C31_erff, C31_erfc, C31_erfcf, C31_atanh, C31_atanhf, C31_acosh, C31_acoshf, C31_atan, C31_atanf, C31_atan_inf, C31_acosh_refuted, C31_acoshf_refuted, C31_acosh_partial, C31_acoshf_partial
* `Prop_sqrt`: C20_sqrtf16, C20_sqrtf, C20_sqrt, C20_sqrtf128
* `Prop_sym`: C30_asin, C30_atan, C30_sinh, C30_tanh, C30_asinh, C30_atanh, C30_erf, C30_asinf, C30_atanf, C30_sinhf, C30_tanhf, C30_asinhf, C30_atanhf, C30_erff, C30_cbrtf, C30_cosh, C30_j0, C30_coshf, C30_j0f, C30_sinf, C30_tanf, C30_cosf
* `Prop_sym64`: C30_sin, C30_cos, C30_tan
* `Prop_tan64`: C47_tan, C47_tan_faithful, C47_no_pole
* `Prop_total`: C51_total_f64, C51_total_f32, C51_total2_f64, C51_total2_f32, C51_total_pair

## `ClassicalDedekindReals.sig_forall_dec`, `FunctionalExtensionality.functional_extensionality_dep`

* `Prop_decomp`: C18_ilogb, C18_ilogbf, C28_one, C28_max_min, C28_min_positive_normal, C28_epsilon, C28_normalize, C28_signum
* `Prop_hex`: C26_parse_partial
* `Prop_round`: C01_floor_exact, C02_ceil_exact, C03_trunc_exact, C06_status_partial

## Closed under the global context

* `Prop_decomp`: C28_from_parts, C28_mkbits_fields, C28_ex, C28_exp_unbiased, C28_frac, C28_from_parts_back, C28_is_nan, C28_is_infinite, C28_is_sign_negative, C28_eq_repr, C40_is_subnormal_partial, C40_is_subnormal_refuted, C28_constants, C28_nan
* `Prop_helper`: C36_f32, C36_f128, C36_f64_partial, C36_f64_roundeven_refuted, C36_f64_f32_methods_refuted, C36_f16_partial, C36_f16_names_refuted
* `Prop_hex`: C25_accept, C25_reject, C25_inf, C25_nan, C26_refuted
* `Prop_int`: C23_widen_mul, C23_zero_widen_mul, C23_add, C23_not, C23_not_signed, C23_or, C23_shr, C23_shr_panics, C23_split, C23_split_signed, C23_widen, C23_widen_signed, C23_zero_widen_signed, C24_i256_max_refuted, C24_u256_order_refuted, C24_i256_order_refuted, C24_constants_partial, C24_order_partial, C39_cast, C39_cast_lossy, C39_widen, C39_zero_widen, C39_widen_mul, C39_zero_widen_mul, C39_widen_hi, C39_lo_hi, C39_logical_shr, C39_sign_conversion, C39_abs, C41_widen_hi_refuted, C41_from_lo_hi_refuted, C41_i128_widen_mul_refuted, C41_lo_hi_partial
* `Prop_minmax`: C07_fabs_clears_sign, C07_copysign_sets_sign, C07_with_sign_fields
* `Prop_round`: C06_status_refuted

## `ClassicalDedekindReals.sig_forall_dec`, `ClassicalDedekindReals.sig_not_dec`, `FunctionalExtensionality.functional_extensionality_dep`

* `Prop_hypotacc`: C61_no_overflow
