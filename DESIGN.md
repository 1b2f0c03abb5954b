# Formal model of rust-lang/libm in Rocq 8.16.1

## Layout (`rocq/theories`)

| file | role |
|------|------|
| `Base.v` | option monad (None = debug-build panic), checked machine-integer operations, fuelled loop |
| `Format.v` | format record (`f16`, `f32`, `f64`, `f128` and any other IEEE-like width), model of the `Float` trait constants and bit accessors |
| `Spec.v` | independent specification vocabulary: value of a bit pattern as a real, classification, nearest-even rounding predicate |
| `Ieee.v` | the hardware operations `+ - * /`, comparisons, conversions on bit patterns, through Flocq |
| `M_*.v` | models of the Rust functions, one definition per Rust function, each citing file and lines |
| `P_*.v` | proofs |
| `Prop_*.v` | property theorems only: statement, `exact lemma`, `Print Assumptions`, and an `Example` |

## How the code is modelled

* A float is its bit pattern, an integer in `[0, 2^BITS)`.  `to_bits`/`from_bits` are the identity.
* Primitive float arithmetic is IEEE 754 round-to-nearest-even as defined by Flocq
  (`Bplus`, `Bmult`, ... with `mode_NE`) after decoding the bit pattern.  A NaN result of a
  primitive operation is the canonical quiet NaN; theorems only ever say "is a NaN" about such
  results.
* Every machine-integer operation that can panic in a debug build (overflowing `+ - *`, shift by
  the width or more, failing `cast`, out-of-range index, `unimplemented!`, `debug_assert!`) is a
  checked operation returning `None`.  A theorem `fn x = Some r /\ ...` therefore also says that
  the call does not panic.
* Loops are run on explicit fuel and return `None` when it runs out; theorems exclude that case.
* Generic Rust code (`F: Float`) is modelled once, parametrised by the format, and theorems are
  stated for every format in the record type; `f16`, `f32`, `f64`, `f128` are instances.

## Properties

See `properties.jsonl` for the statements and `MANIFEST.json` for the status.  Plan:

| id | what is modelled | how it is proved |
|----|------------------|------------------|
| C01-C03 | floor/ceil/trunc, generic, bit level | arithmetic on the bit pattern: masking = multiple of a power of two, carry into the exponent keeps the value formula |
| C04, C05 | round/rint with IEEE add/sub | Flocq rounding lemmas on x+0.5^- and x+2^p |
| C06 | *_status functions | refuted at powers of two below one; equivalence elsewhere |
| C07 | fabs/copysign | bit arithmetic |
| C08-C11 | min/max family, fdim | comparison through Flocq `Bcompare`; fmaximum_num refuted, proved outside the bad class |
| C12-C14 | fmod, remainder, remquo(f) loops | loop invariant on integers |
| C15 | scalbn | case analysis on exponent, exact prescaling or result zero |
| C16-C19 | frexp, modf, ilogb, nextafter | bit arithmetic, loops by induction |
| C20 | software sqrt, all four widths | error analysis of the Goldschmidt rounds over the reals (table slots checked by `vm_compute`), then an integer argument for the final decision |
| C21, C22 | fma, fmaf | refuted by witness; correctness outside the bad region |
| C23, C24 | u256/i256 | limb arithmetic; ordering/constant refuted |
| C25-C27 | hex float parser/printer over lists of bytes | rounding to odd then to nearest; induction on strings; refuted for panics |
| C28, C39 | Float trait accessors, integer traits | bit arithmetic |
| C29 | hypot, hypotf | branch by branch on the bit patterns; intervals of floats bound the intermediate results |
| C31 | elementary functions | SpecAnnexF.v; NaN and out-of-domain arguments by walking the branches (P_nan, P_dom, P_acosh), pi/2 from proved bounds on PI (P_pi); the domain clause of acosh/acoshf is refuted by witness |
| C32 | pow, powf | SpecPow.v: integers and odd integers on real values; the integer-detection code is related to them in P_pow; every Annex F clause walks the branches of the model |
| C37 | exp10, exp10f | the powers of ten are stated over reals; each table entry is compared with the correctly rounded power by computation on rationals; modf of the argument bounds the index |
| C38 | rem_pio2_large, rem_pio2, rem_pio2f, sin, cos, tan, sincos and f32 versions | all checks of the model (index, overflow, fuel) succeed; the partial products are exact in f64 (P_fx, P_rpl); the recomputation loop ends because of a lower bound on the distance of any float to a multiple of pi/2, obtained for every exponent from continued fractions (P_cf) checked by the kernel |
| C36 | libm_helper.rs | the macro table as data, the expansion as an evaluator over an arbitrary environment of free functions; names and types compared with a naming rule and with the signatures in the sources |
| C30 | asin, atan, sinh, tanh, asinh, atanh, erf, cosh, j0 and their f32 forms, cbrt, cbrtf, sin, cos, tan, sinf, cosf, tanf | a relation between the runs at x and -x kept by every IEEE operation (P_sym); the sign of zero needs intervals (P_sym3) or positivity (P_sym4); for sinf, cosf, tanf the reduced argument is never zero (P_symf); for sin, cos, tan the two runs of the reduction return opposite pairs up to the sign of a zero tail (P_sym64), and the results are nonzero by C45 and C47 (P_sym64t) |
| C33 | sincos, sin, cos and f32 versions | the three case splits coincide; the remaining difference, the tail passed to the kernel for tiny arguments, is absorbed by rounding (P_err, P_sc) |
| C43 | sinf, cosf, tanf, k_sinf, k_cosf, k_tanf, rem_pio2f | faithfulness is defined in SpecAcc.v by the two neighbouring floats; proof by error analysis of every branch: interval approximation of the f64 evaluation (P_apx), kernel polynomials against Taylor sums with checked coefficients (P_poly, P_taylor, P_kerf; P_poly2, P_poly3, P_tanf), reduction by constants (P_smallf), Cody-Waite (P_medf) and by the table (P_pitab, P_rplf) |
| C44 | rem_pio2f, rem_pio2_large with prec 0, table IPIO2 | 2/pi digits from rational bounds on pi (P_pibound); truncation and rounding errors of the table reduction (P_rplf); lower bounds on the remainder from P_cf |
| C34 | cbrt, cbrtf | cube roots are given by v*v*v = x (SpecRoot.v); relative error of the Newton steps of cbrtf in f64 (P_rel, P_cbrtf); for cbrt the polynomial estimate (P_poly2, P_poly3), the cubic step and two Newton steps with fma remainders (P_cbrt), the rounding tests and the two listed arguments (P_cbrt2), exponent and sign (P_cbrt3). The nearest float is proved unless the root is within 2^-47 gaps of a midpoint; the rest would need an exhaustive search for such arguments |
| C45 | sin, cos, sincos, k_sin, k_cos | kernel polynomials against Taylor sums (P_ksc), error of the evaluation in exact pieces with a final rounding within 2^-1 + 0.49 ulp (P_ker64, P_ker64c), selection by quadrant (P_trig64) |
| C46 | rem_pio2, rem_pio2_large with prec 1 | three stages of Cody-Waite with the exact two-sums of each stage (P_red64, P_red64b), the short cuts below 9pi/4 (P_red64c), the table reduction (P_rpl5, P_red64d); lower bounds on the remainder from continued fractions (P_cf) |
| C47 | tan, k_tan | the polynomial against the Taylor sums of sine and cosine (P_tan64a, P_tan64), its evaluation (P_tan64r, P_tan64b, P_tan64s), the corrected reciprocal (P_tan64o), the branch folded at pi/4 (P_tan64c, P_tan64d), selection by quadrant (P_tan64t) |
| C48 | jn, yn, jnf, ynf | the search loop of the backward recurrence ends because the gap between consecutive terms grows by a fixed amount per step up to the bound, rounding included (P_jn); counters by intervals (P_jn2) |
| C49, C50 | jn, yn, jnf, ynf, j0, j1, y0, y1 and f32 forms | SpecBes.v; the order and the argument reduce to the same magnitude computation with different final signs (P_jn2, P_jn4); oddness of j1 by the relation of P_sym2 and absorption of the half-ulp term (P_jn3) |
| C51 | all elementary functions | SpecTotal.v; branch by branch, with interval bounds wherever a float decides an index or an exponent; for `pow` and `powf` a running error analysis of the double-length logarithm bounds the exponent of the result (P_powt ... P_powt12) |
| C52 | lgamma_r, lgamma, tgamma and f32 forms | SpecGamma.v; the reduction of sin(pi x) is exact up to the last product (P_gam, P_gam2, P_gam3), the kernels keep the sign; the factorial table by evaluation of its 23 entries |
| C53 | exp, expf | SpecExp.v; Taylor polynomials bound the rational approximation, ln 2 is enclosed to 140 bits, x - k ln2_hi is exact, a running error analysis in four pieces bounds the rest (P_expa1 ... P_expa12) |
| C54 | log, logf | SpecLog.v; the atanh series bounds the polynomial, the argument reduction is exact, running error analysis relative to f = x - 1 when k = 0 and absolute otherwise, k ln2_hi is exact (P_lga1 ... P_lga7, P_lgb3 ... P_lgb7) |
| C55 | log2, log10, log2f, log10f | SpecLog2.v; the kernel of log shared with C54, hi/lo split of the mantissa exact, error of the two-word constants and of the compensated sum with k (P_l2a1 ... P_l2a9, P_l2b2 ... P_l2b9) |
| C56 | exp2, exp2f at integers; log2, log2f at powers of two | SpecExact2.v; the shift by 1.5 * 2^44 (1.5 * 2^19) is exact, the table entry is 1, one rounding in scalbn or in the conversion (P_l2c1 ... P_l2c4) |
| C57 | log1p, log1pf | SpecLog1p.v; the rounding of 1 + x is recovered to second order by the correction term (P_l1c1), the kernel of log shared with C54 absorbs it (P_l1a1, P_l1b1), all branches incl. the one argument whose reduction is trivial (P_l1a2, P_l1a3, P_l1b2, P_l1b3) |
| C58 | asinh, acosh, atanh and the f32 versions | SpecHyp.v; a calculus of relative errors of positive quantities over any format (P_hy1, P_hy2), real identities (P_hy3), every branch for any format given accurate log, log1p and correct sqrt (P_hy4), the two formats (P_hy5, P_hy6) |
| C59 | expm1 and expm1f | SpecExpm1.v; truncation error of the rational kernel (P_em1), the six reconstruction formulas over any format (P_em2), kernel and reduction (P_em3, P_em4, P_em7), branches (P_em5, P_em8), the whole functions (P_em6, P_em9); the f32 overflow threshold is refuted |
| C60 | sinh, cosh, tanh and their f32 versions | SpecHyp2.v; formulas over any format (P_sh1, P_sh2), the scaled exponential k_expo2 (P_sh3), branches in terms of the argument (P_sh4), the whole functions (P_sh5, P_sh6, P_sh7); sinhf returns NaN on an interval, refuted |
| C61 | hypot, hypotf: error and overflow | SpecHypot2.v; the split square, exact by Veltkamp's theorem as proved in Flocq's Pff2Flocq (P_hp1), scaling back and negligible arguments over any format (P_hp2), the sum and its root (P_hp3), exponents and exact scaling (P_hp4), all branches (P_hp5) |
| C62 | hypot, hypotf: not below their arguments | SpecHypot3.v; the rounded root of a rounded square gives the number back (sqrt_rnd_sq in P_hp2), P_hp3, P_hp5 for f64, P_hp6, P_hp7 for f32 |
| C35 | i586 floor/ceil | refuted at zeros, proved elsewhere |

## What is modelled

Everything below is relative to `libm/src/math`.

| source | model | remarks |
|--------|-------|---------|
| `support/float_traits.rs` | `Format.v` | trait constants, accessors, `normalize`; `from_parts`, `ex`, `frac` |
| `support/int_traits.rs` | `M_int.v` | min/max/sign constants, `abs_diff`, `unsigned_abs`, carrying/overflowing ops, `cast`, widening traits |
| `support/big.rs` | `M_int.v` | `u256`, `i256`: limbs, add, shifts, widening multiplication, ordering |
| `generic/floor.rs`, `ceil.rs`, `trunc.rs`, `round.rs`, `rint.rs`, `roundeven.rs` | `M_basic.v` | value and status word |
| `generic/fabs.rs`, `copysign.rs`, `fmin.rs`, `fmax.rs`, `fminimum*.rs`, `fmaximum*.rs`, `fdim.rs` | `M_basic.v` | |
| `arch/i586.rs` | `M_basic.v` | the two x87 round trips as IEEE operations |
| `frexp*.rs`, `modf*.rs`, `ilogb*.rs`, `nextafter*.rs` | `M_bits.v` | recursion of `frexp` by fuel |
| `generic/fmod.rs`, `remainder*.rs`, `remquo*.rs` | `M_fmod.v` | loops by fuel |
| `generic/scalbn.rs`, `ldexp*.rs` | `M_scalbn.v` | |
| `fma.rs` (`fma`, `fmaf`, `fmaf128` software paths, `fma_wide`) | `M_fma.v` | |
| `generic/sqrt.rs` | `M_sqrt.v` | value only, the returned status is dropped |
| `support/hex_float.rs` | `M_hex.v` | strings are lists of bytes; `parse_any`, `parse_hex_exact`, `hf16`..`hf128`, `fmt_any_hex` without width or flags of the formatter; `const fn` panics are `None` |
| `rem_pio2_large.rs`, `rem_pio2.rs`, `rem_pio2f.rs` | `M_rempio2.v` | by hand; mutable arrays are lists, an index out of bounds is `None`; both tables of 2/pi |
| `sin`, `cos`, `tan`, `sincos`, `k_sin`, `k_cos`, `k_tan` (`f32` and `f64`, as all below) | `M_trig.v` | generated |
| `asin`, `acos`, `atan`, `atan2` | `M_atrig.v` | generated |
| `exp`, `exp2`, `expm1`, `sinh`, `cosh`, `tanh`, `expo2`, `k_expo2` | `M_exp.v` | generated |
| `log`, `log2`, `log10`, `log1p`, `asinh`, `acosh`, `atanh` | `M_log.v` | generated |
| `hypot`, `cbrt`, `pow`, `exp10` | `M_pow.v` | generated; `cbrt_round` for `Round::Nearest` only, status dropped |
| `erf`, `erfc` | `M_erf.v` | generated |
| `lgamma`, `lgamma_r`, `tgamma` | `M_gamma.v` | generated |
| `j0`, `j1`, `y0`, `y1` | `M_bessel.v` | generated |
| `jn`, `yn`, `jnf`, `ynf` | `M_jn.v` | by hand; loops with fuel 2^33, shown never to run out; compared with the glibc functions on 68 pairs of order and argument |

Not modelled: the architecture-specific replacements selected by `select_implementation!` other than
`arch/i586.rs` (they are intrinsics), the floating-point environment (status words are modelled only where the
function returns them), and every function not in the table.

## Generated models

`tools/rs2v.py` reads the Rust text of the elementary functions (straight-line code, `if`, `match`, constants,
tables) and prints one Rocq definition per Rust function, `rs_f` for `f`, with its file and lines.  It does this:

* mutable variables become shadowing `let`s; code after an `if` with an early return becomes a function `rs_f_N` of
  the live variables when both branches can reach it;
* `a + b` on machine integers becomes a checked operation (`sadd 32 a b`, ...), bound with `let*`; a function without
  such operations returns its value directly, all others return an `option`;
* `f64` arithmetic is written `a +: b`, `f32` arithmetic `a +' b` (`M_elib.v`);
* a decimal float literal is replaced by the bit pattern of the nearest float, the decimal kept in a comment;
* `i!(t, k)` is `tab_get` (`None` out of bounds); with a constant index it is `nth`;
* `force_eval!` and `cold_path()` are dropped; loops with constant bounds are unrolled.

The tool is not trusted to be general, only its output is used; the output is meant to be read beside the source.
As a sanity check of the reading, every generated function was evaluated with `vm_compute` on random and special
arguments and compared with the C library of the development machine: all agree within 3 ulp, except `acosh` and
`acoshf` on negative arguments, where the Rust code really returns finite values (C31).

## Proof tools for the elementary functions

* `P_elem.v`, `P_elem2.v`: a bit pattern as magnitude word plus sign; what the masks and shifts of the sources extract.
* `P_ival.v`, `P_ival2.v`: `IN F (lo,hi) x` says that `x` is a finite float between two given floats.  Operations are
  monotone, so running the same operations on the end points bounds the result; used where code converts a float to an
  integer and indexes a table or shifts by it.
* `P_tot.v`: tactics that walk through generated code and show that every checked operation succeeds.

## Simplifications

* A source written once per width (`frexp.rs`/`frexpf.rs`, ...) is modelled literally; the proof then introduces a
  version generic in the format and shows both instances equal to the literal models by conversion.
* `cold_path()`, `force_eval!` and inlining attributes are dropped.
* `a.widen_mul(b).hi()` in `sqrt.rs` is the high half of the exact product; C23 and C39 prove the integer traits
  return it.
* `From`/`as` conversions that cannot lose information are the identity.

## Wrong programs

`seeded/LOG.jsonl` records edits of the model tried in a scratch copy.  `killed` means that the build stops.
`first_failures` are the lemmas where it stops.  `theorems_failed` are the theorems, among those for the property the
edit concerns, of the property files that no longer build; a file is all or nothing, so a theorem on that list may be
held back by a neighbour in its file instead of being false itself.  A stopped proof is in itself no proof that the
edited program is wrong: edits that may preserve the property say so in `claim` and `note`.  Where `witness` is given,
the edited program was run on that argument and the property evaluated to false.

## Trusted base

Coq's kernel including `vm_compute`; the reading of the Rust source into `M_*.v`; that the primitive operations of
the target are IEEE 754 round-to-nearest-even; and the axioms that `Print Assumptions` lists.  These are, for every
property theorem, a subset of `ClassicalDedekindReals.sig_forall_dec`, `ClassicalDedekindReals.sig_not_dec`,
`FunctionalExtensionality.functional_extensionality_dep` and `Classical_Prop.classic`, all of the standard library;
[`ASSUMPTIONS.md`](ASSUMPTIONS.md) gives the list theorem by theorem.  Flocq (definitions of rounding and of the
IEEE operations) is used as a checked library; it adds no axiom of its own.
