(** Model of libm/src/libm_helper.rs: the rows of the table [libm_helper!] and what the macro makes of them. *)
From Coq Require Import ZArith String List Bool.
Import ListNotations.
Open Scope string_scope.

(** A row "(fn func(arg: type, ...) -> (ret, ...); => libm_fn);" of the table *)
Record row := Row { meth : string; params : list (string * string); rets : list string; target : string }.

(** [impl Libm<f32>], libm/src/libm_helper.rs lines 52-109 *)
Definition helper_f32 : list row :=
  [
   Row "acos" [("x", "f32")] ["f32"] "acosf";
   Row "acosh" [("x", "f32")] ["f32"] "acoshf";
   Row "asin" [("x", "f32")] ["f32"] "asinf";
   Row "asinh" [("x", "f32")] ["f32"] "asinhf";
   Row "atan" [("x", "f32")] ["f32"] "atanf";
   Row "atan2" [("y", "f32"); ("x", "f32")] ["f32"] "atan2f";
   Row "atanh" [("x", "f32")] ["f32"] "atanhf";
   Row "cbrt" [("x", "f32")] ["f32"] "cbrtf";
   Row "ceil" [("x", "f32")] ["f32"] "ceilf";
   Row "copysign" [("x", "f32"); ("y", "f32")] ["f32"] "copysignf";
   Row "cos" [("x", "f32")] ["f32"] "cosf";
   Row "cosh" [("x", "f32")] ["f32"] "coshf";
   Row "erf" [("x", "f32")] ["f32"] "erff";
   Row "erfc" [("x", "f32")] ["f32"] "erfcf";
   Row "exp" [("x", "f32")] ["f32"] "expf";
   Row "exp10" [("x", "f32")] ["f32"] "exp10f";
   Row "exp2" [("x", "f32")] ["f32"] "exp2f";
   Row "expm1" [("x", "f32")] ["f32"] "expm1f";
   Row "fabs" [("x", "f32")] ["f32"] "fabsf";
   Row "fdim" [("x", "f32"); ("y", "f32")] ["f32"] "fdimf";
   Row "floor" [("x", "f32")] ["f32"] "floorf";
   Row "fma" [("x", "f32"); ("y", "f32"); ("z", "f32")] ["f32"] "fmaf";
   Row "fmax" [("x", "f32"); ("y", "f32")] ["f32"] "fmaxf";
   Row "fmin" [("x", "f32"); ("y", "f32")] ["f32"] "fminf";
   Row "fmod" [("x", "f32"); ("y", "f32")] ["f32"] "fmodf";
   Row "frexp" [("x", "f32")] ["f32"; "i32"] "frexpf";
   Row "hypot" [("x", "f32"); ("y", "f32")] ["f32"] "hypotf";
   Row "ilogb" [("x", "f32")] ["i32"] "ilogbf";
   Row "j0" [("x", "f32")] ["f32"] "j0f";
   Row "j1" [("x", "f32")] ["f32"] "j1f";
   Row "jn" [("n", "i32"); ("x", "f32")] ["f32"] "jnf";
   Row "ldexp" [("x", "f32"); ("n", "i32")] ["f32"] "ldexpf";
   Row "lgamma" [("x", "f32")] ["f32"] "lgammaf";
   Row "lgamma_r" [("x", "f32")] ["f32"; "i32"] "lgammaf_r";
   Row "log" [("x", "f32")] ["f32"] "logf";
   Row "log10" [("x", "f32")] ["f32"] "log10f";
   Row "log1p" [("x", "f32")] ["f32"] "log1pf";
   Row "log2" [("x", "f32")] ["f32"] "log2f";
   Row "modf" [("x", "f32")] ["f32"; "f32"] "modff";
   Row "nextafter" [("x", "f32"); ("y", "f32")] ["f32"] "nextafterf";
   Row "pow" [("x", "f32"); ("y", "f32")] ["f32"] "powf";
   Row "remainder" [("x", "f32"); ("y", "f32")] ["f32"] "remainderf";
   Row "remquo" [("x", "f32"); ("y", "f32")] ["f32"; "i32"] "remquof";
   Row "rint" [("x", "f32")] ["f32"] "rintf";
   Row "round" [("x", "f32")] ["f32"] "roundf";
   Row "roundeven" [("x", "f32")] ["f32"] "roundevenf";
   Row "scalbn" [("x", "f32"); ("n", "i32")] ["f32"] "scalbnf";
   Row "sin" [("x", "f32")] ["f32"] "sinf";
   Row "sincos" [("x", "f32")] ["f32"; "f32"] "sincosf";
   Row "sinh" [("x", "f32")] ["f32"] "sinhf";
   Row "sqrt" [("x", "f32")] ["f32"] "sqrtf";
   Row "tan" [("x", "f32")] ["f32"] "tanf";
   Row "tanh" [("x", "f32")] ["f32"] "tanhf";
   Row "tgamma" [("x", "f32")] ["f32"] "tgammaf";
   Row "trunc" [("x", "f32")] ["f32"] "truncf";
   Row "y0" [("x", "f32")] ["f32"] "y0f";
   Row "y1" [("x", "f32")] ["f32"] "y1f";
   Row "yn" [("n", "i32"); ("x", "f32")] ["f32"] "ynf"].

(** [impl Libm<f64>], libm/src/libm_helper.rs lines 118-183 *)
Definition helper_f64 : list row :=
  [
   Row "acos" [("x", "f64")] ["f64"] "acos";
   Row "acosh" [("x", "f64")] ["f64"] "acosh";
   Row "asin" [("x", "f64")] ["f64"] "asin";
   Row "asinh" [("x", "f64")] ["f64"] "asinh";
   Row "atan" [("x", "f64")] ["f64"] "atan";
   Row "atan2" [("y", "f64"); ("x", "f64")] ["f64"] "atan2";
   Row "atanh" [("x", "f64")] ["f64"] "atanh";
   Row "cbrt" [("x", "f64")] ["f64"] "cbrt";
   Row "ceil" [("x", "f64")] ["f64"] "ceil";
   Row "copysign" [("x", "f64"); ("y", "f64")] ["f64"] "copysign";
   Row "cos" [("x", "f64")] ["f64"] "cos";
   Row "cosh" [("x", "f64")] ["f64"] "cosh";
   Row "erf" [("x", "f64")] ["f64"] "erf";
   Row "erfc" [("x", "f64")] ["f64"] "erfc";
   Row "exp" [("x", "f64")] ["f64"] "exp";
   Row "exp10" [("x", "f64")] ["f64"] "exp10";
   Row "exp2" [("x", "f64")] ["f64"] "exp2";
   Row "expm1" [("x", "f64")] ["f64"] "expm1";
   Row "fabs" [("x", "f64")] ["f64"] "fabs";
   Row "fdim" [("x", "f64"); ("y", "f64")] ["f64"] "fdim";
   Row "floor" [("x", "f64")] ["f64"] "floor";
   Row "fma" [("x", "f64"); ("y", "f64"); ("z", "f64")] ["f64"] "fma";
   Row "fmax" [("x", "f64"); ("y", "f64")] ["f64"] "fmax";
   Row "fmaximum" [("x", "f64"); ("y", "f64")] ["f64"] "fmaximum";
   Row "fmaximum_num" [("x", "f64"); ("y", "f64")] ["f64"] "fmaximum_num";
   Row "fmaximum_numf" [("x", "f32"); ("y", "f32")] ["f32"] "fmaximum_numf";
   Row "fmaximumf" [("x", "f32"); ("y", "f32")] ["f32"] "fmaximumf";
   Row "fmin" [("x", "f64"); ("y", "f64")] ["f64"] "fmin";
   Row "fminimum" [("x", "f64"); ("y", "f64")] ["f64"] "fminimum";
   Row "fminimum_num" [("x", "f64"); ("y", "f64")] ["f64"] "fminimum_num";
   Row "fminimum_numf" [("x", "f32"); ("y", "f32")] ["f32"] "fminimum_numf";
   Row "fminimumf" [("x", "f32"); ("y", "f32")] ["f32"] "fminimumf";
   Row "fmod" [("x", "f64"); ("y", "f64")] ["f64"] "fmod";
   Row "frexp" [("x", "f64")] ["f64"; "i32"] "frexp";
   Row "hypot" [("x", "f64"); ("y", "f64")] ["f64"] "hypot";
   Row "ilogb" [("x", "f64")] ["i32"] "ilogb";
   Row "j0" [("x", "f64")] ["f64"] "j0";
   Row "j1" [("x", "f64")] ["f64"] "j1";
   Row "jn" [("n", "i32"); ("x", "f64")] ["f64"] "jn";
   Row "ldexp" [("x", "f64"); ("n", "i32")] ["f64"] "ldexp";
   Row "lgamma" [("x", "f64")] ["f64"] "lgamma";
   Row "lgamma_r" [("x", "f64")] ["f64"; "i32"] "lgamma_r";
   Row "log" [("x", "f64")] ["f64"] "log";
   Row "log10" [("x", "f64")] ["f64"] "log10";
   Row "log1p" [("x", "f64")] ["f64"] "log1p";
   Row "log2" [("x", "f64")] ["f64"] "log2";
   Row "modf" [("x", "f64")] ["f64"; "f64"] "modf";
   Row "nextafter" [("x", "f64"); ("y", "f64")] ["f64"] "nextafter";
   Row "pow" [("x", "f64"); ("y", "f64")] ["f64"] "pow";
   Row "remainder" [("x", "f64"); ("y", "f64")] ["f64"] "remainder";
   Row "remquo" [("x", "f64"); ("y", "f64")] ["f64"; "i32"] "remquo";
   Row "rint" [("x", "f64")] ["f64"] "rint";
   Row "round" [("x", "f64")] ["f64"] "round";
   Row "roundevem" [("x", "f64")] ["f64"] "roundeven";
   Row "scalbn" [("x", "f64"); ("n", "i32")] ["f64"] "scalbn";
   Row "sin" [("x", "f64")] ["f64"] "sin";
   Row "sincos" [("x", "f64")] ["f64"; "f64"] "sincos";
   Row "sinh" [("x", "f64")] ["f64"] "sinh";
   Row "sqrt" [("x", "f64")] ["f64"] "sqrt";
   Row "tan" [("x", "f64")] ["f64"] "tan";
   Row "tanh" [("x", "f64")] ["f64"] "tanh";
   Row "tgamma" [("x", "f64")] ["f64"] "tgamma";
   Row "trunc" [("x", "f64")] ["f64"] "trunc";
   Row "y0" [("x", "f64")] ["f64"] "y0";
   Row "y1" [("x", "f64")] ["f64"] "y1";
   Row "yn" [("n", "i32"); ("x", "f64")] ["f64"] "yn"].

(** [impl Libm<f16>], libm/src/libm_helper.rs lines 193-211 *)
Definition helper_f16 : list row :=
  [
   Row "ceil" [("x", "f16")] ["f16"] "ceilf16";
   Row "copysign" [("x", "f16"); ("y", "f16")] ["f16"] "copysignf16";
   Row "fabs" [("x", "f16")] ["f16"] "fabsf16";
   Row "fdim" [("x", "f16"); ("y", "f16")] ["f16"] "fdimf16";
   Row "floor" [("x", "f16")] ["f16"] "floorf16";
   Row "fmax" [("x", "f16"); ("y", "f16")] ["f16"] "fmaxf16";
   Row "fmaximum_num" [("x", "f16"); ("y", "f16")] ["f16"] "fmaximum_numf16";
   Row "fmaximumf16" [("x", "f16"); ("y", "f16")] ["f16"] "fmaximumf16";
   Row "fmin" [("x", "f16"); ("y", "f16")] ["f16"] "fminf16";
   Row "fminimum" [("x", "f16"); ("y", "f16")] ["f16"] "fminimumf16";
   Row "fminimum_num" [("x", "f16"); ("y", "f16")] ["f16"] "fminimum_numf16";
   Row "fmod" [("x", "f16"); ("y", "f16")] ["f16"] "fmodf16";
   Row "ldexp" [("x", "f16"); ("n", "i32")] ["f16"] "ldexpf16";
   Row "rint" [("x", "f16")] ["f16"] "rintf16";
   Row "round" [("x", "f16")] ["f16"] "roundf16";
   Row "roundeven" [("x", "f16")] ["f16"] "roundevenf16";
   Row "scalbn" [("x", "f16"); ("n", "i32")] ["f16"] "scalbnf16";
   Row "sqrtf" [("x", "f16")] ["f16"] "sqrtf16";
   Row "truncf" [("x", "f16")] ["f16"] "truncf16"].

(** [impl Libm<f128>], libm/src/libm_helper.rs lines 221-240 *)
Definition helper_f128 : list row :=
  [
   Row "ceil" [("x", "f128")] ["f128"] "ceilf128";
   Row "copysign" [("x", "f128"); ("y", "f128")] ["f128"] "copysignf128";
   Row "fabs" [("x", "f128")] ["f128"] "fabsf128";
   Row "fdim" [("x", "f128"); ("y", "f128")] ["f128"] "fdimf128";
   Row "floor" [("x", "f128")] ["f128"] "floorf128";
   Row "fma" [("x", "f128"); ("y", "f128"); ("z", "f128")] ["f128"] "fmaf128";
   Row "fmax" [("x", "f128"); ("y", "f128")] ["f128"] "fmaxf128";
   Row "fmaximum" [("x", "f128"); ("y", "f128")] ["f128"] "fmaximumf128";
   Row "fmaximum_num" [("x", "f128"); ("y", "f128")] ["f128"] "fmaximum_numf128";
   Row "fmin" [("x", "f128"); ("y", "f128")] ["f128"] "fminf128";
   Row "fminimum" [("x", "f128"); ("y", "f128")] ["f128"] "fminimumf128";
   Row "fminimum_num" [("x", "f128"); ("y", "f128")] ["f128"] "fminimum_numf128";
   Row "fmod" [("x", "f128"); ("y", "f128")] ["f128"] "fmodf128";
   Row "ldexp" [("x", "f128"); ("n", "i32")] ["f128"] "ldexpf128";
   Row "rint" [("x", "f128")] ["f128"] "rintf128";
   Row "round" [("x", "f128")] ["f128"] "roundf128";
   Row "roundeven" [("x", "f128")] ["f128"] "roundevenf128";
   Row "scalbn" [("x", "f128"); ("n", "i32")] ["f128"] "scalbnf128";
   Row "sqrt" [("x", "f128")] ["f128"] "sqrtf128";
   Row "trunc" [("x", "f128")] ["f128"] "truncf128"].

(** The free functions the rows name, with the types of their parameters and results *)
Definition api : list (string * (list string * list string)) :=
  [
   ("acos", (["f64"], ["f64"])) (* libm/src/math/acos.rs:63 *);
   ("acosf", (["f32"], ["f32"])) (* libm/src/math/acosf.rs:37 *);
   ("acosh", (["f64"], ["f64"])) (* libm/src/math/acosh.rs:11 *);
   ("acoshf", (["f32"], ["f32"])) (* libm/src/math/acoshf.rs:11 *);
   ("asin", (["f64"], ["f64"])) (* libm/src/math/asin.rs:70 *);
   ("asinf", (["f32"], ["f32"])) (* libm/src/math/asinf.rs:39 *);
   ("asinh", (["f64"], ["f64"])) (* libm/src/math/asinh.rs:11 *);
   ("asinhf", (["f32"], ["f32"])) (* libm/src/math/asinhf.rs:11 *);
   ("atan", (["f64"], ["f64"])) (* libm/src/math/atan.rs:69 *);
   ("atan2", (["f64"; "f64"], ["f64"])) (* libm/src/math/atan2.rs:51 *);
   ("atan2f", (["f32"; "f32"], ["f32"])) (* libm/src/math/atan2f.rs:27 *);
   ("atanf", (["f32"], ["f32"])) (* libm/src/math/atanf.rs:40 *);
   ("atanh", (["f64"], ["f64"])) (* libm/src/math/atanh.rs:9 *);
   ("atanhf", (["f32"], ["f32"])) (* libm/src/math/atanhf.rs:9 *);
   ("cbrt", (["f64"], ["f64"])) (* libm/src/math/cbrt.rs:12 *);
   ("cbrtf", (["f32"], ["f32"])) (* libm/src/math/cbrtf.rs:29 *);
   ("ceil", (["f64"], ["f64"])) (* libm/src/math/ceil.rs:28 *);
   ("ceilf", (["f32"], ["f32"])) (* libm/src/math/ceil.rs:14 *);
   ("ceilf128", (["f128"], ["f128"])) (* libm/src/math/ceil.rs:44 *);
   ("ceilf16", (["f16"], ["f16"])) (* libm/src/math/ceil.rs:6 *);
   ("copysign", (["f64"; "f64"], ["f64"])) (* libm/src/math/copysign.rs:25 *);
   ("copysignf", (["f32"; "f32"], ["f32"])) (* libm/src/math/copysign.rs:16 *);
   ("copysignf128", (["f128"; "f128"], ["f128"])) (* libm/src/math/copysign.rs:35 *);
   ("copysignf16", (["f16"; "f16"], ["f16"])) (* libm/src/math/copysign.rs:7 *);
   ("cos", (["f64"], ["f64"])) (* libm/src/math/cos.rs:49 *);
   ("cosf", (["f32"], ["f32"])) (* libm/src/math/cosf.rs:31 *);
   ("cosh", (["f64"], ["f64"])) (* libm/src/math/cosh.rs:9 *);
   ("coshf", (["f32"], ["f32"])) (* libm/src/math/coshf.rs:9 *);
   ("erf", (["f64"], ["f64"])) (* libm/src/math/erf.rs:223 *);
   ("erfc", (["f64"], ["f64"])) (* libm/src/math/erf.rs:268 *);
   ("erfcf", (["f32"], ["f32"])) (* libm/src/math/erff.rs:179 *);
   ("erff", (["f32"], ["f32"])) (* libm/src/math/erff.rs:134 *);
   ("exp", (["f64"], ["f64"])) (* libm/src/math/exp.rs:85 *);
   ("exp10", (["f64"], ["f64"])) (* libm/src/math/exp10.rs:11 *);
   ("exp10f", (["f32"], ["f32"])) (* libm/src/math/exp10f.rs:10 *);
   ("exp2", (["f64"], ["f64"])) (* libm/src/math/exp2.rs:326 *);
   ("exp2f", (["f32"], ["f32"])) (* libm/src/math/exp2f.rs:77 *);
   ("expf", (["f32"], ["f32"])) (* libm/src/math/expf.rs:34 *);
   ("expm1", (["f64"], ["f64"])) (* libm/src/math/expm1.rs:34 *);
   ("expm1f", (["f32"], ["f32"])) (* libm/src/math/expm1f.rs:36 *);
   ("fabs", (["f64"], ["f64"])) (* libm/src/math/fabs.rs:31 *);
   ("fabsf", (["f32"], ["f32"])) (* libm/src/math/fabs.rs:16 *);
   ("fabsf128", (["f128"], ["f128"])) (* libm/src/math/fabs.rs:47 *);
   ("fabsf16", (["f16"], ["f16"])) (* libm/src/math/fabs.rs:7 *);
   ("fdim", (["f64"; "f64"], ["f64"])) (* libm/src/math/fdim.rs:37 *);
   ("fdimf", (["f32"; "f32"], ["f32"])) (* libm/src/math/fdim.rs:24 *);
   ("fdimf128", (["f128"; "f128"], ["f128"])) (* libm/src/math/fdim.rs:51 *);
   ("fdimf16", (["f16"; "f16"], ["f16"])) (* libm/src/math/fdim.rs:11 *);
   ("floor", (["f64"], ["f64"])) (* libm/src/math/floor.rs:14 *);
   ("floorf", (["f32"], ["f32"])) (* libm/src/math/floor.rs:29 *);
   ("floorf128", (["f128"], ["f128"])) (* libm/src/math/floor.rs:44 *);
   ("floorf16", (["f16"], ["f16"])) (* libm/src/math/floor.rs:6 *);
   ("fma", (["f64"; "f64"; "f64"], ["f64"])) (* libm/src/math/fma.rs:11 *);
   ("fmaf", (["f32"; "f32"; "f32"], ["f32"])) (* libm/src/math/fma_wide.rs:19 *);
   ("fmaf128", (["f128"; "f128"; "f128"], ["f128"])) (* libm/src/math/fma.rs:26 *);
   ("fmax", (["f64"; "f64"], ["f64"])) (* libm/src/math/fmin_fmax.rs:63 *);
   ("fmaxf", (["f32"; "f32"], ["f32"])) (* libm/src/math/fmin_fmax.rs:54 *);
   ("fmaxf128", (["f128"; "f128"], ["f128"])) (* libm/src/math/fmin_fmax.rs:73 *);
   ("fmaxf16", (["f16"; "f16"], ["f16"])) (* libm/src/math/fmin_fmax.rs:45 *);
   ("fmaximum", (["f64"; "f64"], ["f64"])) (* libm/src/math/fminimum_fmaximum.rs:56 *);
   ("fmaximum_num", (["f64"; "f64"], ["f64"])) (* libm/src/math/fminimum_fmaximum_num.rs:56 *);
   ("fmaximum_numf", (["f32"; "f32"], ["f32"])) (* libm/src/math/fminimum_fmaximum_num.rs:48 *);
   ("fmaximum_numf128", (["f128"; "f128"], ["f128"])) (* libm/src/math/fminimum_fmaximum_num.rs:65 *);
   ("fmaximum_numf16", (["f16"; "f16"], ["f16"])) (* libm/src/math/fminimum_fmaximum_num.rs:40 *);
   ("fmaximumf", (["f32"; "f32"], ["f32"])) (* libm/src/math/fminimum_fmaximum.rs:48 *);
   ("fmaximumf128", (["f128"; "f128"], ["f128"])) (* libm/src/math/fminimum_fmaximum.rs:65 *);
   ("fmaximumf16", (["f16"; "f16"], ["f16"])) (* libm/src/math/fminimum_fmaximum.rs:40 *);
   ("fmin", (["f64"; "f64"], ["f64"])) (* libm/src/math/fmin_fmax.rs:25 *);
   ("fminf", (["f32"; "f32"], ["f32"])) (* libm/src/math/fmin_fmax.rs:16 *);
   ("fminf128", (["f128"; "f128"], ["f128"])) (* libm/src/math/fmin_fmax.rs:35 *);
   ("fminf16", (["f16"; "f16"], ["f16"])) (* libm/src/math/fmin_fmax.rs:7 *);
   ("fminimum", (["f64"; "f64"], ["f64"])) (* libm/src/math/fminimum_fmaximum.rs:14 *);
   ("fminimum_num", (["f64"; "f64"], ["f64"])) (* libm/src/math/fminimum_fmaximum_num.rs:22 *);
   ("fminimum_numf", (["f32"; "f32"], ["f32"])) (* libm/src/math/fminimum_fmaximum_num.rs:14 *);
   ("fminimum_numf128", (["f128"; "f128"], ["f128"])) (* libm/src/math/fminimum_fmaximum_num.rs:31 *);
   ("fminimum_numf16", (["f16"; "f16"], ["f16"])) (* libm/src/math/fminimum_fmaximum_num.rs:6 *);
   ("fminimumf", (["f32"; "f32"], ["f32"])) (* libm/src/math/fminimum_fmaximum.rs:22 *);
   ("fminimumf128", (["f128"; "f128"], ["f128"])) (* libm/src/math/fminimum_fmaximum.rs:31 *);
   ("fminimumf16", (["f16"; "f16"], ["f16"])) (* libm/src/math/fminimum_fmaximum.rs:6 *);
   ("fmod", (["f64"; "f64"], ["f64"])) (* libm/src/math/fmod.rs:16 *);
   ("fmodf", (["f32"; "f32"], ["f32"])) (* libm/src/math/fmod.rs:10 *);
   ("fmodf128", (["f128"; "f128"], ["f128"])) (* libm/src/math/fmod.rs:23 *);
   ("fmodf16", (["f16"; "f16"], ["f16"])) (* libm/src/math/fmod.rs:4 *);
   ("frexp", (["f64"], ["f64"; "i32"])) (* libm/src/math/frexp.rs:2 *);
   ("frexpf", (["f32"], ["f32"; "i32"])) (* libm/src/math/frexpf.rs:2 *);
   ("hypot", (["f64"; "f64"], ["f64"])) (* libm/src/math/hypot.rs:21 *);
   ("hypotf", (["f32"; "f32"], ["f32"])) (* libm/src/math/hypotf.rs:6 *);
   ("ilogb", (["f64"], ["i32"])) (* libm/src/math/ilogb.rs:5 *);
   ("ilogbf", (["f32"], ["i32"])) (* libm/src/math/ilogbf.rs:5 *);
   ("j0", (["f64"], ["f64"])) (* libm/src/math/j0.rs:114 *);
   ("j0f", (["f32"], ["f32"])) (* libm/src/math/j0f.rs:67 *);
   ("j1", (["f64"], ["f64"])) (* libm/src/math/j1.rs:118 *);
   ("j1f", (["f32"], ["f32"])) (* libm/src/math/j1f.rs:68 *);
   ("jn", (["i32"; "f64"], ["f64"])) (* libm/src/math/jn.rs:43 *);
   ("jnf", (["i32"; "f32"], ["f32"])) (* libm/src/math/jnf.rs:20 *);
   ("ldexp", (["f64"; "i32"], ["f64"])) (* libm/src/math/ldexp.rs:13 *);
   ("ldexpf", (["f32"; "i32"], ["f32"])) (* libm/src/math/ldexp.rs:8 *);
   ("ldexpf128", (["f128"; "i32"], ["f128"])) (* libm/src/math/ldexp.rs:19 *);
   ("ldexpf16", (["f16"; "i32"], ["f16"])) (* libm/src/math/ldexp.rs:3 *);
   ("lgamma", (["f64"], ["f64"])) (* libm/src/math/lgamma.rs:6 *);
   ("lgamma_r", (["f64"], ["f64"; "i32"])) (* libm/src/math/lgamma_r.rs:169 *);
   ("lgammaf", (["f32"], ["f32"])) (* libm/src/math/lgammaf.rs:6 *);
   ("lgammaf_r", (["f32"], ["f32"; "i32"])) (* libm/src/math/lgammaf_r.rs:104 *);
   ("log", (["f64"], ["f64"])) (* libm/src/math/log.rs:75 *);
   ("log10", (["f64"], ["f64"])) (* libm/src/math/log10.rs:36 *);
   ("log10f", (["f32"], ["f32"])) (* libm/src/math/log10f.rs:30 *);
   ("log1p", (["f64"], ["f64"])) (* libm/src/math/log1p.rs:70 *);
   ("log1pf", (["f32"], ["f32"])) (* libm/src/math/log1pf.rs:25 *);
   ("log2", (["f64"], ["f64"])) (* libm/src/math/log2.rs:34 *);
   ("log2f", (["f32"], ["f32"])) (* libm/src/math/log2f.rs:28 *);
   ("logf", (["f32"], ["f32"])) (* libm/src/math/logf.rs:26 *);
   ("modf", (["f64"], ["f64"; "f64"])) (* libm/src/math/modf.rs:2 *);
   ("modff", (["f32"], ["f32"; "f32"])) (* libm/src/math/modff.rs:2 *);
   ("nextafter", (["f64"; "f64"], ["f64"])) (* libm/src/math/nextafter.rs:2 *);
   ("nextafterf", (["f32"; "f32"], ["f32"])) (* libm/src/math/nextafterf.rs:2 *);
   ("pow", (["f64"; "f64"], ["f64"])) (* libm/src/math/pow.rs:94 *);
   ("powf", (["f32"; "f32"], ["f32"])) (* libm/src/math/powf.rs:50 *);
   ("remainder", (["f64"; "f64"], ["f64"])) (* libm/src/math/remainder.rs:2 *);
   ("remainderf", (["f32"; "f32"], ["f32"])) (* libm/src/math/remainderf.rs:2 *);
   ("remquo", (["f64"; "f64"], ["f64"; "i32"])) (* libm/src/math/remquo.rs:2 *);
   ("remquof", (["f32"; "f32"], ["f32"; "i32"])) (* libm/src/math/remquof.rs:2 *);
   ("rint", (["f64"], ["f64"])) (* libm/src/math/rint.rs:33 *);
   ("rintf", (["f32"], ["f32"])) (* libm/src/math/rint.rs:18 *);
   ("rintf128", (["f128"], ["f128"])) (* libm/src/math/rint.rs:49 *);
   ("rintf16", (["f16"], ["f16"])) (* libm/src/math/rint.rs:6 *);
   ("round", (["f64"], ["f64"])) (* libm/src/math/round.rs:16 *);
   ("roundeven", (["f64"], ["f64"])) (* libm/src/math/roundeven.rs:21 *);
   ("roundevenf", (["f32"], ["f32"])) (* libm/src/math/roundeven.rs:14 *);
   ("roundevenf128", (["f128"], ["f128"])) (* libm/src/math/roundeven.rs:29 *);
   ("roundevenf16", (["f16"], ["f16"])) (* libm/src/math/roundeven.rs:7 *);
   ("roundf", (["f32"], ["f32"])) (* libm/src/math/round.rs:10 *);
   ("roundf128", (["f128"], ["f128"])) (* libm/src/math/round.rs:23 *);
   ("roundf16", (["f16"], ["f16"])) (* libm/src/math/round.rs:4 *);
   ("scalbn", (["f64"; "i32"], ["f64"])) (* libm/src/math/scalbn.rs:13 *);
   ("scalbnf", (["f32"; "i32"], ["f32"])) (* libm/src/math/scalbn.rs:8 *);
   ("scalbnf128", (["f128"; "i32"], ["f128"])) (* libm/src/math/scalbn.rs:19 *);
   ("scalbnf16", (["f16"; "i32"], ["f16"])) (* libm/src/math/scalbn.rs:3 *);
   ("sin", (["f64"], ["f64"])) (* libm/src/math/sin.rs:48 *);
   ("sincos", (["f64"], ["f64"; "f64"])) (* libm/src/math/sincos.rs:19 *);
   ("sincosf", (["f32"], ["f32"; "f32"])) (* libm/src/math/sincosf.rs:30 *);
   ("sinf", (["f32"], ["f32"])) (* libm/src/math/sinf.rs:31 *);
   ("sinh", (["f64"], ["f64"])) (* libm/src/math/sinh.rs:10 *);
   ("sinhf", (["f32"], ["f32"])) (* libm/src/math/sinhf.rs:5 *);
   ("sqrt", (["f64"], ["f64"])) (* libm/src/math/sqrt.rs:32 *);
   ("sqrtf", (["f32"], ["f32"])) (* libm/src/math/sqrt.rs:16 *);
   ("sqrtf128", (["f128"], ["f128"])) (* libm/src/math/sqrt.rs:49 *);
   ("sqrtf16", (["f16"], ["f16"])) (* libm/src/math/sqrt.rs:4 *);
   ("tan", (["f64"], ["f64"])) (* libm/src/math/tan.rs:47 *);
   ("tanf", (["f32"], ["f32"])) (* libm/src/math/tanf.rs:31 *);
   ("tanh", (["f64"], ["f64"])) (* libm/src/math/tanh.rs:12 *);
   ("tanhf", (["f32"], ["f32"])) (* libm/src/math/tanhf.rs:7 *);
   ("tgamma", (["f64"], ["f64"])) (* libm/src/math/tgamma.rs:135 *);
   ("tgammaf", (["f32"], ["f32"])) (* libm/src/math/tgammaf.rs:5 *);
   ("trunc", (["f64"], ["f64"])) (* libm/src/math/trunc.rs:28 *);
   ("truncf", (["f32"], ["f32"])) (* libm/src/math/trunc.rs:14 *);
   ("truncf128", (["f128"], ["f128"])) (* libm/src/math/trunc.rs:43 *);
   ("truncf16", (["f16"], ["f16"])) (* libm/src/math/trunc.rs:6 *);
   ("y0", (["f64"], ["f64"])) (* libm/src/math/j0.rs:169 *);
   ("y0f", (["f32"], ["f32"])) (* libm/src/math/j0f.rs:114 *);
   ("y1", (["f64"], ["f64"])) (* libm/src/math/j1.rs:165 *);
   ("y1f", (["f32"], ["f32"])) (* libm/src/math/j1f.rs:114 *);
   ("yn", (["i32"; "f64"], ["f64"])) (* libm/src/math/jn.rs:253 *);
   ("ynf", (["i32"; "f32"], ["f32"])) (* libm/src/math/jnf.rs:196 *)].

(** What the crate's free functions do: a name and arguments (bit patterns) to results. The theorems hold for every such
    environment, in particular for the one given by the Rust sources. *)
Definition env := string -> list Z -> option (list Z).

(** Parameters are bound to the arguments of the call, first binding first. *)
Fixpoint lookup (names : list string) (vs : list Z) (a : string) : option Z :=
  match names, vs with
  | n :: names, v :: vs => if String.eqb n a then Some v else lookup names vs a
  | _, _ => None
  end.
Fixpoint eval_args (names : list string) (vs : list Z) (args : list string) : option (list Z) :=
  match args with
  | [] => Some []
  | a :: args => match lookup names vs a, eval_args names vs args with
                 | Some v, Some l => Some (v :: l)
                 | _, _ => None
                 end
  end.
(** The expansion of a row, libm_helper.rs lines 39-44: "pub fn func(arg: type, ...) -> (ret, ...) { libm_fn(arg, ...) }" *)
Definition expand (r : row) (E : env) (vs : list Z) : option (list Z) :=
  let names := map fst (params r) in
  if Nat.eqb (List.length vs) (List.length names)
  then match eval_args names vs names with Some args => E (target r) args | None => None end
  else None.
(** A call "Libm::<T>::m(vs)": the method of that name of the [impl] block; [None] when there is none (a compile-time error). *)
Definition call (tab : list row) (m : string) (E : env) (vs : list Z) : option (list Z) :=
  match find (fun r => String.eqb (meth r) m) tab with
  | Some r => expand r E vs
  | None => None
  end.
