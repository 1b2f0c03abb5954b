(** C16-C19 and C28: splitting numbers, exponents, neighbours, the Float trait. *)
From Coq Require Import ZArith Reals Bool.
From Flocq Require Import Core.
From Verif Require Import Base Spec SpecFun Format Ieee M_basic M_bits P_bits P_trait P_format P_round2.
Open Scope Z_scope.

Theorem C16_frexp : forall x, isbits f64 x -> exists m e, frexp x = Some (m, e) /\ frexp_spec f64 x m e.
Proof. exact frexp_ok. Qed.
Print Assumptions C16_frexp.
Theorem C16_frexpf : forall x, isbits f32 x -> exists m e, frexpf x = Some (m, e) /\ frexp_spec f32 x m e.
Proof. exact frexpf_ok. Qed.
Print Assumptions C16_frexpf.
(** frexp(10.0) = (0.625, 4); the smallest subnormal is 0.5 * 2^-1073. *)
Example C16_ex1 : frexp 0x4024000000000000 = Some (0x3fe4000000000000, 4). Proof. vm_compute. reflexivity. Qed.
Example C16_ex2 : frexp 1 = Some (0x3fe0000000000000, -1073). Proof. vm_compute. reflexivity. Qed.

Theorem C17_modf : forall x, isbits f64 x -> exists f i, modf x = Some (f, i) /\ modf_spec f64 x f i.
Proof. exact modf_ok. Qed.
Print Assumptions C17_modf.
Theorem C17_modff : forall x, isbits f32 x -> exists f i, modff x = Some (f, i) /\ modf_spec f32 x f i.
Proof. exact modff_ok. Qed.
Print Assumptions C17_modff.
(** modf(-2.5) = (-0.5, -2.0) *)
Example C17_ex : modf 0xc004000000000000 = Some (0xbfe0000000000000, 0xc000000000000000).
Proof. vm_compute. reflexivity. Qed.

Theorem C18_ilogb : forall x, isbits f64 x ->
  exists e, ilogb x = Some e /\ ilogb_spec f64 (- 2 ^ 31) (- 2 ^ 31) (2 ^ 31 - 1) x e.
Proof. exact ilogb_ok. Qed.
Print Assumptions C18_ilogb.
Theorem C18_ilogbf : forall x, isbits f32 x ->
  exists e, ilogbf x = Some e /\ ilogb_spec f32 (- 2 ^ 31) (- 2 ^ 31) (2 ^ 31 - 1) x e.
Proof. exact ilogbf_ok. Qed.
Print Assumptions C18_ilogbf.
(** the subnormal 5 * 2^-1074 *)
Example C18_ex : ilogb 5 = Some (-1072). Proof. vm_compute. reflexivity. Qed.

Theorem C19_nextafter : forall x y, isbits f64 x -> isbits f64 y ->
  exists r, nextafter x y = Some r /\ nextafter_spec f64 x y r.
Proof. exact nextafter_ok. Qed.
Print Assumptions C19_nextafter.
Theorem C19_nextafterf : forall x y, isbits f32 x -> isbits f32 y ->
  exists r, nextafterf x y = Some r /\ nextafter_spec f32 x y r.
Proof. exact nextafterf_ok. Qed.
Print Assumptions C19_nextafterf.
(** from 1.0 towards 0, and from the largest finite number to infinity *)
Example C19_ex1 : nextafter 0x3ff0000000000000 0 = Some 0x3fefffffffffffff. Proof. vm_compute. reflexivity. Qed.
Example C19_ex2 : nextafter 0x7fefffffffffffff 0x7ff0000000000000 = Some 0x7ff0000000000000.
Proof. vm_compute. reflexivity. Qed.

(** C28.  Building from parts (only the low bits of the arguments are used), and reading back. *)
Theorem C28_from_parts : forall F s e m, 0 <= e < 2 ^ 32 -> 0 <= m < 2 ^ width F ->
  from_parts F s e m = Some (mkbits F s (e mod 2 ^ ew F) (m mod 2 ^ mw F)).
Proof. exact from_parts_any. Qed.
Print Assumptions C28_from_parts.
Theorem C28_mkbits_fields : forall F s e m, 0 <= e < 2 ^ ew F -> 0 <= m < 2 ^ mw F ->
  signbit F (mkbits F s e m) = s /\ expf F (mkbits F s e m) = e /\ sigf F (mkbits F s e m) = m.
Proof. exact mkbits_fields. Qed.
Print Assumptions C28_mkbits_fields.
Theorem C28_ex : forall F x, isbits F x -> ex F x = Some (expf F x).
Proof. exact ex_ok. Qed.
Print Assumptions C28_ex.
Theorem C28_exp_unbiased : forall F x, isbits F x -> exp_unbiased F x = Some (expf F x - bias F).
Proof. exact exp_unbiased_ok. Qed.
Print Assumptions C28_exp_unbiased.
Theorem C28_frac : forall F x, frac F x = sigf F x.
Proof. exact frac_eq. Qed.
Print Assumptions C28_frac.
Theorem C28_from_parts_back : forall F x, isbits F x ->
  exists e, ex F x = Some e /\ from_parts F (is_sign_negative F x) e (frac F x) = Some x.
Proof. exact from_parts_back. Qed.
Print Assumptions C28_from_parts_back.
Example C28_parts_ex : from_parts f32 true 130 0x200000 = Some 0xc1200000. (* -10.0 *)
Proof. vm_compute. reflexivity. Qed.

Theorem C28_is_nan : forall F x, isbits F x -> is_nan F x = isnan F x.
Proof. exact is_nan_eq. Qed.
Print Assumptions C28_is_nan.
Theorem C28_is_infinite : forall F x, isbits F x -> is_infinite F x = isinf F x.
Proof. exact is_infinite_eq. Qed.
Print Assumptions C28_is_infinite.
Theorem C28_is_sign_negative : forall F x, isbits F x -> is_sign_negative F x = signbit F x.
Proof. exact is_sign_negative_eq. Qed.
Print Assumptions C28_is_sign_negative.
Theorem C28_eq_repr : forall F x y, isbits F x -> isbits F y ->
  (eq_repr F x y = true <-> x = y \/ (isnan F x = true /\ isnan F y = true)).
Proof. exact eq_repr_ok. Qed.
Print Assumptions C28_eq_repr.
(** [is_subnormal] is documented as "self is subnormal" but also holds of the zeros. *)
Theorem C40_is_subnormal_partial : forall F x, isbits F x -> is_subnormal F x = (expf F x =? 0).
Proof. exact is_subnormal_eq. Qed.
Print Assumptions C40_is_subnormal_partial.
Theorem C40_is_subnormal_refuted :
  exists x, isbits f64 x /\ iszero f64 x = true /\ is_subnormal f64 x = true.
Proof. exists 0. unfold isbits. repeat split; vm_compute; congruence. Qed.
Print Assumptions C40_is_subnormal_refuted.

Theorem C28_constants : forall F,
  EXP_BIAS F = bias F /\ EXP_MAX F = bias F /\ EXP_MIN F = 1 - bias F /\
  EXP_SAT F = 2 ^ ew F - 1 /\ SIG_MASK F = 2 ^ mw F - 1 /\ IMPLICIT_BIT F = 2 ^ mw F /\
  INFINITY F = infinity F false /\ NEG_INFINITY F = infinity F true /\
  NEG_ZERO F = zero F true /\ ZERO = zero F false.
Proof.
  exact (fun F => conj (EXP_BIAS_eq F) (conj (EXP_MAX_eq F) (conj (EXP_MIN_eq F) (conj (EXP_SAT_eq F)
    (conj (SIG_MASK_eq F) (conj (IMPLICIT_BIT_eq F) (conj (INFINITY_eq F) (conj (NEG_INFINITY_eq F)
    (conj (NEG_ZERO_eq F) (ZERO_eq F)))))))))).
Qed.
Print Assumptions C28_constants.
Theorem C28_one : forall F, isbits F (ONE F) /\ finite F (ONE F) = true /\ val F (ONE F) = 1%R.
Proof. exact ONE_spec. Qed.
Print Assumptions C28_one.
Theorem C28_nan : forall F, isbits F (NAN F) /\ isnan F (NAN F) = true.
Proof. exact NAN_isnan. Qed.
Print Assumptions C28_nan.
Theorem C28_max_min : forall F x, finite F x = true ->
  finite F (MAX_FLOAT F) = true /\ finite F (MIN_FLOAT F) = true /\
  (val F (MIN_FLOAT F) <= val F x <= val F (MAX_FLOAT F))%R.
Proof. exact MAX_largest. Qed.
Print Assumptions C28_max_min.
Theorem C28_min_positive_normal : forall F,
  val F (MIN_POSITIVE_NORMAL F) = bpow radix2 (1 - bias F) /\
  (forall x, signbit F x = false -> expf F x <> 0 -> finite F x = true ->
     (val F (MIN_POSITIVE_NORMAL F) <= val F x)%R).
Proof. exact MPN_least. Qed.
Print Assumptions C28_min_positive_normal.
Theorem C28_epsilon : forall F, isbits F (EPSILON F) /\ finite F (EPSILON F) = true /\
  val F (EPSILON F) = bpow radix2 (- mw F) /\ signbit F (EPSILON F) = false.
Proof. exact EPSILON_fields. Qed.
Print Assumptions C28_epsilon.
(** the gap above 1 is EPSILON *)
Theorem C28_epsilon_gap : forall F z, isnan F z = false -> (1 < val F z)%R -> finite F z = true ->
  (1 + val F (EPSILON F) <= val F z)%R.
Proof. exact EPSILON_gap. Qed.
Print Assumptions C28_epsilon_gap.
Example C28_consts_ex : MAX_FLOAT f64 = 0x7fefffffffffffff /\ MIN_POSITIVE_NORMAL f64 = 0x0010000000000000
  /\ EPSILON f64 = 0x3cb0000000000000 /\ NAN f64 = 0x7ff8000000000000 /\ EXP_MIN_SUBNORM f64 = -1074.
Proof. repeat split. Qed.

Theorem C28_normalize : forall F m, 0 < m < 2 ^ mw F ->
  exists e s, normalize F m = Some (e, s) /\ 2 ^ mw F <= s < 2 ^ (mw F + 1) /\
    (IZR s * bpow radix2 (e - bias F - mw F))%R = mag_of F 0 m.
Proof. exact normalize_ok. Qed.
Print Assumptions C28_normalize.
Example C28_normalize_ex : normalize f32 5 = Some (-20, 0xa00000). Proof. vm_compute. reflexivity. Qed.

Theorem C28_signum : forall F x, isbits F x -> isbits F (signum F x) /\
  (isnan F x = true -> signum F x = x) /\
  (isnan F x = false -> finite F (signum F x) = true /\ val F (signum F x) = sval (signbit F x) 1).
Proof. exact signum_ok. Qed.
Print Assumptions C28_signum.
