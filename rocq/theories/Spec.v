(** Specification vocabulary, independent of the models of the Rust code.

    A floating-point format is given by the width of its significand field [mw] and of its
    exponent field [ew].  A datum is an integer bit pattern.  This file says what such a pattern
    means (sign, value as a real number, classification) and what it means for a result to be
    correctly rounded.  Nothing here refers to the code under study. *)
From Coq Require Import ZArith Reals Lia Bool.
From Flocq Require Import Core.
Open Scope Z_scope.

Record fmt := Fmt {
  mw : Z;   (** significand field width *)
  ew : Z;   (** exponent field width *)
  fmt_ok : (2 <=? mw) && (3 <=? ew) && (ew <=? 15) && (mw + ew + 1 <=? 128)
           && (mw + 2 <? 2 ^ (ew - 1)) = true }.

Definition f16 : fmt := Fmt 10 5 eq_refl.
Definition f32 : fmt := Fmt 23 8 eq_refl.
Definition f64 : fmt := Fmt 52 11 eq_refl.
Definition f128 : fmt := Fmt 112 15 eq_refl.

Definition width (F : fmt) : Z := mw F + ew F + 1.
Definition bias (F : fmt) : Z := 2 ^ (ew F - 1) - 1.

(** A bit pattern of format [F]. *)
Definition isbits (F : fmt) (x : Z) : Prop := 0 <= x < 2 ^ width F.

(** Fields. *)
Definition signbit (F : fmt) (x : Z) : bool := 2 ^ (mw F + ew F) <=? x.
Definition expf (F : fmt) (x : Z) : Z := (x / 2 ^ mw F) mod 2 ^ ew F.
Definition sigf (F : fmt) (x : Z) : Z := x mod 2 ^ mw F.

(** Classification. *)
Definition finite (F : fmt) (x : Z) : bool := expf F x <? 2 ^ ew F - 1.
Definition isinf (F : fmt) (x : Z) : bool := (expf F x =? 2 ^ ew F - 1) && (sigf F x =? 0).
Definition isnan (F : fmt) (x : Z) : bool := (expf F x =? 2 ^ ew F - 1) && negb (sigf F x =? 0).
Definition iszero (F : fmt) (x : Z) : bool := (expf F x =? 0) && (sigf F x =? 0).

(** The pattern made of three fields. *)
Definition mkbits (F : fmt) (s : bool) (e m : Z) : Z :=
  (if s then 2 ^ (mw F + ew F) else 0) + e * 2 ^ mw F + m.

Definition infinity (F : fmt) (s : bool) : Z := mkbits F s (2 ^ ew F - 1) 0.
Definition zero (F : fmt) (s : bool) : Z := mkbits F s 0 0.

(** Value of a finite pattern. *)
Definition sval (s : bool) (r : R) : R := if s then Ropp r else r.
Definition mag_of (F : fmt) (e m : Z) : R :=
  if e =? 0 then (IZR m * bpow radix2 (1 - bias F - mw F))%R
  else (IZR (2 ^ mw F + m) * bpow radix2 (e - bias F - mw F))%R.
Definition val (F : fmt) (x : Z) : R := sval (signbit F x) (mag_of F (expf F x) (sigf F x)).

(** Correct rounding to nearest, ties to even, with gradual underflow and unbounded range... *)
Definition rnd (F : fmt) (r : R) : R :=
  round radix2 (FLT_exp (1 - bias F - mw F) (mw F + 1)) ZnearestE r.

(** ... and with the overflow threshold: [y] is the pattern obtained by rounding the real [r];
    [sz] is the sign a zero result of an exact zero must carry. *)
Definition rounds_to (F : fmt) (r : R) (sz : bool) (y : Z) : Prop :=
  isbits F y /\
  if Rlt_bool (Rabs (rnd F r)) (bpow radix2 (bias F + 1)) then
    finite F y = true /\ val F y = rnd F r /\
    signbit F y = match Rcompare r 0 with Lt => true | Gt => false | Eq => sz end
  else y = infinity F (Rlt_bool r 0).

(** [x] and [y] are the same number: same value, or both the same infinity. *)
Definition lt_bits (F : fmt) (x y : Z) : Prop :=
  isnan F x = false /\ isnan F y = false /\
  if finite F x then
    (if finite F y then (val F x < val F y)%R else signbit F y = false)
  else signbit F x = true /\ (finite F y = true \/ signbit F y = false).

Definition eq_bits (F : fmt) (x y : Z) : Prop :=
  isnan F x = false /\ isnan F y = false /\
  if finite F x then finite F y = true /\ val F x = val F y
  else finite F y = false /\ signbit F x = signbit F y.

(** Same pattern, except that the sign bit is that of [s]. *)
Definition with_sign (F : fmt) (s : bool) (x : Z) : Z := mkbits F s (expf F x) (sigf F x).
