(** Function specifications, in terms of [Spec] only. *)
From Coq Require Import ZArith Reals Bool.
From Flocq Require Import Core.
From Verif Require Import Spec.
Open Scope Z_scope.

(** [r] is [x] rounded to an integer by [Q] (one of Flocq's [Zfloor], [Zceil], [Ztrunc], ...),
    with the sign bit of [x] kept; infinities and NaNs are returned bit for bit. *)
Definition rounded_by (F : fmt) (Q : R -> Z) (x r : Z) : Prop :=
  isbits F r /\ (finite F x = true -> finite F r = true /\ val F r = IZR (Q (val F x)) /\
                                      signbit F r = signbit F x)
  /\ (finite F x = false -> r = x).

(** Nearest integer, halves away from zero (halves to even is Flocq's [ZnearestE]). *)
Definition ZnearestA : R -> Z := Znearest (Z.leb 0).

(** The order of the extended reals refined so that -0 is below +0. *)
Definition below (F : fmt) (x y : Z) : Prop :=
  lt_bits F x y \/ (iszero F x = true /\ iszero F y = true /\ signbit F x = true /\ signbit F y = false).

(** fmin ([lo = true]) and fmax ([lo = false]). *)
Definition minmax_num (F : fmt) (lo : bool) (x y r : Z) : Prop :=
  isbits F r /\
  (isnan F x = true -> isnan F y = true -> isnan F r = true) /\
  (isnan F x = true -> isnan F y = false -> r = y) /\
  (isnan F x = false -> isnan F y = true -> r = x) /\
  (lt_bits F x y -> r = if lo then x else y) /\
  (lt_bits F y x -> r = if lo then y else x) /\
  (eq_bits F x y -> r = x \/ r = y).

(** fminimum and fmaximum. *)
Definition minmax_prop (F : fmt) (lo : bool) (x y r : Z) : Prop :=
  isbits F r /\
  (isnan F x = true \/ isnan F y = true -> isnan F r = true) /\
  (below F x y -> r = if lo then x else y) /\
  (below F y x -> r = if lo then y else x) /\
  (isnan F x = false -> x = y -> r = x).

(** fminimum_num and fmaximum_num. *)
Definition minmax_ord (F : fmt) (lo : bool) (x y r : Z) : Prop :=
  isbits F r /\
  (isnan F x = true -> isnan F y = true -> isnan F r = true) /\
  (isnan F x = true -> isnan F y = false -> r = y) /\
  (isnan F x = false -> isnan F y = true -> r = x) /\
  (below F x y -> r = if lo then x else y) /\
  (below F y x -> r = if lo then y else x) /\
  (isnan F x = false -> x = y -> r = x).

(** frexp: fraction in [1/2, 1) and exponent. *)
Definition frexp_spec (F : fmt) (x m e : Z) : Prop :=
  isbits F m /\ signbit F m = signbit F x /\
  (finite F x = true -> iszero F x = false ->
     finite F m = true /\ (1 / 2 <= Rabs (val F m) < 1)%R /\
     val F x = (val F m * bpow radix2 e)%R) /\
  (iszero F x = true -> m = x /\ e = 0) /\
  (finite F x = false -> m = x).

(** modf: fraction [f] and integral part [i]. *)
Definition modf_spec (F : fmt) (x f i : Z) : Prop :=
  isbits F f /\ isbits F i /\ rounded_by F Ztrunc x i /\
  (finite F x = true ->
     finite F f = true /\ val F x = (val F f + val F i)%R /\ (Rabs (val F f) < 1)%R /\
     signbit F f = signbit F x) /\
  (isinf F x = true -> f = zero F (signbit F x)) /\
  (isnan F x = true -> f = x).

(** ilogb: [fp0], [fpnan], [fpinf] are the codes for zero, NaN and infinity. *)
Definition ilogb_spec (F : fmt) (fp0 fpnan fpinf : Z) (x e : Z) : Prop :=
  (finite F x = true -> iszero F x = false ->
     (bpow radix2 e <= Rabs (val F x) < bpow radix2 (e + 1))%R) /\
  (iszero F x = true -> e = fp0) /\
  (isnan F x = true -> e = fpnan) /\
  (isinf F x = true -> e = fpinf).

(** nextafter: the datum next to [x] in the direction of [y]. *)
Definition nextafter_spec (F : fmt) (x y r : Z) : Prop :=
  isbits F r /\
  (isnan F x = true \/ isnan F y = true -> isnan F r = true) /\
  (eq_bits F x y -> r = y) /\
  (lt_bits F x y -> lt_bits F x r /\ forall z, ~ (lt_bits F x z /\ lt_bits F z r)) /\
  (lt_bits F y x -> lt_bits F r x /\ forall z, ~ (lt_bits F r z /\ lt_bits F z x)) /\
  (lt_bits F x y \/ lt_bits F y x -> iszero F r = true -> signbit F r = signbit F x) /\
  (lt_bits F x y \/ lt_bits F y x -> iszero F x = true -> r = mkbits F (signbit F y) 0 1).

(** Remainders: [Q] rounds the quotient to an integer ([Ztrunc] for fmod, [ZnearestE] for the IEEE
    remainder). *)
Definition rem_spec (F : fmt) (Q : R -> Z) (x y r : Z) : Prop :=
  isbits F r /\
  (finite F x = true -> finite F y = true -> iszero F y = false ->
     finite F r = true /\ val F r = (val F x - IZR (Q (val F x / val F y)%R) * val F y)%R /\
     (iszero F r = true -> signbit F r = signbit F x)) /\
  (finite F x = true -> isinf F y = true -> r = x) /\
  (isnan F x = true \/ isnan F y = true \/ isinf F x = true \/ iszero F y = true -> isnan F r = true).

(** remquo: the low 31 bits of the rounded quotient's magnitude, with the sign of the quotient. *)
Definition quo_spec (F : fmt) (x y q : Z) : Prop :=
  finite F x = true -> finite F y = true -> iszero F y = false ->
  Z.abs q = Z.abs (ZnearestE (val F x / val F y)%R) mod 2 ^ 31 /\
  (q <> 0 -> (q < 0 <-> signbit F x <> signbit F y)).
