(** Specifications of further library functions, stated on bit patterns and real values only. *)
From Coq Require Import ZArith Reals Bool.
From Flocq Require Import Core.
From Verif Require Import Spec.
Open Scope Z_scope.

(** scalbn/ldexp: [x * 2^n] rounded once. *)
Definition scalbn_spec (F : fmt) (x n r : Z) : Prop :=
  isbits F r /\
  (finite F x = true -> rounds_to F (val F x * bpow radix2 n) (signbit F x) r) /\
  (isinf F x = true -> r = x) /\
  (isnan F x = true -> isnan F r = true).

(** Fused multiply-add: one rounding of the exact [x y + z]. *)
Definition prodinf (F : fmt) (x y : Z) : Prop :=
  (isinf F x = true /\ isnan F y = false /\ iszero F y = false) \/
  (isinf F y = true /\ isnan F x = false /\ iszero F x = false).
Definition fma_finite (F : fmt) (x y z r : Z) : Prop :=
  finite F x = true -> finite F y = true -> finite F z = true ->
  let s := xorb (signbit F x) (signbit F y) in
  rounds_to F (val F x * val F y + val F z) (if Bool.eqb s (signbit F z) then s else false) r.
Definition fma_special (F : fmt) (x y z r : Z) : Prop :=
  isbits F r /\
  (isnan F x = true \/ isnan F y = true \/ isnan F z = true -> isnan F r = true) /\
  (isinf F x = true -> iszero F y = true -> isnan F r = true) /\
  (iszero F x = true -> isinf F y = true -> isnan F r = true) /\
  (prodinf F x y -> finite F z = true -> r = infinity F (xorb (signbit F x) (signbit F y))) /\
  (prodinf F x y -> isinf F z = true -> signbit F z = xorb (signbit F x) (signbit F y) -> r = z) /\
  (prodinf F x y -> isinf F z = true -> signbit F z <> xorb (signbit F x) (signbit F y) -> isnan F r = true) /\
  (finite F x = true -> finite F y = true -> isinf F z = true -> r = z).
Definition fma_spec (F : fmt) (x y z r : Z) : Prop := fma_special F x y z r /\ fma_finite F x y z r.

(** The one situation in which the software fma of fma.rs misses a sticky bit.  Write the operands with
    significands of [mw + 2] bits; [z] lies [width + D] binary places above the product, the product has nonzero
    bits among its lowest [D] ones and only zeros in the next [D]. *)
Definition normal_form (F : fmt) (x m e : Z) : Prop :=
  2 ^ (mw F + 1) <= m < 2 ^ (mw F + 2) /\ val F x = sval (signbit F x) (IZR m * bpow radix2 e).
Definition fma_lost_bits (F : fmt) (x y z : Z) : Prop :=
  finite F x = true /\ finite F y = true /\ finite F z = true /\
  exists mx ex my ey mz ez, normal_form F x mx ex /\ normal_form F y my ey /\ normal_form F z mz ez /\
    let D := ez - (ex + ey) - width F in
    0 < D < width F /\ (mx * my) mod 2 ^ D <> 0 /\ (mx * my / 2 ^ D) mod 2 ^ D = 0.
(** The result is the correct rounding of a value within [err] of [x * y + z]. *)
Definition fma_near (F : fmt) (err : R) (x y z r : Z) : Prop :=
  finite F x = true -> finite F y = true -> finite F z = true ->
  let s := xorb (signbit F x) (signbit F y) in
  exists V, (Rabs (V - (val F x * val F y + val F z)) <= err)%R /\
    rounds_to F V (if Bool.eqb s (signbit F z) then s else false) r.
(** [x * y + z] is not below the normal range of f32, or fits in an f64. *)
Definition fmaf_region (x y z : Z) : Prop :=
  let v := (val f32 x * val f32 y + val f32 z)%R in (bpow radix2 (-126) <= Rabs v)%R \/ rnd f64 v = v.
