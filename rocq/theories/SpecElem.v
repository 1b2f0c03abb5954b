(** Specifications of the elementary functions, stated on bit patterns only. A function is a map from bit
    patterns to [option Z], [None] standing for a panic. *)
From Coq Require Import ZArith Bool.
From Verif Require Import Spec.
Open Scope Z_scope.

(** The pattern with the opposite sign. *)
Definition negf (F : fmt) (x : Z) : Z := with_sign F (negb (signbit F x)) x.
(** The value one. *)
Definition onef (F : fmt) (s : bool) : Z := mkbits F s (bias F) 0.

(** hypot: total; independent of the order and of the signs of its arguments; infinite as soon as one argument is,
    even beside a NaN; otherwise NaN as soon as one argument is; the magnitude of x when y is zero. *)
Definition hypot_spec (F : fmt) (f : Z -> Z -> option Z) : Prop :=
  forall x y, isbits F x -> isbits F y -> exists r, f x y = Some r /\ isbits F r /\
    f y x = Some r /\
    (forall s t, f (with_sign F s x) (with_sign F t y) = Some r) /\
    (isinf F x = true \/ isinf F y = true -> r = infinity F false) /\
    (isinf F x = false -> isinf F y = false -> isnan F x = true \/ isnan F y = true -> isnan F r = true) /\
    (isnan F x = false -> iszero F y = true -> r = with_sign F false x).
