(** Specifications of the square root, stated on bit patterns and real values only. *)
From Coq Require Import ZArith Reals Bool.
From Flocq Require Import Core.
From Verif Require Import Spec.
Open Scope Z_scope.

(** Square root: the correctly rounded root of a non-negative operand, zeros and +inf returned as they are, a NaN
    for every other operand. *)
Definition sqrt_spec (F : fmt) (x r : Z) : Prop :=
  isbits F r /\
  (finite F x = true -> iszero F x = false -> signbit F x = false -> rounds_to F (R_sqrt.sqrt (val F x)) false r) /\
  (iszero F x = true -> r = x) /\
  (x = infinity F false -> r = x) /\
  (isnan F x = true \/ (signbit F x = true /\ iszero F x = false) -> isnan F r = true).
