(** Specification of odd and even functions on bit patterns (C30). *)
From Coq Require Import ZArith Bool.
From Verif Require Import Base Spec.
Open Scope Z_scope.

(** The pattern with the opposite sign *)
Definition opposite (F : fmt) (x : Z) : Z := with_sign F (negb (signbit F x)) x.
(** [f] returns for every non-NaN argument, and at the opposite argument it returns the opposite pattern; NaN results have no sign. *)
Definition odd_fn (F : fmt) (f : Z -> option Z) : Prop :=
  forall x, isbits F x -> isnan F x = false ->
  exists r r', f x = Some r /\ f (opposite F x) = Some r' /\ (isnan F r = true /\ isnan F r' = true \/ isnan F r = false /\ r' = opposite F r).
Definition even_fn (F : fmt) (f : Z -> option Z) : Prop :=
  forall x, isbits F x -> isnan F x = false ->
  exists r r', f x = Some r /\ f (opposite F x) = Some r' /\ (isnan F r = true /\ isnan F r' = true \/ r' = r).
