(** Specification of the accuracy of hypot. *)
From Coq Require Import ZArith Reals.
From Flocq Require Import Core.
From Verif Require Import Base Spec.
Open Scope Z_scope.

(** On all finite arguments the function returns a number within [c] machine epsilons (plus half the
    smallest positive value) of sqrt(x^2 + y^2); plus infinity is allowed only when the exact value is
    at least 2^emax reduced by that same relative error. *)
Definition hypot_acc (F : fmt) (c : R) (f : Z -> Z -> option Z) : Prop :=
  forall x y, isbits F x -> isbits F y -> finite F x = true -> finite F y = true ->
  let h := sqrt (val F x * val F x + val F y * val F y) in
  exists r, f x y = Some r /\ isbits F r /\
   ((finite F r = true /\ (Rabs (val F r - h) <= c * bpow radix2 (- mw F) * h + bpow radix2 (1 - bias F - mw F - 1))%R) \/
    (r = infinity F false /\ ((1 - c * bpow radix2 (- mw F)) * bpow radix2 (bias F + 1) <= h)%R)).
