(** Specification: the hypotenuse is at least as long as either side. *)
From Coq Require Import ZArith Reals.
From Flocq Require Import Core.
From Verif Require Import Base Spec.
Open Scope Z_scope.

Definition hypot_dominates (F : fmt) (f : Z -> Z -> option Z) : Prop :=
  forall x y, isbits F x -> isbits F y -> finite F x = true -> finite F y = true ->
  exists r, f x y = Some r /\ (r = infinity F false \/ finite F r = true /\ (Rabs (val F x) <= val F r)%R /\ (Rabs (val F y) <= val F r)%R).
