(** Accuracy of expm1, stated over the real numbers. *)
From Coq Require Import ZArith Reals.
From Flocq Require Import Core.
From Verif Require Import Spec SpecLog2.
Open Scope R_scope.

(** [f] computes exp x - 1 on every finite argument x: with relative error at most [c] machine epsilons when exp x is below 2^emax, and plus infinity from there on. *)
Definition expm1_like (F : fmt) (c : R) (f : Z -> option Z) : Prop :=
  forall x, isbits F x -> finite F x = true ->
    (exp (val F x) < bpow radix2 (bias F + 1) -> exists r, f x = Some r /\ rel_err F c (exp (val F x) - 1) r) /\
    (bpow radix2 (bias F + 1) <= exp (val F x) -> f x = Some (infinity F false)).
(** The same accuracy claim up to the bound [b] on the argument only. *)
Definition expm1_upto (F : fmt) (c b : R) (f : Z -> option Z) : Prop :=
  forall x, isbits F x -> finite F x = true -> val F x <= b -> exists r, f x = Some r /\ rel_err F c (exp (val F x) - 1) r.
