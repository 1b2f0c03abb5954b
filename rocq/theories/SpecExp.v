(** Accuracy of functions with positive results that may overflow or underflow. *)
From Coq Require Import ZArith Reals.
From Flocq Require Import Core.
From Verif Require Import Spec.
Open Scope Z_scope.

(** [r] is finite and differs from [v] by at most the machine epsilon of the format relative to [v], plus half the smallest positive value. *)
Definition within_eps (F : fmt) (v : R) (r : Z) : Prop :=
  isbits F r /\ finite F r = true /\ (Rabs (val F r - v) <= bpow radix2 (- mw F) * Rabs v + bpow radix2 (1 - bias F - mw F - 1))%R.
(** On every finite argument the function returns: within epsilon when the exact result is below 2^emax, plus infinity exactly from there on. *)
Definition exp_like (F : fmt) (f : Z -> option Z) (g : R -> R) : Prop :=
  forall x, isbits F x -> finite F x = true ->
    ((g (val F x) < bpow radix2 (bias F + 1))%R -> exists r, f x = Some r /\ within_eps F (g (val F x)) r) /\
    ((bpow radix2 (bias F + 1) <= g (val F x))%R -> f x = Some (infinity F false)).
