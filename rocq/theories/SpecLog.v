(** Accuracy of the logarithms, stated over the real numbers. *)
From Coq Require Import ZArith Reals.
From Flocq Require Import Core.
From Verif Require Import Spec.
Open Scope R_scope.

(** The pattern [r] is finite and its relative error against the real [v] is at most the
    machine epsilon 2^-mw of the format. In particular [r] is zero exactly when [v] is. *)
Definition rel_eps (F : fmt) (v : R) (r : Z) : Prop :=
  isbits F r /\ finite F r = true /\ Rabs (val F r - v) <= bpow radix2 (- mw F) * Rabs v.

(** [f] computes the real function [g] on the positive finite numbers with that accuracy. *)
Definition log_like (F : fmt) (f : Z -> option Z) (g : R -> R) : Prop :=
  forall x, isbits F x -> finite F x = true -> 0 < val F x -> exists r, f x = Some r /\ rel_eps F (g (val F x)) r.
