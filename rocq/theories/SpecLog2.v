(** Accuracy with an explicit multiple of the machine epsilon. *)
From Coq Require Import ZArith Reals.
From Flocq Require Import Core.
From Verif Require Import Spec.
Open Scope R_scope.

(** The pattern [r] is finite and its relative error against the real [v] is at most [c] times the
    machine epsilon 2^-mw of the format. *)
Definition rel_err (F : fmt) (c v : R) (r : Z) : Prop :=
  isbits F r /\ finite F r = true /\ Rabs (val F r - v) <= c * bpow radix2 (- mw F) * Rabs v.

(** [f] computes the real function [g] on the positive finite numbers with that accuracy. *)
Definition log_near (F : fmt) (c : R) (f : Z -> option Z) (g : R -> R) : Prop :=
  forall x, isbits F x -> finite F x = true -> 0 < val F x -> exists r, f x = Some r /\ rel_err F c (g (val F x)) r.
