(** Accuracy of the inverse hyperbolic functions, stated over the real numbers. *)
From Coq Require Import ZArith Reals.
From Flocq Require Import Core.
From Verif Require Import Spec SpecLog2.
Open Scope R_scope.

Definition Rasinh (x : R) : R := ln (x + sqrt (x * x + 1)).
Definition Racosh (x : R) : R := ln (x + sqrt (x * x - 1)).
Definition Ratanh (x : R) : R := ln ((1 + x) / (1 - x)) / 2.

(** [f] computes the real function [g] with relative error at most [c] machine epsilons: on all finite numbers, from 1 on, strictly between -1 and 1. *)
Definition asinh_like (F : fmt) (c : R) (f : Z -> option Z) : Prop :=
  forall x, isbits F x -> finite F x = true -> exists r, f x = Some r /\ rel_err F c (Rasinh (val F x)) r.
Definition acosh_like (F : fmt) (c : R) (f : Z -> option Z) : Prop :=
  forall x, isbits F x -> finite F x = true -> 1 <= val F x -> exists r, f x = Some r /\ rel_err F c (Racosh (val F x)) r.
Definition atanh_like (F : fmt) (c : R) (f : Z -> option Z) : Prop :=
  forall x, isbits F x -> finite F x = true -> -1 < val F x < 1 -> exists r, f x = Some r /\ rel_err F c (Ratanh (val F x)) r.
