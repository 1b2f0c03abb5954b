(** Accuracy in units in the last place, for results that are close but not always one of the two neighbours. *)
From Coq Require Import ZArith Reals.
From Flocq Require Import Core.
From Verif Require Import Base Spec.
Open Scope R_scope.

(** The distance between consecutive floats of format [F] around the real [v]. *)
Definition ulpF (F : fmt) (v : R) : R := ulp radix2 (FLT_exp (1 - bias F - mw F) (mw F + 1)) v.
(** [r] is a finite float at most [k] units in the last place away from [v]. *)
Definition within_ulps (F : fmt) (k v : R) (r : Z) : Prop := isbits F r /\ finite F r = true /\ Rabs (val F r - v) <= k * ulpF F v.
(** The function is defined on all finite arguments and that close there. *)
Definition within_ulps_fn (F : fmt) (k : R) (f : Z -> option Z) (g : R -> R) : Prop :=
  forall x, isbits F x -> finite F x = true -> exists r, f x = Some r /\ within_ulps F k (g (val F x)) r.
