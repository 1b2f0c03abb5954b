(** Accuracy of a float result. *)
From Coq Require Import ZArith Reals.
From Flocq Require Import Core.
From Verif Require Import Spec.
Open Scope Z_scope.

(** The largest value of the format not above [v], the smallest not below: an exponent range without upper end, gradual underflow below. *)
Definition below (F : fmt) (v : R) : R := round radix2 (FLT_exp (1 - bias F - mw F) (mw F + 1)) Zfloor v.
Definition above (F : fmt) (v : R) : R := round radix2 (FLT_exp (1 - bias F - mw F) (mw F + 1)) Zceil v.
(** Faithful: [r] is finite and one of the two floats next to [v] (the float [v] itself if there is one). *)
Definition faithful (F : fmt) (v : R) (r : Z) : Prop :=
  isbits F r /\ finite F r = true /\ (val F r = below F v \/ val F r = above F v).
(** The function is defined on all finite arguments and faithful there. *)
Definition faithful_fn (F : fmt) (f : Z -> option Z) (g : R -> R) : Prop :=
  forall x, isbits F x -> finite F x = true -> exists r, f x = Some r /\ faithful F (g (val F x)) r.
