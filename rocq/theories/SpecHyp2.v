(** Accuracy of the hyperbolic functions, stated over the real numbers. *)
From Coq Require Import ZArith Reals.
From Flocq Require Import Core.
From Verif Require Import Spec SpecLog2.
Open Scope R_scope.

(** [f] computes [g] on the finite arguments in [D]: with relative error at most [c] machine epsilons when |g x| is below 2^emax, and the infinity with the sign [s x] from there on. *)
Definition over_like (F : fmt) (c : R) (D : Z -> Prop) (g : R -> R) (s : Z -> bool) (f : Z -> option Z) : Prop :=
  forall x, isbits F x -> finite F x = true -> D x ->
    (Rabs (g (val F x)) < bpow radix2 (bias F + 1) -> exists r, f x = Some r /\ rel_err F c (g (val F x)) r) /\
    (bpow radix2 (bias F + 1) <= Rabs (g (val F x)) -> f x = Some (infinity F (s x))).
Definition sinh_on (F : fmt) (c : R) (D : Z -> Prop) (f : Z -> option Z) : Prop := over_like F c D sinh (signbit F) f.
Definition sinh_like (F : fmt) (c : R) (f : Z -> option Z) : Prop := sinh_on F c (fun _ => True) f.
Definition cosh_like (F : fmt) (c : R) (f : Z -> option Z) : Prop := over_like F c (fun _ => True) cosh (fun _ => false) f.
Definition tanh_like (F : fmt) (c : R) (f : Z -> option Z) : Prop :=
  forall x, isbits F x -> finite F x = true -> exists r, f x = Some r /\ rel_err F c (tanh (val F x)) r.
