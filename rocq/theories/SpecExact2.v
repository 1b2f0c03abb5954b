(** Powers of two: exp2 at integers and log2 at powers of two. *)
From Coq Require Import ZArith Reals.
From Flocq Require Import Core.
From Verif Require Import Spec.
Open Scope Z_scope.

(** At every integer [n] that the format can hold, [f] returns the correctly rounded 2^n: exact when 2^n is
    representable, otherwise zero or infinity. *)
Definition exp2_exact (F : fmt) (f : Z -> option Z) : Prop :=
  forall x n, isbits F x -> finite F x = true -> val F x = IZR n ->
  exists r, f x = Some r /\ rounds_to F (bpow radix2 n) false r.

(** At every representable power of two, subnormal ones included, [f] returns exactly the exponent. *)
Definition log2_exact (F : fmt) (f : Z -> option Z) : Prop :=
  forall x n, isbits F x -> finite F x = true -> val F x = bpow radix2 n ->
  exists r, f x = Some r /\ isbits F r /\ finite F r = true /\ val F r = IZR n.

(** [g] undoes [f] on the integers between [lo] and [hi]. *)
Definition undoes (F : fmt) (f g : Z -> option Z) (lo hi : Z) : Prop :=
  forall x n, isbits F x -> finite F x = true -> val F x = IZR n -> lo <= n <= hi ->
  exists y r, f x = Some y /\ g y = Some r /\ isbits F r /\ finite F r = true /\ val F r = val F x.
