(** Panic freedom: the function comes back with a bit pattern of the right width for every bit pattern.
    In the model a panic (overflow check, index out of bounds, [unimplemented!]) and a loop that does not
    terminate are both [None]. *)
From Coq Require Import ZArith.
From Verif Require Import Spec.

Definition returns1 (F : fmt) (f : Z -> option Z) : Prop := forall x, isbits F x -> exists r, f x = Some r /\ isbits F r.
Definition returns2 (F : fmt) (f : Z -> Z -> option Z) : Prop := forall x y, isbits F x -> isbits F y -> exists r, f x y = Some r /\ isbits F r.
(** functions with two results *)
Definition returns_pair (F : fmt) (f : Z -> option (Z * Z)) (P : Z -> Prop) : Prop :=
  forall x, isbits F x -> exists r s, f x = Some (r, s) /\ isbits F r /\ P s.
