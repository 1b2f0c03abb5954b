(** Accuracy of log1p, stated over the real numbers. *)
From Coq Require Import ZArith Reals.
From Flocq Require Import Core.
From Verif Require Import Spec SpecLog.
Open Scope R_scope.

(** [f] computes ln (1 + x) for every finite x above -1 with relative error at most the machine epsilon. *)
Definition log1p_like (F : fmt) (f : Z -> option Z) : Prop :=
  forall x, isbits F x -> finite F x = true -> -1 < val F x -> exists r, f x = Some r /\ rel_eps F (ln (1 + val F x)) r.
