(** Specification vocabulary for the Bessel functions of integer order (C48-C50). *)
From Coq Require Import ZArith Bool.
From Verif Require Import Base Spec SpecSym.
Open Scope Z_scope.

(** The values of type [i32] *)
Definition is_i32 (n : Z) : Prop := - 2 ^ 31 <= n < 2 ^ 31.
(** The same result; NaN payloads do not count. *)
Definition same (F : fmt) (a b : Z) : Prop := a = b \/ isnan F a = true /\ isnan F b = true.
(** [(-1)^k] times the pattern, where only the parity of [k] matters *)
Definition alternate (F : fmt) (k b : Z) : Z := if Z.odd k then opposite F b else b.
(** A function of an order and an argument which returns a pattern for all of them *)
Definition total_n (F : fmt) (f : Z -> Z -> option Z) : Prop :=
  forall n x, is_i32 n -> isbits F x -> exists r, f n x = Some r /\ isbits F r.
(** [f n x] and [g m y] both return, and return the same *)
Definition agree (F : fmt) (a b : option Z) : Prop := exists r s, a = Some r /\ b = Some s /\ same F r s.
