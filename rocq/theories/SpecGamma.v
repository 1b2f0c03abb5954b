(** What the gamma functions must do at the arguments where the answer is known exactly.
    Stated with the decoding of a bit pattern only ([Spec]); nothing here mentions the code. *)
From Coq Require Import ZArith Reals Bool.
From Flocq Require Import Core.
From Verif Require Import Spec.
Open Scope R_scope.

Definition is_integer (r : R) : Prop := exists n : Z, r = IZR n.

(** Gamma(x) is positive for x > 0; for a negative x that is not an integer it is positive exactly when
    floor(x) is even (Gamma changes sign at every pole). *)
Definition gamma_sgn (r : R) : Z := if Rlt_dec 0 r then 1%Z else if Z.even (Zfloor r) then 1%Z else (-1)%Z.

(** log |Gamma| with the sign of Gamma: C23 7.12.8.3 and F.10.5.3, POSIX lgamma_r. *)
Definition lgamma_spec (F : fmt) (f : Z -> option (Z * Z)) : Prop :=
  forall x, isbits F x -> exists y s, f x = Some (y, s) /\ isbits F y /\ (s = 1 \/ s = -1)%Z /\
    (isnan F x = true -> isnan F y = true) /\
    (isinf F x = true -> y = infinity F false /\ s = 1%Z) /\
    (iszero F x = true -> y = infinity F false /\ s = if signbit F x then (-1)%Z else 1%Z) /\
    (finite F x = true -> val F x < 0 -> is_integer (val F x) -> y = infinity F false /\ s = 1%Z) /\
    (finite F x = true -> val F x = 1 \/ val F x = 2 -> y = zero F false) /\
    (finite F x = true -> 0 < val F x \/ ~ is_integer (val F x) -> s = gamma_sgn (val F x)).

(** 0!, 1!, 2!, ... *)
Fixpoint factZ (n : nat) : Z := match n with O => 1%Z | S m => (Z.of_nat n * factZ m)%Z end.

(** Gamma: C23 F.10.5.4; for small integers the factorial, correctly rounded; beyond 184 the exact values leave
    every format (Gamma(184) > 10^337, |Gamma(x)| < 10^-337 for x < -184 away from the poles). *)
Definition tgamma_spec (F : fmt) (f : Z -> option Z) : Prop :=
  forall x, isbits F x -> exists y, f x = Some y /\ isbits F y /\
    (isnan F x = true -> isnan F y = true) /\
    (isinf F x = true -> if signbit F x then isnan F y = true else y = infinity F false) /\
    (iszero F x = true -> y = infinity F (signbit F x)) /\
    (finite F x = true -> val F x < 0 -> is_integer (val F x) -> isnan F y = true) /\
    (finite F x = true -> forall n : nat, (n < 23)%nat -> val F x = IZR (Z.of_nat n + 1) -> rounds_to F (IZR (factZ n)) false y) /\
    (finite F x = true -> 184 <= val F x -> y = infinity F false) /\
    (finite F x = true -> val F x <= -184 -> ~ is_integer (val F x) -> y = zero F (negb (Z.even (Zfloor (val F x))))).
