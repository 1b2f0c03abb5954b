(** Specifications of pow and exp10, on bit patterns and real values only. *)
From Coq Require Import ZArith Reals Bool.
From Flocq Require Import Core.
From Verif Require Import Spec SpecElem.
Open Scope Z_scope.

(** Integers and odd integers among the finite patterns. *)
Definition integral (F : fmt) (y : Z) : Prop := finite F y = true /\ exists n, val F y = IZR n.
Definition odd_integral (F : fmt) (y : Z) : Prop := finite F y = true /\ exists n, val F y = IZR (2 * n + 1).
(** The sign of [y]: a nonzero finite number or an infinity. *)
Definition neg_num (F : fmt) (y : Z) : Prop := isbits F y /\ isnan F y = false /\ iszero F y = false /\ signbit F y = true.
Definition pos_num (F : fmt) (y : Z) : Prop := isbits F y /\ isnan F y = false /\ iszero F y = false /\ signbit F y = false.

(** The special cases of pow in Annex F of the C standard (F.10.4.4). *)
Record pow_special (F : fmt) (f : Z -> Z -> option Z) : Prop := {
  pow_x_0 : forall x y, isbits F x -> isbits F y -> iszero F y = true -> f x y = Some (onef F false);
  pow_1_y : forall y, isbits F y -> f (onef F false) y = Some (onef F false);
  pow_nan : forall x y, isbits F x -> isbits F y -> isnan F x = true \/ isnan F y = true ->
    iszero F y = false -> x <> onef F false -> exists r, f x y = Some r /\ isbits F r /\ isnan F r = true;
  pow_m1_inf : forall s, f (onef F true) (infinity F s) = Some (onef F false);
  pow_dom : forall x y, isbits F x -> isbits F y -> finite F x = true -> (val F x < 0)%R -> finite F y = true -> ~ integral F y ->
    exists r, f x y = Some r /\ isbits F r /\ isnan F r = true;
  pow_0_neg_odd : forall s y, neg_num F y -> odd_integral F y -> f (zero F s) y = Some (infinity F s);
  pow_0_neg : forall s y, neg_num F y -> ~ odd_integral F y -> f (zero F s) y = Some (infinity F false);
  pow_0_pos_odd : forall s y, pos_num F y -> odd_integral F y -> f (zero F s) y = Some (zero F s);
  pow_0_pos : forall s y, pos_num F y -> ~ odd_integral F y -> f (zero F s) y = Some (zero F false);
  pow_small_inf : forall x s, isbits F x -> finite F x = true -> (Rabs (val F x) < 1)%R ->
    f x (infinity F s) = Some (if s then infinity F false else zero F false);
  pow_big_inf : forall x s, isbits F x -> isnan F x = false -> (finite F x = true -> 1 < Rabs (val F x))%R ->
    f x (infinity F s) = Some (if s then zero F false else infinity F false);
  pow_inf_neg_odd : forall s y, neg_num F y -> odd_integral F y -> f (infinity F s) y = Some (zero F s);
  pow_inf_neg : forall s y, neg_num F y -> ~ odd_integral F y -> f (infinity F s) y = Some (zero F false);
  pow_inf_pos_odd : forall s y, pos_num F y -> odd_integral F y -> f (infinity F s) y = Some (infinity F s);
  pow_inf_pos : forall s y, pos_num F y -> ~ odd_integral F y -> f (infinity F s) y = Some (infinity F false)
}.

(** exp10 at integers: the power of ten, correctly rounded. *)
Definition exp10_exact (F : fmt) (N : Z) (f : Z -> option Z) : Prop :=
  forall x n, isbits F x -> finite F x = true -> val F x = IZR n -> Z.abs n <= N ->
    exists r, f x = Some r /\ isbits F r /\ rounds_to F (powerRZ 10 n) false r.
