(** Special values of the elementary functions, after Annex F of the C standard, stated on bit patterns and real
    values only.  A function is a map from bit patterns to [option Z], [None] standing for a panic. *)
From Coq Require Import ZArith Reals Bool.
From Flocq Require Import Core.
From Verif Require Import Spec SpecElem.
Open Scope Z_scope.

(** The call succeeds and returns a NaN. *)
Definition to_nan (F : fmt) (f : Z -> option Z) (x : Z) : Prop := exists r, f x = Some r /\ isbits F r /\ isnan F r = true.
Definition nan_to_nan (F : fmt) (f : Z -> option Z) : Prop := forall x, isbits F x -> isnan F x = true -> to_nan F f x.
(** NaN at every finite argument whose value satisfies [D]. *)
Definition nan_where (F : fmt) (f : Z -> option Z) (D : R -> Prop) : Prop :=
  forall x, isbits F x -> finite F x = true -> D (val F x) -> to_nan F f x.

Definition zero_to_zero F (f : Z -> option Z) : Prop := forall s, f (zero F s) = Some (zero F s).
Definition inf_to_inf F (f : Z -> option Z) : Prop := forall s, f (infinity F s) = Some (infinity F s).
Definition inf_to_nan F f : Prop := forall s, to_nan F f (infinity F s).

(** exp, exp2, exp10 *)
Definition exp_special F f : Prop := nan_to_nan F f /\ f (infinity F false) = Some (infinity F false) /\
  f (infinity F true) = Some (zero F false) /\ forall s, f (zero F s) = Some (onef F false).
Definition expm1_special F f : Prop := nan_to_nan F f /\ f (infinity F false) = Some (infinity F false) /\
  f (infinity F true) = Some (onef F true) /\ zero_to_zero F f.
(** log, log2, log10 *)
Definition log_special F f : Prop := nan_to_nan F f /\ nan_where F f (fun v => v < 0)%R /\ to_nan F f (infinity F true) /\
  f (infinity F false) = Some (infinity F false) /\ (forall s, f (zero F s) = Some (infinity F true)) /\ f (onef F false) = Some (zero F false).
Definition log1p_special F f : Prop := nan_to_nan F f /\ nan_where F f (fun v => v < -1)%R /\ to_nan F f (infinity F true) /\
  f (infinity F false) = Some (infinity F false) /\ zero_to_zero F f /\ f (onef F true) = Some (infinity F true).
(** sin, tan *)
Definition sin_special F f : Prop := nan_to_nan F f /\ inf_to_nan F f /\ zero_to_zero F f.
Definition cos_special F f : Prop := nan_to_nan F f /\ inf_to_nan F f /\ forall s, f (zero F s) = Some (onef F false).
Definition asin_special F f : Prop := nan_to_nan F f /\ nan_where F f (fun v => 1 < Rabs v)%R /\ inf_to_nan F f /\ zero_to_zero F f.
Definition acos_special F f : Prop := nan_to_nan F f /\ nan_where F f (fun v => 1 < Rabs v)%R /\ inf_to_nan F f /\
  f (onef F false) = Some (zero F false).
(** atan of an infinity is within one unit in the last place of plus or minus pi/2. *)
Definition atan_special F f : Prop := nan_to_nan F f /\ zero_to_zero F f /\
  forall s, exists r, f (infinity F s) = Some r /\ isbits F r /\ finite F r = true /\
    (Rabs (val F r - (if s then - (PI / 2) else PI / 2)) < bpow radix2 (- mw F))%R.
(** sinh, asinh, cbrt *)
Definition sinh_special F f : Prop := nan_to_nan F f /\ inf_to_inf F f /\ zero_to_zero F f.
Definition cosh_special F f : Prop := nan_to_nan F f /\ (forall s, f (infinity F s) = Some (infinity F false)) /\
  forall s, f (zero F s) = Some (onef F false).
(** tanh, erf *)
Definition tanh_special F f : Prop := nan_to_nan F f /\ (forall s, f (infinity F s) = Some (onef F s)) /\ zero_to_zero F f.
(** The domain clause is separate: the code violates it. *)
Definition acosh_special F f : Prop := nan_to_nan F f /\ to_nan F f (infinity F true) /\
  f (infinity F false) = Some (infinity F false) /\ f (onef F false) = Some (zero F false).
Definition atanh_special F f : Prop := nan_to_nan F f /\ nan_where F f (fun v => 1 < Rabs v)%R /\ inf_to_nan F f /\ zero_to_zero F f /\
  forall s, f (onef F s) = Some (infinity F s).
Definition erfc_special F f : Prop := nan_to_nan F f /\ f (infinity F false) = Some (zero F false) /\
  f (infinity F true) = Some (mkbits F false (bias F + 1) 0) /\ forall s, f (zero F s) = Some (onef F false).
