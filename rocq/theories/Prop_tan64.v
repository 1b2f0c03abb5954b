(** C47: accuracy of the double precision tangent.

    [within_ulps_fn F k f g] (SpecUlp.v) says that [f] returns, for every finite argument, a finite float at most [k] units in the last place away from the true value of [g]; [faithful] (SpecAcc.v) that it is one of the two floats next to it.
    [tan] is the real tangent of the standard library, the quotient of sine and cosine; by [C47_no_pole] no double is one of its poles. *)
From Coq Require Import ZArith Reals Lia Lra Bool List.
From Flocq Require Import Core.
From Verif Require Import Base Spec SpecAcc SpecUlp Format Ieee M_trig P_tan64t.
Open Scope Z_scope.

Theorem C47_tan : within_ulps_fn f64 1.5 rs_tan tan.
Proof. intros x B F. destruct (tan_ok x B F) as (q & E & W & _). now exists q. Qed.
Print Assumptions C47_tan.
(** tan 1.0 = 1.557..., tan 11.0 = -225.95..., tan 1e22 = -1.628..., and next to a pole: 6381956970095103 * 2^797 *)
Example C47_tan_example : rs_tan 0x3ff0000000000000 = Some 0x3ff8eb245cbee3a6 /\ rs_tan 0x4026000000000000 = Some 0xc06c3e6d558b0924 /\ rs_tan 0x4480f0cf064dd592 = Some 0xbffa0f79c1b6b258 /\ rs_tan 0x7506ac5b262ca1ff = Some 0xc3bd9ba9a7975636.
Proof. vm_compute. repeat split. Qed.

Theorem C47_tan_faithful x : isbits f64 x -> finite f64 x = true -> (Rabs (tan (val f64 x)) <= / 2 \/ 2 <= Rabs (tan (val f64 x)))%R ->
  exists q, rs_tan x = Some q /\ faithful f64 (tan (val f64 x)) q.
Proof. intros B F H. destruct (tan_ok x B F) as (q & E & _ & W). exists q. split; [exact E|]. now apply W. Qed.
Print Assumptions C47_tan_faithful.
(** tan 0.25 = 0.255...; the smallest subnormal and minus zero are their own tangents *)
Example C47_tan_faithful_example : rs_tan 0x3fd0000000000000 = Some 0x3fd05785a43c4c56 /\ rs_tan 1 = Some 1 /\ rs_tan 0x8000000000000000 = Some 0x8000000000000000.
Proof. vm_compute. repeat split. Qed.

Theorem C47_no_pole x : isbits f64 x -> finite f64 x = true -> cos (val f64 x) <> 0%R.
Proof. exact (no_pole x). Qed.
Print Assumptions C47_no_pole.
(** 2^-60.9 away from a pole *)
Example C47_no_pole_example : isbits f64 0x7506ac5b262ca1ff /\ finite f64 0x7506ac5b262ca1ff = true.
Proof. vm_compute. repeat split; discriminate. Qed.
