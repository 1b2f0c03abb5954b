(** Property C15: scalbn and ldexp round once. *)
From Coq Require Import ZArith Reals Lia.
From Flocq Require Import Core.
From Verif Require Import Base Spec SpecFun2 M_scalbn P_scalbn.
Open Scope Z_scope.

Theorem C15_scalbnf16 : forall x n, isbits f16 x -> - 2 ^ 31 <= n < 2 ^ 31 ->
  exists r, scalbn f16 x n = Some r /\ scalbn_spec f16 x n r.
Proof. intros. apply scalbn_ok; try assumption. vm_compute. discriminate. Qed.
Print Assumptions C15_scalbnf16.
Theorem C15_scalbnf : forall x n, isbits f32 x -> - 2 ^ 31 <= n < 2 ^ 31 ->
  exists r, scalbn f32 x n = Some r /\ scalbn_spec f32 x n r.
Proof. intros. apply scalbn_ok; try assumption. vm_compute. discriminate. Qed.
Print Assumptions C15_scalbnf.
Theorem C15_scalbn : forall x n, isbits f64 x -> - 2 ^ 31 <= n < 2 ^ 31 ->
  exists r, scalbn f64 x n = Some r /\ scalbn_spec f64 x n r.
Proof. intros. apply scalbn_ok; try assumption. vm_compute. discriminate. Qed.
Print Assumptions C15_scalbn.
Theorem C15_scalbnf128 : forall x n, isbits f128 x -> - 2 ^ 31 <= n < 2 ^ 31 ->
  exists r, scalbn f128 x n = Some r /\ scalbn_spec f128 x n r.
Proof. intros. apply scalbn_ok; try assumption. vm_compute. discriminate. Qed.
Print Assumptions C15_scalbnf128.
Theorem C15_ldexpf16 : forall x n, isbits f16 x -> - 2 ^ 31 <= n < 2 ^ 31 ->
  exists r, ldexp f16 x n = Some r /\ scalbn_spec f16 x n r.
Proof. intros. apply scalbn_ok; try assumption. vm_compute. discriminate. Qed.
Print Assumptions C15_ldexpf16.
Theorem C15_ldexpf : forall x n, isbits f32 x -> - 2 ^ 31 <= n < 2 ^ 31 ->
  exists r, ldexp f32 x n = Some r /\ scalbn_spec f32 x n r.
Proof. intros. apply scalbn_ok; try assumption. vm_compute. discriminate. Qed.
Print Assumptions C15_ldexpf.
Theorem C15_ldexp : forall x n, isbits f64 x -> - 2 ^ 31 <= n < 2 ^ 31 ->
  exists r, ldexp f64 x n = Some r /\ scalbn_spec f64 x n r.
Proof. intros. apply scalbn_ok; try assumption. vm_compute. discriminate. Qed.
Print Assumptions C15_ldexp.
Theorem C15_ldexpf128 : forall x n, isbits f128 x -> - 2 ^ 31 <= n < 2 ^ 31 ->
  exists r, ldexp f128 x n = Some r /\ scalbn_spec f128 x n r.
Proof. intros. apply scalbn_ok; try assumption. vm_compute. discriminate. Qed.
Print Assumptions C15_ldexpf128.
(** ldexp(1.0, -1074) is the least subnormal; 3 * 2^-1075 goes to the even 2 * 2^-1074 without double rounding *)
Example C15_ex1 : ldexp f64 0x3ff0000000000000 (-1074) = Some 1. Proof. vm_compute. reflexivity. Qed.
Example C15_ex2 : scalbn f64 0x4008000000000000 (-1075) = Some 2. Proof. vm_compute. reflexivity. Qed.
(** from the least subnormal to the largest power of two, and beyond the range in both directions *)
Example C15_ex3 : scalbn f64 1 2097 = Some 0x7fe0000000000000. Proof. vm_compute. reflexivity. Qed.
Example C15_ex4 : scalbn f64 1 (2 ^ 31 - 1) = Some 0x7ff0000000000000. Proof. vm_compute. reflexivity. Qed.
Example C15_ex5 : scalbn f64 0xffefffffffffffff (- 2 ^ 31) = Some 0x8000000000000000. Proof. vm_compute. reflexivity. Qed.
Example C15_ex6 : scalbn f16 0x7bff (-40) = Some 1. Proof. vm_compute. reflexivity. Qed.
