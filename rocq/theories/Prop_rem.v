(** Properties C12-C14: the remainder functions are exact. *)
Require Import ZArith Reals Lia.
From Flocq Require Import Core.
From Verif Require Import Base Spec SpecFun M_fmod P_fmod P_remquo.
Open Scope Z_scope.

Theorem C12_fmod : forall F x y, isbits F x -> isbits F y ->
  exists r, fmod F x y = Some r /\ rem_spec F Ztrunc x y r.
Proof. exact fmod_ok. Qed.
Print Assumptions C12_fmod.
Theorem C12_fmodf16 : forall x y, isbits f16 x -> isbits f16 y ->
  exists r, fmod f16 x y = Some r /\ rem_spec f16 Ztrunc x y r.
Proof. exact (fmod_ok f16). Qed.
Print Assumptions C12_fmodf16.
Theorem C12_fmodf : forall x y, isbits f32 x -> isbits f32 y ->
  exists r, fmod f32 x y = Some r /\ rem_spec f32 Ztrunc x y r.
Proof. exact (fmod_ok f32). Qed.
Print Assumptions C12_fmodf.
Theorem C12_fmod64 : forall x y, isbits f64 x -> isbits f64 y ->
  exists r, fmod f64 x y = Some r /\ rem_spec f64 Ztrunc x y r.
Proof. exact (fmod_ok f64). Qed.
Print Assumptions C12_fmod64.
Theorem C12_fmodf128 : forall x y, isbits f128 x -> isbits f128 y ->
  exists r, fmod f128 x y = Some r /\ rem_spec f128 Ztrunc x y r.
Proof. exact (fmod_ok f128). Qed.
Print Assumptions C12_fmodf128.
(** fmod(-5.5, 2.0) = -1.5; fmod(6.0, -2.0) = 0.0; fmod(max, min subnormal) = 0 *)
Example C12_ex1 : fmod f64 0xc016000000000000 0x4000000000000000 = Some 0xbff8000000000000.
Proof. vm_compute. reflexivity. Qed.
Example C12_ex2 : fmod f64 0x4018000000000000 0xc000000000000000 = Some 0.
Proof. vm_compute. reflexivity. Qed.
Example C12_ex3 : fmod f32 0x7f7fffff 1 = Some 0.
Proof. vm_compute. reflexivity. Qed.

Theorem C13_remainder : forall x y, isbits f64 x -> isbits f64 y ->
  exists r, remainder x y = Some r /\ rem_spec f64 ZnearestE x y r.
Proof. exact remainder_ok. Qed.
Print Assumptions C13_remainder.
Theorem C13_remainderf : forall x y, isbits f32 x -> isbits f32 y ->
  exists r, remainderf x y = Some r /\ rem_spec f32 ZnearestE x y r.
Proof. exact remainderf_ok. Qed.
Print Assumptions C13_remainderf.
(** remainder(5.0, 2.0) = 1.0 (quotient 2.5 goes to 2); remainder(7.0, 2.0) = -1.0 (3.5 goes to 4) *)
Example C13_ex1 : remainder 0x4014000000000000 0x4000000000000000 = Some 0x3ff0000000000000.
Proof. vm_compute. reflexivity. Qed.
Example C13_ex2 : remainder 0x401c000000000000 0x4000000000000000 = Some 0xbff0000000000000.
Proof. vm_compute. reflexivity. Qed.
(** infinite divisor, dividend with the largest exponent *)
Example C13_ex3 : remainder 0x7fefffffffffffff 0x7ff0000000000000 = Some 0x7fefffffffffffff.
Proof. vm_compute. reflexivity. Qed.

Theorem C14_remquo : forall x y, isbits f64 x -> isbits f64 y ->
  exists r q, remquo x y = Some (r, q) /\ rem_spec f64 ZnearestE x y r /\ quo_spec f64 x y q.
Proof. exact remquo_ok. Qed.
Print Assumptions C14_remquo.
Theorem C14_remquof : forall x y, isbits f32 x -> isbits f32 y ->
  exists r q, remquof x y = Some (r, q) /\ rem_spec f32 ZnearestE x y r /\ quo_spec f32 x y q.
Proof. exact remquof_ok. Qed.
Print Assumptions C14_remquof.
(** remquo(-7.0, 2.0) = (1.0, -4) *)
Example C14_ex1 : remquo 0xc01c000000000000 0x4000000000000000 = Some (0x3ff0000000000000, -4).
Proof. vm_compute. reflexivity. Qed.
(** the quotient 2^31 + 3 keeps its low 31 bits *)
Example C14_ex2 : remquo 0x41e0000000600000 0x3ff0000000000000 = Some (0, 3).
Proof. vm_compute. reflexivity. Qed.
