(** Property C20: the software square root is correctly rounded. *)
From Coq Require Import ZArith Reals Lia.
From Flocq Require Import Core.
From Verif Require Import Base Spec SpecFun3 Format M_sqrt P_sqrt2 P_sqrt4.
Open Scope Z_scope.

Theorem C20_sqrtf16 : forall x, isbits f16 x -> exists r, sqrtf16 x = Some r /\ sqrt_spec f16 x r.
Proof. intros x Hx. apply sqrt_ok; try exact Hx; try exact iter16; cbn; try discriminate; try reflexivity; intros; lia. Qed.
Print Assumptions C20_sqrtf16.
Theorem C20_sqrtf : forall x, isbits f32 x -> exists r, sqrtf x = Some r /\ sqrt_spec f32 x r.
Proof. intros x Hx. apply sqrt_ok; try exact Hx; try exact iter32; cbn; try discriminate; try reflexivity; intros; lia. Qed.
Print Assumptions C20_sqrtf.
Theorem C20_sqrt : forall x, isbits f64 x -> exists r, sqrt x = Some r /\ sqrt_spec f64 x r.
Proof. intros x Hx. apply sqrt_ok; try exact Hx; try exact iter64; cbn; try discriminate; try reflexivity; intros; lia. Qed.
Print Assumptions C20_sqrt.
Theorem C20_sqrtf128 : forall x, isbits f128 x -> exists r, sqrtf128 x = Some r /\ sqrt_spec f128 x r.
Proof. intros x Hx. apply sqrt_ok; try exact Hx; try exact iter128; cbn; try discriminate; try reflexivity; intros; lia. Qed.
Print Assumptions C20_sqrtf128.

(** sqrt(2), sqrt of the least subnormal, of -0.0 and of -1.0 *)
Example C20_ex1 : sqrt 0x4000000000000000 = Some 0x3ff6a09e667f3bcd. Proof. vm_compute. reflexivity. Qed.
Example C20_ex2 : sqrt 1 = Some 0x1e60000000000000. Proof. vm_compute. reflexivity. Qed.
Example C20_ex3 : sqrt 0x8000000000000000 = Some 0x8000000000000000. Proof. vm_compute. reflexivity. Qed.
Example C20_ex4 : sqrt 0xbff0000000000000 = Some 0x7ff8000000000000. Proof. vm_compute. reflexivity. Qed.
Example C20_ex5 : sqrtf 0x40000000 = Some 0x3fb504f3. Proof. vm_compute. reflexivity. Qed.
Example C20_ex6 : sqrtf16 0x4000 = Some 0x3da8. Proof. vm_compute. reflexivity. Qed.
Example C20_ex7 : sqrtf128 0x40000000000000000000000000000000 = Some 0x3fff6a09e667f3bcc908b2fb1366ea95. Proof. vm_compute. reflexivity. Qed.
