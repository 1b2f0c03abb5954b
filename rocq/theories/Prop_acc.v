(** C43: accuracy of the single precision trigonometric functions.

    [faithful_fn F f g] (SpecAcc.v) says that [f] returns, for every finite argument, one of the two floats of the format next to the true value of [g] there, the real functions being those of the standard library. *)
From Coq Require Import ZArith Reals Lia Lra Bool List.
From Verif Require Import Base Spec SpecAcc Format Ieee M_rempio2 M_trig P_trigf P_tanf2.
Open Scope Z_scope.

Theorem C43_sinf : faithful_fn f32 rs_sinf sin.
Proof. exact sinf_faithful. Qed.
Print Assumptions C43_sinf.
(** sinf 1.0, and sinf of the largest finite float *)
Example C43_sinf_example : rs_sinf 0x3f800000 = Some 0x3f576aa4 /\ rs_sinf 0x7f7fffff = Some 0xbf0599b3.
Proof. vm_compute. split; reflexivity. Qed.

Theorem C43_cosf : faithful_fn f32 rs_cosf cos.
Proof. exact cosf_faithful. Qed.
Print Assumptions C43_cosf.
Example C43_cosf_example : rs_cosf 0x3f800000 = Some 0x3f0a5140 /\ rs_cosf 0x7f7fffff = Some 0x3f5a5f96.
Proof. vm_compute. split; reflexivity. Qed.

Theorem C43_tanf : faithful_fn f32 rs_tanf tan.
Proof. exact tanf_faithful. Qed.
Print Assumptions C43_tanf.
Example C43_tanf_example : rs_tanf 0x3f800000 = Some 0x3fc75923 /\ rs_tanf 0x7f7fffff = Some 0xbf1c9eca.
Proof. vm_compute. split; reflexivity. Qed.
