(** C53: exp and expf are within one machine epsilon of the exponential function, and overflow exactly where it does. *)
From Coq Require Import ZArith Reals List Bool Lra.
From Flocq Require Import Core.
From Verif Require Import Base Spec SpecExp P_lit M_exp P_expa1 P_expa11 P_expa12.
Open Scope Z_scope.

Theorem C53_exp : exp_like f64 rs_exp exp.
Proof. exact exp_within. Qed.
Print Assumptions C53_exp.
Theorem C53_expf : exp_like f32 rs_expf exp.
Proof. exact expf_within. Qed.
Print Assumptions C53_expf.

(** exp 1 is the float above e (not the nearest one); the largest argument with a finite result, the next one, and a subnormal result *)
Example C53_exp_1 : rs_exp 0x3ff0000000000000 = Some 0x4005bf0a8b14576a. Proof. vm_compute. reflexivity. Qed.
Example C53_exp_over : rs_exp 0x40862e42fefa39f0 = Some (infinity f64 false). Proof. vm_compute. reflexivity. Qed.
Example C53_expf_1 : rs_expf 0x3f800000 = Some 0x402df854. Proof. vm_compute. reflexivity. Qed.
Example C53_expf_over : rs_expf 0x42b17218 = Some (infinity f32 false). Proof. vm_compute. reflexivity. Qed.
Example C53_exp_top : rs_exp 0x40862e42fefa39ef = Some 0x7fefffffffffff2a. Proof. vm_compute. reflexivity. Qed.
Example C53_exp_sub : rs_exp 0xc087480000000000 = Some 1. Proof. vm_compute. reflexivity. Qed.
Example C53_expf_top : rs_expf 0x42b17217 = Some 0x7f7fff84. Proof. vm_compute. reflexivity. Qed.
