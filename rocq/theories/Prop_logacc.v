(** C54: log and logf are within one machine epsilon of the natural logarithm on all positive finite numbers. *)
From Coq Require Import ZArith Reals List Bool Lra.
From Flocq Require Import Core.
From Verif Require Import Base Spec SpecLog M_log P_lga7 P_lgb7.
Open Scope Z_scope.

Theorem C54_log : log_like f64 rs_log ln.
Proof. exact log_within. Qed.
Print Assumptions C54_log.
Theorem C54_logf : log_like f32 rs_logf ln.
Proof. exact logf_within. Qed.
Print Assumptions C54_logf.

(** ln 2, the float after 1, the smallest subnormal, the largest finite number *)
Example C54_log_2 : rs_log 0x4000000000000000 = Some 0x3fe62e42fefa39ef. Proof. vm_compute. reflexivity. Qed.
Example C54_log_1 : rs_log 0x3ff0000000000001 = Some 0x3cafffffffffffff. Proof. vm_compute. reflexivity. Qed.
Example C54_log_sub : rs_log 1 = Some 0xc0874385446d71c3. Proof. vm_compute. reflexivity. Qed.
Example C54_log_top : rs_log 0x7fefffffffffffff = Some 0x40862e42fefa39ef. Proof. vm_compute. reflexivity. Qed.
Example C54_logf_2 : rs_logf 0x40000000 = Some 0x3f317218. Proof. vm_compute. reflexivity. Qed.
Example C54_logf_1 : rs_logf 0x3f800001 = Some 0x33ffffff. Proof. vm_compute. reflexivity. Qed.
Example C54_logf_sub : rs_logf 1 = Some 0xc2ce8ed0. Proof. vm_compute. reflexivity. Qed.
Example C54_logf_top : rs_logf 0x7f7fffff = Some 0x42b17218. Proof. vm_compute. reflexivity. Qed.
