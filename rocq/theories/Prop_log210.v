(** C55: log2 and log10 are within one machine epsilon, log2f and log10f within one and a half, on all positive finite numbers. *)
From Coq Require Import ZArith Reals List Bool Lra.
From Flocq Require Import Core.
From Verif Require Import Base Spec SpecLog SpecLog2 M_log P_l2a7 P_l2a9 P_l2b7 P_l2b9.
Open Scope Z_scope.

Theorem C55_log2 : log_like f64 rs_log2 (fun x => ln x / ln 2)%R.
Proof. exact log2_within. Qed.
Print Assumptions C55_log2.
Theorem C55_log10 : log_like f64 rs_log10 (fun x => ln x / ln 10)%R.
Proof. exact log10_within. Qed.
Print Assumptions C55_log10.
Theorem C55_log2f : log_near f32 (3 / 2) rs_log2f (fun x => ln x / ln 2)%R.
Proof. exact log2f_within. Qed.
Print Assumptions C55_log2f.
Theorem C55_log10f : log_near f32 (3 / 2) rs_log10f (fun x => ln x / ln 10)%R.
Proof. exact log10f_within. Qed.
Print Assumptions C55_log10f.

(** 3 and 1000, the float after 1, the largest finite number, the smallest subnormal *)
Example C55_log2_3 : rs_log2 0x4008000000000000 = Some 0x3ff95c01a39fbd68. Proof. vm_compute. reflexivity. Qed.
Example C55_log2_1 : rs_log2 0x3ff0000000000001 = Some 0x3cb71547652b82fd. Proof. vm_compute. reflexivity. Qed.
Example C55_log2_top : rs_log2 0x7fefffffffffffff = Some 0x4090000000000000. Proof. vm_compute. reflexivity. Qed.
Example C55_log10_1000 : rs_log10 0x408f400000000000 = Some 0x4008000000000000. Proof. vm_compute. reflexivity. Qed.
Example C55_log10_1 : rs_log10 0x3ff0000000000001 = Some 0x3c9bcb7b1526e50d. Proof. vm_compute. reflexivity. Qed.
Example C55_log10_sub : rs_log10 1 = Some 0xc07434e6420f4374. Proof. vm_compute. reflexivity. Qed.
Example C55_log2f_3 : rs_log2f 0x40400000 = Some 0x3fcae00d. Proof. vm_compute. reflexivity. Qed.
Example C55_log2f_1 : rs_log2f 0x3f800001 = Some 0x3438aa3a. Proof. vm_compute. reflexivity. Qed.
Example C55_log2f_top : rs_log2f 0x7f7fffff = Some 0x43000000. Proof. vm_compute. reflexivity. Qed.
Example C55_log10f_1000 : rs_log10f 0x447a0000 = Some 0x40400000. Proof. vm_compute. reflexivity. Qed.
Example C55_log10f_1 : rs_log10f 0x3f800001 = Some 0x335e5bd8. Proof. vm_compute. reflexivity. Qed.
Example C55_log10f_sub : rs_log10f 1 = Some 0xc23369f4. Proof. vm_compute. reflexivity. Qed.
