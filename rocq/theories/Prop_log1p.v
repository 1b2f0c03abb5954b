(** C57: log1p and log1pf are within one machine epsilon on all finite numbers above -1. *)
From Coq Require Import ZArith Reals List Bool Lra.
From Flocq Require Import Core.
From Verif Require Import Base Spec SpecLog SpecLog1p M_log P_l1a3 P_l1b3.
Open Scope Z_scope.

Theorem C57_log1p : log1p_like f64 rs_log1p.
Proof. exact log1p_within. Qed.
Print Assumptions C57_log1p.
Theorem C57_log1pf : log1p_like f32 rs_log1pf.
Proof. exact log1pf_within. Qed.
Print Assumptions C57_log1pf.

(** 1, a tiny number, the number after -1, the largest finite number, -1/2 *)
Example C57_log1p_1 : rs_log1p 0x3ff0000000000000 = Some 4604418534313441775. Proof. vm_compute. reflexivity. Qed.
Example C57_log1p_tiny : rs_log1p 0x3c9fffffffffffff = Some 0x3c9fffffffffffff. Proof. vm_compute. reflexivity. Qed.
Example C57_log1p_low : rs_log1p 0xbfefffffffffffff = Some 13853739099206662138. Proof. vm_compute. reflexivity. Qed.
Example C57_log1p_top : rs_log1p 0x7fefffffffffffff = Some 4649454530587146735. Proof. vm_compute. reflexivity. Qed.
Example C57_log1pf_1 : rs_log1pf 0x3f800000 = Some 1060205080. Proof. vm_compute. reflexivity. Qed.
(** the only argument for which the reduction is entered and does nothing *)
Example C57_log1pf_edge : rs_log1pf 0xbe95f61a = Some 3199300121. Proof. vm_compute. reflexivity. Qed.
Example C57_log1pf_low : rs_log1pf 0xbf7fffff = Some 3246724498. Proof. vm_compute. reflexivity. Qed.
Example C57_log1pf_top : rs_log1pf 0x7f7fffff = Some 1118925336. Proof. vm_compute. reflexivity. Qed.
