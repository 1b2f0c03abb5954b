(** C59: expm1 is within two machine epsilons on all finite arguments; expm1f is too, up to its overflow threshold, which is too low. *)
From Coq Require Import ZArith Reals List Bool Lra Psatz.
From Flocq Require Import Core.
From Verif Require Import Base Spec SpecLog2 SpecExpm1 M_exp P_em6 P_em9.
Open Scope Z_scope.

Theorem C59_expm1 : expm1_like f64 2 rs_expm1.
Proof. exact expm1_within. Qed.
Print Assumptions C59_expm1.
(** The full statement for f32 is [expm1_like f32 2 rs_expm1f]; it fails for the arguments above 90851/1024 = 88.7216796875 and below 128 ln 2 = 88.7228..., for which the source returns infinity although exp x - 1 is a finite number well inside the range. Everywhere else it holds: *)
Theorem C59_expm1f_partial : expm1_upto f32 2 (90851 / 1024) rs_expm1f /\
  (forall x, isbits f32 x -> finite f32 x = true -> (90851 / 1024 < val f32 x)%R -> rs_expm1f x = Some (infinity f32 false)).
Proof. split; [exact expm1f_within|exact expm1f_over]. Qed.
Print Assumptions C59_expm1f_partial.
(** No relative accuracy at all is met on the remaining interval. *)
Theorem C59_expm1f_refuted : forall c, ~ expm1_like f32 c rs_expm1f.
Proof. exact expm1f_not. Qed.
Print Assumptions C59_expm1f_refuted.
(** the witness: 11628929/131072 = 88.72168731689453125 *)
Theorem C59_expm1f_witness_refuted : rs_expm1f 0x42b17181 = Some (infinity f32 false) /\ (exp (val f32 0x42b17181) < bpow radix2 128)%R.
Proof. exact expm1f_early. Qed.
Print Assumptions C59_expm1f_witness_refuted.

(** 1, 2^-60, -1, -50, the largest argument without overflow, the next one *)
Example C59_1 : rs_expm1 0x3ff0000000000000 = Some 0x3ffb7e151628aed2. Proof. vm_compute. reflexivity. Qed.
Example C59_tiny : rs_expm1 0x3c30000000000000 = Some 0x3c30000000000000. Proof. vm_compute. reflexivity. Qed.
Example C59_m1 : rs_expm1 0xbff0000000000000 = Some 0xbfe43a54e4e98864. Proof. vm_compute. reflexivity. Qed.
Example C59_m50 : rs_expm1 0xc049000000000000 = Some 0xbff0000000000000. Proof. vm_compute. reflexivity. Qed.
Example C59_top : rs_expm1 0x40862e42fefa39ef = Some 0x7fefffffffffff2a. Proof. vm_compute. reflexivity. Qed.
Example C59_over : rs_expm1 0x40862e42fefa39f0 = Some 0x7ff0000000000000. Proof. vm_compute. reflexivity. Qed.
Example C59_f1 : rs_expm1f 0x3f800000 = Some 0x3fdbf0a8. Proof. vm_compute. reflexivity. Qed.
Example C59_ftop : rs_expm1f 0x42b17180 = Some 0x7f7fb40f. Proof. vm_compute. reflexivity. Qed.
