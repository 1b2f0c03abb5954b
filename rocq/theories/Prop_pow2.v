(** C56: exp2 is correctly rounded at the integers, log2 is exact at the powers of two. *)
From Coq Require Import ZArith Reals List Bool Lra Lia.
From Flocq Require Import Core.
From Verif Require Import Base Spec SpecExact2 M_exp M_log P_format P_l2c1 P_l2c3 P_l2c4.
Open Scope Z_scope.

Theorem C56_exp2 : exp2_exact f64 rs_exp2.
Proof. intros x n. apply exp2_int. Qed.
Print Assumptions C56_exp2.
Theorem C56_exp2f : exp2_exact f32 rs_exp2f.
Proof. intros x n. apply exp2f_int. Qed.
Print Assumptions C56_exp2f.
Theorem C56_log2 : log2_exact f64 rs_log2.
Proof. intros x n. apply log2_pow. Qed.
Print Assumptions C56_log2.
Theorem C56_log2f : log2_exact f32 rs_log2f.
Proof. intros x n. apply log2f_pow. Qed.
Print Assumptions C56_log2f.

Lemma undo_pow F f g lo hi : exp2_exact F f -> log2_exact F g -> (1 - bias F - mw F <= lo) -> hi <= bias F -> undoes F f g lo hi.
Proof.
  intros E L H1 H2 x n B G V H. destruct (E x n B G V) as (y & Ey & R). destruct R as (By & R).
  assert (X : rnd F (bpow radix2 n) = bpow radix2 n).
  { apply round_generic; [typeclasses eauto|]. apply generic_format_bpow. unfold FLT_exp. pose proof (fmt_facts F). lia. }
  rewrite X, Rlt_bool_true in R.
  - destruct R as (Fy & Vy & _). destruct (L y n By Fy Vy) as (r & Er & Br & Fr & Vr). exists y, r. rewrite V. tauto.
  - rewrite Rabs_pos_eq by apply bpow_ge_0. apply bpow_lt. lia.
Qed.
Theorem C56_undo : undoes f64 rs_exp2 rs_log2 (-1074) 1023.
Proof. apply undo_pow; [exact C56_exp2|exact C56_log2|vm_compute; discriminate..]. Qed.
Print Assumptions C56_undo.
Theorem C56_undof : undoes f32 rs_exp2f rs_log2f (-149) 127.
Proof. apply undo_pow; [exact C56_exp2f|exact C56_log2f|vm_compute; discriminate..]. Qed.
Print Assumptions C56_undof.

(** 2^10, 2^-1074, 2^-1075 (a tie, to zero), 2^1023, 2^1024; log2 of 8, of the smallest subnormal and of 2^1023 *)
Example C56_e10 : rs_exp2 0x4024000000000000 = Some 0x4090000000000000. Proof. vm_compute. reflexivity. Qed.
Example C56_sub : rs_exp2 0xc090c80000000000 = Some 1. Proof. vm_compute. reflexivity. Qed.
Example C56_tie : rs_exp2 0xc090cc0000000000 = Some 0. Proof. vm_compute. reflexivity. Qed.
Example C56_top : rs_exp2 0x408ff80000000000 = Some 0x7fe0000000000000. Proof. vm_compute. reflexivity. Qed.
Example C56_over : rs_exp2 0x4090000000000000 = Some 0x7ff0000000000000. Proof. vm_compute. reflexivity. Qed.
Example C56_f_sub : rs_exp2f 0xc3150000 = Some 1. Proof. vm_compute. reflexivity. Qed.
Example C56_f_tie : rs_exp2f 0xc3160000 = Some 0. Proof. vm_compute. reflexivity. Qed.
Example C56_f_over : rs_exp2f 0x43000000 = Some 0x7f800000. Proof. vm_compute. reflexivity. Qed.
Example C56_log2_8 : rs_log2 0x4020000000000000 = Some 0x4008000000000000. Proof. vm_compute. reflexivity. Qed.
Example C56_log2_sub : rs_log2 1 = Some 0xc090c80000000000. Proof. vm_compute. reflexivity. Qed.
Example C56_log2f_sub : rs_log2f 1 = Some 0xc3150000. Proof. vm_compute. reflexivity. Qed.
