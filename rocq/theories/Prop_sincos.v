(** C33: sincos agrees with sin and cos.

    The statement names the three modelled functions only: the pair returned by [rs_sincos] consists of the bit patterns returned by [rs_sin] and [rs_cos] (and likewise for the f32 functions), for every bit pattern, NaNs and infinities included. *)
From Coq Require Import ZArith Lia Bool List.
From Verif Require Import Base Spec Format Ieee M_rempio2 M_trig P_sc P_trigf.
Open Scope Z_scope.

Theorem C33_sincos x : isbits f64 x -> exists s c, rs_sincos x = Some (s, c) /\ rs_sin x = Some s /\ rs_cos x = Some c.
Proof. exact (sincos_ok x). Qed.
Print Assumptions C33_sincos.

(** sincos 1.0, and a NaN for infinity *)
Example C33_sincos_example : rs_sincos 0x3ff0000000000000 = Some (0x3feaed548f090cee, 0x3fe14a280fb5068c) /\ rs_sin 0x3ff0000000000000 = Some 0x3feaed548f090cee /\ rs_cos 0x3ff0000000000000 = Some 0x3fe14a280fb5068c.
Proof. vm_compute. repeat split; reflexivity. Qed.

Theorem C33_sincosf x : isbits f32 x -> exists s c, rs_sincosf x = Some (s, c) /\ rs_sinf x = Some s /\ rs_cosf x = Some c.
Proof. exact (sincosf_ok x). Qed.
Print Assumptions C33_sincosf.

(** sincosf of 1.0 and of the largest finite float *)
Example C33_sincosf_example : rs_sincosf 0x3f800000 = Some (0x3f576aa4, 0x3f0a5140) /\ rs_sincosf 0x7f7fffff = Some (0xbf0599b3, 0x3f5a5f96).
Proof. vm_compute. split; reflexivity. Qed.
