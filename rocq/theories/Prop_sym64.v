(** C30 for the double precision sine, cosine and tangent, through every path of the argument reduction; the other functions are in Prop_sym.v. *)
From Coq Require Import ZArith Reals Lia Bool List.
From Verif Require Import Base Spec SpecFun SpecSym Format Ieee M_basic M_elib M_rempio2 M_trig P_tot P_bessel P_sym P_sym2 P_sym64 P_sym64t.
Open Scope Z_scope.

Theorem C30_sin : odd_fn f64 rs_sin.
Proof. apply odd_intro; [exact sin_tot|exact sin_odd]. Qed.
Theorem C30_cos : even_fn f64 rs_cos.
Proof. apply even_intro; [exact cos_tot|exact cos_even]. Qed.
Theorem C30_tan : odd_fn f64 rs_tan.
Proof. apply odd_intro; [exact tan_tot|exact tan_odd]. Qed.
Print Assumptions C30_sin.
Print Assumptions C30_cos.
Print Assumptions C30_tan.
Example ex_sin : (exists r, rs_sin 0x4480f0cf064dd592 = Some r /\ rs_sin 0xc480f0cf064dd592 = Some (opposite f64 r) /\ r <> opposite f64 r) /\ rs_sin 0x8000000000000000 = Some 0x8000000000000000.
Proof. split; [eexists; split; [vm_compute; reflexivity|split; [vm_compute; reflexivity|vm_compute; discriminate]]|vm_compute; reflexivity]. Qed.
Example ex_cos : exists r, rs_cos 0x4480f0cf064dd592 = Some r /\ rs_cos 0xc480f0cf064dd592 = Some r.
Proof. eexists; split; vm_compute; reflexivity. Qed.
Example ex_tan : (exists r, rs_tan 0x4480f0cf064dd592 = Some r /\ rs_tan 0xc480f0cf064dd592 = Some (opposite f64 r) /\ r <> opposite f64 r) /\ rs_tan 0x8000000000000000 = Some 0x8000000000000000.
Proof. split; [eexists; split; [vm_compute; reflexivity|split; [vm_compute; reflexivity|vm_compute; discriminate]]|vm_compute; reflexivity]. Qed.
