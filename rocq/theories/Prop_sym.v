(** C30: sign symmetry of the elementary functions.

    The odd functions return the opposite bit pattern at the opposite argument, the even ones the same pattern, for every argument that is not a NaN.
    [odd_fn] and [even_fn] (SpecSym) also say that the call returns. NaN results (outside the domain) carry no sign. *)
From Coq Require Import ZArith Reals Lia Bool List.
From Verif Require Import Base Spec SpecFun SpecSym Format Ieee M_basic M_elib M_exp M_log M_atrig M_erf M_pow M_bessel P_tot P_exp P_log P_atrig P_erf P_bessel P_sym P_sym2 P_sym3 P_sym4 M_rempio2 M_trig P_symf.
Open Scope Z_scope.

Theorem C30_asin : odd_fn f64 rs_asin.
Proof. apply odd_intro; [exact asin_tot|exact asin_odd]. Qed.
Theorem C30_atan : odd_fn f64 rs_atan.
Proof. apply odd_intro; [exact atan_tot|exact atan_odd]. Qed.
Theorem C30_sinh : odd_fn f64 rs_sinh.
Proof. apply odd_intro; [exact sinh_tot|exact sinh_odd]. Qed.
Theorem C30_tanh : odd_fn f64 rs_tanh.
Proof. apply odd_intro; [exact tanh_tot|exact tanh_odd]. Qed.
Theorem C30_asinh : odd_fn f64 rs_asinh.
Proof. apply odd_intro; [exact asinh_tot|exact asinh_odd]. Qed.
Theorem C30_atanh : odd_fn f64 rs_atanh.
Proof. apply odd_intro; [exact atanh_tot|exact atanh_odd]. Qed.
Theorem C30_erf : odd_fn f64 rs_erf.
Proof. apply odd_intro; [exact erf_tot|exact erf_odd]. Qed.
Theorem C30_asinf : odd_fn f32 rs_asinf.
Proof. apply odd_intro; [exact asinf_tot|exact asinf_odd]. Qed.
Theorem C30_atanf : odd_fn f32 rs_atanf.
Proof. apply odd_intro; [exact atanf_tot|exact atanf_odd]. Qed.
Theorem C30_sinhf : odd_fn f32 rs_sinhf.
Proof. apply odd_intro; [exact sinhf_tot|exact sinhf_odd]. Qed.
Theorem C30_tanhf : odd_fn f32 rs_tanhf.
Proof. apply odd_intro; [exact tanhf_tot|exact tanhf_odd]. Qed.
Theorem C30_asinhf : odd_fn f32 rs_asinhf.
Proof. apply odd_intro; [exact asinhf_tot|exact asinhf_odd]. Qed.
Theorem C30_atanhf : odd_fn f32 rs_atanhf.
Proof. apply odd_intro; [exact atanhf_tot|exact atanhf_odd]. Qed.
Theorem C30_erff : odd_fn f32 rs_erff.
Proof. apply odd_intro; [exact erff_tot|exact erff_odd]. Qed.
Theorem C30_cbrtf : odd_fn f32 rs_cbrtf.
Proof. apply odd_intro; [exact cbrtf_tot|exact cbrtf_odd]. Qed.
Theorem C30_cosh : even_fn f64 rs_cosh.
Proof. apply even_intro; [exact cosh_tot|exact cosh_even]. Qed.
Theorem C30_j0 : even_fn f64 rs_j0.
Proof. apply even_intro; [exact j0_tot|exact j0_even]. Qed.
Theorem C30_coshf : even_fn f32 rs_coshf.
Proof. apply even_intro; [exact coshf_tot|exact coshf_even]. Qed.
Theorem C30_j0f : even_fn f32 rs_j0f.
Proof. apply even_intro; [exact j0f_tot|exact j0f_even]. Qed.

Print Assumptions C30_asin.
Print Assumptions C30_atan.
Print Assumptions C30_sinh.
Print Assumptions C30_tanh.
Print Assumptions C30_asinh.
Print Assumptions C30_atanh.
Print Assumptions C30_erf.
Print Assumptions C30_asinf.
Print Assumptions C30_atanf.
Print Assumptions C30_sinhf.
Print Assumptions C30_tanhf.
Print Assumptions C30_asinhf.
Print Assumptions C30_atanhf.
Print Assumptions C30_erff.
Print Assumptions C30_cbrtf.
Print Assumptions C30_cosh.
Print Assumptions C30_j0.
Print Assumptions C30_coshf.
Print Assumptions C30_j0f.

(** ** Examples *)
Example ex_asin : (exists r, rs_asin 0x3fd0000000000000 = Some r /\ rs_asin 0xbfd0000000000000 = Some (opposite f64 r) /\ r <> opposite f64 r) /\ rs_asin 0x8000000000000000 = Some 0x8000000000000000.
Proof. split; [eexists; split; [vm_compute; reflexivity|split; [vm_compute; reflexivity|vm_compute; discriminate]]|vm_compute; reflexivity]. Qed.
Example ex_atan : (exists r, rs_atan 0x3fd0000000000000 = Some r /\ rs_atan 0xbfd0000000000000 = Some (opposite f64 r) /\ r <> opposite f64 r) /\ rs_atan 0x8000000000000000 = Some 0x8000000000000000.
Proof. split; [eexists; split; [vm_compute; reflexivity|split; [vm_compute; reflexivity|vm_compute; discriminate]]|vm_compute; reflexivity]. Qed.
Example ex_sinh : (exists r, rs_sinh 0x3fd0000000000000 = Some r /\ rs_sinh 0xbfd0000000000000 = Some (opposite f64 r) /\ r <> opposite f64 r) /\ rs_sinh 0x8000000000000000 = Some 0x8000000000000000.
Proof. split; [eexists; split; [vm_compute; reflexivity|split; [vm_compute; reflexivity|vm_compute; discriminate]]|vm_compute; reflexivity]. Qed.
Example ex_tanh : (exists r, rs_tanh 0x3fd0000000000000 = Some r /\ rs_tanh 0xbfd0000000000000 = Some (opposite f64 r) /\ r <> opposite f64 r) /\ rs_tanh 0x8000000000000000 = Some 0x8000000000000000.
Proof. split; [eexists; split; [vm_compute; reflexivity|split; [vm_compute; reflexivity|vm_compute; discriminate]]|vm_compute; reflexivity]. Qed.
Example ex_asinh : (exists r, rs_asinh 0x3fd0000000000000 = Some r /\ rs_asinh 0xbfd0000000000000 = Some (opposite f64 r) /\ r <> opposite f64 r) /\ rs_asinh 0x8000000000000000 = Some 0x8000000000000000.
Proof. split; [eexists; split; [vm_compute; reflexivity|split; [vm_compute; reflexivity|vm_compute; discriminate]]|vm_compute; reflexivity]. Qed.
Example ex_atanh : (exists r, rs_atanh 0x3fd0000000000000 = Some r /\ rs_atanh 0xbfd0000000000000 = Some (opposite f64 r) /\ r <> opposite f64 r) /\ rs_atanh 0x8000000000000000 = Some 0x8000000000000000.
Proof. split; [eexists; split; [vm_compute; reflexivity|split; [vm_compute; reflexivity|vm_compute; discriminate]]|vm_compute; reflexivity]. Qed.
Example ex_erf : (exists r, rs_erf 0x3fd0000000000000 = Some r /\ rs_erf 0xbfd0000000000000 = Some (opposite f64 r) /\ r <> opposite f64 r) /\ rs_erf 0x8000000000000000 = Some 0x8000000000000000.
Proof. split; [eexists; split; [vm_compute; reflexivity|split; [vm_compute; reflexivity|vm_compute; discriminate]]|vm_compute; reflexivity]. Qed.
Example ex_asinf : (exists r, rs_asinf 0x3e800000 = Some r /\ rs_asinf 0xbe800000 = Some (opposite f32 r) /\ r <> opposite f32 r) /\ rs_asinf 0x80000000 = Some 0x80000000.
Proof. split; [eexists; split; [vm_compute; reflexivity|split; [vm_compute; reflexivity|vm_compute; discriminate]]|vm_compute; reflexivity]. Qed.
Example ex_atanf : (exists r, rs_atanf 0x3e800000 = Some r /\ rs_atanf 0xbe800000 = Some (opposite f32 r) /\ r <> opposite f32 r) /\ rs_atanf 0x80000000 = Some 0x80000000.
Proof. split; [eexists; split; [vm_compute; reflexivity|split; [vm_compute; reflexivity|vm_compute; discriminate]]|vm_compute; reflexivity]. Qed.
Example ex_sinhf : (exists r, rs_sinhf 0x3e800000 = Some r /\ rs_sinhf 0xbe800000 = Some (opposite f32 r) /\ r <> opposite f32 r) /\ rs_sinhf 0x80000000 = Some 0x80000000.
Proof. split; [eexists; split; [vm_compute; reflexivity|split; [vm_compute; reflexivity|vm_compute; discriminate]]|vm_compute; reflexivity]. Qed.
Example ex_tanhf : (exists r, rs_tanhf 0x3e800000 = Some r /\ rs_tanhf 0xbe800000 = Some (opposite f32 r) /\ r <> opposite f32 r) /\ rs_tanhf 0x80000000 = Some 0x80000000.
Proof. split; [eexists; split; [vm_compute; reflexivity|split; [vm_compute; reflexivity|vm_compute; discriminate]]|vm_compute; reflexivity]. Qed.
Example ex_asinhf : (exists r, rs_asinhf 0x3e800000 = Some r /\ rs_asinhf 0xbe800000 = Some (opposite f32 r) /\ r <> opposite f32 r) /\ rs_asinhf 0x80000000 = Some 0x80000000.
Proof. split; [eexists; split; [vm_compute; reflexivity|split; [vm_compute; reflexivity|vm_compute; discriminate]]|vm_compute; reflexivity]. Qed.
Example ex_atanhf : (exists r, rs_atanhf 0x3e800000 = Some r /\ rs_atanhf 0xbe800000 = Some (opposite f32 r) /\ r <> opposite f32 r) /\ rs_atanhf 0x80000000 = Some 0x80000000.
Proof. split; [eexists; split; [vm_compute; reflexivity|split; [vm_compute; reflexivity|vm_compute; discriminate]]|vm_compute; reflexivity]. Qed.
Example ex_erff : (exists r, rs_erff 0x3e800000 = Some r /\ rs_erff 0xbe800000 = Some (opposite f32 r) /\ r <> opposite f32 r) /\ rs_erff 0x80000000 = Some 0x80000000.
Proof. split; [eexists; split; [vm_compute; reflexivity|split; [vm_compute; reflexivity|vm_compute; discriminate]]|vm_compute; reflexivity]. Qed.
Example ex_cbrtf : (exists r, rs_cbrtf 0x3e800000 = Some r /\ rs_cbrtf 0xbe800000 = Some (opposite f32 r) /\ r <> opposite f32 r) /\ rs_cbrtf 0x80000000 = Some 0x80000000.
Proof. split; [eexists; split; [vm_compute; reflexivity|split; [vm_compute; reflexivity|vm_compute; discriminate]]|vm_compute; reflexivity]. Qed.
Example ex_cosh : exists r, rs_cosh 0x3fd0000000000000 = Some r /\ rs_cosh 0xbfd0000000000000 = Some r.
Proof. eexists; split; vm_compute; reflexivity. Qed.
Example ex_j0 : exists r, rs_j0 0x3fd0000000000000 = Some r /\ rs_j0 0xbfd0000000000000 = Some r.
Proof. eexists; split; vm_compute; reflexivity. Qed.
Example ex_coshf : exists r, rs_coshf 0x3e800000 = Some r /\ rs_coshf 0xbe800000 = Some r.
Proof. eexists; split; vm_compute; reflexivity. Qed.
Example ex_j0f : exists r, rs_j0f 0x3e800000 = Some r /\ rs_j0f 0xbe800000 = Some r.
Proof. eexists; split; vm_compute; reflexivity. Qed.

(** the trigonometric functions, through every reduction path *)
Theorem C30_sinf : odd_fn f32 rs_sinf.
Proof. exact sinf_odd. Qed.
Theorem C30_tanf : odd_fn f32 rs_tanf.
Proof. exact tanf_odd. Qed.
Theorem C30_cosf : even_fn f32 rs_cosf.
Proof. exact cosf_even. Qed.
Print Assumptions C30_sinf.
Print Assumptions C30_tanf.
Print Assumptions C30_cosf.
Example ex_sinf : (exists r, rs_sinf 0x7f7fffff = Some r /\ rs_sinf 0xff7fffff = Some (opposite f32 r) /\ r <> opposite f32 r) /\ rs_sinf 0x80000000 = Some 0x80000000.
Proof. split; [eexists; split; [vm_compute; reflexivity|split; [vm_compute; reflexivity|vm_compute; discriminate]]|vm_compute; reflexivity]. Qed.
Example ex_tanf : (exists r, rs_tanf 0x42c80000 = Some r /\ rs_tanf 0xc2c80000 = Some (opposite f32 r) /\ r <> opposite f32 r) /\ rs_tanf 0x80000000 = Some 0x80000000.
Proof. split; [eexists; split; [vm_compute; reflexivity|split; [vm_compute; reflexivity|vm_compute; discriminate]]|vm_compute; reflexivity]. Qed.
Example ex_cosf : exists r, rs_cosf 0x42c80000 = Some r /\ rs_cosf 0xc2c80000 = Some r.
Proof. eexists; split; vm_compute; reflexivity. Qed.
