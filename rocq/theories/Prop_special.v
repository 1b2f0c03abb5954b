(** Property C31: special values of the elementary functions. *)
From Coq Require Import ZArith Znumtheory Reals Lia Lra Bool List.
From Flocq Require Import Core.
From Verif Require Import Base Spec SpecElem SpecAnnexF Format P_format Ieee P_ieee P_real P_key P_neg M_scalbn M_sqrt M_elib
  M_rempio2 M_trig M_exp M_log M_atrig M_erf M_pow P_elem P_elem2 P_ival P_tot P_exp P_log P_lit P_nan P_dom P_pi P_acosh.
Open Scope Z_scope.

Lemma sinf_nan : nan_to_nan f32 rs_sinf.
Proof. nan32 rs_sinf; nwalk. Qed.
Lemma cosf_nan : nan_to_nan f32 rs_cosf.
Proof. nan32 rs_cosf; nwalk. Qed.
Lemma tanf_nan : nan_to_nan f32 rs_tanf.
Proof. nan32 rs_tanf; nwalk. Qed.
Lemma sin_nan : nan_to_nan f64 rs_sin.
Proof. nan64 rs_sin; nwalk. Qed.
Lemma cos_nan : nan_to_nan f64 rs_cos.
Proof. nan64 rs_cos; nwalk. Qed.
Lemma tan_nan : nan_to_nan f64 rs_tan.
Proof. nan64 rs_tan; nwalk. Qed.
Lemma cbrtf_nan : nan_to_nan f32 rs_cbrtf.
Proof. nan32 rs_cbrtf; nwalk. Qed.
Lemma cbrt_nan : nan_to_nan f64 rs_cbrt.
Proof.
  intros x B N. unfold to_nan, rs_cbrt, rs_cbrt_cbrt_round. cbv zeta.
  assert (E : Z.land (to_u 32 (Z.shiftr x 52)) (EXP_SAT f64) = 2047).
  { change (EXP_SAT f64) with 2047. destruct (nan64_facts x B N) as (R & _ & _ & _). destruct (bits64 x B) as [E _].
    change 2047 with (2 ^ 11 - 1). rewrite land_pow2m1 by lia. unfold to_u. rewrite Z.shiftr_div_pow2 by lia.
    rewrite <- (Zmod_div_mod (2 ^ 11) (2 ^ 32)); [|lia|lia|exists (2 ^ 21); lia].
    change 2047 with (2 ^ 11 - 1) in *. pose proof (ex64 x B) as H. rewrite Z.shiftr_div_pow2 in H by lia. change 2047 with (2 ^ 11 - 1) in H. rewrite land_pow2m1 in H by lia. rewrite H.
    symmetry. apply Z.div_unique with (a64 x - 2047 * 2 ^ 52); lia. }
  rewrite E. change (uadd 32 2047 1) with (Some 2048). cbn [bind].
  change (Z.land 2048 (EXP_SAT f64) <? 2) with true. change (2047 =? EXP_SAT f64) with true. cbn [orb]. nfin.
Qed.

Ltac tonan := unfold to_nan; match goal with |- exists r, ?t = _ /\ _ => let v := eval vm_compute in t in
  lazymatch v with Some ?r => exists r; split; [vm_compute; reflexivity|split; [vm_compute; split; (discriminate || reflexivity)|vm_compute; reflexivity]] end end.
Ltac spec n := lazymatch goal with |- ?p _ _ => unfold p end; repeat match goal with
  | |- _ /\ _ => split
  | |- zero_to_zero _ _ => intros []
  | |- inf_to_inf _ _ => intros []
  | |- inf_to_nan _ _ => intros []
  | |- forall s : bool, _ => intros []
  | |- nan_to_nan _ _ => exact n
  | |- to_nan _ _ _ => tonan
  | |- _ = Some _ => vm_compute; reflexivity
  end.

Theorem C31_exp : exp_special f64 rs_exp.     Proof. spec exp_nan. Qed.
Theorem C31_expf : exp_special f32 rs_expf.   Proof. spec expf_nan. Qed.
Theorem C31_exp2 : exp_special f64 rs_exp2.   Proof. spec exp2_nan. Qed.
Theorem C31_exp2f : exp_special f32 rs_exp2f. Proof. spec exp2f_nan. Qed.
Theorem C31_expm1 : expm1_special f64 rs_expm1.   Proof. spec expm1_nan. Qed.
Theorem C31_expm1f : expm1_special f32 rs_expm1f. Proof. spec expm1f_nan. Qed.
Theorem C31_log : log_special f64 rs_log.         Proof. spec log_nan. exact log_dom. Qed.
Theorem C31_logf : log_special f32 rs_logf.       Proof. spec logf_nan. exact logf_dom. Qed.
Theorem C31_log2 : log_special f64 rs_log2.       Proof. spec log2_nan. exact log2_dom. Qed.
Theorem C31_log2f : log_special f32 rs_log2f.     Proof. spec log2f_nan. exact log2f_dom. Qed.
Theorem C31_log10 : log_special f64 rs_log10.     Proof. spec log10_nan. exact log10_dom. Qed.
Theorem C31_log10f : log_special f32 rs_log10f.   Proof. spec log10f_nan. exact log10f_dom. Qed.
Theorem C31_log1p : log1p_special f64 rs_log1p.   Proof. spec log1p_nan. exact log1p_dom. Qed.
Theorem C31_log1pf : log1p_special f32 rs_log1pf. Proof. spec log1pf_nan. exact log1pf_dom. Qed.
Theorem C31_sin : sin_special f64 rs_sin.         Proof. spec sin_nan. Qed.
Theorem C31_sinf : sin_special f32 rs_sinf.       Proof. spec sinf_nan. Qed.
Theorem C31_tan : sin_special f64 rs_tan.         Proof. spec tan_nan. Qed.
Theorem C31_tanf : sin_special f32 rs_tanf.       Proof. spec tanf_nan. Qed.
Theorem C31_cos : cos_special f64 rs_cos.         Proof. spec cos_nan. Qed.
Theorem C31_cosf : cos_special f32 rs_cosf.       Proof. spec cosf_nan. Qed.
Theorem C31_asin : asin_special f64 rs_asin.      Proof. spec asin_nan. exact asin_dom. Qed.
Theorem C31_asinf : asin_special f32 rs_asinf.    Proof. spec asinf_nan. exact asinf_dom. Qed.
Theorem C31_acos : acos_special f64 rs_acos.      Proof. spec acos_nan. exact acos_dom. Qed.
Theorem C31_acosf : acos_special f32 rs_acosf.    Proof. spec acosf_nan. exact acosf_dom. Qed.
Theorem C31_sinh : sinh_special f64 rs_sinh.      Proof. spec sinh_nan. Qed.
Theorem C31_sinhf : sinh_special f32 rs_sinhf.    Proof. spec sinhf_nan. Qed.
Theorem C31_asinh : sinh_special f64 rs_asinh.    Proof. spec asinh_nan. Qed.
Theorem C31_asinhf : sinh_special f32 rs_asinhf.  Proof. spec asinhf_nan. Qed.
Theorem C31_cbrt : sinh_special f64 rs_cbrt.      Proof. spec cbrt_nan. Qed.
Theorem C31_cbrtf : sinh_special f32 rs_cbrtf.    Proof. spec cbrtf_nan. Qed.
Theorem C31_cosh : cosh_special f64 rs_cosh.      Proof. spec cosh_nan. Qed.
Theorem C31_coshf : cosh_special f32 rs_coshf.    Proof. spec coshf_nan. Qed.
Theorem C31_tanh : tanh_special f64 rs_tanh.      Proof. spec tanh_nan. Qed.
Theorem C31_tanhf : tanh_special f32 rs_tanhf.    Proof. spec tanhf_nan. Qed.
Theorem C31_erf : tanh_special f64 rs_erf.        Proof. spec erf_nan. Qed.
Theorem C31_erff : tanh_special f32 rs_erff.      Proof. spec erff_nan. Qed.
Theorem C31_erfc : erfc_special f64 rs_erfc.      Proof. spec erfc_nan. Qed.
Theorem C31_erfcf : erfc_special f32 rs_erfcf.    Proof. spec erfcf_nan. Qed.
Theorem C31_atanh : atanh_special f64 rs_atanh.   Proof. spec atanh_nan. exact atanh_dom. Qed.
Theorem C31_atanhf : atanh_special f32 rs_atanhf. Proof. spec atanhf_nan. exact atanhf_dom. Qed.
Theorem C31_acosh : acosh_special f64 rs_acosh.   Proof. spec acosh_nan. Qed.
Theorem C31_acoshf : acosh_special f32 rs_acoshf. Proof. spec acoshf_nan. Qed.
Theorem C31_atan : atan_special f64 rs_atan.
Proof.
  spec atan_nan.
  all: pose proof pi_120 as [L U]; change (2 ^ 120) with 1329227995784915872903807060280344576 in *.
  - exists 0xbff921fb54442d18. split; [vm_compute; reflexivity|]. split; [vm_compute; split; (discriminate || reflexivity)|]. split; [reflexivity|].
    rewrite (val_lit f64 0xbff921fb54442d18 (-7074237752028440) 4503599627370496) by (vm_compute; reflexivity). replace (bpow radix2 (- mw f64)) with (/ IZR 4503599627370496)%R by reflexivity. apply Rabs_lt. lra.
  - exists 0x3ff921fb54442d18. split; [vm_compute; reflexivity|]. split; [vm_compute; split; (discriminate || reflexivity)|]. split; [reflexivity|].
    rewrite (val_lit f64 0x3ff921fb54442d18 7074237752028440 4503599627370496) by (vm_compute; reflexivity). replace (bpow radix2 (- mw f64)) with (/ IZR 4503599627370496)%R by reflexivity. apply Rabs_lt. lra.
Qed.
Theorem C31_atanf : atan_special f32 rs_atanf.
Proof.
  spec atanf_nan.
  all: pose proof pi_120 as [L U]; change (2 ^ 120) with 1329227995784915872903807060280344576 in *.
  - exists 0xbfc90fda. split; [vm_compute; reflexivity|]. split; [vm_compute; split; (discriminate || reflexivity)|]. split; [reflexivity|].
    rewrite (val_lit f32 0xbfc90fda (-13176794) 8388608) by (vm_compute; reflexivity). replace (bpow radix2 (- mw f32)) with (/ IZR 8388608)%R by reflexivity. apply Rabs_lt. lra.
  - exists 0x3fc90fda. split; [vm_compute; reflexivity|]. split; [vm_compute; split; (discriminate || reflexivity)|]. split; [reflexivity|].
    rewrite (val_lit f32 0x3fc90fda 13176794 8388608) by (vm_compute; reflexivity). replace (bpow radix2 (- mw f32)) with (/ IZR 8388608)%R by reflexivity. apply Rabs_lt. lra.
Qed.
(** atan(inf) is the nearest double; atanf(inf) is 0x3fc90fda, one below the nearest float 0x3fc90fdb. *)
Theorem C31_atan_inf : exists r, rs_atan (infinity f64 false) = Some r /\ rounds_to f64 (PI / 2) false r.
Proof. exists 0x3ff921fb54442d18. split; [vm_compute; reflexivity|apply pio2_64]. Qed.
(** The domain clause of acosh fails: acosh.rs lines 21-23 and acoshf.rs lines 17-19 accept negative arguments in the middle
    branch (the exponent tests ignore the sign), and the logarithm of the tiny sum that is left there is finite.
    acosh(-6540.0) = -15.47..., acoshf(-579.43585) = 2.43.... *)
Theorem C31_acosh_refuted : ~ nan_where f64 rs_acosh (fun v => v < 1)%R.
Proof.
  intros H. destruct (H 0xc0b98c0000000000) as (r & E & _ & N).
  - vm_compute. split; (discriminate || reflexivity).
  - reflexivity.
  - rewrite (val_lit f64 0xc0b98c0000000000 (-6540) 1) by (vm_compute; reflexivity). lra.
  - assert (E' : rs_acosh 0xc0b98c0000000000 = Some 0xc02ef2ec46101af2) by (vm_compute; reflexivity).
    rewrite E' in E. injection E as <-. discriminate N.
Qed.
Theorem C31_acoshf_refuted : ~ nan_where f32 rs_acoshf (fun v => v < 1)%R.
Proof.
  intros H. destruct (H 0xc410dbe5) as (r & E & _ & N).
  - vm_compute. split; (discriminate || reflexivity).
  - reflexivity.
  - rewrite (val_lit f32 0xc410dbe5 (-9493477) 16384) by (vm_compute; reflexivity). lra.
  - assert (E' : rs_acoshf 0xc410dbe5 = Some 0x401bd485) by (vm_compute; reflexivity).
    rewrite E' in E. injection E as <-. discriminate N.
Qed.
(** What holds: every argument below 1 outside (-2^26, -2], resp. (-4096, -2], gives a NaN. *)
Theorem C31_acosh_partial : nan_where f64 rs_acosh (fun v => v < 1 /\ (-2 < v \/ v <= -67108864))%R.
Proof. exact acosh_dom. Qed.
Theorem C31_acoshf_partial : nan_where f32 rs_acoshf (fun v => v < 1 /\ (-2 < v \/ v <= -4096))%R.
Proof. exact acoshf_dom. Qed.

Print Assumptions C31_exp.
Print Assumptions C31_expf.
Print Assumptions C31_exp2.
Print Assumptions C31_exp2f.
Print Assumptions C31_expm1.
Print Assumptions C31_expm1f.
Print Assumptions C31_log.
Print Assumptions C31_logf.
Print Assumptions C31_log2.
Print Assumptions C31_log2f.
Print Assumptions C31_log10.
Print Assumptions C31_log10f.
Print Assumptions C31_log1p.
Print Assumptions C31_log1pf.
Print Assumptions C31_sin.
Print Assumptions C31_sinf.
Print Assumptions C31_tan.
Print Assumptions C31_tanf.
Print Assumptions C31_cos.
Print Assumptions C31_cosf.
Print Assumptions C31_asin.
Print Assumptions C31_asinf.
Print Assumptions C31_acos.
Print Assumptions C31_acosf.
Print Assumptions C31_sinh.
Print Assumptions C31_sinhf.
Print Assumptions C31_asinh.
Print Assumptions C31_asinhf.
Print Assumptions C31_cbrt.
Print Assumptions C31_cbrtf.
Print Assumptions C31_cosh.
Print Assumptions C31_coshf.
Print Assumptions C31_tanh.
Print Assumptions C31_tanhf.
Print Assumptions C31_erf.
Print Assumptions C31_erff.
Print Assumptions C31_erfc.
Print Assumptions C31_erfcf.
Print Assumptions C31_atanh.
Print Assumptions C31_atanhf.
Print Assumptions C31_acosh.
Print Assumptions C31_acoshf.
Print Assumptions C31_atan.
Print Assumptions C31_atanf.
Print Assumptions C31_atan_inf.
Print Assumptions C31_acosh_refuted.
Print Assumptions C31_acoshf_refuted.
Print Assumptions C31_acosh_partial.
Print Assumptions C31_acoshf_partial.

(** Concrete instances. *)
Example C31_ex_log : to_nan f64 rs_log 0xbff0000000000000.
Proof. tonan. Qed.
Example C31_ex_asinf : to_nan f32 rs_asinf 0x3f800001.
Proof. tonan. Qed.
Example C31_ex_atan : rs_atan 0x7ff0000000000000 = Some 0x3ff921fb54442d18.
Proof. vm_compute. reflexivity. Qed.
Example C31_ex_acosh : rs_acosh 0xc0b98c0000000000 = Some 0xc02ef2ec46101af2.
Proof. vm_compute. reflexivity. Qed.
