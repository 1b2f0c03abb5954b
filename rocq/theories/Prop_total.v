(** C51: the elementary functions never panic and always return. *)
From Coq Require Import ZArith Reals Lia Lra Bool List.
From Flocq Require Import Core.
From Verif Require Import Base Spec SpecFun SpecAcc SpecElem SpecAnnexF SpecTotal SpecGamma Format P_format Ieee P_ieee P_elem P_elem2 P_tot P_exp P_log P_atrig P_erf P_bessel P_sym4 P_exp10 P_nan P_cbrt3 P_powt8 P_powt11 P_powt12 P_gam5 P_gam6
  Prop_cbrt Prop_hypot Prop_special Prop_sincos M_sqrt M_exp M_log M_pow M_atrig M_erf M_bessel M_trig M_elib M_gamma.
Import ListNotations.
Open Scope Z_scope.

(** every real number has a cube root *)
Lemma cube_root_ex r : exists v : R, (v * v * v = r)%R.
Proof.
  assert (P : forall a, (0 < a)%R -> exists v : R, (v * v * v = a)%R).
  { intros a H. exists (exp (ln a / 3)). rewrite <- !exp_plus. replace (ln a / 3 + ln a / 3 + ln a / 3)%R with (ln a) by field. now apply exp_ln. }
  destruct (Rtotal_order r 0) as [H|[H|H]].
  - destruct (P (- r)%R ltac:(lra)) as [v E]. exists (- v)%R. replace (- v * - v * - v)%R with (- (v * v * v))%R by ring. rewrite E. ring.
  - exists 0%R. rewrite H. ring.
  - exact (P r H).
Qed.
Lemma cbrt_tot : returns1 f64 rs_cbrt.
Proof.
  intros x B. destruct (class_cases f64 x) as [(G & _ & _)|[(_ & I & _)|(_ & _ & N)]].
  - destruct (cube_root_ex (val f64 x)) as [v E]. destruct (C34_cbrt_partial x v B G E) as (r & Er & (Br & _) & _). exists r. auto.
  - rewrite (isinf_eq f64 x B I). destruct (signbit f64 x); eexists; (split; [vm_compute; reflexivity|]); vm_compute; (split; [discriminate|reflexivity]).
  - destruct (cbrt_nan x B N) as (r & E & Br & _). exists r. auto.
Qed.
Lemma exp10_tot : returns1 f64 rs_exp10.
Proof. intros x B. destruct (exp10_tab x B) as [-> | H]; [|exact H]. apply pow_tot; [vm_compute; split; [discriminate|reflexivity]|exact B]. Qed.
Lemma lgamma_tot : returns1 f64 rs_lgamma.
Proof. intros x B. destruct (lgamma_r_ok x B) as (y & s & E & By & _). unfold rs_lgamma. rewrite E. exists y. auto. Qed.
Lemma lgammaf_tot : returns1 f32 rs_lgammaf.
Proof. intros x B. destruct (lgammaf_r_ok x B) as (y & s & E & By & _). unfold rs_lgammaf. rewrite E. exists y. auto. Qed.
Lemma tgamma_tot : returns1 f64 rs_tgamma. Proof. intros x B. destruct (tgamma_ok x B) as (y & E & By & _). exists y. auto. Qed.
Lemma tgammaf_tot : returns1 f32 rs_tgammaf. Proof. intros x B. destruct (tgammaf_ok x B) as (y & E & By & _). exists y. auto. Qed.

(** the functions of one f64 argument *)
Definition elem64 : list (Z -> option Z) :=
  [rs_acos; rs_acosh; rs_asin; rs_asinh; rs_atan; rs_atanh; rs_cbrt; rs_cos; rs_cosh; rs_erf; rs_erfc; rs_exp; rs_exp10; rs_exp2; rs_expm1;
   rs_j0; rs_j1; rs_lgamma; rs_log; rs_log10; rs_log1p; rs_log2; rs_sin; rs_sinh; rs_tan; rs_tanh; rs_tgamma; rs_y0; rs_y1].
Definition elem32 : list (Z -> option Z) :=
  [rs_acosf; rs_acoshf; rs_asinf; rs_asinhf; rs_atanf; rs_atanhf; rs_cbrtf; rs_cosf; rs_coshf; rs_erff; rs_erfcf; rs_expf; rs_exp10f; rs_exp2f; rs_expm1f;
   rs_j0f; rs_j1f; rs_lgammaf; rs_logf; rs_log10f; rs_log1pf; rs_log2f; rs_sinf; rs_sinhf; rs_tanf; rs_tanhf; rs_tgammaf; rs_y0f; rs_y1f].
Theorem C51_total_f64 : forall f, In f elem64 -> returns1 f64 f.
Proof.
  apply Forall_forall. unfold elem64.
  repeat (apply Forall_cons; [first [exact acos_tot|exact acosh_tot|exact asin_tot|exact asinh_tot|exact atan_tot|exact atanh_tot|exact cbrt_tot|exact cos_tot|exact cosh_tot|exact erf_tot|exact erfc_tot|exact exp_tot|exact exp10_tot|exact exp2_tot|exact expm1_tot
    |exact j0_tot|exact j1_tot|exact lgamma_tot|exact log_tot|exact log10_tot|exact log1p_tot|exact log2_tot|exact sin_tot|exact sinh_tot|exact tan_tot|exact tanh_tot|exact tgamma_tot|exact y0_tot|exact y1_tot]|]).
  apply Forall_nil.
Qed.
Theorem C51_total_f32 : forall f, In f elem32 -> returns1 f32 f.
Proof.
  apply Forall_forall. unfold elem32.
  repeat (apply Forall_cons; [first [exact acosf_tot|exact acoshf_tot|exact asinf_tot|exact asinhf_tot|exact atanf_tot|exact atanhf_tot|exact cbrtf_tot|exact cosf_tot|exact coshf_tot|exact erff_tot|exact erfcf_tot|exact expf_tot|exact exp10f_tot|exact exp2f_tot|exact expm1f_tot
    |exact j0f_tot|exact j1f_tot|exact lgammaf_tot|exact logf_tot|exact log10f_tot|exact log1pf_tot|exact log2f_tot|exact sinf_tot|exact sinhf_tot|exact tanf_tot|exact tanhf_tot|exact tgammaf_tot|exact y0f_tot|exact y1f_tot]|]).
  apply Forall_nil.
Qed.
(** two arguments *)
Theorem C51_total2_f64 : forall f, In f [rs_pow; rs_atan2; rs_hypot] -> returns2 f64 f.
Proof.
  apply Forall_forall. repeat apply Forall_cons; [exact pow_tot|exact atan2_tot| |apply Forall_nil].
  intros x y Bx By. destruct (C29_hypot x y Bx By) as (r & E & Br & _). exists r. auto.
Qed.
Theorem C51_total2_f32 : forall f, In f [rs_powf; rs_atan2f; rs_hypotf] -> returns2 f32 f.
Proof.
  apply Forall_forall. repeat apply Forall_cons; [exact powf_tot|exact atan2f_tot| |apply Forall_nil].
  intros x y Bx By. destruct (C29_hypotf x y Bx By) as (r & E & Br & _). exists r. auto.
Qed.
(** two results *)
Theorem C51_total_pair : returns_pair f64 rs_sincos (isbits f64) /\ returns_pair f32 rs_sincosf (isbits f32) /\
  returns_pair f64 rs_lgamma_r (fun s => s = 1 \/ s = -1) /\ returns_pair f32 rs_lgammaf_r (fun s => s = 1 \/ s = -1).
Proof.
  split; [|split; [|split]]; intros x B.
  - destruct (C33_sincos x B) as (s & c & E & E1 & E2). destruct (sin_tot x B) as (s' & F1 & B1). destruct (cos_tot x B) as (c' & F2 & B2). exists s, c. split; [exact E|]. split; congruence.
  - destruct (C33_sincosf x B) as (s & c & E & E1 & E2). destruct (sinf_tot x B) as (s' & F1 & B1). destruct (cosf_tot x B) as (c' & F2 & B2). exists s, c. split; [exact E|]. split; congruence.
  - destruct (lgamma_r_ok x B) as (y & s & E & By & Hs & _). exists y, s. auto.
  - destruct (lgammaf_r_ok x B) as (y & s & E & By & Hs & _). exists y, s. auto.
Qed.
Print Assumptions C51_total_f64.
Print Assumptions C51_total_f32.
Print Assumptions C51_total2_f64.
Print Assumptions C51_total2_f32.
Print Assumptions C51_total_pair.

(** pow at the edge of overflow, at a tiny base with a huge exponent, and tgamma just below its overflow test *)
Example C51_ex1 : (exists r, rs_pow 0x3ff0000000000001 0x43ffffffffffffff = Some r) /\ (exists r, rs_pow 0x0000000000000001 0xc1dfffffffc00000 = Some r) /\ (exists r, rs_tgamma 0x4066ffffffffffff = Some r).
Proof. split; [|split]; eexists; vm_compute; reflexivity. Qed.
(** the domain of the statement is not empty and not trivial: a panicking program does not satisfy it *)
Example C51_ex2 : ~ returns1 f64 (fun x => if x =? 0x7ff8000000000000 then None else Some x).
Proof. intros H. destruct (H 0x7ff8000000000000) as (r & E & _); [vm_compute; split; [discriminate|reflexivity]|]. discriminate E. Qed.
