(** The error functions never panic. *)
From Coq Require Import ZArith Reals Lia Lra Bool List.
From Flocq Require Import Core.
From Verif Require Import Base Spec SpecElem Format P_format Ieee P_ieee P_real P_key P_neg M_scalbn M_sqrt P_scalbn M_elib SpecFun M_exp M_erf P_elem P_elem2 P_ival P_ival2 P_tot P_exp P_log P_atrig.
Open Scope Z_scope.

Lemma erff_erfc1_bits x : isbits f32 (rs_erff_erfc1 x).
Proof. unfold rs_erff_erfc1. cbv zeta. bitsok. Qed.
Lemma erf_erfc1_bits x : isbits f64 (rs_erf_erfc1 x).
Proof. unfold rs_erf_erfc1. cbv zeta. bitsok. Qed.
Lemma erff_erfc2_tot ix x : isbits f32 x -> exists r, rs_erff_erfc2 ix x = Some r /\ isbits f32 r.
Proof.
  intros B. cbv beta delta [rs_erff_erfc2]. absw.
  - eexists. split; [reflexivity|]. apply erff_erfc1_bits.
  - cbv zeta iota. repeat (call expf_tot; walk).
  - cbv zeta iota. repeat (call expf_tot; walk).
Qed.
Lemma erf_erfc2_tot ix x : isbits f64 x -> exists r, rs_erf_erfc2 ix x = Some r /\ isbits f64 r.
Proof.
  intros B. cbv beta delta [rs_erf_erfc2]. absw.
  - eexists. split; [reflexivity|]. apply erf_erfc1_bits.
  - cbv zeta iota. repeat (call exp_tot; walk).
  - cbv zeta iota. repeat (call exp_tot; walk).
Qed.
Ltac call2 lem := match goal with |- exists r, bind (?f ?i ?a) _ = Some r /\ _ => destruct (lem i a ltac:(bitsok)) as (? & -> & ?) end.
Lemma erff_tot : total1 f32 f32 rs_erff.
Proof. intros x B. cbv beta delta [rs_erff]. absw; walk; call2 erff_erfc2_tot; walk. Qed.
Lemma erf_tot : total1 f64 f64 rs_erf.
Proof. intros x B. cbv beta delta [rs_erf]. absw; walk; call2 erf_erfc2_tot; walk. Qed.
Lemma erfcf_tot : total1 f32 f32 rs_erfcf.
Proof. intros x B. cbv beta delta [rs_erfcf]. absw; try (apply erff_erfc2_tot; assumption); walk; call2 erff_erfc2_tot; walk. Qed.
Lemma erfc_tot : total1 f64 f64 rs_erfc.
Proof. intros x B. cbv beta delta [rs_erfc]. absw; try (apply erf_erfc2_tot; assumption); walk; call2 erf_erfc2_tot; walk. Qed.
