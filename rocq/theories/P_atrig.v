(** The inverse trigonometric functions never panic. *)
From Coq Require Import ZArith Reals Lia Lra Bool List.
From Flocq Require Import Core.
From Verif Require Import Base Spec SpecElem Format P_format Ieee P_ieee P_real P_key P_neg M_basic P_round2 M_sqrt M_elib M_atrig P_elem P_elem2 P_ival P_ival2 P_tot P_exp P_log.
Open Scope Z_scope.

Lemma fabs_isbits F x : isbits F x -> isbits F (fabs F x).
Proof. intros B. rewrite fabs_eq by assumption. apply with_sign_fields. Qed.
Lemma asinf_tot : total1 f32 f32 rs_asinf.
Proof. intros x B. unfold rs_asinf. walk. call sqrt_total. walk. Qed.
Lemma acosf_tot : total1 f32 f32 rs_acosf.
Proof. intros x B. unfold rs_acosf. walk; call sqrtf_total; walk. Qed.
Lemma atanf_1_tot x s id : isbits f32 x -> -1 <= id <= 3 -> exists r, rs_atanf_1 x s id = Some r /\ isbits f32 r.
Proof.
  intros B H. cbv beta delta [rs_atanf_1]. absw. bprop. unfold to_u. rewrite Z.mod_small by lia.
  destruct (tab_get_ok rs_atanf_ATAN_HI id) as (v & -> & _); [cbn [length rs_atanf_ATAN_HI]; lia|]. absw.
  destruct (tab_get_ok rs_atanf_ATAN_LO id) as (w & -> & _); [cbn [length rs_atanf_ATAN_LO]; lia|]. absw.
Qed.
Lemma atanf_tot : total1 f32 f32 rs_atanf.
Proof. intros x B. unfold rs_atanf. walk; apply atanf_1_tot; try lia; bitsok. Qed.
Lemma asin_tot : total1 f64 f64 rs_asin.
Proof. intros x B. unfold rs_asin. words64 x B. walk; bprop; try (rewrite usub_ok by lia; walk). call sqrt_total. walk. Qed.
Lemma acos_tot : total1 f64 f64 rs_acos.
Proof. intros x B. unfold rs_acos. words64 x B. walk; bprop; try (rewrite usub_ok by lia; walk); call sqrt_total; walk. Qed.
Lemma atan_1_tot x s id : isbits f64 x -> -1 <= id <= 3 -> exists r, rs_atan_1 x s id = Some r /\ isbits f64 r.
Proof.
  intros B H. cbv beta delta [rs_atan_1]. absw. bprop. unfold to_u. rewrite Z.mod_small by lia.
  destruct (tab_get_ok rs_atan_ATANHI id) as (v & -> & _); [cbn [length rs_atan_ATANHI]; lia|]. absw.
  destruct (tab_get_ok rs_atan_ATANLO id) as (w & -> & _); [cbn [length rs_atan_ATANLO]; lia|]. absw.
Qed.
Lemma atan_tot : total1 f64 f64 rs_atan.
Proof. intros x B. unfold rs_atan. walk; apply atan_1_tot; try lia; bitsok. Qed.
Lemma atan2f_tot y x : isbits f32 y -> isbits f32 x -> exists r, rs_atan2f y x = Some r /\ isbits f32 r.
Proof.
  intros By Bx. unfold rs_atan2f. words32 x Bx. words32 y By. destruct (bits32 x Bx) as [_ Rx]. destruct (bits32 y By) as [_ Ry].
  walk; try (apply atanf_tot; assumption); rewrite uadd_ok by lia; walk; try (rewrite uadd_ok by lia; walk);
   pose proof (fabs_isbits f32 (y /' x)%fl (fdiv_isbits f32 y x)); call atanf_tot; walk.
Qed.
Lemma atan2_tot y x : isbits f64 y -> isbits f64 x -> exists r, rs_atan2 y x = Some r /\ isbits f64 r.
Proof.
  intros By Bx. cbv beta delta [rs_atan2]. walk; try (apply atan_tot; assumption);
   pose proof (fabs_isbits f64 (y /: x)%fl (fdiv_isbits f64 y x)); call atan_tot; walk.
Qed.
