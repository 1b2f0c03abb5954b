(** NaN arguments of the elementary functions. *)
From Coq Require Import ZArith Reals Lia Lra Bool List.
From Flocq Require Import Core.
From Verif Require Import Base Spec SpecElem SpecAnnexF Format P_format Ieee P_ieee P_real P_key P_neg M_scalbn M_sqrt P_scalbn M_elib
  SpecFun Prop_sqrt Prop_scale M_exp M_log M_atrig M_erf P_elem P_elem2 P_ival P_ival2 P_tot P_exp P_log.
Open Scope Z_scope.

Ltac btrue := repeat first [rewrite orb_true_iff | rewrite andb_true_iff | rewrite negb_true_iff | rewrite orb_false_iff | rewrite andb_false_iff | rewrite negb_false_iff
   | rewrite Z.leb_le | rewrite Z.ltb_lt | rewrite Z.eqb_eq | rewrite Z.leb_gt | rewrite Z.ltb_ge | rewrite Z.eqb_neq]; lia.
(** Decide a branch from the hypotheses on the words of the argument. *)
Ltac decide_if := match goal with |- context[if ?c then _ else _] => first
  [ let H := fresh in assert (H : c = true) by btrue; rewrite H; clear H
  | let H := fresh in assert (H : c = false) by btrue; rewrite H; clear H ] end.
Ltac nanok := lazymatch goal with
  | |- isnan _ (fadd _ ?a ?b) = true => apply fadd_nan; apply orb_true_iff; first [left; nanok | right; nanok]
  | |- isnan _ (fsub _ ?a ?b) = true => apply fsub_nan; apply orb_true_iff; first [left; nanok | right; nanok]
  | |- isnan _ (fmul _ ?a ?b) = true => apply fmul_nan; apply orb_true_iff; first [left; nanok | right; nanok]
  | |- isnan _ (fdiv _ ?a ?b) = true => apply fdiv_nan; apply orb_true_iff; first [left; nanok | right; nanok]
  | |- isnan _ (fneg _ _) = true => rewrite fneg_nan; [nanok | bitsok]
  | |- isnan _ (fcvt _ _ _) = true => apply fcvt_nan; nanok
  | |- _ => assumption
  end.
Ltac nfin := lazymatch goal with |- exists r, Some ?t = Some r /\ _ => exists t; split; [reflexivity|split; [bitsok|nanok]] end.
Ltac nwalk1 := lazymatch goal with
  | |- exists r, (if ?c then _ else _) = Some r /\ _ => decide_if
  | |- exists r, bind (Some ?a) ?f = Some r /\ _ => change (bind (Some a) f) with (f a); cbv beta
  | |- exists r, bind (if ?c then _ else _) _ = Some r /\ _ => decide_if
  | |- exists r, bind (bind _ _) _ = Some r /\ _ => rewrite bind_assoc
  | |- exists r, Some ?t = Some r /\ _ => nfin
  end.
Ltac nwalk := repeat (cbv zeta beta iota; nwalk1).

Lemma nan64_facts x : isbits f64 x -> isnan f64 x = true -> 0x7ff0000000000000 < a64 x < 2 ^ 63 /\ 0x7ff00000 <= a64 x / 2 ^ 32 < 2 ^ 31 /\
   a64 x / 2 ^ 32 * 2 ^ 32 <= a64 x < (a64 x / 2 ^ 32 + 1) * 2 ^ 32 /\ x = bs (signbit f64 x) * 2 ^ 63 + a64 x.
Proof.
  intros B N. pose proof N as N'. rewrite nan64, Z.ltb_lt in N' by assumption. destruct (bits64 x B) as [E R]. pose proof (hi_lo64 x B). pose proof (a64_hi x B).
  repeat split; try lia.
Qed.
Lemma nan32_facts x : isbits f32 x -> isnan f32 x = true -> 0x7f800000 < a32 x < 2 ^ 31 /\ x = bs (signbit f32 x) * 2 ^ 31 + a32 x.
Proof. intros B N. rewrite nan32, Z.ltb_lt in N by assumption. destruct (bits32 x B) as [E R]. repeat split; lia. Qed.
(** [|x|] of a NaN is a NaN. *)
Lemma nan_a64 x : isbits f64 x -> isnan f64 x = true -> isbits f64 (a64 x) /\ isnan f64 (a64 x) = true.
Proof.
  intros B N. destruct (nan64_facts x B N) as (R & _). destruct (pos64 (a64 x)) as (B' & E & _); [lia|]. split; [assumption|].
  rewrite nan64, E by assumption. apply Z.ltb_lt. lia.
Qed.
Lemma nan_a32 x : isbits f32 x -> isnan f32 x = true -> isbits f32 (a32 x) /\ isnan f32 (a32 x) = true.
Proof.
  intros B N. destruct (nan32_facts x B N) as (R & _). destruct (pos32 (a32 x)) as (B' & E & _); [lia|]. split; [assumption|].
  rewrite nan32, E by assumption. apply Z.ltb_lt. lia.
Qed.
Lemma sqrt_nan x : isbits f64 x -> isnan f64 x = true -> exists r, M_sqrt.sqrt x = Some r /\ isbits f64 r /\ isnan f64 r = true.
Proof. intros B N. destruct (C20_sqrt x B) as (r & E & S). exists r. destruct S as (SB & _ & _ & _ & SN). auto. Qed.
Lemma sqrtf_nan x : isbits f32 x -> isnan f32 x = true -> exists r, M_sqrt.sqrtf x = Some r /\ isbits f32 r /\ isnan f32 r = true.
Proof. intros B N. destruct (C20_sqrtf x B) as (r & E & S). exists r. destruct S as (SB & _ & _ & _ & SN). auto. Qed.

Ltac nan64 f := let x := fresh "x" in let B := fresh "B" in let N := fresh "N" in intros x B N; unfold to_nan; unfold f;
  words64 x B; rewrite ?bs_pos, ?(shl1_64 x B); destruct (nan64_facts x B N) as (?R & ?R & ?R & ?E); destruct (nan_a64 x B N) as [? ?];
  rewrite ?(is_nan_eq f64 x B), ?N; destruct (signbit f64 x) eqn:?S; unfold bs in *; rewrite ?negb_involutive.
Ltac nan32 f := let x := fresh "x" in let B := fresh "B" in let N := fresh "N" in intros x B N; unfold to_nan; unfold f;
  words32 x B; rewrite ?bs_pos, ?(shl1_32 x B); destruct (nan32_facts x B N) as (?R & ?E); destruct (nan_a32 x B N) as [? ?];
  rewrite ?(is_nan_eq f32 x B), ?N; destruct (signbit f32 x) eqn:?S; unfold bs in *; rewrite ?negb_involutive.
Lemma expf_nan : nan_to_nan f32 rs_expf.
Proof. nan32 rs_expf; nwalk. Qed.
Lemma exp_nan : nan_to_nan f64 rs_exp.
Proof. nan64 rs_exp; nwalk. Qed.
Lemma exp2f_nan : nan_to_nan f32 rs_exp2f.
Proof. nan32 rs_exp2f; nwalk. Qed.
Lemma exp2_nan : nan_to_nan f64 rs_exp2.
Proof. nan64 rs_exp2; nwalk. Qed.
Lemma expm1f_nan : nan_to_nan f32 rs_expm1f.
Proof. nan32 rs_expm1f; nwalk. Qed.
Lemma expm1_nan : nan_to_nan f64 rs_expm1.
Proof. nan64 rs_expm1; nwalk. Qed.
Ltac ncall lem := match goal with |- exists r, bind (?f ?a) _ = Some r /\ _ => destruct (lem a ltac:(bitsok) ltac:(nanok)) as (? & -> & ? & ?) end.
Ltac ntail lem := match goal with |- exists r, ?f ?a = Some r /\ _ => exact (lem a ltac:(bitsok) ltac:(nanok)) end.
Lemma k_expo2f_nan : nan_to_nan f32 rs_k_expo2f.
Proof. intros x B N. unfold to_nan, rs_k_expo2f. ncall expf_nan. nwalk. Qed.
Lemma k_expo2_nan : nan_to_nan f64 rs_k_expo2.
Proof. intros x B N. unfold to_nan, rs_k_expo2. ncall exp_nan. nwalk. Qed.
Lemma expo2_nan : nan_to_nan f64 rs_expo2.
Proof. intros x B N. unfold to_nan, rs_expo2. rewrite sadd_ok by (vm_compute; split; [discriminate|reflexivity]). nwalk. ncall exp_nan. nwalk. Qed.
Lemma sinhf_nan : nan_to_nan f32 rs_sinhf.
Proof. nan32 rs_sinhf; nwalk; ncall k_expo2f_nan; nwalk. Qed.
Lemma coshf_nan : nan_to_nan f32 rs_coshf.
Proof. nan32 rs_coshf; nwalk; ntail k_expo2f_nan. Qed.
Lemma tanhf_nan : nan_to_nan f32 rs_tanhf.
Proof. nan32 rs_tanhf; nwalk. Qed.
Lemma sinh_nan : nan_to_nan f64 rs_sinh.
Proof. nan64 rs_sinh; nwalk; ncall expo2_nan; nwalk. Qed.
Lemma cosh_nan : nan_to_nan f64 rs_cosh.
Proof. nan64 rs_cosh; nwalk; ntail k_expo2_nan. Qed.
Lemma tanh_nan : nan_to_nan f64 rs_tanh.
Proof. nan64 rs_tanh; nwalk. Qed.
Lemma logf_nan : nan_to_nan f32 rs_logf.
Proof. nan32 rs_logf; nwalk. Qed.
Lemma log2f_nan : nan_to_nan f32 rs_log2f.
Proof. nan32 rs_log2f; nwalk. Qed.
Lemma log10f_nan : nan_to_nan f32 rs_log10f.
Proof. nan32 rs_log10f; nwalk. Qed.
Lemma log_nan : nan_to_nan f64 rs_log.
Proof. nan64 rs_log; nwalk. Qed.
Lemma log2_nan : nan_to_nan f64 rs_log2.
Proof. nan64 rs_log2; nwalk. Qed.
Lemma log10_nan : nan_to_nan f64 rs_log10.
Proof. nan64 rs_log10; nwalk. Qed.
Lemma feq_nan F x y : isnan F x = true -> feq F x y = false.
Proof. intros N. apply (cmp_nan F x y N). Qed.
Lemma log1pf_nan : nan_to_nan f32 rs_log1pf.
Proof. nan32 rs_log1pf; rewrite ?(feq_nan f32 x _ N); nwalk. Qed.
Lemma log1p_nan : nan_to_nan f64 rs_log1p.
Proof. nan64 rs_log1p; rewrite ?(feq_nan f64 x _ N); nwalk. Qed.
Lemma ex64 x : isbits f64 x -> Z.land (Z.shiftr x 52) 2047 = a64 x / 2 ^ 52.
Proof.
  intros B. destruct (bits64 x B) as [E R]. rewrite Z.shiftr_div_pow2 by lia. change 2047 with (2 ^ 11 - 1). rewrite land_pow2m1 by lia.
  rewrite E at 1. replace (bs (signbit f64 x) * 2 ^ 63 + a64 x) with (a64 x + bs (signbit f64 x) * 2 ^ 11 * 2 ^ 52) by lia.
  rewrite Z.div_add by lia. rewrite Z.mod_add by lia. apply Z.mod_small. split; [apply Z.div_pos; lia|apply Z.div_lt_upper_bound; lia].
Qed.
Lemma ex64_le x : a64 x / 2 ^ 52 * 2 ^ 52 <= a64 x < (a64 x / 2 ^ 52 + 1) * 2 ^ 52.
Proof. pose proof (Z.div_mod (a64 x) (2 ^ 52)). pose proof (Z.mod_pos_bound (a64 x) (2 ^ 52)). lia. Qed.
Lemma asinhf_nan : nan_to_nan f32 rs_asinhf.
Proof. nan32 rs_asinhf; nwalk; ncall logf_nan; nwalk. Qed.
Lemma acoshf_nan : nan_to_nan f32 rs_acoshf.
Proof. nan32 rs_acoshf; nwalk; ncall logf_nan; nwalk. Qed.
Lemma atanhf_nan : nan_to_nan f32 rs_atanhf.
Proof. nan32 rs_atanhf; nwalk; ncall log1pf_nan; nwalk. Qed.
Lemma asinh_nan : nan_to_nan f64 rs_asinh.
Proof. nan64 rs_asinh; rewrite ?a64_sh, ?(ex64 x B); pose proof (ex64_le x); nwalk; ncall log_nan; nwalk. Qed.
Lemma acosh_nan : nan_to_nan f64 rs_acosh.
Proof. nan64 rs_acosh; rewrite ?a64_sh, ?(ex64 x B); pose proof (ex64_le x); nwalk; ncall log_nan; nwalk. Qed.
Lemma atanh_nan : nan_to_nan f64 rs_atanh.
Proof. nan64 rs_atanh; rewrite ?a64_sh, ?(ex64 x B); pose proof (ex64_le x); nwalk; ncall log1p_nan; nwalk. Qed.
Lemma asinf_nan : nan_to_nan f32 rs_asinf.
Proof. nan32 rs_asinf; nwalk. Qed.
Lemma acosf_nan : nan_to_nan f32 rs_acosf.
Proof. nan32 rs_acosf; nwalk. Qed.
Lemma atanf_nan : nan_to_nan f32 rs_atanf.
Proof. nan32 rs_atanf; nwalk. Qed.
Lemma lor_eq0 a b : 0 <= a -> 0 <= b -> (Z.lor a b =? 0) = (a =? 0) && (b =? 0).
Proof.
  intros Ha Hb. apply eq_true_iff_eq. rewrite andb_true_iff, !Z.eqb_eq. rewrite Z.lor_eq_0_iff. tauto.
Qed.
Lemma lw_pos x : 0 <= get_low_word x. Proof. apply Z.mod_pos_bound; lia. Qed.
Lemma asin_nan : nan_to_nan f64 rs_asin.
Proof. nan64 rs_asin; nwalk; rewrite usub_ok by lia; nwalk; (rewrite lor_eq0; [|lia|apply lw_pos]); nwalk. Qed.
Lemma acos_nan : nan_to_nan f64 rs_acos.
Proof. nan64 rs_acos; nwalk; rewrite usub_ok by lia; nwalk; (rewrite lor_eq0; [|lia|apply lw_pos]); nwalk. Qed.
Lemma atan_nan : nan_to_nan f64 rs_atan.
Proof. nan64 rs_atan; nwalk. Qed.
Lemma erff_nan : nan_to_nan f32 rs_erff.
Proof. nan32 rs_erff; nwalk. Qed.
Lemma erf_nan : nan_to_nan f64 rs_erf.
Proof. nan64 rs_erf; nwalk. Qed.
Lemma erfcf_nan : nan_to_nan f32 rs_erfcf.
Proof. nan32 rs_erfcf; nwalk. Qed.
Lemma erfc_nan : nan_to_nan f64 rs_erfc.
Proof. nan64 rs_erfc; nwalk. Qed.
