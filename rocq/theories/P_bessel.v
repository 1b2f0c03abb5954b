(** The trigonometric and Bessel functions return a value for every argument. *)
From Coq Require Import ZArith Reals Lia Lra Bool List.
From Flocq Require Import Core.
From Verif Require Import Base Spec SpecFun Format P_format Ieee P_ieee P_real P_neg M_basic M_elib M_scalbn M_sqrt M_exp M_log M_atrig M_erf M_rempio2 M_trig M_bessel
  P_elem P_elem2 P_ival P_tot P_exp P_log P_nan P_atrig P_erf P_rem.
Open Scope Z_scope.
Open Scope fl_scope.

Lemma k_sin_bits x y i : isbits f64 (rs_k_sin x y i). Proof. unfold rs_k_sin. cbv zeta. bitsok. Qed.
Lemma k_cos_bits x y : isbits f64 (rs_k_cos x y). Proof. unfold rs_k_cos. cbv zeta. bitsok. Qed.
Lemma k_tan_bits x y o : isbits f64 (rs_k_tan x y o).
Proof.
  unfold rs_k_tan. cbv zeta. lazymatch goal with |- isbits _ (let '(_, _) := ?t in _) => destruct t as [a b] end. bitsok.
Qed.
Lemma k_sinf_bits x : isbits f32 (rs_k_sinf x). Proof. unfold rs_k_sinf. cbv zeta. bitsok. Qed.
Lemma k_cosf_bits x : isbits f32 (rs_k_cosf x). Proof. unfold rs_k_cosf. cbv zeta. bitsok. Qed.
Lemma k_tanf_bits x o : isbits f32 (rs_k_tanf x o). Proof. unfold rs_k_tanf. cbv zeta. bitsok. Qed.
Ltac kb := lazymatch goal with
  | |- isbits _ (fneg _ _) => apply fneg_isbits; kb
  | |- isbits _ (rs_k_sin _ _ _) => apply k_sin_bits | |- isbits _ (rs_k_cos _ _) => apply k_cos_bits | |- isbits _ (rs_k_tan _ _ _) => apply k_tan_bits
  | |- isbits _ (rs_k_sinf _) => apply k_sinf_bits | |- isbits _ (rs_k_cosf _) => apply k_cosf_bits | |- isbits _ (rs_k_tanf _ _) => apply k_tanf_bits
  | |- _ => bitsok end.
Ltac tc := lazymatch goal with |- exists r, (if ?b then _ else _) = Some r /\ _ => destruct b | |- exists r, Some ?v = Some r /\ _ => exists v; split; [reflexivity|kb] end.
Lemma sin_tot : total1 f64 f64 rs_sin.
Proof. intros x B. unfold rs_sin, rs_rem_pio2. destruct (rem_pio2_total true x B) as (n & a & c & ->). cbn [bind]. cbv zeta. repeat tc. Qed.
Lemma cos_tot : total1 f64 f64 rs_cos.
Proof. intros x B. unfold rs_cos, rs_cos_1, rs_rem_pio2. destruct (rem_pio2_total true x B) as (n & a & c & ->). cbn [bind]. cbv zeta. repeat tc. Qed.
Lemma tan_tot : total1 f64 f64 rs_tan.
Proof. intros x B. unfold rs_tan, rs_rem_pio2. destruct (rem_pio2_total true x B) as (n & a & c & ->). cbn [bind]. cbv zeta. repeat tc. Qed.
Lemma sinf_tot : total1 f32 f32 rs_sinf.
Proof. intros x B. unfold rs_sinf, rs_rem_pio2f. destruct (rem_pio2f_total true x B) as (n & a & ->). cbn [bind]. cbv zeta. repeat tc. Qed.
Lemma cosf_tot : total1 f32 f32 rs_cosf.
Proof. intros x B. unfold rs_cosf, rs_rem_pio2f. destruct (rem_pio2f_total true x B) as (n & a & ->). cbn [bind]. cbv zeta. repeat tc. Qed.
Lemma tanf_tot : total1 f32 f32 rs_tanf.
Proof. intros x B. unfold rs_tanf, rs_rem_pio2f. destruct (rem_pio2f_total true x B) as (n & a & ->). cbn [bind]. cbv zeta. repeat tc. Qed.

Ltac bes := repeat (cbv zeta beta iota; match goal with
  | |- exists r, bind (rs_sin ?a) _ = Some r /\ _ => destruct (sin_tot a ltac:(bitsok)) as (? & -> & ?); cbn [bind]
  | |- exists r, bind (rs_cos ?a) _ = Some r /\ _ => destruct (cos_tot a ltac:(bitsok)) as (? & -> & ?); cbn [bind]
  | |- exists r, bind (rs_sinf ?a) _ = Some r /\ _ => destruct (sinf_tot a ltac:(bitsok)) as (? & -> & ?); cbn [bind]
  | |- exists r, bind (rs_cosf ?a) _ = Some r /\ _ => destruct (cosf_tot a ltac:(bitsok)) as (? & -> & ?); cbn [bind]
  | |- exists r, bind (M_sqrt.sqrt ?a) _ = Some r /\ _ => destruct (sqrt_total a ltac:(bitsok)) as (? & -> & ?); cbn [bind]
  | |- exists r, bind (M_sqrt.sqrtf ?a) _ = Some r /\ _ => destruct (sqrtf_total a ltac:(bitsok)) as (? & -> & ?); cbn [bind]
  | |- exists r, bind (rs_log ?a) _ = Some r /\ _ => destruct (log_tot a ltac:(bitsok)) as (? & -> & ?); cbn [bind]
  | |- exists r, bind (rs_logf ?a) _ = Some r /\ _ => destruct (logf_tot a ltac:(bitsok)) as (? & -> & ?); cbn [bind]
  | |- exists r, bind (let '(_, _) := (if ?c then _ else _) in _) _ = Some r /\ _ => destruct c
  | _ => walk1 end).
Lemma j0_common_tot ix x b : isbits f64 x -> exists r, rs_j0_common ix x b = Some r /\ isbits f64 r.
Proof. intros B. unfold rs_j0_common. bes. Qed.
Lemma j0f_common_tot ix x b : isbits f32 x -> exists r, rs_j0f_common ix x b = Some r /\ isbits f32 r.
Proof. intros B. unfold rs_j0f_common. bes. Qed.
Lemma j1_common_tot ix x b s : isbits f64 x -> exists r, rs_j1_common ix x b s = Some r /\ isbits f64 r.
Proof. intros B. unfold rs_j1_common. bes. Qed.
Lemma j1f_common_tot ix x b s : isbits f32 x -> exists r, rs_j1f_common ix x b s = Some r /\ isbits f32 r.
Proof. intros B. unfold rs_j1f_common. bes. Qed.
Ltac com := lazymatch goal with
  | |- exists r, rs_j0_common _ _ _ = Some r /\ _ => apply j0_common_tot
  | |- exists r, rs_j0f_common _ _ _ = Some r /\ _ => apply j0f_common_tot
  | |- exists r, rs_j1_common _ _ _ _ = Some r /\ _ => apply j1_common_tot
  | |- exists r, rs_j1f_common _ _ _ _ = Some r /\ _ => apply j1f_common_tot end; first [assumption|apply fabs_isbits; assumption].
Lemma j0_tot : total1 f64 f64 rs_j0.
Proof. intros x B. unfold rs_j0. bes; com. Qed.
Lemma j0f_tot : total1 f32 f32 rs_j0f.
Proof. intros x B. unfold rs_j0f. bes; com. Qed.
Lemma j1_tot : total1 f64 f64 rs_j1.
Proof. intros x B. unfold rs_j1. bes; com. Qed.
Lemma j1f_tot : total1 f32 f32 rs_j1f.
Proof. intros x B. unfold rs_j1f. bes; com. Qed.
Ltac bj := repeat match goal with
  | |- exists r, bind (rs_j0 ?a) _ = Some r /\ _ => destruct (j0_tot a ltac:(bitsok)) as (? & -> & ?); cbn [bind]
  | |- exists r, bind (rs_j0f ?a) _ = Some r /\ _ => destruct (j0f_tot a ltac:(bitsok)) as (? & -> & ?); cbn [bind]
  | |- exists r, bind (rs_j1 ?a) _ = Some r /\ _ => destruct (j1_tot a ltac:(bitsok)) as (? & -> & ?); cbn [bind]
  | |- exists r, bind (rs_j1f ?a) _ = Some r /\ _ => destruct (j1f_tot a ltac:(bitsok)) as (? & -> & ?); cbn [bind]
  | _ => progress bes end.
Lemma y0_tot : total1 f64 f64 rs_y0.
Proof. intros x B. unfold rs_y0. bj; com. Qed.
Lemma y0f_tot : total1 f32 f32 rs_y0f.
Proof. intros x B. unfold rs_y0f. bj; com. Qed.
Lemma y1_tot : total1 f64 f64 rs_y1.
Proof. intros x B. unfold rs_y1. bj; com. Qed.
Lemma y1f_tot : total1 f32 f32 rs_y1f.
Proof. intros x B. unfold rs_y1f. bj; com. Qed.
