(** More of the toolkit for the elementary functions: signed copies, positive patterns, deciding branches. *)
From Coq Require Import ZArith Reals Lia Bool.
From Flocq Require Import Core.
From Verif Require Import Base Spec SpecFun3 SpecElem Format P_format Ieee P_ieee P_real P_round P_round2 P_neg M_sqrt Prop_sqrt M_elib P_elem.
Open Scope Z_scope.

Lemma a64_ws s x : isbits f64 x -> a64 (with_sign f64 s x) = a64 x.
Proof.
  intros H. destruct (with_sign_fields f64 s x) as (B & S & E & G).
  rewrite (magz64 _ B), (magz64 _ H), E, G. reflexivity.
Qed.
Lemma a32_ws s x : isbits f32 x -> a32 (with_sign f32 s x) = a32 x.
Proof.
  intros H. destruct (with_sign_fields f32 s x) as (B & S & E & G).
  rewrite (magz32 _ B), (magz32 _ H), E, G. reflexivity.
Qed.
Lemma ws64 s x : isbits f64 x -> with_sign f64 s x = bs s * 2 ^ 63 + a64 x.
Proof.
  intros H. destruct (with_sign_fields f64 s x) as (B & S & E & G).
  destruct (bits64 _ B) as [Q _]. rewrite Q, S, (a64_ws s x H). reflexivity.
Qed.
Lemma ws32 s x : isbits f32 x -> with_sign f32 s x = bs s * 2 ^ 31 + a32 x.
Proof.
  intros H. destruct (with_sign_fields f32 s x) as (B & S & E & G).
  destruct (bits32 _ B) as [Q _]. rewrite Q, S, (a32_ws s x H). reflexivity.
Qed.
Lemma pos64 a : 0 <= a < 2 ^ 63 -> isbits f64 a /\ a64 a = a /\ signbit f64 a = false.
Proof. intros H. destruct (bits64_intro false a H) as (A & B & C). cbn [bs] in *. rewrite Z.mul_0_l, Z.add_0_l in *. auto. Qed.
Lemma pos32 a : 0 <= a < 2 ^ 31 -> isbits f32 a /\ a32 a = a /\ signbit f32 a = false.
Proof. intros H. destruct (bits32_intro false a H) as (A & B & C). cbn [bs] in *. rewrite Z.mul_0_l, Z.add_0_l in *. auto. Qed.

Ltac zdec := repeat match goal with
  | |- context[?a <? ?b] => destruct (Z.ltb_spec a b); try lia
  | |- context[?a <=? ?b] => destruct (Z.leb_spec a b); try lia
  | |- context[?a =? ?b] => destruct (Z.eqb_spec a b); try lia
  end; cbn [orb andb negb].
Lemma ssub_ok w a b : - 2 ^ (w - 1) <= a - b < 2 ^ (w - 1) -> ssub w a b = Some (a - b).
Proof. intros H. unfold ssub, chk, in_i. zdec; reflexivity. Qed.
Lemma sadd_ok w a b : - 2 ^ (w - 1) <= a + b < 2 ^ (w - 1) -> sadd w a b = Some (a + b).
Proof. intros H. unfold sadd, chk, in_i. zdec; reflexivity. Qed.
Lemma usub_ok w a b : b <= a -> usub w a b = Some (a - b).
Proof. intros H. unfold usub. zdec; reflexivity. Qed.
Lemma uadd_ok w a b : a + b < 2 ^ w -> uadd w a b = Some (a + b).
Proof. intros H. unfold uadd. zdec; reflexivity. Qed.
Lemma sqrt_total a : isbits f64 a -> exists r, M_sqrt.sqrt a = Some r /\ isbits f64 r.
Proof. intros H. destruct (C20_sqrt a H) as (r & E & G & _). now exists r. Qed.
Lemma sqrtf_total a : isbits f32 a -> exists r, M_sqrt.sqrtf a = Some r /\ isbits f32 r.
Proof. intros H. destruct (C20_sqrtf a H) as (r & E & G & _). now exists r. Qed.
Lemma rounds_to_self F x : isbits F x -> finite F x = true -> iszero F x = false -> forall sz, rounds_to F (val F x) sz x.
Proof.
  intros B Fx Z sz. split; [exact B|]. rewrite repr_rnd by now apply repr_val.
  rewrite Rlt_bool_true by now apply val_lt_max. split; [exact Fx|]. split; [reflexivity|].
  assert (NZ : val F x <> 0%R) by (intros E; rewrite (val_eq_0 F x B Fx E) in Z; discriminate).
  destruct (Rcompare_spec (val F x) 0) as [H|H|H].
  - now apply val_neg_sign.
  - contradiction.
  - now apply val_pos_sign.
Qed.
Lemma fadd_zero_r F x z : isbits F x -> finite F x = true -> iszero F x = false -> iszero F z = true -> fadd F x z = x.
Proof.
  intros B Fx Zx Zz. pose proof (fadd_spec F x z Fx (iszero_finite F z Zz)) as H.
  rewrite (iszero_val F z Zz), Rplus_0_r in H. eapply rounds_to_fun; [exact H|]. now apply rounds_to_self.
Qed.
Lemma fsub_zero_r F x z : isbits F x -> finite F x = true -> iszero F x = false -> iszero F z = true -> fsub F x z = x.
Proof.
  intros B Fx Zx Zz. pose proof (fsub_spec F x z Fx (iszero_finite F z Zz)) as H.
  rewrite (iszero_val F z Zz), Rminus_0_r in H. eapply rounds_to_fun; [exact H|]. now apply rounds_to_self.
Qed.
(** x - x is +0 *)
Lemma fsub_self F x : finite F x = true -> fsub F x x = zero F false.
Proof.
  intros Fx. pose proof (fsub_spec F x x Fx Fx) as H. rewrite Rminus_diag_eq in H by reflexivity.
  destruct H as [B H]. rewrite rnd_0, Rabs_R0, Rlt_bool_true in H by apply bpow_gt_0.
  destruct H as (F1 & V & S). rewrite Rcompare_Eq in S by reflexivity.
  rewrite andb_negb_r in S.
  apply (val_sign_inj F); try assumption; try apply zero_fields.
  - rewrite V, val_zero. reflexivity.
  - rewrite S. symmetry. apply zero_fields.
Qed.
