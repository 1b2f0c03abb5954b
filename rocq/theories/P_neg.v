(** Negation, and scaling of representable numbers. *)
From Coq Require Import ZArith Reals Lia Lra Bool.
From Flocq Require Import Core.
From Verif Require Import Base Spec Format P_format Ieee P_ieee P_real M_basic P_round P_round2 P_key.
Open Scope Z_scope.

Lemma lxor_disjoint a b n : 0 <= n -> 0 <= b < 2 ^ n -> Z.lxor (a * 2 ^ n) b = a * 2 ^ n + b.
Proof. intros Hn Hb. rewrite Z.lxor_lor by now apply land_disjoint. now apply lor_disjoint. Qed.

Lemma fneg_eq F x : isbits F x -> fneg F x = with_sign F (negb (signbit F x)) x.
Proof.
  intros Hx. pose proof (fmt_facts F). pose proof (magz_range F x) as R.
  unfold fneg. rewrite SIGN_MASK_eq, <- pow_mwew.
  assert (W : with_sign F (negb (signbit F x)) x = (if negb (signbit F x) then 2 ^ (mw F + ew F) else 0) + magz F x).
  { unfold with_sign, mkbits, magz. lia. }
  rewrite W. rewrite (bits_magz F x Hx) at 1.
  rewrite Z.mul_comm, <- pow_mwew in R.
  assert (E : Z.lxor (2 ^ (mw F + ew F)) (magz F x) = 2 ^ (mw F + ew F) + magz F x).
  { rewrite <- (Z.mul_1_l (2 ^ (mw F + ew F))). apply lxor_disjoint; lia. }
  destruct (signbit F x); cbn [negb].
  - rewrite <- E, Z.lxor_comm, <- Z.lxor_assoc, Z.lxor_nilpotent. reflexivity.
  - rewrite Z.add_0_l, Z.lxor_comm. exact E.
Qed.
Lemma fneg_fields F x : isbits F x -> isbits F (fneg F x) /\ signbit F (fneg F x) = negb (signbit F x) /\
  expf F (fneg F x) = expf F x /\ sigf F (fneg F x) = sigf F x.
Proof. intros H. rewrite fneg_eq by assumption. apply with_sign_fields. Qed.
Lemma fneg_finite F x : isbits F x -> finite F (fneg F x) = finite F x.
Proof. intros H. unfold finite. now destruct (fneg_fields F x H) as (_ & _ & -> & _). Qed.
Lemma fneg_nan F x : isbits F x -> isnan F (fneg F x) = isnan F x.
Proof. intros H. unfold isnan. now destruct (fneg_fields F x H) as (_ & _ & -> & ->). Qed.
Lemma fneg_inf F x : isbits F x -> isinf F (fneg F x) = isinf F x.
Proof. intros H. unfold isinf. now destruct (fneg_fields F x H) as (_ & _ & -> & ->). Qed.
Lemma fneg_iszero F x : isbits F x -> iszero F (fneg F x) = iszero F x.
Proof. intros H. unfold iszero. now destruct (fneg_fields F x H) as (_ & _ & -> & ->). Qed.
Lemma fneg_val F x : isbits F x -> val F (fneg F x) = (- val F x)%R.
Proof. intros H. unfold val. destruct (fneg_fields F x H) as (_ & -> & -> & ->). apply sval_neg. Qed.
Lemma fneg_fneg F x : isbits F x -> fneg F (fneg F x) = x.
Proof. intros H. unfold fneg. now rewrite Z.lxor_assoc, Z.lxor_nilpotent, Z.lxor_0_r. Qed.

Lemma repr_float F r : repr F r -> exists n e, r = (IZR n * bpow radix2 e)%R /\ Z.abs n < 2 ^ (mw F + 1) /\ emin F <= e.
Proof.
  intros H. apply FLT_format_generic in H; [|pose proof (fmt_facts F); red; lia].
  destruct H as [[n e] A B C]. exists n, e. split; [exact A|]. split; [|exact C].
  simpl in B. exact B.
Qed.
Lemma repr_scale F r k : repr F r -> 0 <= k -> repr F (r * bpow radix2 k).
Proof.
  intros H Hk. destruct (repr_float F r H) as (n & e & -> & A & B).
  rewrite Rmult_assoc, <- bpow_plus. apply repr_int; lia.
Qed.
(** A number of the format is below 2^(bias+1). *)
Lemma val_lt_max F x : finite F x = true -> (Rabs (val F x) < bpow radix2 (bias F + 1))%R.
Proof.
  intros H. apply finite_iff in H. pose proof (fields_range F x) as R. pose proof (bias_facts F).
  unfold val. rewrite sval_abs by (apply mag_of_nonneg; lia).
  eapply Rlt_le_trans; [apply mag_of_lt_exp; lia|]. apply bpow_le.
  destruct (Z.eqb_spec (expf F x) 0); lia.
Qed.
