(** From the kernel of the exponential functions to the result: scaling by a power of two. *)
From Coq Require Import ZArith Reals Lia Lra Bool List Psatz.
From Flocq Require Import Core.
From Verif Require Import Base Spec SpecFun2 Format P_format Ieee P_ieee P_real P_neg P_lit P_err P_apx P_poly P_powt P_powt8 P_scalbn P_expa1 P_expa2 P_expa3 P_expa4 P_expa5 P_expa6 M_exp.
Import ListNotations.
Open Scope R_scope.

Lemma exp_ln2 k : exp (IZR k * ln 2) = bpow radix2 k.
Proof. rewrite bpow_powerRZ. change (IZR radix2) with 2. rewrite powerRZ_Rpower by lra. reflexivity. Qed.
Definition accr (F : fmt) (v : R) (z : Z) : Prop := isbits F z /\ finite F z = true /\ Rabs (val F z - v) <= bpow radix2 (- mw F) * v + bpow radix2 (emin F - 1).
Lemma near_acc F r y : near F r y -> accr F (exp r) y.
Proof. intros (A & B & _ & D). split; [exact A|]. split; [exact B|]. pose proof (bpow_gt_0 radix2 (emin F - 1)). lra. Qed.
Lemma scale_acc F y k r z X : near F r y -> scalbn_spec F y k z -> X = r + IZR k * ln 2 -> val F y * bpow radix2 k < bpow radix2 (bias F + 1) -> accr F (exp X) z.
Proof.
  intros (By & Fy & [Ly Uy] & E) (Bz & S & _) -> H. specialize (S Fy). set (v := val F y * bpow radix2 k) in *. pose proof (bpow_gt_0 radix2 k) as K0.
  assert (V0 : 0 < v) by (apply Rmult_lt_0_compat; lra). pose proof (fmt_facts F). pose proof (bias_facts F).
  assert (EX : exp (r + IZR k * ln 2) = exp r * bpow radix2 k) by (now rewrite exp_plus, exp_ln2).
  assert (EV : Rabs (v - exp (r + IZR k * ln 2)) <= bpow radix2 (- mw F) * exp (r + IZR k * ln 2)).
  { rewrite EX. unfold v. rewrite <- Rmult_minus_distr_r, Rabs_mult, (Rabs_pos_eq (bpow radix2 k)) by lra. rewrite <- Rmult_assoc. apply Rmult_le_compat_r; lra. }
  pose proof (bpow_gt_0 radix2 (emin F - 1)) as E0. split; [exact Bz|].
  destruct (Rle_lt_dec (bpow radix2 (emin F + mw F)) v) as [L | L].
  - assert (RV : repr F v). { apply repr_scale_any; [now apply repr_val|]. fold v. rewrite Rabs_pos_eq by lra. exact L. }
    destruct S as [_ S]. rewrite (repr_rnd F v RV) in S. rewrite (Rabs_pos_eq v) in S by lra. rewrite Rlt_bool_true in S by exact H. destruct S as (Fz & Vz & _). split; [exact Fz|]. rewrite Vz. lra.
  - destruct (rounds_fin F v _ z S) as [Fz Vz]. { rewrite Rabs_pos_eq by lra. apply Rlt_le. eapply Rlt_le_trans; [exact L|]. apply bpow_le. unfold emin. lia. }
    split; [exact Fz|]. rewrite Vz. assert (A : Rabs v < bpow radix2 (emin F + pr F)). { rewrite Rabs_pos_eq by lra. eapply Rlt_le_trans; [exact L|]. apply bpow_le. unfold pr. lia. }
    pose proof (rnd_half F v _ A ltac:(lia)) as Q. replace (emin F + pr F - pr F - 1)%Z with (emin F - 1)%Z in Q by lia.
    replace (rnd F v - exp (r + IZR k * ln 2)) with ((rnd F v - v) + (v - exp (r + IZR k * ln 2))) by ring. eapply Rle_trans; [apply Rabs_triang|]. lra.
Qed.
(** no overflow: the exponent is small, or the reduced argument is below zero by more than the error *)
Lemma no_over F y k r : near F r y -> (k <= bias F)%Z \/ (k = bias F + 1)%Z /\ r <= - (2 * bpow radix2 (- mw F)) -> val F y * bpow radix2 k < bpow radix2 (bias F + 1).
Proof.
  intros (By & Fy & [Ly Uy] & E) H. pose proof (fmt_facts F). destruct H as [H | [-> H]].
  - apply Rle_lt_trans with (15 / 10 * bpow radix2 (bias F)). { apply Rmult_le_compat; try lra; [apply bpow_ge_0|now apply bpow_le]. }
    rewrite bpow_plus. change (bpow radix2 1) with 2. pose proof (bpow_gt_0 radix2 (bias F)). lra.
  - pose proof (bpow_gt_0 radix2 (bias F + 1)). assert (val F y < 1); [|nra]. set (e := bpow radix2 (- mw F)) in *.
    assert (e0 : 0 < e) by apply bpow_gt_0. assert (EU : exp r * (1 - r) <= 1). { pose proof (exp_ineq1_le (- r)) as K. rewrite exp_Ropp in K. pose proof (exp_pos r). assert (/ exp r * exp r = 1) by (apply Rinv_l; lra). nra. }
    apply Rabs_le_inv in E. pose proof (exp_pos r). nra.
Qed.
