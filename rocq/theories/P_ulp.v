(** Distances in units in the last place. *)
From Coq Require Import ZArith Reals Lia Lra Psatz.
From Flocq Require Import Core.
From Verif Require Import Base Spec SpecAcc SpecUlp Format P_format Ieee P_ieee P_real P_err P_apx P_acc.
Open Scope R_scope.

Lemma rnd_pow k a : (-1000 <= k)%Z -> Rabs a <= bpow radix2 k -> Rabs (rnd f64 a - a) <= bpow radix2 (k - 54).
Proof.
  intros Hk H. assert (LT : Rabs a < bpow radix2 k \/ Rabs a = bpow radix2 k) by lra. destruct LT as [L | E].
  - unfold rnd. eapply Rle_trans; [apply error_le_half_ulp; apply fmt_valid_exp|]. assert (U : ulp radix2 (fexpF f64) a <= bpow radix2 (k - 53)).
    { pose proof (fmt_valid_exp f64) as VE. assert (ME : Monotone_exp (fexpF f64)) by apply FLT_exp_monotone. apply Rle_trans with (ulp radix2 (fexpF f64) (bpow radix2 (k - 1))).
      - destruct (Rle_lt_dec (Rabs a) (bpow radix2 (k - 1))) as [Q | Q]; [apply (ulp_le radix2 (fexpF f64) a (bpow radix2 (k - 1))); rewrite (Rabs_pos_eq (bpow radix2 (k - 1))) by apply bpow_ge_0; exact Q|]. right. rewrite !ulp_neq_0. 2:{ pose proof (bpow_gt_0 radix2 (k - 1)). lra. } 2:{ intros E. rewrite E, Rabs_R0 in Q. pose proof (bpow_gt_0 radix2 (k - 1)). lra. }
        f_equal. unfold cexp. f_equal. rewrite mag_bpow. replace (k - 1 + 1)%Z with k by ring. apply mag_unique. split; [left; exact Q|]. exact L.
      - rewrite ulp_bpow. apply bpow_le. unfold fexpF, FLT_exp. change (mw f64) with 52%Z. change (bias f64) with 1023%Z. lia. }
    unfold rnd, fexpF in *. apply Rle_trans with (/ 2 * bpow radix2 (k - 53)); [apply Rmult_le_compat_l; [lra|exact U]|]. right. replace (k - 53)%Z with (1 + (k - 54))%Z by ring. rewrite bpow_plus. change (bpow radix2 1) with 2. field.
  - assert (RB : repr f64 (bpow radix2 k)). { destruct (Z_le_gt_dec k 1000); [apply repr_bpow; change (emin f64) with (-1074)%Z; lia|]. apply generic_format_bpow. unfold fexpF, FLT_exp. change (mw f64) with 52%Z. change (bias f64) with 1023%Z. lia. }
    assert (R : repr f64 a). { destruct (Rle_lt_dec 0 a); [rewrite Rabs_pos_eq in E by lra|rewrite Rabs_left in E by lra; replace a with (- - a) by ring; apply repr_opp]; rewrite E; exact RB. }
    rewrite (repr_rnd _ _ R). replace (a - a) with 0 by ring. rewrite Rabs_R0. apply bpow_ge_0.
Qed.
Lemma ulp_bin v k : (-1000 <= k)%Z -> bpow radix2 (k - 1) <= Rabs v < bpow radix2 k -> ulpF f64 v = bpow radix2 (k - 53).
Proof.
  intros Hk H. pose proof (bpow_gt_0 radix2 (k - 1)) as P. unfold ulpF. rewrite ulp_neq_0 by (intros E; rewrite E, Rabs_R0 in H; lra). f_equal. unfold cexp. rewrite (mag_unique radix2 v k H). unfold FLT_exp. change (mw f64) with 52%Z. change (bias f64) with 1023%Z. lia.
Qed.
Lemma faithful_ulp F v r : faithful F v r -> within_ulps F 1 v r.
Proof.
  intros (B & Fi & H). split; [exact B|]. split; [exact Fi|]. rewrite Rmult_1_l. unfold ulpF. pose proof (fmt_valid_exp F) as VE.
  destruct H as [-> | ->]; [apply (error_le_ulp radix2 (FLT_exp (1 - bias F - mw F) (mw F + 1)) Zfloor)|apply (error_le_ulp radix2 (FLT_exp (1 - bias F - mw F) (mw F + 1)) Zceil)].
Qed.
Lemma ulpF_pos F v : 0 <= ulpF F v. Proof. apply ulp_ge_0. Qed.
Lemma ulps_le F k k' v r : k <= k' -> within_ulps F k v r -> within_ulps F k' v r.
Proof. intros L (B & Fi & H). split; [exact B|]. split; [exact Fi|]. pose proof (ulpF_pos F v). nra. Qed.
Lemma ulps_bin k d v a y sz : (-900 <= k <= 900)%Z -> isbits f64 y -> rounds_to f64 a sz y -> bpow radix2 (k - 1) <= Rabs v < bpow radix2 k -> Rabs a <= bpow radix2 k -> Rabs (a - v) <= d * bpow radix2 (k - 53) -> within_ulps f64 (/ 2 + d) v y.
Proof.
  intros Hk B RT HV HA HD. destruct (rounds_fin f64 _ _ _ RT) as [Fi E]. { eapply Rle_trans; [exact HA|]. apply bpow_le. change (bias f64) with 1023%Z. lia. }
  split; [exact B|]. split; [exact Fi|]. rewrite (ulp_bin v k ltac:(lia) HV), E. replace (rnd f64 a - v) with ((rnd f64 a - a) + (a - v)) by ring. eapply Rle_trans; [apply Rabs_triang|]. pose proof (rnd_pow k a ltac:(lia) HA) as R.
  replace (k - 53)%Z with (1 + (k - 54))%Z in * by ring. rewrite bpow_plus in *. change (bpow radix2 1) with 2 in *. lra.
Qed.
