(** Rounding errors of the f64 and f32 operations. *)
From Coq Require Import ZArith Reals Lia Lra Bool List Psatz.
From Flocq Require Import Core Relative.
From Verif Require Import Base Spec SpecFun Format P_format Ieee P_ieee P_real P_ival.
Open Scope Z_scope.
Open Scope R_scope.

Notation e64 := (bpow radix2 (-53)).
Global Instance prec53 : Prec_gt_0 53. Proof. unfold Prec_gt_0. lia. Qed.
Global Instance prec24 : Prec_gt_0 24. Proof. unfold Prec_gt_0. lia. Qed.
Lemma rnd64_rel a : bpow radix2 (-1022) <= Rabs a -> Rabs (rnd f64 a - a) <= bpow radix2 (-53) * Rabs a.
Proof.
  intros H. unfold rnd. change (1 - bias f64 - mw f64)%Z with (-1074)%Z. change (mw f64 + 1)%Z with 53%Z.
  pose proof (relative_error_N_FLT radix2 (-1074) 53 ltac:(unfold Prec_gt_0; lia) (fun x => negb (Z.even x)) a) as E.
  replace (bpow radix2 (-53)) with (/ 2 * bpow radix2 (- (53) + 1)) by (cbn; lra). apply E. exact H.
Qed.
Lemma rnd64_abs a : Rabs (rnd f64 a - a) <= bpow radix2 (-53) * Rabs a + bpow radix2 (-1075).
Proof.
  destruct (Rle_lt_dec (bpow radix2 (-1022)) (Rabs a)) as [H | H].
  - pose proof (rnd64_rel a H). pose proof (bpow_gt_0 radix2 (-1075)). lra.
  - assert (E : Rabs (rnd f64 a - a) <= / 2 * bpow radix2 (-1074)).
    { unfold rnd. change (1 - bias f64 - mw f64)%Z with (-1074)%Z. change (mw f64 + 1)%Z with 53%Z.
      eapply Rle_trans; [apply error_le_half_ulp; apply FLT_exp_valid; unfold Prec_gt_0; lia|].
      apply Rmult_le_compat_l; [lra|]. rewrite ulp_FLT_small; [apply Rle_refl|unfold Prec_gt_0; lia|]. eapply Rlt_le_trans; [exact H|apply bpow_le; lia]. }
    replace (bpow radix2 (-1075)) with (/ 2 * bpow radix2 (-1074)).
    + pose proof (bpow_ge_0 radix2 (-53)). pose proof (Rabs_pos a). nra.
    + change (-1074)%Z with (1 + -1075)%Z. rewrite bpow_plus. change (bpow radix2 1) with 2. lra.
Qed.
Lemma rnd32_abs a : Rabs (rnd f32 a - a) <= bpow radix2 (-24) * Rabs a + bpow radix2 (-150).
Proof.
  destruct (Rle_lt_dec (bpow radix2 (-126)) (Rabs a)) as [H | H].
  - unfold rnd. change (1 - bias f32 - mw f32)%Z with (-149)%Z. change (mw f32 + 1)%Z with 24%Z.
    pose proof (relative_error_N_FLT radix2 (-149) 24 ltac:(unfold Prec_gt_0; lia) (fun x => negb (Z.even x)) a H) as E.
    replace (/ 2 * bpow radix2 (- (24) + 1)) with (bpow radix2 (-24)) in E by (cbn; lra). pose proof (bpow_gt_0 radix2 (-150)). lra.
  - assert (E : Rabs (rnd f32 a - a) <= / 2 * bpow radix2 (-149)).
    { unfold rnd. change (1 - bias f32 - mw f32)%Z with (-149)%Z. change (mw f32 + 1)%Z with 24%Z.
      eapply Rle_trans; [apply error_le_half_ulp; apply FLT_exp_valid; unfold Prec_gt_0; lia|].
      apply Rmult_le_compat_l; [lra|]. rewrite ulp_FLT_small; [apply Rle_refl|unfold Prec_gt_0; lia|]. eapply Rlt_le_trans; [exact H|apply bpow_le; lia]. }
    replace (bpow radix2 (-150)) with (/ 2 * bpow radix2 (-149)).
    + pose proof (bpow_ge_0 radix2 (-24)). pose proof (Rabs_pos a). nra.
    + change (-149)%Z with (1 + -150)%Z. rewrite bpow_plus. change (bpow radix2 1) with 2. lra.
Qed.

(** rounding absorbs a small perturbation of a representable number *)
Lemma rnd64_absorb_pos a d : repr f64 a -> bpow radix2 (-1000) <= a -> Rabs d <= bpow radix2 (-54) * (3 / 4) * a -> rnd f64 (a + d) = a.
Proof.
  intros Ra Ha Hd. unfold repr in Ra. unfold rnd. set (fexp := FLT_exp (1 - bias f64 - mw f64) (mw f64 + 1)) in *.
  assert (V : Valid_exp fexp) by (apply fmt_valid_exp).
  pose proof (bpow_gt_0 radix2 (-1000)) as P. pose proof (bpow_gt_0 radix2 (-54)) as P54.
  assert (Pa : 0 < a) by lra.
  assert (Rabs_a : Rabs a = a) by (apply Rabs_pos_eq; lra).
  assert (U : forall u, bpow radix2 (-53) * Rabs u <= ulp radix2 fexp u).
  { intros u. unfold fexp. change (1 - bias f64 - mw f64)%Z with (-1074)%Z. change (mw f64 + 1)%Z with 53%Z.
    pose proof (ulp_FLT_gt radix2 (-1074) 53 u) as G. change (- (53))%Z with (-53)%Z in G. lra. }
  assert (L : ulp radix2 fexp a <= a * bpow radix2 (-52)).
  { unfold fexp. change (1 - bias f64 - mw f64)%Z with (-1074)%Z. change (mw f64 + 1)%Z with 53%Z.
    pose proof (ulp_FLT_le radix2 (-1074) 53 a) as G. change (1 - 53)%Z with (-52)%Z in G. rewrite Rabs_a in G. apply G. 
    eapply Rle_trans; [|exact Ha]. apply bpow_le. lia. }
  assert (E53 : bpow radix2 (-53) = 2 * bpow radix2 (-54)) by (change (-53)%Z with (1 + -54)%Z; rewrite bpow_plus; reflexivity).
  assert (E52 : bpow radix2 (-52) <= / 1024) by (change (/ 1024) with (bpow radix2 (-10)); apply bpow_le; lia).
  pose proof (U a) as Ua. rewrite Rabs_a in Ua. apply Rabs_le_inv in Hd.
  set (p := pred radix2 fexp a).
  assert (Pp : 0 <= p) by (apply pred_ge_0; assumption).
  assert (Ep : p + ulp radix2 fexp p = a) by (now apply pred_plus_ulp).
  pose proof (U p) as Up. rewrite (Rabs_pos_eq p Pp) in Up.
  assert (Lp : ulp radix2 fexp p <= ulp radix2 fexp a) by (apply ulp_le; [exact V|apply FLT_exp_monotone|rewrite Rabs_a, Rabs_pos_eq by exact Pp; pose proof (ulp_ge_0 radix2 fexp p); lra]).
  apply Rle_antisym.
  - apply round_N_le_midp; [exact V|exact Ra|]. rewrite succ_eq_pos by lra. nra.
  - apply round_N_ge_midp; [exact V|exact Ra|]. fold p. assert (Hp : (1023 / 1024) * a <= p) by nra. nra.
Qed.
Lemma rnd64_absorb a d : repr f64 a -> bpow radix2 (-1000) <= Rabs a -> Rabs d <= bpow radix2 (-54) * (3 / 4) * Rabs a -> rnd f64 (a + d) = a.
Proof.
  intros Ra Ha Hd. destruct (Rle_lt_dec 0 a) as [H | H].
  - rewrite (Rabs_pos_eq a H) in Ha, Hd. now apply rnd64_absorb_pos.
  - rewrite (Rabs_left a H) in Ha, Hd. assert (E : rnd f64 (- a + - d) = - a) by (apply rnd64_absorb_pos; [now apply generic_format_opp|exact Ha|now rewrite Rabs_Ropp]).
    replace (- a + - d) with (- (a + d)) in E by ring. rewrite rnd_opp in E. lra.
Qed.
(** finite results *)
Lemma rounds_fin F r sz y : rounds_to F r sz y -> Rabs r <= bpow radix2 (bias F) -> finite F y = true /\ val F y = rnd F r.
Proof.
  intros [_ H] L. rewrite Rlt_bool_true in H; [now destruct H as (A & B & _)|].
  eapply Rle_lt_trans; [|apply bpow_lt; apply Z.lt_succ_diag_r]. 
  assert (E : rnd F (bpow radix2 (bias F)) = bpow radix2 (bias F)) by (apply repr_rnd, repr_bpow; pose proof (bias_facts F); pose proof (fmt_facts F); unfold emin; lia).
  rewrite <- E. apply Rabs_le. apply Rabs_le_inv in L. split; [rewrite <- rnd_opp|]; apply rnd_le; lra.
Qed.
Lemma e53 : bpow radix2 (-53) = / 9007199254740992. Proof. reflexivity. Qed.
Lemma e24 : bpow radix2 (-24) = / 16777216. Proof. reflexivity. Qed.
(** error bounds with plain numbers *)
Lemma rnd64_err a : Rabs (rnd f64 a - a) <= / 9007199254740992 * Rabs a + bpow radix2 (-200).
Proof. eapply Rle_trans; [apply rnd64_abs|]. rewrite e53. apply Rplus_le_compat_l. apply bpow_le. lia. Qed.
Lemma tiny200 : 0 < bpow radix2 (-200) <= / 1267650600228229401496703205376.
Proof. split; [apply bpow_gt_0|]. change (/ 1267650600228229401496703205376) with (bpow radix2 (-100)). apply bpow_le. lia. Qed.
Lemma mul64 x y m : finite f64 x = true -> finite f64 y = true -> Rabs (val f64 x * val f64 y) <= m -> m <= bpow radix2 1000 ->
  finite f64 (fmul f64 x y) = true /\ val f64 (fmul f64 x y) = rnd f64 (val f64 x * val f64 y).
Proof.
  intros Fx Fy H M. apply (rounds_fin f64 _ _ _ (fmul_spec f64 x y Fx Fy)). eapply Rle_trans; [exact H|]. eapply Rle_trans; [exact M|].
  apply bpow_le. cbn. lia.
Qed.
Lemma add64 x y m : finite f64 x = true -> finite f64 y = true -> Rabs (val f64 x + val f64 y) <= m -> m <= bpow radix2 1000 ->
  finite f64 (fadd f64 x y) = true /\ val f64 (fadd f64 x y) = rnd f64 (val f64 x + val f64 y).
Proof.
  intros Fx Fy H M. apply (rounds_fin f64 _ _ _ (fadd_spec f64 x y Fx Fy)). eapply Rle_trans; [exact H|]. eapply Rle_trans; [exact M|].
  apply bpow_le. cbn. lia.
Qed.
Lemma sub64 x y m : finite f64 x = true -> finite f64 y = true -> Rabs (val f64 x - val f64 y) <= m -> m <= bpow radix2 1000 ->
  finite f64 (fsub f64 x y) = true /\ val f64 (fsub f64 x y) = rnd f64 (val f64 x - val f64 y).
Proof.
  intros Fx Fy H M. apply (rounds_fin f64 _ _ _ (fsub_spec f64 x y Fx Fy)). eapply Rle_trans; [exact H|]. eapply Rle_trans; [exact M|].
  apply bpow_le. cbn. lia.
Qed.
Lemma big1000 m : m <= 1000000000000000000000000000000 -> m <= bpow radix2 1000.
Proof. intros H. eapply Rle_trans; [exact H|]. eapply Rle_trans; [|apply (bpow_le radix2 100 1000); lia]. apply IZR_le. vm_compute. discriminate. Qed.
