(** log1p: the correction term makes up for the rounding of 1 + x. *)
From Coq Require Import ZArith Reals Lia Lra Bool List Psatz.
From Flocq Require Import Core.
From Verif Require Import Base Spec SpecFun2 Format P_format Ieee P_ieee P_real P_neg P_lit P_err P_scalbn P_apx P_expa4 P_expa8 P_sqrt3.
Open Scope R_scope.
Local Opaque fadd fsub fmul fdiv of_int.

Lemma ln1_b t : Rabs t <= / 2 -> Rabs (ln (1 + t) - t) <= 2 * (t * t).
Proof.
  intros H. apply Rabs_le_inv in H. assert (I : forall t, 0 < t -> ln t <= t - 1). { intros z T. pose proof (exp_ineq1_le (ln z)). rewrite exp_ln in H0 by exact T. lra. }
  pose proof (I (1 + t) ltac:(lra)) as A. pose proof (I (/ (1 + t)) ltac:(apply Rinv_0_lt_compat; lra)) as B. rewrite ln_Rinv in B by lra.
  assert (C : / (1 + t) - 1 = - t + t * t * / (1 + t)) by (field; lra). assert (D : / (1 + t) <= 2) by (replace 2 with (/ (/ 2)) by lra; apply Rinv_le; lra).
  assert (0 <= t * t) by nra. apply Rabs_le. nra.
Qed.

Section C.
Variable F : fmt.
Variables one x : Z.
Hypothesis EW : (8 <= ew F)%Z.
Hypothesis MW : (20 <= mw F <= 60)%Z.
Hypothesis MB : (2 * mw F + 20 <= bias F)%Z.
Hypothesis F1 : finite F one = true.
Hypothesis V1 : val F one = 1.
Hypothesis Bx : isbits F x.
Hypothesis Fx : finite F x = true.
Let X := val F x.
Hypothesis HX : -1 < X.
Let u := fadd F one x.
Let U := val F u.
Let p := bpow radix2 (- pr F).

Lemma l1p : 0 < p <= / 1000000.
Proof. split; [apply bpow_gt_0|]. apply Rle_trans with (bpow radix2 (-21)); [apply bpow_le; unfold pr; lia|]. change (bpow radix2 (-21)) with (/ 2097152). lra. Qed.
Lemma l1tiny : 0 < bpow radix2 (emin F - 1) <= p * p * p * / 1000.
Proof.
  split; [apply bpow_gt_0|]. unfold p. rewrite <- !bpow_plus. apply Rle_trans with (bpow radix2 (- pr F + - pr F + - pr F + -10)).
  - apply bpow_le. unfold pr, emin. lia.
  - rewrite (bpow_plus _ _ (-10)). change (bpow radix2 (-10)) with (/ 1024). pose proof (bpow_gt_0 radix2 (- pr F + - pr F + - pr F)). lra.
Qed.
(** x is at least one step above -1 *)
Lemma l1low : p <= 1 + X.
Proof.
  destruct (Rle_lt_dec (-1 / 2) X) as [H | H]; [pose proof l1p; lra|].
  destruct (repr_grid F X (-1) (repr_val F x Fx)) as [m Hm]. { intros _. change (bpow radix2 (-1)) with (/ 2). rewrite Rabs_left1; lra. }
  replace (-1 - mw F)%Z with (- pr F)%Z in Hm by (unfold pr; lia). fold p in Hm.
  assert (P1 : IZR (2 ^ pr F) * p = 1). { unfold p. rewrite (IZR_Zpower radix2) by (unfold pr; lia). rewrite <- bpow_plus. replace (pr F + - pr F)%Z with 0%Z by lia. reflexivity. }
  assert (E : 1 + X = IZR (2 ^ pr F + m) * p) by (rewrite plus_IZR, Hm; lra). rewrite E. pose proof l1p. rewrite <- (Rmult_1_l p) at 1. apply Rmult_le_compat_r; [lra|]. apply (IZR_le 1).
  assert (0 < 2 ^ pr F + m)%Z; [|lia]. apply lt_IZR. apply Rmult_lt_reg_r with p; [lra|]. rewrite <- E. lra.
Qed.
Lemma l1u : isbits F u /\ finite F u = true /\ U = rnd F (1 + X).
Proof.
  pose proof (fadd_spec F one x F1 Fx) as RT. rewrite V1 in RT. fold u X in RT. split; [exact (proj1 RT)|]. pose proof (bias_facts F) as BF. pose proof (fmt_facts F) as FF.
  destruct (Rle_lt_dec X (bpow radix2 (mw F + 4))) as [H | H].
  - destruct (rounds_fin F _ _ _ RT) as [A B]; [|now split]. rewrite Rabs_pos_eq by lra. apply Rle_trans with (bpow radix2 (1 + (mw F + 4))); [|apply bpow_le; lia]. rewrite bpow_plus. change (bpow radix2 1) with 2.
    assert (bpow radix2 0 <= bpow radix2 (mw F + 4)) by (apply bpow_le; lia). change (bpow radix2 0) with 1 in H0. lra.
  - assert (R : rnd F (1 + X) = X).
    { pose proof (bpow_gt_0 radix2 (mw F + 4)) as XP. assert (N0 : X <> 0) by lra. destruct (mag radix2 X) as [j Hj]. specialize (Hj N0). rewrite Rabs_pos_eq in Hj by lra.
      assert (J : (mw F + 4 < j)%Z) by (apply (lt_bpow radix2); lra).
      destruct (repr_grid F X (j - 1) (repr_val F x Fx)) as [m Hm]. { intros _. rewrite Rabs_pos_eq; lra. }
      assert (HM : (2 ^ mw F <= m < 2 ^ (mw F + 1))%Z).
      { pose proof (bpow_gt_0 radix2 (j - 1 - mw F)) as P. split.
        - apply le_IZR. apply Rmult_le_reg_r with (bpow radix2 (j - 1 - mw F)); [exact P|]. rewrite <- Hm, IZR_pow2, <- bpow_plus by lia. replace (mw F + (j - 1 - mw F))%Z with (j - 1)%Z by lia. lra.
        - apply lt_IZR. apply Rmult_lt_reg_r with (bpow radix2 (j - 1 - mw F)); [exact P|]. rewrite <- Hm, IZR_pow2, <- bpow_plus by lia. replace (mw F + 1 + (j - 1 - mw F))%Z with j by lia. lra. }
      rewrite Rplus_comm, Hm. apply rnd_absorb; [exact HM|unfold emin; lia|]. rewrite Rabs_pos_eq by lra. change 1 with (bpow radix2 0). apply bpow_lt. lia. }
    destruct RT as [B RT]. rewrite R, Rlt_bool_true in RT by now apply val_lt_max. unfold U. rewrite R. tauto.
Qed.
(** relative error of the sum *)
Let t := (1 + X - U) / U.
Lemma l1t : 0 < U /\ / 2 * p <= U /\ Rabs t <= 102 / 100 * p /\ (1 + X) / U = 1 + t.
Proof.
  destruct l1u as (_ & _ & HU). pose proof l1p as P. pose proof l1tiny as T. pose proof l1low as L. pose proof (rndF_abs F (1 + X)) as R. fold p in R. rewrite <- HU in R. rewrite (Rabs_pos_eq (1 + X)) in R by lra.
  assert (R2 : Rabs (U - (1 + X)) <= 1001 / 1000 * p * (1 + X)). { assert (p * p * p * / 1000 <= / 1000 * p * (1 + X)); [|lra]. assert (p * p <= 1 * p) by (apply Rmult_le_compat_r; lra). assert (p * (p * p) <= p * (1 + X)) by (apply Rmult_le_compat_l; lra). lra. }
  apply Rabs_le_inv in R2. assert (Q : 1001 / 1000 * p * (1 + X) <= / 900000 * (1 + X)) by (apply Rmult_le_compat_r; lra).
  assert (U0 : 99 / 100 * (1 + X) <= U) by lra. assert (UP : 0 < U) by lra. split; [exact UP|]. split; [lra|]. split; [|unfold t; field; lra].
  assert (ET : t * U = 1 + X - U) by (unfold t; field; lra). apply Rabs_le. assert (U1 : 1001 / 1000 * p * (1 + X) <= 102 / 100 * p * U). { assert (p * (1 + X) <= p * (U / (99 / 100))) by (apply Rmult_le_compat_l; lra). assert (0 < p * U) by (apply Rmult_lt_0_compat; lra). lra. }
  split; apply Rmult_le_reg_r with U; try exact UP; rewrite ET; lra.
Qed.
(** from an exact difference to the correction *)
Lemma l1c a b : finite F a = true -> finite F b = true -> val F a - val F b = 1 + X - U -> U <= bpow radix2 (bias F) -> let c := fdiv F (fsub F a b) u in
  isbits F c /\ finite F c = true /\ Rabs (val F c - ln ((1 + X) / U)) <= 8 * (p * p).
Proof.
  intros Fa Fb E UB c. destruct l1u as (Bu & Fu & HU). destruct l1t as (U0 & UL & T & ET). pose proof l1p as P. pose proof l1tiny as TN. set (n := bpow radix2 (emin F - 1)) in *.
  assert (EE : 1 + X - U = t * U) by (unfold t; field; lra). rewrite EE in E.
  pose proof (fsub_spec F a b Fa Fb) as RT. rewrite E in RT.
  apply Rabs_le_inv in T.
  destruct (rounds_fin F _ _ _ RT) as [F0 V0]. { apply Rle_trans with (2 := UB). rewrite Rabs_mult, (Rabs_pos_eq U) by lra. assert (Rabs t <= 1) by (apply Rabs_le; lra). rewrite <- (Rmult_1_l U) at 2. apply Rmult_le_compat_r; lra. }
  set (c0 := fsub F a b) in *. pose proof (rndF_abs F (t * U)) as R0. fold p n in R0. rewrite <- V0 in R0. rewrite Rabs_mult, (Rabs_pos_eq U) in R0 by lra.
  assert (T2 : Rabs t <= 102 / 100 * p) by (apply Rabs_le; lra). pose proof (Rabs_pos t) as T0.
  set (q := val F c0 / U). assert (EQ : q - t = (val F c0 - t * U) / U) by (unfold q; field; lra).
  assert (NU : n / U <= / 100 * (p * p)). { apply Rmult_le_reg_r with U; [exact U0|]. replace (n / U * U) with n by (field; lra). assert (p * p * (/ 2 * p) <= p * p * U) by (apply Rmult_le_compat_l; nra). lra. }
  assert (Q1 : Rabs (q - t) <= 103 / 100 * (p * p)).
  { rewrite EQ. unfold Rdiv. rewrite Rabs_mult, (Rabs_pos_eq (/ U)) by (left; now apply Rinv_0_lt_compat). apply Rle_trans with ((p * (Rabs t * U) + n) * / U); [apply Rmult_le_compat_r; [left; now apply Rinv_0_lt_compat|exact R0]|].
    replace ((p * (Rabs t * U) + n) * / U) with (p * Rabs t + n / U) by (field; lra). nra. }
  assert (Q2 : Rabs q <= 103 / 100 * p). { replace q with ((q - t) + t) by ring. eapply Rle_trans; [apply Rabs_triang|]. nra. }
  pose proof (fdiv_spec F c0 u F0 Fu ltac:(fold U; lra)) as RD. fold U in RD. fold q in RD.
  destruct (rounds_fin F _ _ _ RD) as [Fc Vc]. { apply Rle_trans with (bpow radix2 0); [change (bpow radix2 0) with 1; lra|apply bpow_le; pose proof (bias_facts F); lia]. }
  change (fdiv F c0 u) with c in RD, Fc, Vc. split; [exact (proj1 RD)|]. split; [exact Fc|]. pose proof (rndF_abs F q) as R1. fold p n in R1. rewrite <- Vc in R1.
  rewrite ET. pose proof (ln1_b t ltac:(apply Rabs_le; lra)) as LN.
  assert (TT : t * t <= 105 / 100 * (p * p)). { replace (t * t) with (Rabs t * Rabs t) by (rewrite <- Rabs_mult; apply Rabs_pos_eq; nra). nra. }
  replace (val F c - ln (1 + t)) with ((val F c - q) + (q - t) - (ln (1 + t) - t)) by ring.
  assert (R3 : Rabs (val F c - q) <= 104 / 100 * (p * p)). { eapply Rle_trans; [exact R1|]. assert (n <= / 100 * (p * p)) by nra. nra. }
  apply Rabs_le_inv in R3. apply Rabs_le_inv in Q1. apply Rabs_le_inv in LN. apply Rabs_le. lra.
Qed.
Lemma l1d : Rabs (ln ((1 + X) / U)) <= 2 * p.
Proof.
  destruct l1t as (U0 & UL & T & ET). pose proof l1p as P. rewrite ET. apply Rabs_le_inv in T. pose proof (ln1_b t ltac:(apply Rabs_le; lra)) as LN. apply Rabs_le_inv in LN. assert (t * t <= / 100 * p) by nra. apply Rabs_le. lra.
Qed.
(** the two ways of computing the difference *)
Lemma l1bias : (127 <= bias F)%Z.
Proof. assert (2 ^ 7 <= 2 ^ (ew F - 1))%Z by (apply Z.pow_le_mono_r; lia). unfold bias. lia. Qed.
Lemma sub_repr a b : finite F a = true -> finite F b = true -> repr F (val F a - val F b) -> Rabs (val F a - val F b) <= bpow radix2 (bias F) -> finite F (fsub F a b) = true /\ val F (fsub F a b) = val F a - val F b.
Proof. intros Fa Fb R L. destruct (rounds_fin F _ _ _ (fsub_spec F a b Fa Fb) L) as [A B]. split; [exact A|]. rewrite B. now apply repr_rnd. Qed.
Lemma l1big : 1 <= X <= bpow radix2 60 -> let c := fdiv F (fsub F one (fsub F u x)) u in
  isbits F c /\ finite F c = true /\ Rabs (val F c - ln ((1 + X) / U)) <= 8 * (p * p).
Proof.
  intros H c. destruct l1u as (Bu & Fu & HU). destruct l1t as (U0 & UL & T & ET). pose proof l1p as P. pose proof l1bias as BB.
  pose proof (rnd_nearest F (1 + X) X (repr_val F x Fx)) as N. rewrite <- HU in N. replace (X - (1 + X)) with (-1) in N by ring. rewrite (Rabs_left (-1)) in N by lra. apply Rabs_le_inv in N.
  assert (N0 : X <> 0) by lra. destruct (mag radix2 X) as [j Hj]. specialize (Hj N0). rewrite Rabs_pos_eq in Hj by lra.
  assert (J : (0 < j)%Z) by (apply (lt_bpow radix2); change (bpow radix2 0) with 1; lra).
  destruct (repr_grid F X (j - 1) (repr_val F x Fx)) as [m Hm]. { intros _. rewrite Rabs_pos_eq; lra. }
  destruct (repr_grid F U (j - 1) (repr_val F u Fu)) as [n Hn]. { intros _. rewrite Rabs_pos_eq; lra. }
  assert (E : val F u - val F x = IZR (n - m) * bpow radix2 (j - 1 - mw F)) by (rewrite minus_IZR; fold U X; rewrite Hm, Hn; ring).
  assert (B60 : bpow radix2 60 + 2 <= bpow radix2 61). { change (bpow radix2 61) with (2 * bpow radix2 60). assert (bpow radix2 1 <= bpow radix2 60) by (apply bpow_le; lia). change (bpow radix2 1) with 2 in H0. lra. }
  assert (B61 : bpow radix2 61 <= bpow radix2 (bias F)) by (apply bpow_le; lia).
  assert (B0 : bpow radix2 1 <= bpow radix2 61) by (apply bpow_le; lia). change (bpow radix2 1) with 2 in B0.
  destruct (sub_repr u x Fu Fx) as [Fd Vd].
  - rewrite E. apply repr_int; [|unfold emin; lia]. apply le_IZR. apply Rmult_le_reg_r with (bpow radix2 (j - 1 - mw F)); [apply bpow_gt_0|]. rewrite abs_IZR. rewrite <- (Rabs_pos_eq (bpow radix2 (j - 1 - mw F))) at 1 by apply bpow_ge_0. rewrite <- Rabs_mult, <- E. fold U X.
    rewrite IZR_pow2, <- bpow_plus by lia. replace (mw F + 1 + (j - 1 - mw F))%Z with j by lia. apply Rle_trans with (bpow radix2 1); [change (bpow radix2 1) with 2; apply Rabs_le; lra|apply bpow_le; lia].
  - fold U X. apply Rle_trans with 2; [apply Rabs_le; lra|lra].
  - apply l1c; [exact F1|exact Fd|rewrite Vd, V1; fold U X; ring|lra].
Qed.
Lemma l1small : X <= 19 / 10 -> let c := fdiv F (fsub F x (fsub F u one)) u in
  isbits F c /\ finite F c = true /\ Rabs (val F c - ln ((1 + X) / U)) <= 8 * (p * p).
Proof.
  intros H c. destruct l1u as (Bu & Fu & HU). destruct l1t as (U0 & UL & T & ET). pose proof l1p as P. pose proof l1bias as BB.
  assert (PP : IZR (2 ^ mw F) * bpow radix2 (- mw F) = 1). { rewrite IZR_pow2 by lia. rewrite <- bpow_plus. replace (mw F + - mw F)%Z with 0%Z by lia. reflexivity. }
  assert (PQ : IZR (2 ^ (mw F + 1)) * bpow radix2 (-1 - mw F) = 1). { rewrite IZR_pow2 by lia. rewrite <- bpow_plus. replace (mw F + 1 + (-1 - mw F))%Z with 0%Z by lia. reflexivity. }
  assert (P2 : (2 ^ (mw F + 1) = 2 * 2 ^ mw F)%Z) by (rewrite Z.pow_add_r by lia; lia).
  assert (EU : (1 + t) * U = 1 + X) by (rewrite <- ET; field; lra). apply Rabs_le_inv in T.
  assert (UB : U <= 295 / 100) by nra.
  assert (UZ : U <= bpow radix2 (bias F)). { apply Rle_trans with (bpow radix2 2); [change (bpow radix2 2) with 4; lra|apply bpow_le; lia]. }
  assert (RE : repr F (U - 1)).
  { destruct (Rle_lt_dec X (-1 / 2)) as [C | C].
    - destruct (repr_grid F X (-1) (repr_val F x Fx)) as [m Hm]. { intros _. change (bpow radix2 (-1)) with (/ 2). rewrite Rabs_left1; lra. }
      pose proof (bpow_gt_0 radix2 (-1 - mw F)) as PG.
      assert (R : repr F (1 + X)). { replace (1 + X) with (IZR (2 ^ (mw F + 1) + m) * bpow radix2 (-1 - mw F)) by (rewrite plus_IZR, Hm; lra). apply repr_int; [|unfold emin; lia].
        apply Z.abs_le. split; apply le_IZR; apply Rmult_le_reg_r with (bpow radix2 (-1 - mw F)); try exact PG; rewrite ?opp_IZR, plus_IZR; lra. }
      rewrite HU, (repr_rnd F _ R). replace (1 + X - 1) with X by ring. apply repr_val, Fx.
    - assert (UH : / 2 <= U). { rewrite HU. apply Rle_trans with (rnd F (/ 2)); [|unfold rnd; apply round_le; [typeclasses eauto..|lra]]. right. symmetry. apply repr_rnd. replace (/ 2) with (IZR 1 * bpow radix2 (-1)) by (change (bpow radix2 (-1)) with (/ 2); lra). apply repr_int; [|unfold emin; lia]. assert (0 < 2 ^ mw F)%Z by (apply Z.pow_pos_nonneg; lia). lia. }
      destruct (Rle_lt_dec 1 U) as [D | D].
      + destruct (repr_grid F U 0 (repr_val F u Fu)) as [m Hm]. { intros _. rewrite Rabs_pos_eq by lra. exact D. }
        replace (0 - mw F)%Z with (- mw F)%Z in Hm by lia. pose proof (bpow_gt_0 radix2 (- mw F)) as PG.
        replace (U - 1) with (IZR (m - 2 ^ mw F) * bpow radix2 (- mw F)) by (rewrite minus_IZR; lra). apply repr_int; [|unfold emin; lia].
        rewrite P2. apply Z.abs_le. split; apply le_IZR; apply Rmult_le_reg_r with (bpow radix2 (- mw F)); try exact PG; rewrite ?opp_IZR, mult_IZR, minus_IZR; lra.
      + destruct (repr_grid F U (-1) (repr_val F u Fu)) as [m Hm]. { intros _. rewrite Rabs_pos_eq by lra. exact UH. }
        pose proof (bpow_gt_0 radix2 (-1 - mw F)) as PG.
        replace (U - 1) with (IZR (m - 2 ^ (mw F + 1)) * bpow radix2 (-1 - mw F)) by (rewrite minus_IZR; lra). apply repr_int; [|unfold emin; lia].
        apply Z.abs_le. split; apply le_IZR; apply Rmult_le_reg_r with (bpow radix2 (-1 - mw F)); try exact PG; rewrite ?opp_IZR, minus_IZR; lra. }
  destruct (sub_repr u one Fu F1) as [Fd Vd].
  - rewrite V1. exact RE.
  - rewrite V1. fold U. apply Rle_trans with (bpow radix2 2); [change (bpow radix2 2) with 4; apply Rabs_le; lra|apply bpow_le; lia].
  - apply l1c; [exact Fx|exact Fd|rewrite Vd, V1; fold U X; ring|exact UZ].
Qed.
End C.
