(** The inverse hyperbolic functions: relative error of each branch, for any format. *)
From Coq Require Import ZArith Reals Lia Lra Bool List Psatz.
From Flocq Require Import Core.
From Verif Require Import Base Spec SpecFun2 SpecFun3 SpecLog SpecLog1p SpecLog2 SpecHyp Format P_format Ieee P_ieee P_real P_neg P_lit P_err P_scalbn P_apx P_lga1 P_expa9 P_hy1 P_hy2.
Open Scope R_scope.
Local Opaque fadd fsub fmul fdiv of_int.

(** * Real identities *)
Lemma ath_half t : 0 <= t -> t * t <= / 100 -> Rabs (ath t / 2 - t) <= 11 / 10 * (t * t) * t.
Proof.
  intros H H1. assert (T : t < 1) by nra. pose proof (ath_pos t 0 (conj H T)) as Q. cbn [ts pow] in Q. rewrite Rmult_1_r in Q.
  replace (ath t / 2 - t) with ((ath t - 2 * t) * / 2) by lra. rewrite Rabs_mult, (Rabs_pos_eq (/ 2)) by lra. assert (I : / (1 - t * t) <= 11 / 10) by (replace (11 / 10) with (/ (10 / 11)) by lra; apply Rinv_le; lra).
  assert (0 < / (1 - t * t)) by (apply Rinv_0_lt_compat; lra). assert (0 <= t * t) by nra. assert (0 <= t * (t * t)) by (apply Rmult_le_pos; lra). unfold Rdiv in Q. assert (t * (t * t) * / (1 - t * t) <= t * (t * t) * (11 / 10)) by (apply Rmult_le_compat_l; lra). lra.
Qed.
Lemma Ratanh_ath x : -1 < x < 1 -> Ratanh x = ath x / 2.
Proof. intros H. unfold Ratanh, ath. f_equal. unfold Rdiv. rewrite ln_mult; [|lra|apply Rinv_0_lt_compat; lra]. rewrite ln_Rinv by lra. ring. Qed.
Lemma Ratanh_opp x : -1 < x < 1 -> Ratanh (- x) = - Ratanh x.
Proof. intros H. rewrite !Ratanh_ath by lra. unfold ath. replace (1 - - x) with (1 + x) by ring. change (1 + - x) with (1 - x). lra. Qed.
Lemma S1_facts X : let S := sqrt (X * X + 1) in 1 <= S /\ S * S = X * X + 1 /\ Rabs X < S.
Proof.
  intros S. assert (0 <= X * X) by nra. assert (E : S * S = X * X + 1) by (apply sqrt_sqrt; lra). pose proof (sqrt_pos (X * X + 1)) as P. fold S in P. split; [nra|]. split; [exact E|]. destruct (Rlt_le_dec (Rabs X) S) as [C | C]; [exact C|]. exfalso. pose proof (Rabs_pos X). assert (Rabs X * Rabs X = X * X) by (rewrite <- Rabs_mult; apply Rabs_pos_eq; lra). nra.
Qed.
Lemma Rasinh_opp x : Rasinh (- x) = - Rasinh x.
Proof.
  unfold Rasinh. replace (- x * - x) with (x * x) by ring. destruct (S1_facts x) as (A & B & C). set (S := sqrt (x * x + 1)) in *. apply Rabs_lt_inv in C. rewrite <- (ln_Rinv (x + S)) by lra. f_equal. apply Rmult_eq_reg_r with (x + S); [|lra]. rewrite Rinv_l by lra. nra.
Qed.
Lemma Rasinh_ath x : 0 <= x -> Rasinh x = ath (x / sqrt (x * x + 1)) / 2.
Proof.
  intros H. unfold Rasinh, ath. destruct (S1_facts x) as (A & B & C). set (S := sqrt (x * x + 1)) in *. apply Rabs_lt_inv in C.
  replace (1 + x / S) with ((S + x) / S) by (field; lra). replace (1 - x / S) with ((S - x) / S) by (field; lra). unfold Rdiv. rewrite !ln_mult; try lra; try (apply Rinv_0_lt_compat; lra).
  assert (E : S - x = / (x + S)). { apply Rmult_eq_reg_r with (x + S); [|lra]. rewrite Rinv_l by lra. nra. } rewrite E, (ln_Rinv (x + S)) by lra. rewrite (Rplus_comm S x). lra.
Qed.
Lemma Rasinh_tiny x d : 0 <= x -> x * x <= d -> d <= / 1000 -> Rabs (x - Rasinh x) <= 5 / 4 * 2 * d * Rasinh x.
Proof.
  intros H H1 H2. rewrite Rasinh_ath by exact H. destruct (S1_facts x) as (A & B & _). set (S := sqrt (x * x + 1)) in *. assert (0 <= x * x) by nra. assert (SU : S <= 1 + x * x / 2) by nra.
  set (t := x / S). assert (ET : x = t * S) by (unfold t; field; lra). assert (T0 : 0 <= t) by (unfold t; apply Rmult_le_pos; [exact H|left; apply Rinv_0_lt_compat; lra]). assert (TX : t <= x) by nra. assert (TT : t * t <= x * x) by nra.
  pose proof (ath_half t T0 ltac:(lra)) as Q. assert (Q1 : 11 / 10 * (t * t) * t <= 11 / 10 * d * t) by (apply Rmult_le_compat_r; lra). assert (Q2 : Rabs (t - x) <= d / 2 * t). { rewrite Rabs_left1 by lra. assert (x <= t * (1 + x * x / 2)) by nra. assert (t * (x * x) <= t * d) by (apply Rmult_le_compat_l; lra). lra. }
  set (L := ath t / 2) in *. apply Rabs_le_inv in Q. apply Rabs_le_inv in Q2. assert (D0 : 0 <= d * t) by (apply Rmult_le_pos; lra). assert (D1 : d * t <= / 1000 * t) by (apply Rmult_le_compat_r; lra). assert (LT : t * (99 / 100) <= L) by lra. assert (d * (t * (99 / 100)) <= d * L) by (apply Rmult_le_compat_l; lra). apply Rabs_le. lra.
Qed.
Lemma Ratanh_tiny x d : 0 <= x -> x * x <= d -> d <= / 1000 -> Rabs (x - Ratanh x) <= 5 / 4 * d * Ratanh x.
Proof.
  intros H H1 H2. assert (x < 1) by nra. rewrite Ratanh_ath by lra. pose proof (ath_half x H ltac:(lra)) as Q. assert (0 <= x * x) by nra. assert (Q1 : 11 / 10 * (x * x) * x <= 11 / 10 * d * x) by (apply Rmult_le_compat_r; lra).
  set (L := ath x / 2) in *. apply Rabs_le_inv in Q. assert (D0 : 0 <= d * x) by (apply Rmult_le_pos; lra). assert (D1 : d * x <= / 1000 * x) by (apply Rmult_le_compat_r; lra). assert (LT : x * (99 / 100) <= L) by lra. assert (d * (x * (99 / 100)) <= d * L) by (apply Rmult_le_compat_l; lra). apply Rabs_le. lra.
Qed.
Lemma ln1_lo W : 0 < W -> W / (1 + W) <= ln (1 + W) <= W.
Proof.
  intros H. pose proof (lnq 1 (1 + W) ltac:(lra) ltac:(lra)) as A. pose proof (lnq (1 + W) 1 ltac:(lra) ltac:(lra)) as B. rewrite ln_1 in A, B. replace ((1 - (1 + W)) / (1 + W)) with (- (W / (1 + W))) in A by (field; lra). lra.
Qed.
Lemma inr_lit a : / 1208925819614629174706176 <= a <= 1208925819614629174706176 -> inr a.
Proof. intros H. exact H. Qed.
Lemma inr_ln1 W : bpow radix2 (-70) <= W <= bpow radix2 70 -> inr (ln (1 + W)).
Proof.
  intros [A B]. pose proof (bpow_gt_0 radix2 (-70)) as P. pose proof (ln1_lo W ltac:(lra)) as [L U]. split.
  - eapply Rle_trans; [|exact L]. apply Rmult_le_reg_r with (1 + W); [lra|]. unfold Rdiv. rewrite Rmult_assoc, Rinv_l, Rmult_1_r by lra. change (bpow radix2 (-70)) with (/ 1180591620717411303424) in *. change (bpow radix2 70) with 1180591620717411303424 in *. change (bpow radix2 (-80)) with (/ 1208925819614629174706176). lra.
  - eapply Rle_trans; [exact U|]. eapply Rle_trans; [exact B|]. apply bpow_le. lia.
Qed.
